(* Launching again, the threads of the shipped launch files, the cameras. *)
From Coq Require Import ZArith QArith List Bool String Lia Reals Lra Qreals.
From Verif Require Import Base CfgModel WrSpec MsnData MsnModel MsnSpec MsnProofs.
From Verif Require Import Interp Geo EgModel EgProofs.
From Verif Require BfModel BfSpec BfProofs BfExamples PlSpec BeModel FoModel FoProofs.
Import ListNotations.
Open Scope string_scope.
Open Scope list_scope.

(* ---- threads ---- *)
Theorem platform_threads pl m sv c : In pl platforms -> In m (pl_missions pl) ->
  BeModel.c_pool c = Z.to_nat (p_int (sv_flat (launch pl m default_threads sv)) "threads" 4) -> (PlSpec.sleepers c < BeModel.c_pool c)%nat.
Proof.
  intros _ _ ->. replace (p_int (sv_flat (launch pl m default_threads sv)) "threads" 4) with 8%Z.
  - unfold PlSpec.sleepers. destruct (BeModel.c_stereo c); cbn; lia.
  - unfold p_int. destruct (launch_overlaid pl m default_threads sv) as [_ V]. rewrite (V (m ++ pl_files pl) "threads" (VInt default_threads) []); [reflexivity | rewrite app_assoc; reflexivity | exact (fun x => x)].
Qed.

(* ---- launching again ---- *)
Definition relaunched (pl : platform) (h : list (list (string * pval) * Z)) (sv : server) : server := fold_left (fun sv x => launch pl (fst x) (snd x) sv) h sv.
Lemma set_all_agrees kvs P P' k : In k (map fst kvs) \/ P k = P' k -> set_all kvs P k = set_all kvs P' k.
Proof.
  revert P P'. induction kvs as [|[k' v] r IH]; intros P P' H; [destruct H as [[]|H]; exact H|]. change (set_all r (store P k' v) k = set_all r (store P' k' v) k). apply IH.
  destruct (in_dec string_dec k (map fst r)) as [I|I]; [left; exact I|]. right. unfold store. destruct (String.eqb_spec k' k) as [|N]; [reflexivity|].
  destruct H as [[E|H]|H]; [cbn in E; contradiction | contradiction | exact H].
Qed.
Theorem launch_again pl m n h sv :
  (forall m' n', In (m', n') h -> In m' (pl_missions pl) /\ forall k, In k (map fst m') -> In k (map fst m)) ->
  forall k, sv_flat (launch pl m n (relaunched pl h sv)) k = sv_flat (launch pl m n sv) k.
Proof.
  revert sv. induction h as [|[m' n'] h IH]; intros sv H k; [reflexivity|]. cbn [relaunched fold_left fst snd]. change (fold_left _ h ?x) with (relaunched pl h x).
  rewrite IH by (intros; apply H with n'0; right; assumption). destruct (H m' n' (or_introl eq_refl)) as [_ I]. unfold launch at 1 3. cbn [sv_flat]. apply set_all_agrees.
  destruct (in_dec string_dec k (map fst (m ++ pl_files pl ++ [("threads", VInt n)]))) as [J|J]; [left; exact J|]. right. unfold launch. cbn [sv_flat]. apply set_all_other.
  intros J'. apply J. rewrite !map_app, !in_app_iff in *. cbn [map fst In] in *. specialize (I k). tauto.
Qed.
Lemma launch_again_frames pl m n h sv : In pl platforms -> used pl sv -> (forall m' n', In (m', n') h -> In m' (pl_missions pl)) ->
  sv_frames (launch pl m n (relaunched pl h sv)) = sv_frames (launch pl m n sv).
Proof.
  intros Hp U H. rewrite (used_frames pl sv Hp U). apply used_frames; [exact Hp|]. revert sv U. induction h as [|[m' n'] h IH]; intros sv U; [exact U|].
  cbn [relaunched fold_left fst snd]. apply IH; [intros; apply H with n'0; right; assumption|]. constructor; [exact U | exact (H m' n' (or_introl eq_refl))].
Qed.
Definition all_keys (pl : platform) (m : list (string * pval)) : bool := forallb (fun m' => forallb (fun kv => existsb (String.eqb (fst kv)) (map fst m)) m') (pl_missions pl).
Lemma all_keys_spec pl m m' k : all_keys pl m = true -> In m' (pl_missions pl) -> In k (map fst m') -> In k (map fst m).
Proof.
  unfold all_keys. rewrite forallb_forall. intros H Hm Hk. apply in_map_iff in Hk. destruct Hk as (kv & <- & Hk). specialize (H m' Hm). rewrite forallb_forall in H.
  specialize (H kv Hk). apply existsb_exists in H. destruct H as (x & Hx & E). apply String.eqb_eq in E. rewrite E. exact Hx.
Qed.
(* whatever was launched before on this platform: snowboard, ue4, and the missions of the simulator that give a velocity *)
Theorem platform_again pl m n h sv :
  (In pl [snowboard; ue4] /\ In m (pl_missions pl) \/ pl = simulator /\ In m [simulator_surface_ellipse_1; simulator_surface_ellipse_2]) ->
  used pl sv -> (forall m' n', In (m', n') h -> In m' (pl_missions pl)) ->
  (forall k, sv_flat (launch pl m n (relaunched pl h sv)) k = sv_flat (launch pl m n sv) k) /\
  sv_frames (launch pl m n (relaunched pl h sv)) = sv_frames (launch pl m n sv).
Proof.
  intros Hp U H. assert (A : all_keys pl m = true /\ In pl platforms).
  { destruct Hp as [[[<-|[<-|[]]] Hm] | [-> Hm]]; cbn [pl_missions snowboard ue4 In] in Hm; intuition subst m; try reflexivity; cbn; tauto. }
  destruct A as [A I]. split.
  - apply launch_again. intros m' n' J. split; [exact (H _ _ J)|]. intros k. apply (all_keys_spec pl); [exact A | exact (H _ _ J)].
  - apply launch_again_frames; assumption.
Qed.
(* the other missions of the simulator keep the velocity of an earlier one *)
Definition empty : server := mkServer (fun _ => None) BfModel.XInvalid.
Lemma velocity_of look b map_frame P time m msg : FoModel.first_state look b map_frame P time m = Ok msg ->
  t_lin (snd msg) = (FoModel.real_param P "velocity/linear/x" 0, FoModel.real_param P "velocity/linear/y" 0, FoModel.real_param P "velocity/linear/z" 0).
Proof.
  unfold FoModel.first_state. destruct (FoModel.body_frame_orientation _ _ _ _) as [q| |]; cbn [rbind]; try discriminate.
  destruct (BfModel.body_frame_id b) as [child| |]; cbn [rbind]; try discriminate. intros [= <-]. reflexivity.
Qed.
(* a first state is sent, for instance by an imu that gives no orientation *)
Lemma first_sent look b map_frame P time m id : i_ori m = (0, 0, 0, 0)%R -> BfModel.body_frame_id b = Ok id -> exists msg, FoModel.first_state look b map_frame P time m = Ok msg.
Proof. intros E I. unfold FoModel.first_state. rewrite E, FoProofs.first_orientation_none, I. cbn [rbind]. eexists. reflexivity. Qed.
Theorem velocity_refuted : exists m0 m n,
  In m0 (pl_missions simulator) /\ In m (pl_missions simulator) /\
  (forall look, exists b, BfModel.load look (sv_frames (launch simulator m n (launch simulator m0 n empty))) = Ok b /\
     forall map_frame time imu, i_ori imu = (0, 0, 0, 0)%R -> exists msg, FoModel.first_state look b map_frame (sv_flat (launch simulator m n (launch simulator m0 n empty))) time imu = Ok msg) /\
  forall look b map_frame time imu,
    (forall msg, FoModel.first_state look b map_frame (sv_flat (launch simulator m n empty)) time imu = Ok msg -> t_lin (snd msg) = v0) /\
    (forall msg, FoModel.first_state look b map_frame (sv_flat (launch simulator m n (launch simulator m0 n empty))) time imu = Ok msg ->
       exists v, t_lin (snd msg) = (0, v, 0)%R /\ (3 / 2 < v)%R).
Proof.
  exists simulator_surface_ellipse_1, simulator_surface_stationary_1, default_threads. split; [cbn; tauto|]. split; [cbn; tauto|]. split.
  { intros look. destruct (simulator_framed look) as (b & L & _ & [id I] & _). exists b. split.
    - rewrite (used_frames simulator); [exact L | cbn; tauto|]. apply Again; [apply Fresh; reflexivity | cbn; tauto].
    - intros mf time imu E. apply (first_sent _ _ _ _ _ _ id E). replace (BfModel.body_frame_id b) with (BfModel.frame_id b "base_link"); [exact I|]. unfold BfModel.body_frame_id. f_equal.
      revert L. cbv -[R0 R1 Rplus Rmult Ropp Rinv Rdiv Rlt_dec sqrt IZR IPR IPR_2 INR BfModel.qnormalise Geo.to_transform Geo.imul Geo.iinv Geo.iid]. intros [= <-]. reflexivity. }
  intros look b mf time imu. split; intros msg H; rewrite (velocity_of _ _ _ _ _ _ _ H).
  - unfold FoModel.real_param, v0, p_num. vm_compute (sv_flat _ _). unfold Q2R. cbn [Qnum Qden]. rewrite Rmult_0_l. reflexivity.
  - exists (FoModel.real_param (sv_flat (launch simulator simulator_surface_stationary_1 default_threads (launch simulator simulator_surface_ellipse_1 default_threads empty))) "velocity/linear/y" 0).
    split.
    + unfold FoModel.real_param at 1 3, p_num. vm_compute (sv_flat _ "velocity/linear/x"). vm_compute (sv_flat _ "velocity/linear/z"). unfold Q2R. cbn [Qnum Qden]. rewrite Rmult_0_l. reflexivity.
    + unfold FoModel.real_param, p_num. vm_compute (sv_flat _ _). unfold Q2R. cbn [Qnum Qden]. lra.
Qed.

(* ---- frames left by another platform ---- *)
Ltac numbers := cbv -[R0 R1 Rplus Rmult Ropp Rinv Rdiv Rlt_dec sqrt IZR IPR IPR_2 INR BfModel.qnormalise Geo.to_transform Geo.imul Geo.iinv Geo.iid Geo.rigid qunit mI v0 lin tr BfSpec.turns].
Lemma unit_normal w x y z : (0 < x * x + y * y + z * z + w * w)%R -> qunit (BfModel.qnormalise (w, x, y, z)).
Proof.
  intros H. unfold BfModel.qnormalise. destruct (Rlt_dec _ _) as [_|N]; [|contradiction].
  unfold qunit, qdot. set (n2 := (x * x + y * y + z * z + w * w)%R) in *. assert (S : (sqrt n2 * sqrt n2 = n2)%R) by (apply sqrt_sqrt; lra). assert (Z : sqrt n2 <> 0%R) by (intros E; rewrite E in S; lra).
  set (s := sqrt n2) in *. clearbody s. transitivity (n2 / (s * s))%R; [unfold n2; field; exact Z | rewrite S; field; lra].
Qed.
Lemma normal_I : BfModel.qnormalise qI = qI.
Proof.
  unfold BfModel.qnormalise, qI. destruct (Rlt_dec _ _) as [_|N]; [|exfalso; apply N; lra].
  replace (0 * 0 + 0 * 0 + 0 * 0 + 1 * 1)%R with 1%R by ring. rewrite sqrt_1. repeat apply f_equal2; field.
Qed.
Lemma shift_I t : to_transform t (BfModel.qnormalise qI) = mkIso mI t.
Proof. rewrite normal_I. unfold to_transform. rewrite qmat_I. reflexivity. Qed.
Lemma pair_offset S a b : rigid S -> imul (iinv (imul S (mkIso mI a))) (imul S (mkIso mI b)) = mkIso mI (vadd b (vopp a)).
Proof.
  intros HS. assert (HL : rigid (mkIso mI a)) by exact orth_I. rewrite iinv_mul by assumption. rewrite <- imul_assoc, (imul_assoc (iinv S) S), imul_inv_l by exact HS. rewrite imul_id_l.
  unfold imul, iinv. cbn [lin tr]. f_equal; destruct a as [[? ?] ?], b as [[? ?] ?]; unfold mI, mmul, mT, mapply, vadd, vopp, vdot; repeat apply f_equal2; ring.
Qed.
Section Cameras.
Variable look : string -> string -> Z -> res iso.
(* the camera named as the left one, and the right one: the second is at the given distance along the row of pixels, and turned the same way *)
Definition right_of (P : params) (b : BfModel.frames) (right : string) (baseline : R) : Prop :=
  BfModel.frame_to_frame look b (p_str P "stereo_factors/left_cam_frame" "stereo") right 0 = Ok (mkIso mI (baseline, 0, 0)%R).
Lemma rigid_normal t w x y z : (0 < x * x + y * y + z * z + w * w)%R -> rigid (to_transform t (BfModel.qnormalise (w, x, y, z))).
Proof. intros H. apply rigid_to_transform, unit_normal. exact H. Qed.
Lemma same_place a b c a' : (a' = a)%R -> mkIso mI (a, b, c) = mkIso mI (a', b, c). Proof. intros ->. reflexivity. Qed.
Ltac named := unfold launch; cbn [sv_flat]; rewrite set_all_app; vm_compute; reflexivity.
Ltac tuple := unfold v0; repeat match goal with |- (_, _) = (_, _) => apply f_equal2 end; lra.
Ltac place := unfold vadd, vopp; apply f_equal; repeat apply f_equal2; lra.
Ltac offset := numbers; change (1, 0, 0, 0)%R with qI; rewrite !shift_I; f_equal; rewrite ?imul_id_l.
Ltac pair := offset; rewrite pair_offset by (apply rigid_normal; lra); place.
Ltac child := offset; rewrite imul_assoc, imul_inv_l by (apply rigid_normal; lra); rewrite imul_id_l; place.
Theorem snowboard_left_camera m n sv : In m (pl_missions snowboard) -> used snowboard sv ->
  exists b, BfModel.load look (sv_frames (launch snowboard m n sv)) = Ok b /\ right_of (sv_flat (launch snowboard m n sv)) b "left_stereo_right_cam" (11 / 200).
Proof.
  intros Hm U. rewrite (used_frames snowboard sv) by (cbn; tauto || exact U). unfold right_of. replace (p_str _ _ _) with "left_stereo_left_cam" by named.
  numbers. eexists. split; [reflexivity|]. pair.
Qed.
Theorem simulator_left_camera m n sv : In m (pl_missions simulator) -> used simulator sv ->
  exists b, BfModel.load look (sv_frames (launch simulator m n sv)) = Ok b /\ right_of (sv_flat (launch simulator m n sv)) b "camera_front_right" (1 / 10).
Proof.
  intros Hm U. rewrite (used_frames simulator sv) by (cbn; tauto || exact U). unfold right_of. replace (p_str _ _ _) with "camera_front_left" by named.
  numbers. eexists. split; [reflexivity|]. child.
Qed.
(* ue4: the frame named as the left camera is half way between the two *)
Theorem ue4_left_camera_refuted m n sv : In m (pl_missions ue4) -> used ue4 sv ->
  exists b, BfModel.load look (sv_frames (launch ue4 m n sv)) = Ok b /\
    BfModel.frame_to_frame look b "left_cam" "right_cam" 0 = Ok (mkIso mI (1 / 10, 0, 0)%R) /\
    right_of (sv_flat (launch ue4 m n sv)) b "right_cam" (1 / 20) /\ right_of (sv_flat (launch ue4 m n sv)) b "left_cam" (- (1 / 20)).
Proof.
  intros Hm U. rewrite (used_frames ue4 sv) by (cbn; tauto || exact U). unfold right_of. replace (p_str _ _ _) with "camera" by named.
  numbers. eexists. split; [reflexivity|]. split; [pair|]. split; child.
Qed.
(* where the lidar and the imu are, read off the files: position, and a multiple of the quaternion *)
Definition filed : list (platform * string * vec3 * quat) := [
  (snowboard, "imu", (0, 0, 0), (0, 0, 1, 0));
  (snowboard, "lidar", (6 / 10, 4 / 100, 0), (9981348 / 10000000, 0, - 610485 / 10000000, 0));
  (ue4, "imu", (0, 0, 0), (1, 0, 0, 0));
  (ue4, "lidar", (0, 0, 0), (0, 1, 0, 0));
  (simulator, "imu", (0, 0, 0), (1, 0, 0, 0));
  (simulator, "lidar", (3 / 10, 0, - 6 / 100), (1, 0, 0, 0))]%R.
Theorem frames_as_filed pl f t q m n sv : In (pl, f, t, q) filed -> used pl sv ->
  exists b T, BfModel.load look (sv_frames (launch pl m n sv)) = Ok b /\ BfModel.body_to_frame look b f 0 = Ok T /\ tr T = t /\ BfSpec.turns q (lin T).
Proof.
  intros Hf U. assert (Hp : In pl platforms) by (clear -Hf; cbn in Hf |- *; intuition congruence). rewrite (used_frames pl sv Hp U). clear U.
  cbn [filed In] in Hf. repeat (destruct Hf as [[= <- <- <- <-]|Hf]); try contradiction;
    numbers; (eexists _, _; split; [reflexivity|]; split; [numbers; reflexivity|]; rewrite imul_id_l; split; [cbn [to_transform tr]; tuple|];
      match goal with |- BfSpec.turns ?q (lin (to_transform _ (BfModel.qnormalise ?p))) => replace q with p by tuple; apply BfProofs.normalise_turns end).
Qed.
Theorem frames_refuted : exists n sv, sv = launch snowboard snowboard_ice_rink n empty /\
  (exists b, BfModel.load look (sv_frames (launch simulator simulator_surface_ellipse_1 n empty)) = Ok b /\ BfModel.body_to_frame look b "imu" 0 = Ok iid) /\
  (exists b T, BfModel.load look (sv_frames (launch simulator simulator_surface_ellipse_1 n sv)) = Ok b /\ BfModel.body_to_frame look b "imu" 0 = Ok T /\
     forall x y z, iapp T (x, y, z) = (- x, y, - z)%R).
Proof.
  exists default_threads. eexists. split; [reflexivity|]. split.
  - numbers. eexists. split; [reflexivity|]. numbers. change (1, 0, 0, 0)%R with qI. rewrite shift_I, imul_id_l. reflexivity.
  - numbers. eexists _, _. split; [reflexivity|]. split; [numbers; reflexivity|]. intros x y z. rewrite imul_id_l.
    assert (E : BfModel.qnormalise (0, 0, 1, 0) = (0, 0, 1, 0)%R).
    { unfold BfModel.qnormalise. destruct (Rlt_dec _ _) as [_|N]; [|exfalso; apply N; lra]. replace (0 * 0 + 1 * 1 + 0 * 0 + 0 * 0)%R with 1%R by ring. rewrite sqrt_1. repeat apply f_equal2; field. }
    rewrite E. unfold iapp, to_transform, qmat, mapply, vadd, vdot. cbn [lin tr]. repeat apply f_equal2; ring.
Qed.
End Cameras.
