(* Reports of the evaluation scripts. *)
From Coq Require Import Reals List ZArith Lra Lia Bool.
From Verif Require RoExamples.
From Verif Require Import Base Interp Geo EgModel EgProofs MsModel RoModel RoSpec RcModel RoProofs BfModel EvModel EvSpec EvProofs EvPose EvMove EvInter EvAlign EvSelf EvTrack EvData EvDataSpec.
Import ListNotations.
Open Scope R_scope.

(* ---- lists ---- *)
Lemma filter_map {A B} (h : A -> B) (p : B -> bool) l : filter p (map h l) = map h (filter (fun a => p (h a)) l).
Proof. induction l as [|a l IH]; [reflexivity|]. cbn [map filter]. destruct (p (h a)); cbn [map]; rewrite IH; reflexivity. Qed.
Lemma map_res_total {A B} (f : A -> res B) : forall l, (exists bs, map_res f l = Ok bs) <-> forall a, In a l -> exists b, f a = Ok b.
Proof.
  induction l as [|a l IH]; [split; [intros _ a []|intros _; exists []; reflexivity]|]. cbn [map_res]. split.
  - intros (bs & H) x [<-|Hx]; destruct (f a) as [b| |]; cbn [rbind] in H; try discriminate; [exists b; reflexivity|]. destruct (map_res f l) as [c| |] eqn:E; cbn [rbind] in H; try discriminate. apply IH; [exists c; reflexivity|exact Hx].
  - intros H. destruct (H a (or_introl eq_refl)) as [b Hb]. destruct (proj2 IH (fun x Hx => H x (or_intror Hx))) as [bs Hbs]. rewrite Hb, Hbs. cbn. eexists. reflexivity.
Qed.
Lemma map_res_nth {A B} (f : A -> res B) : forall l bs, map_res f l = Ok bs -> length bs = length l /\ forall i a, nth_error l i = Some a -> exists b, nth_error bs i = Some b /\ f a = Ok b.
Proof.
  induction l as [|a l IH]; intros bs H; cbn [map_res] in H; [injection H as <-; split; [reflexivity|intros [|i] a E; discriminate]|]. destruct (f a) as [b| |] eqn:Eb; cbn [rbind] in H; try discriminate. destruct (map_res f l) as [c| |] eqn:E; cbn [rbind] in H; try discriminate. injection H as <-. destruct (IH c eq_refl) as [L N]. split; [cbn; rewrite L; reflexivity|]. intros [|i] x Hx; cbn in Hx; [injection Hx as <-; exists b; split; [reflexivity|exact Eb]|apply N; exact Hx].
Qed.
Lemma map_res_defined {A B} (f : A -> res B) : forall l, (forall a, f a <> UB) -> map_res f l <> UB.
Proof. intros l H. induction l as [|a l IH]; [discriminate|]. cbn [map_res]. pose proof (H a). destruct (f a); cbn [rbind]; try congruence. destruct (map_res f l); cbn [rbind]; congruence. Qed.
Lemma map_res_ext {A B} (f g : A -> res B) : forall l, (forall a, In a l -> f a = g a) -> map_res f l = map_res g l.
Proof. induction l as [|a l IH]; intros H; [reflexivity|]. cbn [map_res]. rewrite (H a (or_introl eq_refl)), IH by (intros x Hx; apply H; right; exact Hx). reflexivity. Qed.
Lemma stamped_map {A B} (f : odom -> A) (g : A -> B) l : map (fun e => (fst e, g (snd e))) (stamped f l) = stamped (fun m => g (f m)) l.
Proof. unfold stamped. rewrite map_map. reflexivity. Qed.
Lemma stamped_in {A} (f : odom -> A) l e : In e (stamped f l) <-> exists m, In m l /\ e = (stamp_of m, f m).
Proof. unfold stamped. rewrite in_map_iff. split; intros (m & H1 & H2); exists m; [split; [exact H2|symmetry; exact H1]|split; [symmetry; exact H2|exact H1]]. Qed.
Lemma stamped_order {A B} (f : odom -> A) (g : odom -> B) l : in_order (stamped f l) -> in_order (stamped g l).
Proof.
  intros O i j a b Ha Hb L. unfold stamped in *. rewrite nth_error_map in Ha, Hb. destruct (nth_error l i) as [x|] eqn:Ex; cbn in Ha; [|discriminate]. destruct (nth_error l j) as [y|] eqn:Ey; cbn in Hb; [|discriminate]. injection Ha as <-. injection Hb as <-.
  apply (O i j (stamp_of x, f x) (stamp_of y, f y)); [rewrite nth_error_map, Ex; reflexivity|rewrite nth_error_map, Ey; reflexivity|exact L].
Qed.
Lemma stamped_covered {A B} (f : odom -> A) (g : odom -> B) l t : covered (stamped f l) t -> covered (stamped g l) t.
Proof. intros (a & b & Ha & Hb & H). apply stamped_in in Ha. apply stamped_in in Hb. destruct Ha as (x & Hx & ->), Hb as (y & Hy & ->). exists (stamp_of x, g x), (stamp_of y, g y). split; [apply stamped_in; exists x; split; [exact Hx|reflexivity]|]. split; [apply stamped_in; exists y; split; [exact Hy|reflexivity]|exact H]. Qed.
Lemma part_in {A} (P : A -> Prop) l k a : part_of P l k -> In a k <-> In a l /\ P a.
Proof. intros (f & Hf & ->). rewrite filter_In. split; intros [H1 H2]; (split; [exact H1|]); apply (Hf a H1); exact H2. Qed.
Lemma part_unique {A} (P : A -> Prop) l k k' : part_of P l k -> part_of P l k' -> k = k'.
Proof. intros (f & Hf & ->) (g & Hg & ->). apply filter_ext_in. intros a Ha. pose proof (Hf a Ha) as F. pose proof (Hg a Ha) as G. destruct (f a), (g a); try reflexivity; intuition congruence. Qed.
Lemma part_none {A} (P : A -> Prop) l k : part_of P l k -> k = [] <-> forall a, In a l -> ~ P a.
Proof. intros H. split; [intros -> a Ha Pa; apply (proj2 (part_in P l [] a H) (conj Ha Pa))|]. intros N. destruct k as [|a k]; [reflexivity|]. exfalso. destruct (proj1 (part_in P l (a :: k) a H) (or_introl eq_refl)) as [H1 H2]. apply (N a H1 H2). Qed.
Lemma part_ext {A} (P Q : A -> Prop) l k : (forall a, In a l -> P a <-> Q a) -> part_of P l k -> part_of Q l k.
Proof. intros E (f & Hf & ->). exists f. split; [|reflexivity]. intros a Ha. rewrite <- (E a Ha). apply Hf. exact Ha. Qed.

(* ---- selection ---- *)
Lemma wanted_any {A B} (f : odom -> A) (g : odom -> B) b l t : wanted b (stamped f l) t -> wanted b (stamped g l) t.
Proof. destruct b as [[s d]|]; [|intros _; exact I]. intros (x & Hx & H). unfold stamped in *. destruct l as [|m l]; [discriminate|]. cbn in Hx. injection Hx as <-. exists (stamp_of m, g m). split; [reflexivity|exact H]. Qed.
Lemma filtered_is {A} (f : odom -> A) b gt : (gt = [] /\ b <> None /\ time_filter b (stamped f gt) = Throw) \/ exists ref, time_filter b (stamped f gt) = Ok (stamped f ref) /\ reference b gt ref.
Proof.
  destruct b as [[s d]|]; [|right; exists gt; split; [reflexivity|]; exists (fun _ => true); split; [intros a Ha; cbn; tauto|symmetry; clear; induction gt as [|a gt IH]; [reflexivity|cbn; rewrite IH; reflexivity]]].
  destruct gt as [|m gt]; [left; repeat split; discriminate|]. right. cbn [stamped map time_filter]. cbv zeta. eexists. split.
  - change ((stamp_of m, f m) :: map (fun m0 => (stamp_of m0, f m0)) gt) with (map (fun m0 => (stamp_of m0, f m0)) (m :: gt)). rewrite filter_map. reflexivity.
  - eexists. split; [|reflexivity]. intros x Hx. cbv beta. cbn [fst]. rewrite andb_true_iff, !rleb_t. cbn [wanted]. split.
    + intros H. exists (stamp_of m, od_pose m). split; [reflexivity|exact H].
    + intros (e & He & H). cbn in He. injection He as <-. exact H.
Qed.
Lemma part_order P l k : part_of P l k -> ordered l -> ordered k.
Proof.
  intros (f & _ & ->) O. unfold ordered, stamped in *. induction l as [|m l IH]; intros i j a b' Ha Hb L; [destruct i; discriminate|]. cbn [filter] in Ha, Hb. assert (O' : in_order (map (fun m => (stamp_of m, od_pose m)) l)) by (intros i' j' x y Hx Hy L'; apply (O (S i') (S j') x y Hx Hy); lia). destruct (f m) eqn:Ef; [|apply (IH O' i j a b' Ha Hb L)].
  cbn [map] in Ha, Hb. destruct i as [|i], j as [|j]; cbn [nth_error] in Ha, Hb; try lia; [injection Ha as <-; injection Hb as <-; lra| |apply (IH O' i j a b' Ha Hb ltac:(lia))].
  injection Ha as <-. rewrite nth_error_map in Hb. destruct (nth_error (filter f l) j) as [y|] eqn:Ey; [|discriminate]. injection Hb as <-. apply nth_error_In in Ey. apply filter_In in Ey. destruct Ey as [Ey _]. apply In_nth_error in Ey. destruct Ey as [k Hk]. apply (O 0%nat (S k) (stamp_of m, od_pose m) (stamp_of y, od_pose y)); [reflexivity|cbn; rewrite nth_error_map, Hk; reflexivity|lia].
Qed.
Lemma reference_in_order b gt ref : ordered gt -> reference b gt ref -> ordered ref.
Proof. intros O H. apply (part_order _ _ _ H O). Qed.
Lemma inside_is {A} (f : odom -> A) (ref msgs : list odom) : ref <> [] -> ordered ref -> exists kept, in_reference ref msgs kept /\ inside (stamped f ref) (stamped f msgs) = stamped f kept.
Proof.
  intros N O. assert (N' : stamped f ref <> []) by (destruct ref; [congruence|discriminate]). assert (O' : in_order (stamped f ref)) by (eapply stamped_order; exact O). rewrite inside_filter by exact N'. unfold stamped at 2. rewrite filter_map. eexists. split; [|reflexivity].
  eexists. split; [|reflexivity]. intros m Hm. cbv beta. rewrite in_range_covered by exact O'. cbn [fst]. split; apply stamped_covered.
Qed.
(* ---- root of the mean of the squares ---- *)
Lemma squares_sum l : fold_right (fun x s => x * x + s) 0 l = fold_right Rplus 0 (map (fun y => y * y) l).
Proof. induction l as [|a l IH]; [reflexivity|]. cbn. rewrite IH. reflexivity. Qed.
Lemma squares_pos l : 0 <= fold_right Rplus 0 (map (fun y => y * y) l).
Proof. induction l as [|a l IH]; cbn; [lra|]. nra. Qed.
Lemma rms_is l : root_mean_square l (rms l).
Proof.
  unfold rms. destruct l as [|a l]; [reflexivity|]. set (k := a :: l). cbn [root_mean_square]. split; [discriminate|]. split; [apply sqrt_pos|]. rewrite squares_sum. assert (P : 0 < INR (length k)) by (apply lt_0_INR; cbn; lia). rewrite sqrt_sqrt; [field; lra|]. apply Rmult_le_pos; [apply squares_pos|]. left. apply Rinv_0_lt_compat. exact P.
Qed.
(* it lies between the least and the greatest, and is zero exactly when all are *)
Lemma squares_upper l m : (forall x, In x l -> 0 <= x <= m) -> fold_right Rplus 0 (map (fun y => y * y) l) <= INR (length l) * (m * m).
Proof. induction l as [|a l IH]; intros H; [cbn; lra|]. change (fold_right Rplus 0 (map (fun y => y * y) (a :: l))) with (a * a + fold_right Rplus 0 (map (fun y => y * y) l)). change (length (a :: l)) with (S (length l)). rewrite S_INR. specialize (IH (fun x Hx => H x (or_intror Hx))). pose proof (H a (or_introl eq_refl)). nra. Qed.
Lemma squares_lower l m : 0 <= m -> (forall x, In x l -> m <= x) -> INR (length l) * (m * m) <= fold_right Rplus 0 (map (fun y => y * y) l).
Proof. intros M. induction l as [|a l IH]; intros H; [cbn; lra|]. change (fold_right Rplus 0 (map (fun y => y * y) (a :: l))) with (a * a + fold_right Rplus 0 (map (fun y => y * y) l)). change (length (a :: l)) with (S (length l)). rewrite S_INR. specialize (IH (fun x Hx => H x (or_intror Hx))). pose proof (H a (or_introl eq_refl)). nra. Qed.
Lemma root_between l r lo hi : root_mean_square l (Some r) -> 0 <= lo -> 0 <= hi -> (forall x, In x l -> lo <= x <= hi) -> lo <= r <= hi.
Proof.
  intros (N & P & E) L H B. assert (Q : 0 < INR (length l)) by (apply lt_0_INR; destruct l; [congruence|cbn; lia]). pose proof (squares_upper l hi) as U. pose proof (squares_lower l lo L (fun x Hx => proj1 (B x Hx))) as W. rewrite <- E in *. split.
  - apply Rsqr_incr_0_var; [|exact P]. unfold Rsqr. apply Rmult_le_reg_l with (INR (length l)); [exact Q|exact W].
  - apply Rsqr_incr_0_var; [|exact H]. unfold Rsqr. apply Rmult_le_reg_l with (INR (length l)); [exact Q|]. apply U. intros x Hx. pose proof (B x Hx). lra.
Qed.
Lemma root_zero l r : root_mean_square l (Some r) -> r = 0 <-> forall x, In x l -> x = 0.
Proof.
  intros (N & P & E). split.
  - intros ->. rewrite !Rmult_0_l, Rmult_0_r in E. clear N P. revert E. induction l as [|a l IH]; intros E x Hx; [destruct Hx|]. change (fold_right Rplus 0 (map (fun y => y * y) (a :: l))) with (a * a + fold_right Rplus 0 (map (fun y => y * y) l)) in E. pose proof (squares_pos l). assert (a * a = 0) by nra. assert (a = 0) by nra. destruct Hx as [<-|Hx]; [assumption|]. apply IH; [nra|exact Hx].
  - intros Z. assert (r <= 0); [|lra]. apply (root_between l r 0 0); [split; [exact N|split; [exact P|exact E]]|lra|lra|]. intros x Hx. rewrite (Z x Hx). lra.
Qed.
Lemma root_unique l r r' : root_mean_square l r -> root_mean_square l r' -> r = r'.
Proof.
  destruct r as [x|], r' as [y|]; cbn; intros H H'; try (exfalso; tauto); [|reflexivity]. f_equal. destruct H as (N & P & E), H' as (_ & P' & E'). rewrite <- E' in E. assert (Q : 0 < INR (length l)) by (apply lt_0_INR; destruct l; [congruence|cbn; lia]). assert (S : x * x = y * y) by (apply Rmult_eq_reg_l with (INR (length l)); [exact E|lra]). nra.
Qed.
(* ---- angles ---- *)
Lemma vnorm_scale a v : vnorm (vscale a v) = Rabs a * vnorm v.
Proof. unfold vnorm. replace (vdot (vscale a v) (vscale a v)) with (Rsqr a * vdot v v) by (destruct v as [[x y] z]; unfold vdot, vscale, Rsqr; ring). rewrite sqrt_mult by (try apply Rle_0_sqr; destruct v as [[x y] z]; cbn; nra). rewrite sqrt_Rsqr_abs. reflexivity. Qed.
Lemma aa_angle a u : vdot u u = 1 -> Rabs a <= PI -> turn_angle (aa_matrix a u) (Rabs a).
Proof.
  intros U A. assert (C : cos (Rabs a) = cos a) by (unfold Rabs; destruct (Rcase_abs a); [apply cos_neg|reflexivity]). destruct u as [[x y] z]. unfold aa_matrix, turn_angle, vscale. split; [split; [apply Rabs_pos|exact A]|]. rewrite C. unfold vdot in U. assert (K : (1 - cos a) * (x * x + y * y + z * z) = 1 - cos a) by (rewrite U; ring). lra.
Qed.
Lemma turn_angle_unique m a b : turn_angle m a -> turn_angle m b -> a = b.
Proof. destruct m as [[[[x1 x2] x3] [[y1 y2] y3]] [[z1 z2] z3]]. intros [A E] [B F]. assert (cos a = cos b) by lra. rewrite <- (acos_cos a), <- (acos_cos b) by assumption. congruence. Qed.
Lemma turn_angle_zero m : proper m -> turn_angle m 0 <-> m = mI.
Proof.
  intros M. split.
  - intros H. destruct (quat_of_spec m M) as [E U]. pose proof (angle_axis_spec (quat_of m) U) as S. destruct (angle_axis (quat_of m)) as [a u]. destruct S as (A & V & X & _ & Z). rewrite E in *. assert (T : turn_angle m (Rabs a)) by (rewrite <- X; apply aa_angle; [exact V|rewrite Rabs_pos_eq by lra; lra]). rewrite Rabs_pos_eq in T by lra. apply Z. apply (turn_angle_unique m); assumption.
  - intros ->. unfold turn_angle, mI. pose proof PI_RGT_0. rewrite cos_0. split; lra.
Qed.
(* ---- distances of errors ---- *)
Lemma ape_distance g x : rigid g -> vnorm (tr (ldiv g x)) = dist (tr x) (tr g).
Proof. intros H. apply step_length. exact H. Qed.
Lemma motion_ldiv a b : motion a -> motion b -> motion (ldiv a b).
Proof. intros A B. apply motion_mul; [apply motion_inv; exact A|exact B]. Qed.

Section Report.
Variable mixq : quat -> quat -> R -> quat.
Variable r2q : mat3 -> quat.
Variable r2a : mat3 -> vec3 * R.
Variable q2a : quat -> vec3 * R.
Hypothesis unit_mix : stays_unit mixq.
Hypothesis ends : keeps_ends mixq.
Hypothesis along : turns_along mixq.
Hypothesis reads : reads_rotation r2q.
Hypothesis axis : reads_axis r2a.
Hypothesis axisq : reads_quaternion q2a.

Lemma rot_norm m : proper m -> turn_angle m (vnorm (rot_axang r2a m)).
Proof. intros M. pose proof (axis m M) as A. unfold rot_axang. destruct (r2a m) as [u a]. destruct A as (U & B & E). rewrite vnorm_scale. assert (vnorm u = 1) as -> by (unfold vnorm; rewrite U; apply sqrt_1). rewrite Rmult_1_r, <- E. apply aa_angle; assumption. Qed.
Lemma rot_vector m : proper m -> rotation_vector (rot_axang r2a m) m.
Proof. intros M. pose proof (axis m M) as A. unfold rot_axang. destruct (r2a m) as [u a]. destruct A as (U & B & E). rewrite <- E. apply RoExamples.spin_vector. exact U. Qed.
Lemma track_ok l tk : all_oriented l -> make_track q2a l = Ok tk -> tk_traj tk = l /\ track_says tk.
Proof.
  intros O H. unfold make_track in H. destruct (compute_trajectory_length _) as [len| |]; cbn [rbind] in H; try discriminate. injection H as <-. split; [reflexivity|]. intros k t x Hx. cbn [tk_traj tk_distances tk_rots tk_angles] in *. assert (Ox : oriented x) by (apply (O (t, x)); apply nth_error_In in Hx; exact Hx). rewrite !nth_error_map, Hx. cbn [option_map snd]. split; [reflexivity|].
  pose proof (axisq (mp_ori x) Ox) as A. destruct (q2a (mp_ori x)) as [u a]. destruct A as (U & B & E). cbn [snd]. assert (El : lin (pose_to_matrix x) = aa_matrix a u) by (symmetry; exact E). rewrite El. split; eexists; (split; [reflexivity|]); [apply RoExamples.spin_vector; exact U|apply aa_angle; assumption].
Qed.
Lemma posed_oriented l : posed l -> all_oriented (stamped od_pose l).
Proof. intros P e He. apply stamped_in in He. destruct He as (m & Hm & ->). apply P. exact Hm. Qed.
Lemma posed_part P l k : part_of P l k -> posed l -> posed k.
Proof. intros H O m Hm. apply O. apply (part_in P l k m H). exact Hm. Qed.
Lemma covered_first ref msgs kept m : in_reference ref msgs kept -> In m kept -> covered (stamped od_pose ref) (stamp_of m).
Proof. intros H Hm. apply (part_in _ _ _ _ H). exact Hm. Qed.
Lemma covered_nonempty {A} (l : list (R * A)) t : covered l t -> l <> [].
Proof. intros (a & _ & H & _) ->. destruct H. Qed.

(* where the estimate is put *)
Definition placed_by (n : iso) (kept : list odom) (l : list (R * mpose)) : Prop := displaced n (stamped od_pose kept) l /\ all_oriented l /\ motion n.
Lemma displaced_refl l : displaced iid l l.
Proof. unfold displaced. induction l as [|e l IH]; constructor; [split; [reflexivity|]; rewrite imul_id_l; reflexivity|exact IH]. Qed.
Lemma align_places first fit p ref kept l : 0 <= ap_max_r p -> 0 <= ap_max_t p -> ref <> [] -> ordered ref -> posed ref -> posed kept -> first && fit = false -> align mixq r2q first fit p (stamped od_pose ref) (stamped od_pose kept) = Ok l ->
  exists n, placed_by n kept l /\ (first = false -> fit = false -> n = iid) /\
    (first = true -> exists m rest g, kept = m :: rest /\ value_at pose_to_matrix (pose_between mixq) (stamped od_pose ref) (stamp_of m) g /\ imul n (matrix_of m) = g).
Proof.
  intros Hr Ht N O Pr Pk B H. assert (Ar := posed_oriented ref Pr). assert (Ak := posed_oriented kept Pk). unfold align in H. destruct first; [|destruct fit].
  - destruct (aligned_first mixq r2q unit_mix reads _ _ l O Ar Ak H) as (t & x & rest & f1 & g & E & _ & V & _ & D & A). destruct kept as [|m kept]; [discriminate|]. cbn in E. injection E as <- <- <-.
    assert (Mg := value_motion mixq unit_mix _ _ g Ar V). assert (Mm : motion (pose_to_matrix (od_pose m))) by (apply pose_motion, Pk; left; reflexivity).
    exists (imul g (iinv (pose_to_matrix (od_pose m)))). split; [split; [exact D|]; split; [exact A|apply motion_mul; [exact Mg|apply motion_inv; exact Mm]]|]. split; [discriminate|]. intros _. exists m, kept, g. split; [reflexivity|]. split; [exact V|].
    unfold matrix_of. rewrite <- imul_assoc, imul_inv_l, imul_id_r by (apply motion_rigid; exact Mm). reflexivity.
  - destruct (align_is mixq r2q unit_mix ends reads p _ _ l O Ar Ak Hr Ht H) as (t & x & rest & g & r & tc & Rc & E & V & _ & P & _ & _ & D & A). eexists. split; [split; [exact D|]; split; [exact A|]|split; [discriminate|discriminate]].
    destruct kept as [|m kept]; [discriminate|]. cbn in E. injection E as <- <- <-. apply motion_mul; [apply motion_mul; [exact P|apply (value_motion mixq unit_mix _ _ g Ar V)]|apply motion_inv, pose_motion, Pk; left; reflexivity].
  - injection H as <-. exists iid. split; [split; [apply displaced_refl|split; [exact Ak|apply motion_id]]|]. split; [reflexivity|discriminate].
Qed.
Lemma placed_nth n kept l k m : placed_by n kept l -> nth_error kept k = Some m -> exists x, nth_error l k = Some (stamp_of m, x) /\ pose_to_matrix x = imul n (matrix_of m) /\ oriented x.
Proof.
  intros (D & A & _). revert k A. unfold displaced, stamped in D. remember (map (fun m => (stamp_of m, od_pose m)) kept) as s eqn:E. revert kept E. induction D as [|e e' s l [D1 D2] D IH]; intros kept E k A Hk; destruct kept as [|m0 kept]; try discriminate; [destruct k; discriminate|]. cbn in E. injection E as -> ->. destruct k as [|k]; cbn in Hk.
  - injection Hk as ->. destruct e' as [t x]. cbn in D1, D2. subst t. exists x. split; [reflexivity|]. split; [exact D2|apply (A (stamp_of m, x)); left; reflexivity].
  - apply (IH kept eq_refl k); [intros y Hy; apply A; right; exact Hy|exact Hk].
Qed.
Lemma placed_stamps n kept l : placed_by n kept l -> map fst l = map stamp_of kept.
Proof.
  intros (D & _). unfold displaced, stamped in D. remember (map (fun m => (stamp_of m, od_pose m)) kept) as s eqn:E. revert kept E. induction D as [|e e' s l [D1 _] D IH]; intros kept E; destruct kept as [|m kept]; try discriminate; [reflexivity|]. cbn in E. injection E as -> ->. cbn [map]. rewrite D1, (IH kept eq_refl). reflexivity.
Qed.
Lemma filter_all {A} (f : A -> bool) l : (forall a, In a l -> f a = true) -> filter f l = l.
Proof. induction l as [|a l IH]; intros H; [reflexivity|]. cbn. rewrite (H a (or_introl eq_refl)), IH by (intros x Hx; apply H; right; exact Hx). reflexivity. Qed.

Lemma entry_says first fit p ref msgs e : 0 <= ap_max_r p -> 0 <= ap_max_t p -> ordered ref -> posed ref -> posed msgs -> first && fit = false -> pose_entry_of mixq r2q r2a q2a first fit p (stamped od_pose ref) msgs = Ok e ->
  exists kept n, in_reference ref msgs kept /\ kept <> [] /\ motion n /\ says mixq ref kept n e /\ (first = false -> fit = false -> n = iid) /\
    (first = true -> exists m rest g, kept = m :: rest /\ value_at pose_to_matrix (pose_between mixq) (stamped od_pose ref) (stamp_of m) g /\ imul n (matrix_of m) = g).
Proof.
  intros Hr Ht O Pr Pm B H. assert (N : ref <> []) by (intros ->; discriminate). assert (Ar := posed_oriented ref Pr). unfold pose_entry_of in H. destruct (stamped od_pose ref) as [|r0 rs] eqn:Es; [discriminate|]. rewrite <- Es in *. clear r0 rs Es.
  destruct (inside_is od_pose ref msgs N O) as (kept & K & Ei). rewrite Ei in H. assert (Pk := posed_part _ _ _ K Pm). destruct (align mixq r2q first fit p (stamped od_pose ref) (stamped od_pose kept)) as [l| |] eqn:El; cbn [rbind] in H; try discriminate.
  destruct (align_places first fit p ref kept l Hr Ht N O Pr Pk B El) as (n & Pl & N1 & N2). destruct (make_track q2a l) as [tk| |] eqn:Etk; cbn [rbind] in H; try discriminate. destruct (track_ok l tk ltac:(apply Pl) Etk) as [Etr Etk']. assert (Elen : compute_trajectory_length (map snd l) = Ok (tk_length tk)) by (unfold make_track in Etk; destruct (compute_trajectory_length _); cbn [rbind] in Etk; try discriminate; injection Etk as <-; reflexivity). destruct (compute_pose_errors mixq (stamped od_pose ref) l) as [o| |] eqn:Eo; cbn [rbind] in H; try discriminate. cbn [split_poses] in H. injection H as <-.
  assert (Mn : motion n) by apply Pl. exists kept, n. split; [exact K|]. assert (Ne : kept <> []). { intros ->. destruct Pl as (D & _). assert (l = []) as El0 by (inversion D; reflexivity). rewrite El0 in Elen. discriminate Elen. } split; [exact Ne|]. split; [exact Mn|]. split; [|split; [exact N1|exact N2]].
  destruct (pose_errors_report mixq unit_mix _ l o O Ar Eo) as (f & gs & Hf & K1). cbv zeta in K1. assert (St := placed_stamps n kept l Pl).
  assert (Ff : filter f l = l). { apply filter_all. intros x Hx. apply Hf; [exact Hx|]. assert (Hs : In (fst x) (map stamp_of kept)) by (rewrite <- St; apply in_map; exact Hx). apply in_map_iff in Hs. destruct Hs as (m & Em & Hm). rewrite <- Em. apply (covered_first ref msgs kept m K Hm). }
  rewrite Ff in K1. destruct K1 as (L1 & L2 & L3 & T1 & T2 & A1 & A2). assert (Ll : length l = length kept) by (rewrite <- (map_length fst l), St, map_length; reflexivity). assert (Vg : forall k m g, nth_error kept k = Some m -> nth_error gs k = Some g -> motion g).
  { intros k m g Hm Hg. destruct (placed_nth n kept l k m Pl Hm) as (x & Hx & _). destruct (A1 k _ x g Hx Hg) as [V _]. exact (value_motion mixq unit_mix _ _ g Ar V). }
  exists gs. cbn [pe_ape pe_rpe pe_track es_t es_1 es_2 es_norm1 es_norm2 es_rmse1 es_rmse2 make_errs]. split; [lia|]. split; [rewrite T1; exact St|]. split; [rewrite T2, St; reflexivity|]. rewrite !map_length. split; [lia|]. split; [lia|]. split; [lia|]. split; [lia|]. split; [|split; [|split; [apply rms_is|split; [apply rms_is|split; [apply rms_is|split; [apply rms_is|split; [|split; [rewrite Etr; exact Ll|exact Etk']]]]]]]].
  - intros k m g Hm Hg. destruct (placed_nth n kept l k m Pl Hm) as (x & Hx & Ex & Ox). destruct (A1 k _ x g Hx Hg) as [V Ea]. split; [exact V|]. assert (Mg := Vg k m g Hm Hg). rewrite !nth_error_map, Ea. cbn [option_map]. fold (ldiv g (pose_to_matrix x)). split; [f_equal; rewrite ape_distance by (apply motion_rigid; exact Mg); rewrite Ex; reflexivity|].
    replace (mmul (mT (lin g)) (mmul (lin n) (lin (matrix_of m)))) with (lin (ldiv g (pose_to_matrix x))) by (rewrite Ex; reflexivity). assert (Ml : motion (ldiv g (pose_to_matrix x))) by (apply motion_ldiv; [exact Mg|apply pose_motion; exact Ox]).
    split; [eexists; split; [reflexivity|apply rot_norm; exact Ml]|]. split; [rewrite Ex; reflexivity|]. split; [eexists; split; [reflexivity|apply rot_vector; exact Ml]|]. exists x. rewrite Etr. split; [exact Hx|exact Ex].
  - intros k m g m' g' Hm Hg Hm' Hg'. cbv zeta. destruct (placed_nth n kept l k m Pl Hm) as (x & Hx & Ex & Ox). destruct (placed_nth n kept l (S k) m' Pl Hm') as (x' & Hx' & Ex' & Ox'). assert (Mg := Vg k m g Hm Hg). assert (Mg' := Vg _ m' g' Hm' Hg'). assert (Mm : motion (matrix_of m)) by (apply pose_motion, Pk; apply nth_error_In in Hm; exact Hm). assert (Mm' : motion (matrix_of m')) by (apply pose_motion, Pk; apply nth_error_In in Hm'; exact Hm').
    pose proof (A2 k _ x g _ x' g' Hx Hg Hx' Hg') as Er. rewrite !nth_error_map, Er. cbn [option_map]. fold (ldiv g g') (ldiv (pose_to_matrix x) (pose_to_matrix x')) (ldiv (ldiv g g') (ldiv (pose_to_matrix x) (pose_to_matrix x'))) (ldiv (matrix_of m) (matrix_of m')). rewrite Ex, Ex', (ldiv_left n) by (apply motion_rigid; assumption).
    split; [f_equal; apply ape_distance; apply motion_rigid, motion_ldiv; assumption|]. eexists. split; [reflexivity|]. apply (rot_norm (lin (ldiv (ldiv g g') (ldiv (matrix_of m) (matrix_of m'))))). apply motion_ldiv; apply motion_ldiv; assumption.
  - assert (El2 : compute_trajectory_length (map snd l) = compute_trajectory_length (map snd (stamped od_pose kept))) by (destruct Pl as (D & A & M); apply (length_displaced n); [apply motion_rigid; exact M|apply posed_oriented; exact Pk|exact A|exact D]). rewrite Elen in El2. unfold stamped in El2. rewrite map_map in El2. cbn [snd] in El2. rewrite length_is in El2.
    + injection El2 as ->. rewrite map_map. reflexivity.
    + destruct kept; [congruence|discriminate].
    + intros x Hx. apply in_map_iff in Hx. destruct Hx as (m & <- & Hm). apply Pk. exact Hm.
Qed.

(* ---- the whole report ---- *)
Lemma data_parts b first fit p gt odoms d : compute_pose_data mixq r2q r2a q2a b first fit p gt odoms = Ok d ->
  first && fit = false /\ exists ref tk es, reference b gt ref /\ make_track q2a (stamped od_pose ref) = Ok tk /\ map_res (pose_entry_of mixq r2q r2a q2a first fit p (stamped od_pose ref)) odoms = Ok es /\ d = mkPR tk es.
Proof.
  intros H. unfold compute_pose_data in H. destruct (first && fit); [discriminate|]. split; [reflexivity|]. destruct (filtered_is od_pose b gt) as [(-> & _ & E)|(ref & E & Rf)]; rewrite E in H; cbn [rbind] in H; [discriminate|]. destruct (make_track q2a (stamped od_pose ref)) as [tk| |] eqn:Et; cbn [rbind] in H; try discriminate. destruct (map_res _ odoms) as [es| |] eqn:Ee; cbn [rbind] in H; try discriminate. injection H as <-. exists ref, tk, es. repeat split; assumption.
Qed.
Theorem pose_report_says b first fit p gt odoms d : 0 <= ap_max_r p -> 0 <= ap_max_t p -> ordered gt -> posed gt -> (forall msgs, In msgs odoms -> posed msgs) -> compute_pose_data mixq r2q r2a q2a b first fit p gt odoms = Ok d ->
  exists ref, reference b gt ref /\ tk_length (pr_gt d) = path_length (map (fun m => mp_pos (od_pose m)) ref) /\ tk_traj (pr_gt d) = stamped od_pose ref /\ track_says (pr_gt d) /\ length (pr_entries d) = length odoms /\
  forall i msgs, nth_error odoms i = Some msgs -> exists e kept n, nth_error (pr_entries d) i = Some e /\ in_reference ref msgs kept /\ kept <> [] /\ motion n /\ says mixq ref kept n e /\ (first = false -> fit = false -> n = iid) /\
    (first = true -> exists m rest g, kept = m :: rest /\ value_at pose_to_matrix (pose_between mixq) (stamped od_pose ref) (stamp_of m) g /\ imul n (matrix_of m) = g).
Proof.
  intros Hr Ht O Pg Po H. destruct (data_parts _ _ _ _ _ _ _ H) as (B & ref & tk & es & Rf & Et & Ee & ->). assert (Or := reference_in_order b gt ref O Rf). assert (Pr := posed_part _ _ _ Rf Pg). exists ref. split; [exact Rf|]. cbn [pr_gt pr_entries]. destruct (map_res_nth _ _ _ Ee) as [L Nth]. split; [|split; [apply (track_ok _ tk (posed_oriented ref Pr) Et)|split; [apply (track_ok _ tk (posed_oriented ref Pr) Et)|split; [exact L|]]]].
  - unfold make_track in Et. destruct (compute_trajectory_length (map snd (stamped od_pose ref))) as [len| |] eqn:El; cbn [rbind] in Et; try discriminate. injection Et as <-. cbn [tk_length]. unfold stamped in El. rewrite map_map in El. cbn [snd] in El. rewrite length_is in El; [injection El as <-; rewrite map_map; reflexivity|destruct ref; [discriminate|discriminate]|]. intros x Hx. apply in_map_iff in Hx. destruct Hx as (m & <- & Hm). apply Pr. exact Hm.
  - intros i msgs Hi. destruct (Nth i msgs Hi) as (e & He & Ho). destruct (entry_says first fit p ref msgs e Hr Ht Or Pr (Po msgs (nth_error_In _ _ Hi)) B Ho) as (kept & n & K). exists e, kept, n. split; [exact He|exact K].
Qed.
(* when there is a report *)
Lemma entry_total first p ref msgs : ordered ref -> ordered msgs -> ref <> [] -> ((exists e, pose_entry_of mixq r2q r2a q2a first false p (stamped od_pose ref) msgs = Ok e) <-> exists m, In m msgs /\ covered (stamped od_pose ref) (stamp_of m)).
Proof.
  intros O Om N. unfold pose_entry_of. destruct (stamped od_pose ref) as [|r0 rs] eqn:Es; [destruct ref; [congruence|discriminate]|]. rewrite <- Es in *. assert (N' : stamped od_pose ref <> []) by (rewrite Es; discriminate). clear r0 rs Es. destruct (inside_is od_pose ref msgs N O) as (kept & K & Ei). rewrite Ei. split.
  - intros (e & H). destruct kept as [|m kept]; [|exists m; apply (part_in _ _ _ m K); left; reflexivity]. exfalso. destruct first; cbn in H; discriminate.
  - intros (m & Hm & C). assert (Hk : In m kept) by (apply (part_in _ _ _ m K); split; assumption). destruct kept as [|m0 kept]; [destruct Hk|].
    assert (C0 : covered (stamped od_pose ref) (stamp_of m0)) by (apply (covered_first ref msgs _ m0 K); left; reflexivity). assert (Ok' : in_order (stamped od_pose (m0 :: kept))) by (apply (part_order _ _ _ K Om)).
    assert (X : exists l, align mixq r2q first false p (stamped od_pose ref) (stamped od_pose (m0 :: kept)) = Ok l /\ map fst l = map stamp_of (m0 :: kept)).
    { unfold align. destruct first; [|eexists; split; [reflexivity|unfold stamped; rewrite map_map; reflexivity]]. cbn [stamped map]. destruct (aligned_total mixq r2q (stamped od_pose ref) (stamp_of m0) (od_pose m0) (stamped od_pose kept) O C0) as [l Hl]. exists l. split; [exact Hl|].
      unfold align_to_first_pose in Hl. destruct (at_time _ _ _ _) as [g| |]; cbn [rbind] in Hl; try discriminate. cbn [recompute_trajectory] in Hl. injection Hl as <-. cbn [map fst]. f_equal. generalize (pose_to_matrix (od_pose m0)), (pose_to_matrix (matrix_to_pose r2q g)). clear. induction kept as [|x kept IH]; intros a b; [reflexivity|]. cbn [stamped map recompute_loop fst]. cbv zeta. f_equal. apply IH. }
    destruct X as (l & El & Sl). rewrite El. cbn [rbind]. unfold make_track. assert (Nl : exists e0 l0, l = e0 :: l0) by (destruct l as [|e0 l0]; [discriminate|exists e0, l0; reflexivity]). destruct Nl as (e0 & l0 & ->). cbn [map compute_trajectory_length rbind].
    assert (Ol : in_order (e0 :: l0)). { intros i j a b Ha Hb L. assert (Fa : nth_error (map fst (e0 :: l0)) i = Some (fst a)) by (rewrite nth_error_map, Ha; reflexivity). assert (Fb : nth_error (map fst (e0 :: l0)) j = Some (fst b)) by (rewrite nth_error_map, Hb; reflexivity). rewrite Sl, nth_error_map in Fa, Fb. destruct (nth_error (m0 :: kept) i) as [x|] eqn:Ex; [|discriminate]. destruct (nth_error (m0 :: kept) j) as [y|] eqn:Ey; [|discriminate]. injection Fa as <-. injection Fb as <-.
      apply (Ok' i j (stamp_of x, od_pose x) (stamp_of y, od_pose y)); [unfold stamped; rewrite nth_error_map, Ex; reflexivity|unfold stamped; rewrite nth_error_map, Ey; reflexivity|exact L]. }
    destruct (pose_errors_total mixq (stamped od_pose ref) (e0 :: l0) N' O Ol) as [o Ho]. rewrite Ho. cbn [rbind split_poses]. eexists. reflexivity.
Qed.
Theorem pose_report_exists b first p gt odoms : ordered gt -> (forall msgs, In msgs odoms -> ordered msgs) ->
  (exists d, compute_pose_data mixq r2q r2a q2a b first false p gt odoms = Ok d) <->
  exists ref, reference b gt ref /\ ref <> [] /\ forall msgs, In msgs odoms -> exists m, In m msgs /\ covered (stamped od_pose ref) (stamp_of m).
Proof.
  intros O Oo. split.
  - intros (d & H). destruct (data_parts _ _ _ _ _ _ _ H) as (_ & ref & tk & es & Rf & Et & Ee & _). assert (N : ref <> []) by (intros ->; discriminate). exists ref. split; [exact Rf|]. split; [exact N|]. intros msgs Hm. apply (entry_total first p ref msgs (reference_in_order b gt ref O Rf) (Oo msgs Hm) N). apply (proj1 (map_res_total _ odoms) (ex_intro _ es Ee)). exact Hm.
  - intros (ref & Rf & N & C). unfold compute_pose_data. rewrite andb_false_r. destruct (filtered_is od_pose b gt) as [(-> & _ & E)|(ref' & E & Rf')].
    + exfalso. destruct Rf as (f & _ & ->). apply N. reflexivity.
    + rewrite (part_unique _ _ _ _ Rf' Rf) in E. rewrite E. cbn [rbind]. unfold make_track. destruct ref as [|r0 rs] eqn:Er; [congruence|]. rewrite <- Er in *. assert (L : exists len, compute_trajectory_length (map snd (stamped od_pose ref)) = Ok len) by (rewrite Er; eexists; reflexivity). destruct L as [len L]. rewrite L. cbn [rbind].
      destruct (proj2 (map_res_total (pose_entry_of mixq r2q r2a q2a first false p (stamped od_pose ref)) odoms)) as [es Ee]; [|rewrite Ee; cbn [rbind]; eexists; reflexivity]. intros msgs Hm. apply (entry_total first p ref msgs (reference_in_order b gt ref O Rf) (Oo msgs Hm) N). apply C. exact Hm.
Qed.
(* both kinds of alignment are refused; without the fit there is always a number or a failure *)
Theorem both_refused b p gt odoms : compute_pose_data mixq r2q r2a q2a b true true p gt odoms = Throw.
Proof. reflexivity. Qed.
Theorem pose_report_defined b first p gt odoms : compute_pose_data mixq r2q r2a q2a b first false p gt odoms <> UB.
Proof.
  unfold compute_pose_data. rewrite andb_false_r. destruct (filtered_is od_pose b gt) as [(_ & _ & E)|(ref & E & Rf)]; rewrite E; cbn [rbind]; [discriminate|]. unfold make_track at 1. destruct (compute_trajectory_length _) as [len| |] eqn:El; cbn [rbind]; try discriminate; [|unfold compute_trajectory_length in El; destruct (map snd _); discriminate].
  pose proof (map_res_defined (pose_entry_of mixq r2q r2a q2a first false p (stamped od_pose ref)) odoms) as D. destruct (map_res _ odoms); cbn [rbind]; try discriminate. intros _. apply D; [|reflexivity]. clear. intros msgs. unfold pose_entry_of. destruct (stamped od_pose ref) as [|r0 rs]; [discriminate|]. generalize (r0 :: rs). clear. intros gt.
  destruct (align mixq r2q first false p gt _) as [l| |] eqn:Ea; cbn [rbind]; try discriminate.
  - unfold make_track. destruct (compute_trajectory_length (map snd l)) as [len| |] eqn:El; cbn [rbind]; try discriminate; [|unfold compute_trajectory_length in El; destruct (map snd l); discriminate]. pose proof (pose_errors_defined mixq gt l) as D. destruct (compute_pose_errors mixq gt l); cbn [rbind]; [|discriminate|congruence]. cbn [split_poses]. discriminate.
  - exfalso. unfold align in Ea. destruct first; [|discriminate]. unfold align_to_first_pose in Ea. destruct (inside gt _) as [|[t x] l]; [discriminate|]. pose proof (at_time_defined pose_to_matrix (raw_between mixq) (interp_transform mixq) (raw_is mixq) (advance None gt t) t) as D. destruct (at_time _ _ _ _); cbn [rbind recompute_trajectory] in Ea; congruence.
Qed.
End Report.
