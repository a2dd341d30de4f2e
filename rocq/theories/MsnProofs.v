From Coq Require Import ZArith QArith List Bool String Lia Reals Lra FunctionalExtensionality.
From Verif Require Import Base NetModel CfgModel CfgSpec CfgProofs WrModel WrSpec WrProofs WrTheorems MsnData MsnModel MsnSpec.
From Verif Require StModel BfModel BfExamples Geo Interp WrExamples.
Import ListNotations.
Open Scope string_scope.
Open Scope list_scope.

(* ---- laying a file over the parameters ---- *)
Lemma set_all_app a b P : set_all (a ++ b) P = set_all b (set_all a P).
Proof. apply fold_left_app. Qed.
Lemma set_all_other kvs : forall P k, ~ In k (map fst kvs) -> set_all kvs P k = P k.
Proof.
  induction kvs as [|[k' v] r IH]; intros P k N; [reflexivity|]. cbn [set_all fold_left fst snd]. change (set_all r (store P k' v) k = P k).
  rewrite IH by (intros H; apply N; right; exact H). unfold store. destruct (String.eqb_spec k' k) as [->|]; [destruct N; left; reflexivity | reflexivity].
Qed.
Theorem set_all_overlaid kvs P : overlaid kvs P (set_all kvs P).
Proof.
  split; [intros k; apply set_all_other|]. intros a k v b -> N. rewrite set_all_app. cbn [set_all fold_left fst snd].
  change (set_all b (store (set_all a P) k v) k = Some v). rewrite set_all_other by exact N. unfold store. rewrite String.eqb_refl. reflexivity.
Qed.
Theorem launch_overlaid pl m n sv :
  overlaid (m ++ pl_files pl ++ [("threads", VInt n)]) (sv_flat sv) (sv_flat (launch pl m n sv)).
Proof. apply set_all_overlaid. Qed.
(* the overlay is determined *)
Lemma overlaid_unique kvs P P1 P2 : overlaid kvs P P1 -> overlaid kvs P P2 -> forall k, P1 k = P2 k.
Proof.
  intros [A B] [A' B'] k. destruct (in_dec string_dec k (map fst kvs)) as [I|I]; [|rewrite A, A' by exact I; reflexivity].
  assert (E : exists a v b, kvs = a ++ (k, v) :: b /\ ~ In k (map fst b)).
  { clear -I. induction kvs as [|[k' v] r IH]; [contradiction|]. destruct (in_dec string_dec k (map fst r)) as [J|J].
    - destruct (IH J) as (a & w & b & -> & N). exists ((k', v) :: a), w, b. auto.
    - destruct I as [E|I]; [|contradiction]. cbn in E. subst k'. exists [], v, r. auto. }
  destruct E as (a & v & b & E & N). rewrite (B a k v b E N), (B' a k v b E N). reflexivity.
Qed.

(* ---- the tree ---- *)
Lemma sget_put k v k' l : sget k' (put k v l) = if String.eqb k' k then Some v else sget k' l.
Proof.
  induction l as [|[k0 w] r IH]; cbn; [destruct (String.eqb k' k); reflexivity|].
  destruct (String.compare k k0) eqn:C.
  - apply String.compare_eq_iff in C. subst k0. cbn. destruct (String.eqb k' k); reflexivity.
  - cbn. reflexivity.
  - cbn. rewrite IH. destruct (String.eqb_spec k' k) as [->|]; [|reflexivity].
    destruct (String.eqb_spec k k0) as [->|]; [|reflexivity]. exfalso. pose proof (String.compare_antisym k0 k0) as E. rewrite C in E. discriminate E.
Qed.
Lemma set_leaf_at p v : forall t, value_at p (set_leaf p v t) = Some v.
Proof. induction p as [|k q IH]; intros t; [reflexivity|]. cbn [set_leaf value_at BfModel.member]. rewrite sget_put, String.eqb_refl. apply IH. Qed.
Lemma set_leaf_apart p v : forall q t, apart p q -> value_at q (set_leaf p v t) = value_at q t.
Proof.
  induction p as [|k p IH]; intros q t [A B]; [destruct A; exists q; reflexivity|].
  destruct q as [|k' q]; [destruct B; exists (k :: p); reflexivity|]. cbn [set_leaf value_at BfModel.member]. rewrite sget_put.
  destruct (String.eqb_spec k' k) as [->|N].
  - assert (D : apart p q) by (split; intros [r E]; [apply A | apply B]; exists r; cbn; congruence). rewrite IH by exact D.
    destruct t; cbn [BfModel.member sget]; try (destruct q; [exfalso; apply (proj2 D); exists p; reflexivity | reflexivity]).
    destruct (sget k l); [reflexivity|]. destruct q; [exfalso; apply (proj2 D); exists p; reflexivity | reflexivity].
  - destruct t; reflexivity.
Qed.
Lemma set_leaves_app a b t : set_leaves (a ++ b) t = set_leaves b (set_leaves a t).
Proof. apply fold_left_app. Qed.
Lemma set_leaves_apart ls q : forall t, (forall p v, In (p, v) ls -> apart p q) -> value_at q (set_leaves ls t) = value_at q t.
Proof.
  induction ls as [|[p v] r IH]; intros t H; [reflexivity|]. change (value_at q (set_leaves r (set_leaf p v t)) = value_at q t).
  rewrite IH by (intros; eapply H; right; eassumption). apply set_leaf_apart. eapply H. left. reflexivity.
Qed.
Theorem launch_tree pl m n sv :
  (forall a p v b, pl_robot pl = a ++ (p, v) :: b -> (forall p' v', In (p', v') b -> apart p' p) -> value_at p (sv_frames (launch pl m n sv)) = Some v) /\
  (forall q, (forall p v, In (p, v) (pl_robot pl) -> apart p q) -> value_at q (sv_frames (launch pl m n sv)) = value_at q (sv_frames sv)).
Proof.
  split.
  - intros a p v b E H. unfold launch. cbn [sv_frames]. rewrite E, set_leaves_app. change (value_at p (set_leaves b (set_leaf p v (set_leaves a (sv_frames sv)))) = Some v).
    rewrite set_leaves_apart by exact H. apply set_leaf_at.
  - intros q H. apply set_leaves_apart. exact H.
Qed.

(* ---- the frames of each platform ---- *)
Ltac tree := cbv -[R0 R1 Rplus Rmult Ropp Rinv Rdiv IZR IPR IPR_2 INR]; reflexivity.
Lemma frames_again pl : In pl platforms -> set_leaves (pl_robot pl) (set_leaves (pl_robot pl) BfModel.XInvalid) = set_leaves (pl_robot pl) BfModel.XInvalid.
Proof. intros [<-|[<-|[<-|[]]]]; tree. Qed.
Theorem used_frames pl sv : In pl platforms -> used pl sv -> forall m n, sv_frames (launch pl m n sv) = set_leaves (pl_robot pl) BfModel.XInvalid.
Proof.
  intros Hp U m n. unfold launch. cbn [sv_frames]. assert (E : sv_frames sv = BfModel.XInvalid \/ sv_frames sv = set_leaves (pl_robot pl) BfModel.XInvalid).
  { clear m n. induction U as [sv E | sv m n U IH Hm | sv P U IH]; [left; exact E| |exact IH]. right. unfold launch. cbn [sv_frames]. destruct IH as [-> | ->]; [reflexivity | apply frames_again; exact Hp]. }
  destruct E as [-> | ->]; [reflexivity | apply frames_again; exact Hp].
Qed.
Section Start.
Variable look : string -> string -> Z -> res Geo.iso.
Ltac loads := unfold can; cbv -[R0 R1 Rplus Rmult Ropp Rinv Rdiv Rlt_dec sqrt IZR IPR IPR_2 INR BfModel.qnormalise Geo.qmat Geo.mmul Geo.mapply Geo.vadd Geo.mT Geo.vopp];
  eexists; split; [reflexivity|]; repeat split; eexists; reflexivity.
Definition framed (pl : platform) (cam : string) : Prop :=
  exists b, BfModel.load look (set_leaves (pl_robot pl) BfModel.XInvalid) = Ok b /\ can (BfModel.static_transforms look b) /\ (exists id, BfModel.frame_id b "base_link" = Ok id) /\
    can (BfModel.body_to_frame look b "imu" 0) /\ can (BfModel.body_to_frame look b cam 0) /\ can (BfModel.body_to_frame look b "lidar" 0).
Lemma snowboard_framed : framed snowboard "left_stereo_left_cam".
Proof. unfold framed. loads. Qed.
Lemma ue4_framed : framed ue4 "camera".
Proof. unfold framed. loads. Qed.
Lemma simulator_framed : framed simulator "camera_front_left".
Proof. unfold framed. loads. Qed.
Lemma framed_frames pl cam P : framed pl cam -> p_str P "stereo_factors/left_cam_frame" "stereo" = cam ->
  exists b, BfModel.load look (set_leaves (pl_robot pl) BfModel.XInvalid) = Ok b /\ can (BfModel.static_transforms look b) /\
    (exists id, BfModel.frame_id b "base_link" = Ok id) /\ can (BfModel.body_to_frame look b "imu" 0) /\
    (with_stereo P -> can (BfModel.body_to_frame look b (p_str P "stereo_factors/left_cam_frame" "stereo") 0)) /\
    (with_registration P -> can (BfModel.body_to_frame look b "lidar" 0)).
Proof. intros (b & L & T & I & A & B & C) E. exists b. rewrite E. auto 10. Qed.

Variable estimator_ok : robust -> bool.
Hypothesis huber : huber_accepted estimator_ok.
Ltac yes := apply on_bool; vm_compute; reflexivity.
Ltac no H := exfalso; apply on_bool in H; vm_compute in H; discriminate H.
Ltac runs := eexists; vm_compute; reflexivity.
Ltac starts F n Hn Hf Hg := constructor;
  [ apply (framed_frames _ _ _ F); vm_compute; reflexivity
  | intros _; split; yes
  | intros _; split; [exact Hg | vm_compute; repeat split; discriminate]
  | intros _; vm_compute; discriminate
  | intros _; vm_compute; discriminate
  | vm_compute; tauto
  | intros _ _; eexists; split; [vm_compute; reflexivity | intros e [= <-]; apply huber; reflexivity]
  | intros H; no H
  | vm_compute; tauto
  | runs
  | intros _; split; runs
  | intros _; vm_compute; split; [discriminate | tauto]
  | let S := fresh in intros S; split; [|vm_compute; repeat split; discriminate]; apply on_bool in S; vm_compute in S; destruct (Hf S) as [W C]; eexists; vm_compute; rewrite ?W, ?C; reflexivity
  | match goal with |- context [p_int ?P "threads" 4] => replace (p_int P "threads" 4) with n by (vm_compute; reflexivity) end; exact Hn ].
Lemma snowboard_accepted n L r s b : ~ (p_num L "gravity" (981#100) == 0)%Q -> (1 <= n)%Z -> (s = true -> flow_unset L) ->
  accepted look estimator_ok (switched r s b (set_all (pl_files snowboard ++ [("threads", VInt n)]) L)) (set_leaves (pl_robot snowboard) BfModel.XInvalid).
Proof. intros Hg Hn Hf. destruct r; starts snowboard_framed n Hn Hf Hg. Qed.
Lemma ue4_accepted n L r s b : ~ (p_num L "gravity" (981#100) == 0)%Q -> (1 <= n)%Z -> (s = true -> flow_unset L) ->
  accepted look estimator_ok (switched r s b (set_all (pl_files ue4 ++ [("threads", VInt n)]) L)) (set_leaves (pl_robot ue4) BfModel.XInvalid).
Proof. intros Hg Hn Hf. destruct r; starts ue4_framed n Hn Hf Hg. Qed.
Lemma simulator_accepted n L r s b : ~ (p_num L "gravity" (981#100) == 0)%Q -> (1 <= n)%Z -> (s = true -> flow_unset L) ->
  accepted look estimator_ok (switched r s b (set_all (pl_files simulator ++ [("threads", VInt n)]) L)) (set_leaves (pl_robot simulator) BfModel.XInvalid).
Proof. intros Hg Hn Hf. destruct r; starts simulator_framed n Hn Hf Hg. Qed.

Lemma missions_gravity pl m L : In pl platforms -> In m (pl_missions pl) -> ~ (p_num (set_all m L) "gravity" (981#100) == 0)%Q.
Proof. intros [<-|[<-|[<-|[]]]]; cbn [pl_missions snowboard ue4 simulator In]; intuition subst m; vm_compute in *; discriminate. Qed.
Lemma missions_flow pl m L : In pl platforms -> In m (pl_missions pl) -> flow_unset L -> flow_unset (set_all m L).
Proof. intros [<-|[<-|[<-|[]]]]; cbn [pl_missions snowboard ue4 simulator In]; unfold flow_unset; intuition subst m; vm_compute; assumption. Qed.
Theorem platform_starts pl m n sv r s b : In pl platforms -> In m (pl_missions pl) -> (1 <= n)%Z -> used pl sv -> (s = true -> flow_unset (sv_flat sv)) ->
  can (single look estimator_ok (switched r s b (sv_flat (launch pl m n sv))) (sv_frames (launch pl m n sv))).
Proof.
  intros Hp Hm Hn U Hf. rewrite (used_frames pl sv Hp U). apply accepted_iff. unfold launch. cbn [sv_flat]. rewrite set_all_app.
  pose proof (missions_gravity pl m (sv_flat sv) Hp Hm) as G. assert (F : s = true -> flow_unset (set_all m (sv_flat sv))) by (intros E; apply (missions_flow pl); auto).
  destruct Hp as [<-|[<-|[<-|[]]]]; [apply snowboard_accepted | apply ue4_accepted | apply simulator_accepted]; assumption.
Qed.
(* as the files are: registration, and neither stereo nor barometer *)
Theorem platform_starts_as_is pl m n sv : In pl platforms -> In m (pl_missions pl) -> (1 <= n)%Z -> used pl sv ->
  can (single look estimator_ok (sv_flat (launch pl m n sv)) (sv_frames (launch pl m n sv))) /\
  with_registration (sv_flat (launch pl m n sv)) /\ ~ with_stereo (sv_flat (launch pl m n sv)) /\ ~ with_barometer (sv_flat (launch pl m n sv)).
Proof.
  intros Hp Hm Hn U. assert (E : switched true false false (sv_flat (launch pl m n sv)) = sv_flat (launch pl m n sv)).
  { apply functional_extensionality. intros k. unfold switched. destruct (launch_overlaid pl m n sv) as [_ V].
    destruct (String.eqb_spec "optimisation/factors/registration" k) as [<-|_]; [|destruct (String.eqb_spec "optimisation/factors/stereo" k) as [<-|_]; [|destruct (String.eqb_spec "optimisation/factors/barometer" k) as [<-|_]; [|reflexivity]]];
      unfold launch; cbn [sv_flat]; rewrite set_all_app; destruct Hp as [<-|[<-|[<-|[]]]]; vm_compute; reflexivity. }
  split; [rewrite <- E; apply platform_starts; auto; discriminate|]. rewrite <- E. split; [|split]; [apply on_bool; reflexivity | |]; intros H; apply on_bool in H; discriminate H.
Qed.
End Start.
