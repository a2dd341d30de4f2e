From Coq Require Import ZArith QArith List Bool String Lia Permutation.
From Verif Require Import Base NetModel NetSpec CfgModel CfgSpec CfgProofs WrModel WrSpec WrProofs.
From Verif Require StModel BfModel Geo.
Import ListNotations.
Open Scope Z_scope.
Open Scope string_scope.
Open Scope list_scope.

Section Start.
Variable look : string -> string -> Z -> res Geo.iso.
Variable estimator_ok : robust -> bool.
Variable P : params.
Variable cfg : BfModel.xv.
Notation single := (single look estimator_ok P cfg).

Ltac parts := repeat match goal with H : _ \/ _ |- _ => destruct H as [H|H] | H : _ /\ _ |- _ => destruct H as [? H] | H : False |- _ => contradiction end.

Theorem inputs_read ms p : single = Ok ms -> input P p -> reads ms p.
Proof.
  intros H I. apply single_mods in H. destruct H as (l & _ & ->).
  destruct I as [ | | S | S | S | S | B]; try apply st_on in S; try apply ba_on in B;
    [exists (fe_mod P) | exists pf_mod | exists (fe_mod P) | exists (fe_mod P) | exists (fe_mod P) | exists (fe_mod P) | exists (fe_mod P)];
    (split; [cbn; tauto|]); unfold fe_mod, pf_mod; cbn [m_subs]; try rewrite !in_app_iff, !in_when; cbn [In]; unfold at_; cbn; tauto.
Qed.
Theorem outputs_published ms p : single = Ok ms -> output P p -> publishes ms p.
Proof.
  intros H I. apply single_mods in H. destruct H as (l & Hl & ->). destruct I as [ | | | G | G].
  - exists (fe_mod P). split; [cbn; tauto|]. unfold fe_mod. cbn. tauto.
  - exists (fe_mod P). split; [cbn; tauto|]. unfold fe_mod. cbn. tauto.
  - exists (op_mod P). split; [cbn; tauto|]. unfold op_mod. cbn. tauto.
  - apply rg_on in G. destruct l as [[ns u]|]; [|apply lidar_none in Hl; congruence]. exists (mp_mod u). split; [|cbn; tauto].
    apply in_or_app. right. apply in_or_app. left. cbn [lidar_mods]. apply in_or_app. right. left. reflexivity.
  - apply rg_on in G. destruct l as [[ns u]|]; [|apply lidar_none in Hl; congruence]. exists (mp_mod u). split; [|cbn; tauto].
    apply in_or_app. right. apply in_or_app. left. cbn [lidar_mods]. apply in_or_app. right. left. reflexivity.
Qed.
(* nothing else appears among the outputs *)
Lemma lidar_pub l p : lidar_nodes P = Ok l -> In p (flat_map m_pubs (lidar_mods P l)) -> reg_on P = true /\
  (In (topic p) lidar_topics /\ kind p = PointCloud2 \/ (exists u, In p (m_pubs (mp_mod u))) \/ (exists u, In p (m_pubs (rg_mod P u)))).
Proof.
  intros Hl I. destruct l as [[ns u]|]; [|contradiction]. apply lidar_shape in Hl. destruct Hl as (Hr & S & _). split; [exact Hr|].
  cbn [lidar_mods] in I. rewrite flat_map_app in I. apply in_app_or in I. destruct I as [I|I].
  - left. split; [|apply in_flat_map in I; destruct I as (m & Im & I); apply in_map_iff in Im; destruct Im as (n & <- & _); destruct I as [<-|[]]; reflexivity].
    apply (sub_in _ _ _ S). rewrite <- (stage_pubs u ns). apply in_map. exact I.
  - right. cbn [flat_map] in I. rewrite app_nil_r in I. apply in_app_or in I. destruct I as [I|I]; [left|right]; exists u; exact I.
Qed.
Theorem outputs_only ms p : single = Ok ms -> publishes ms p -> String.prefix "/serpent/output/" (topic p) = true -> output P p.
Proof.
  intros H I Hp. apply single_mods in H. destruct H as (l & Hl & ->). apply pubs_in in I. rewrite !flat_map_app in I. apply in_app_or in I. destruct I as [I|I]; [|apply in_app_or in I; destruct I as [I|I]].
  - unfold fe_mod, op_mod, tf_mod, pf_mod in I. cbn [flat_map m_pubs] in I. rewrite !in_app_iff, !in_when in I. cbn [In] in I. parts; subst p; try (vm_compute in Hp; discriminate Hp); constructor.
  - destruct (lidar_pub l p Hl I) as (Hr & [[T _]|[[u I']|[u I']]]).
    + exfalso. apply (in_map (String.prefix "/serpent/output/")) in T. rewrite Hp in T. vm_compute in T. parts; discriminate.
    + unfold mp_mod in I'. cbn [m_pubs In] in I'. parts; subst p; try (vm_compute in Hp; discriminate Hp); constructor; apply rg_on; exact Hr.
    + unfold rg_mod in I'. cbn [m_pubs] in I'. rewrite !in_app_iff, !in_when in I'. cbn [In] in I'. parts; subst p; vm_compute in Hp; discriminate Hp.
  - apply in_flat_map in I. destruct I as (m & Im & I). apply in_when in Im. destruct Im as (_ & [<-|[]]). unfold sf_mod in I. cbn [m_pubs] in I. rewrite !in_app_iff, !in_when in I. cbn [In] in I. parts; subst p; vm_compute in Hp; discriminate Hp.
Qed.

(* all modules built for a point type have the same one *)
Lemma mods_unit l m u : In m (lidar_mods P l) -> m_unit m = Some u -> exists ns, l = Some (ns, u).
Proof.
  destruct l as [[ns v]|]; [|contradiction]. cbn [lidar_mods]. intros I E. exists ns. apply in_app_or in I. destruct I as [I|I].
  - apply in_map_iff in I. destruct I as (n & <- & _). cbn in E. destruct (n_op op n); try discriminate E. injection E as ->. reflexivity.
  - cbn [In] in I. destruct I as [<-|[<-|[]]]; cbn in E; injection E as ->; reflexivity.
Qed.
Lemma single_unit ms m u : single = Ok ms -> In m ms -> m_unit m = Some u -> exists ns, lidar_nodes P = Ok (Some (ns, u)).
Proof.
  intros H I E. apply single_mods in H. destruct H as (l & Hl & ->). apply in_app_or in I. destruct I as [I|I].
  - cbn [In] in I. parts; subst m; discriminate E.
  - apply in_app_or in I. destruct I as [I|I].
    + destruct (mods_unit l m u I E) as (ns & ->). exists ns. exact Hl.
    + apply in_when in I. destruct I as (_ & [<-|[]]). discriminate E.
Qed.
Theorem single_points ms : single = Ok ms -> same_points ms.
Proof.
  intros H m m' u u' I I' E E'. destruct (single_unit ms m u H I E) as (ns & Hl). destruct (single_unit ms m' u' H I' E') as (ns' & Hl'). rewrite Hl in Hl'. injection Hl' as _ ->. reflexivity.
Qed.

(* without debugging, all that is published is read inside or is an output *)
Lemma nthpub {A} (l : list A) x : In x l -> exists i, nth_error l i = Some x. Proof. apply In_nth_error. Qed.
Lemma linked_read t ns t' n : linked op t ns t' -> In n ns -> n_pub op n = t' \/ exists m, In m ns /\ n_sub op m = n_pub op n.
Proof.
  revert t. induction ns as [|x ns IH]; intros t H I; [contradiction|]. destruct H as [E H]. destruct I as [->|I].
  - destruct ns as [|y ns]; [left; exact H|]. right. exists y. split; [right; left; reflexivity | apply H].
  - destruct (IH _ H I) as [E'|(m & Im & E')]; [left; exact E' | right; exists m; split; [right; exact Im | exact E']].
Qed.
Theorem published_read ms p : single = Ok ms -> with_registration P -> ~ debug_on P -> publishes ms p -> reads ms p \/ output P p.
Proof.
  intros H Rg Nd I. pose proof (proj2 (rg_on P) Rg) as Hr. apply single_mods in H. destruct H as (l & Hl & ->). destruct l as [[ns u]|]; [|apply lidar_none in Hl; congruence].
  pose proof (lidar_shape P ns u Hl) as (_ & _ & L & _).
  set (ms := [tf_mod; fe_mod P; op_mod P; pf_mod] ++ lidar_mods P (Some (ns, u)) ++ when (stereo_on P) [sf_mod P]) in *.
  assert (D1 : p_bool P "debug/optimisation/publish_stereo_points" false <> true) by (intros E; apply Nd; left; apply on_bool; exact E).
  assert (D2 : p_bool P "debug/registration/publish_clouds" false <> true) by (intros E; apply Nd; right; left; split; [exact Rg | apply on_bool; exact E]).
  assert (Mfe : In (fe_mod P) ms) by (cbn; tauto). assert (Mop : In (op_mod P) ms) by (cbn; tauto).
  assert (Mli : forall m, In m (lidar_mods P (Some (ns, u))) -> In m ms) by (intros m Im; apply in_or_app; right; apply in_or_app; left; exact Im).
  assert (Mmp : In (mp_mod u) ms) by (apply Mli; cbn [lidar_mods]; apply in_or_app; right; left; reflexivity).
  assert (Mrg : In (rg_mod P u) ms) by (apply Mli; cbn [lidar_mods]; apply in_or_app; right; right; left; reflexivity).
  assert (Mst : forall n, In n ns -> In (stage u n) ms) by (intros n In_; apply Mli; cbn [lidar_mods]; apply in_or_app; left; apply in_map; exact In_).
  assert (Msf : stereo_on P = true -> In (sf_mod P) ms) by (intros E; apply in_or_app; right; apply in_or_app; right; apply in_when; split; [exact E | left; reflexivity]).
  destruct I as (m & Im & I). unfold ms in Im. apply in_app_or in Im. destruct Im as [Im|Im]; [|apply in_app_or in Im; destruct Im as [Im|Im]].
  - cbn [In] in Im. parts; subst m; [contradiction| | |].
    + unfold fe_mod in I. cbn [m_pubs] in I. rewrite !in_app_iff, !in_when in I. cbn [In] in I. parts; subst p; try (right; constructor).
      * left. destruct ns as [|n ns']; [discriminate L|]. exists (stage u n). split; [apply Mst; left; reflexivity|]. left. cbn. destruct L as [-> _]. reflexivity.
      * left. exists (op_mod P). split; [exact Mop | cbn; tauto].
      * left. exists (op_mod P). split; [exact Mop | cbn; tauto].
      * left. exists (sf_mod P). split; [auto | cbn; tauto].
      * left. exists (sf_mod P). split; [auto | cbn; tauto].
      * left. exists (sf_mod P). split; [auto | cbn; tauto].
      * left. exists (sf_mod P). split; [auto | cbn; tauto].
      * left. exists (op_mod P). split; [exact Mop|]. unfold op_mod. cbn [m_subs]. rewrite !in_app_iff, !in_when. cbn [In]. tauto.
    + unfold op_mod in I. cbn [m_pubs] in I. rewrite !in_app_iff, !in_when in I. cbn [In] in I. parts; subst p; try (right; constructor); try contradiction.
      * left. exists (fe_mod P). split; [exact Mfe | cbn; tauto].
      * left. exists (rg_mod P u). split; [exact Mrg | cbn; tauto].
      * left. exists (fe_mod P). split; [exact Mfe | cbn; tauto].
      * left. exists (mp_mod u). split; [exact Mmp | cbn; tauto].
    + destruct I as [<-|[]]. left. exists (fe_mod P). split; [exact Mfe | cbn; tauto].
  - cbn [lidar_mods] in Im. apply in_app_or in Im. destruct Im as [Im|[<-|[<-|[]]]].
    + apply in_map_iff in Im. destruct Im as (n & <- & In_). destruct I as [<-|[]]. left. destruct (linked_read _ _ _ _ L In_) as [E|(k & Ik & E)].
      * exists (mp_mod u). split; [exact Mmp|]. left. rewrite E. reflexivity.
      * exists (stage u k). split; [apply Mst; exact Ik|]. left. rewrite <- E. reflexivity.
    + unfold mp_mod in I. cbn [m_pubs In] in I. parts; subst p; [left; exists (rg_mod P u); split; [exact Mrg | cbn; tauto] | right; constructor; exact Rg | right; constructor; exact Rg].
    + unfold rg_mod in I. cbn [m_pubs] in I. rewrite !in_app_iff, !in_when in I. cbn [In] in I. parts; subst p; try contradiction;
        try (match goal with X : _ && _ = true |- _ => apply andb_true_iff in X; destruct X; contradiction end).
      left. exists (op_mod P). split; [exact Mop|]. unfold op_mod. cbn [m_subs]. rewrite !in_app_iff, !in_when. cbn [In]. tauto.
  - apply in_when in Im. destruct Im as (Es & [<-|[]]).
    assert (D3 : forall k, k = "debug/stereo/publish_stats" \/ k = "debug/stereo/publish_intermediate_results" \/ k = "debug/stereo/publish_points" -> p_bool P k false <> true).
    { intros k Hk E. apply Nd. right. right. split; [apply st_on; exact Es|]. apply on_bool in E. destruct Hk as [->|[->| ->]]; tauto. }
    unfold sf_mod in I. cbn [m_pubs] in I. rewrite !in_app_iff, !in_when in I. cbn [In] in I.
    parts; subst p; try (exfalso; match goal with X : p_bool P ?k false = true |- _ => apply (D3 k); [tauto | exact X] end).
    left. exists (op_mod P). split; [exact Mop|]. unfold op_mod. cbn [m_subs]. rewrite !in_app_iff, !in_when. cbn [In]. tauto.
Qed.

(* ---------------------------------------------------------------- one process or two *)
Notation front := (frontend_node look P cfg).
Notation back := (backend_node look estimator_ok P cfg).
Lemma back_mods b : back = Ok b -> exists l, (match l with Some u => reg_on P = true /\ requires_unit_s (p_str P "registration_covariance/method" "CENSI")
    (p_str P "registration_covariance/point_covariance/method" "RANGE") = Ok u | None => reg_on P = false end) /\
  b = [tf_mod; op_mod P] ++ match l with Some u => [mp_mod u; rg_mod P u] | None => [] end ++ when (stereo_on P) [sf_mod P].
Proof.
  unfold backend_node. intros H. apply bind_ok in H. destruct H as (tf & E1 & H). apply bind_ok in H. destruct H as (o & E2 & H). apply bind_ok in H. destruct H as (rg & E3 & H).
  apply bind_ok in H. destruct H as (s & E4 & H). apply bind_ok in H. destruct H as (t & E5 & H). injection H as <-. apply frames_tf_mod in E1. apply optimisation_mod in E2. subst tf o.
  assert (Es : s = when (stereo_on P) [sf_mod P]) by (destruct (stereo_on P); [apply bind_ok in E4; destruct E4 as (x & E4 & Ex); apply stereo_mod in E4; subst x; injection Ex as <-; reflexivity | injection E4 as <-; reflexivity]).
  subst s. destruct (reg_on P) eqn:Er.
  - apply bind_ok in E3. destruct E3 as (u & Eu & E3). apply bind_ok in E3. destruct E3 as (mp & E6 & E3). apply bind_ok in E3. destruct E3 as (r & E7 & E3). apply mapping_mod in E6. apply registration_mod in E7.
    subst mp r. injection E3 as <-. exists (Some u). repeat split; auto.
  - injection E3 as <-. exists None. repeat split.
Qed.
Lemma front_mods a : front = Ok a -> exists l, lidar_nodes P = Ok l /\ a = [fe_mod P; pf_mod] ++ match l with Some (ns, u) => map (stage u) ns | None => [] end.
Proof.
  unfold frontend_node. intros H. apply bind_ok in H. destruct H as (fe & E1 & H). apply bind_ok in H. destruct H as (pf & E2 & H). apply bind_ok in H. destruct H as (l & E3 & H).
  apply bind_ok in H. destruct H as (t & E5 & H). injection H as <-. apply frontend_mod in E1. apply formatter_mod in E2. subst fe pf. exists l. split; [exact E3 | reflexivity].
Qed.
(* the same modules in one process or in two *)
Theorem split_same ms a b : single = Ok ms -> front = Ok a -> back = Ok b -> Permutation ms (a ++ b).
Proof.
  intros H Ha Hb. apply single_mods in H. destruct H as (l & Hl & ->). apply front_mods in Ha. destruct Ha as (l' & Hl' & ->). rewrite Hl in Hl'. injection Hl' as <-.
  apply back_mods in Hb. destruct Hb as (lb & Hb & ->).
  assert (E : lidar_mods P l = match l with Some (ns, u) => map (stage u) ns | None => [] end ++ match lb with Some u => [mp_mod u; rg_mod P u] | None => [] end).
  { destruct l as [[ns u]|].
    - apply lidar_shape in Hl. destruct Hl as (Er & _ & _ & Eu). destruct lb as [v|]; [|congruence]. destruct Hb as [_ Hb]. rewrite Eu in Hb. injection Hb as <-. reflexivity.
    - apply lidar_none in Hl. destruct lb as [v|]; [destruct Hb as [Hb _]; congruence | reflexivity]. }
  rewrite E. generalize (match l with Some (ns, u) => map (stage u) ns | None => [] end), (match lb with Some u => [mp_mod u; rg_mod P u] | None => [] end), (when (stereo_on P) [sf_mod P]).
  intros x y z. cbn [app].
  transitivity (fe_mod P :: tf_mod :: op_mod P :: pf_mod :: (x ++ y) ++ z); [apply perm_swap|]. apply perm_skip.
  transitivity (pf_mod :: tf_mod :: op_mod P :: (x ++ y) ++ z).
  { transitivity (tf_mod :: pf_mod :: op_mod P :: (x ++ y) ++ z); [apply perm_skip; apply perm_swap | apply perm_swap]. }
  apply perm_skip. rewrite <- app_assoc.
  transitivity (x ++ tf_mod :: op_mod P :: y ++ z); [|reflexivity].
  transitivity (tf_mod :: x ++ op_mod P :: y ++ z); [apply perm_skip; apply Permutation_middle | apply Permutation_middle].
Qed.
(* and the same configurations are accepted *)
Theorem split_starts : (exists ms, single = Ok ms) <-> (exists a, front = Ok a) /\ (exists b, back = Ok b).
Proof.
  unfold WrModel.single, frontend_node, backend_node. split.
  - intros (ms & H). apply bind_ok in H. destruct H as (tf & E1 & H). apply bind_ok in H. destruct H as (fe & E2 & H). apply bind_ok in H. destruct H as (o & E3 & H).
    apply bind_ok in H. destruct H as (pf & E4 & H). apply bind_ok in H. destruct H as (l & E5 & H). apply bind_ok in H. destruct H as (rg & E6 & H). apply bind_ok in H. destruct H as (s & E7 & H).
    apply bind_ok in H. destruct H as (t & E8 & _). rewrite E1, E2, E3, E4, E5, E7, E8. cbn [rbind]. split; [eexists; reflexivity|].
    destruct l as [[ns u]|].
    + pose proof (lidar_shape P ns u E5) as (-> & _ & _ & ->). cbn [rbind]. apply bind_ok in E6. destruct E6 as (mp & -> & E6). cbn [rbind]. apply bind_ok in E6. destruct E6 as (r & -> & E6). cbn [rbind]. eexists; reflexivity.
    + apply lidar_none in E5. rewrite E5. cbn [rbind]. eexists; reflexivity.
  - intros ((a & Ha) & (b & Hb)). apply bind_ok in Ha. destruct Ha as (fe & E1 & Ha). apply bind_ok in Ha. destruct Ha as (pf & E2 & Ha). apply bind_ok in Ha. destruct Ha as (l & E3 & Ha).
    apply bind_ok in Hb. destruct Hb as (tf & E5 & Hb). apply bind_ok in Hb. destruct Hb as (o & E6 & Hb). apply bind_ok in Hb. destruct Hb as (rg & E7 & Hb). apply bind_ok in Hb. destruct Hb as (s & E8 & Hb).
    apply bind_ok in Hb. destruct Hb as (t & E9 & _). rewrite E5, E1, E6, E2, E3. cbn [rbind]. destruct l as [[ns u]|].
    + pose proof (lidar_shape P ns u E3) as (Er & _ & _ & Eu). rewrite Er, Eu in E7. cbn [rbind] in E7. apply bind_ok in E7. destruct E7 as (mp & -> & E7). cbn [rbind]. apply bind_ok in E7. destruct E7 as (r & -> & _).
      cbn [rbind]. rewrite E8, E9. cbn [rbind]. eexists; reflexivity.
    + cbn [rbind]. rewrite E8, E9. cbn [rbind]. eexists; reflexivity.
Qed.

(* ---------------------------------------------------------------- which configurations are accepted *)
Lemma sensor_can s : can (to_sensor_type s) <-> In s ["OUSTER"; "CUSTOM"].
Proof.
  unfold to_sensor_type, can. destruct (String.eqb_spec s "OUSTER") as [->|N1]; [split; [intros _; left; reflexivity | intros _; eexists; reflexivity]|].
  destruct (String.eqb_spec s "CUSTOM") as [->|N2]; [split; [intros _; right; left; reflexivity | intros _; eexists; reflexivity]|].
  split; [intros [x H]; discriminate H | cbn; intuition congruence].
Qed.
Lemma extraction_can s : can (to_extraction s) <-> In s ["NEARBY"; "PAST"].
Proof.
  unfold to_extraction, can. destruct (String.eqb_spec s "NEARBY") as [->|N1]; [split; [intros _; left; reflexivity | intros _; eexists; reflexivity]|].
  destruct (String.eqb_spec s "PAST") as [->|N2]; [split; [intros _; right; left; reflexivity | intros _; eexists; reflexivity]|].
  split; [intros [x H]; discriminate H | cbn; intuition congruence].
Qed.
Lemma nonzero_iff q : nonzero q = true <-> ~ (q == 0)%Q.
Proof. unfold nonzero. rewrite negb_true_iff. split; [intros H E; apply Qeq_bool_iff in E; congruence | intros N; destruct (Qeq_bool q 0) eqn:E; [exfalso; apply N; apply Qeq_bool_iff; exact E | reflexivity]]. Qed.
Lemma square_pos q : negb (Qle_bool (sq q) 0) = true <-> ~ (q == 0)%Q.
Proof.
  rewrite negb_true_iff. unfold sq. split.
  - intros H E. assert (Qle_bool (q * q) 0 = true) by (apply Qle_bool_iff; rewrite E; apply Qle_refl). congruence.
  - intros N. destruct (Qle_bool (q * q) 0) eqn:E; [|reflexivity]. apply Qle_bool_iff in E. exfalso. apply N. unfold Qle, Qeq, Qmult in *. cbn in *. nia.
Qed.
Lemma size_ok w : ((w <? 1) || (w mod 2 =? 0))%Z = false <-> odd_size w.
Proof.
  unfold odd_size. rewrite orb_false_iff, Z.ltb_ge, Z.eqb_neq. pose proof (Z.mod_pos_bound w 2). lia.
Qed.
Lemma matcher_iff w h r : StModel.matcher_ok (w, h) r = true <-> odd_size w /\ odd_size h /\ (0 < r < 1)%Q.
Proof.
  unfold StModel.matcher_ok, StModel.qle. cbn [fst snd]. rewrite andb_true_iff, !negb_true_iff, <- !size_ok, !orb_false_iff.
  assert (A : Qle_bool r 0 = false <-> (0 < r)%Q) by (split; intros H; [apply Qnot_le_lt; intros L; apply Qle_bool_iff in L; congruence | destruct (Qle_bool r 0) eqn:E; [apply Qle_bool_iff in E; exfalso; apply (Qlt_not_le _ _ H E) | reflexivity]]).
  assert (B : Qle_bool 1 r = false <-> (r < 1)%Q) by (split; intros H; [apply Qnot_le_lt; intros L; apply Qle_bool_iff in L; congruence | destruct (Qle_bool 1 r) eqn:E; [apply Qle_bool_iff in E; exfalso; apply (Qlt_not_le _ _ H E) | reflexivity]]).
  rewrite A, B. tauto.
Qed.
Lemma when_true (b c : bool) : (if b then c else true) = true <-> (b = true -> c = true). Proof. destruct b, c; intuition discriminate. Qed.
Lemma has_iff b f : BfModel.has_frame b f = true <-> exists id, BfModel.frame_id b f = Ok id.
Proof.
  unfold BfModel.has_frame, BfModel.frame_id, BfModel.at_. destruct (sget f (BfModel.bf_ids b)) as [x|]; split; intros H; try reflexivity; try discriminate H; [exists x; reflexivity | destruct H as [i H]; discriminate H].
Qed.

Theorem accepted_iff : (exists ms, single = Ok ms) <-> accepted look estimator_ok P cfg.
Proof.
  split.
  - intros (ms & H). unfold WrModel.single in H. apply bind_ok in H. destruct H as (tf & E1 & H). apply bind_ok in H. destruct H as (fe & E2 & H). apply bind_ok in H. destruct H as (o & E3 & H).
    apply bind_ok in H. destruct H as (pf & E4 & H). apply bind_ok in H. destruct H as (l & E5 & H). apply bind_ok in H. destruct H as (rg & E6 & H). apply bind_ok in H. destruct H as (s & E7 & H).
    apply bind_ok in H. destruct H as (t & E8 & _). apply demand_ok in E8.
    unfold frames_tf in E1. apply bind_ok in E1. destruct E1 as (b & Eb & E1). apply bind_ok in E1. destruct E1 as (tfs & E1 & _). unfold frames in Eb.
    unfold frontend in E2. unfold frames in E2. rewrite Eb in E2. cbn [rbind] in E2. binds E2. apply demand_ok in E, E0, E9, E11.
    unfold optimisation in E3. unfold frames in E3. rewrite Eb in E3. cbn [rbind] in E3. rewrite E10 in E3. cbn [rbind] in E3. cbv zeta in E3. binds E3. apply demand_ok in E12, E14, E15.
    unfold formatter in E4. unfold frames in E4. rewrite Eb in E4. cbn [rbind] in E4. binds E4.
    rewrite when_true in E0, E9, E11, E14, E15.
    assert (Es : stereo_on P = true -> can (BfModel.body_to_frame look b (p_str P "stereo_factors/left_cam_frame" "stereo") 0) /\ can (robust_ok estimator_ok P)).
    { intros Hs. rewrite Hs in E13. apply bind_ok in E13. destruct E13 as (x & Ex & E13). split; [exists x; exact Ex | eexists; exact E13]. }
    assert (Er : reg_on P = true -> exists u, can (mapping look P cfg u) /\ can (registration look P cfg u)).
    { intros Hr. destruct l as [[ns u]|]; [|apply lidar_none in E5; congruence]. apply bind_ok in E6. destruct E6 as (mp & F1 & E6). apply bind_ok in E6. destruct E6 as (r & F2 & _). exists u. split; eexists; eassumption. }
    assert (Ef : stereo_on P = true -> can (stereo_finder P)) by (intros Hs; rewrite Hs in E7; apply bind_ok in E7; destruct E7 as (x & Ex & _); exists x; exact Ex).
    constructor.
    + exists b. split; [exact Eb|]. split; [eexists; exact E1|]. split; [apply has_iff; exact E|]. split; [eexists; exact E10|]. split.
      * intros Hs. apply st_on in Hs. apply (Es Hs).
      * intros Hr. apply rg_on in Hr. destruct (Er Hr) as (u & _ & [r R]). unfold registration in R. unfold frames in R. rewrite Eb in R. cbn [rbind] in R. binds R. eexists; eassumption.
    + intros Hs. apply st_on in Hs. specialize (E0 Hs). apply andb_true_iff in E0. rewrite !on_bool. exact E0.
    + intros Ho. apply on_bool in Ho. specialize (E9 Ho). unfold preintegration_ok in E9. rewrite !andb_true_iff, !nonzero_iff in E9. tauto.
    + intros Ho. apply on_bool in Ho. specialize (E11 Ho). apply square_pos in E11. exact E11.
    + intros Hb. apply ba_on in Hb. specialize (E14 Hb). apply nonzero_iff in E14. exact E14.
    + apply orb_true_iff in E12. rewrite !String.eqb_eq in E12. destruct E12 as [->| ->]; cbn; tauto.
    + intros Hs Ho. apply st_on in Hs. apply on_bool in Ho. destruct (Es Hs) as (_ & R). unfold robust_ok in R. rewrite Ho in R. apply bind_can in R. destruct R as (r & R & D). exists r. split; [exact R|].
      intros e ->. apply demand_can in D. exact D.
    + intros Hm. apply on_bool in Hm. specialize (E15 Hm). apply Z.leb_le in E15. exact E15.
    + apply sensor_can. eexists; eassumption.
    + exists l. exact E5.
    + intros Hr. apply rg_on in Hr. destruct (Er Hr) as (u & _ & [r R]). unfold registration in R. unfold frames in R. rewrite Eb in R. cbn [rbind] in R. binds R. split; eexists; eassumption.
    + intros Hr. apply rg_on in Hr. destruct (Er Hr) as (u & [m M] & _). unfold mapping in M. unfold frames in M. rewrite Eb in M. cbn [rbind] in M. binds M. split.
      * match goal with X : demand (Z.leb _ _) = Ok _ |- _ => apply demand_ok in X; apply Z.leb_le in X; exact X end.
      * apply extraction_can. eexists; eassumption.
    + intros Hs. apply st_on in Hs. destruct (Ef Hs) as [m M]. unfold stereo_finder in M. binds M. split; [eexists; eassumption|].
      match goal with X : demand _ = Ok _ |- _ => apply demand_ok in X; apply matcher_iff in X; exact X end.
    + apply Z.leb_le in E8. exact E8.
  - intros [A1 A2 A3 A4 A5 A6 A7 A8 A9 A10 A11 A12 A13 A14]. destruct A1 as (b & Eb & [tfs Et] & Hb & [ti Hi] & Hs & Hr). destruct A10 as [l Hl].
    assert (Fr : frames look cfg = Ok b) by exact Eb.
    assert (F1 : can (frames_tf look cfg)) by (unfold frames_tf; rewrite Fr; cbn [rbind]; rewrite Et; cbn [rbind]; apply ok_can).
    assert (F2 : can (frontend look P cfg)).
    { unfold frontend. rewrite Fr. cbn [rbind]. apply has_iff in Hb. rewrite Hb. cbn [demand rbind].
      assert (X1 : (if stereo_on P then p_bool P "mdc/translation" true && p_bool P "mdc/rotation" true else true) = true).
      { apply when_true. intros X. apply st_on in X. rewrite !on_bool in A2. apply andb_true_iff. exact (A2 X). }
      rewrite X1. cbn [demand rbind].
      assert (X2 : (if p_bool P "imu/noise/overwrite" false then preintegration_ok P else true) = true).
      { apply when_true. intros X. apply on_bool in X. unfold preintegration_ok. rewrite !andb_true_iff, !nonzero_iff. specialize (A3 X). tauto. }
      rewrite X2. cbn [demand rbind]. rewrite Hi. cbn [rbind].
      assert (X3 : (if p_bool P "barometer/noise/overwrite" false then negb (Qle_bool (sq (p_num P "barometer/noise/barometer" (1#100))) 0) else true) = true).
      { apply when_true. intros X. apply on_bool in X. apply square_pos. exact (A4 X). }
      rewrite X3. cbn [demand rbind]. apply ok_can. }
    assert (F3 : can (optimisation look estimator_ok P cfg)).
    { unfold optimisation. rewrite Fr. cbn [rbind]. rewrite Hi. cbn [rbind]. cbv zeta.
      assert (X1 : String.eqb (p_str P "isam2/optimization" "GaussNewton") "GaussNewton" || String.eqb (p_str P "isam2/optimization" "GaussNewton") "Dogleg" = true).
      { apply orb_true_iff. rewrite !String.eqb_eq. cbn in A6. intuition. }
      rewrite X1. cbn [demand rbind].
      assert (X2 : (if stereo_on P then rbind (BfModel.body_to_frame look b (p_str P "stereo_factors/left_cam_frame" "stereo") 0) (fun _ => robust_ok estimator_ok P) else Ok tt) = Ok tt).
      { destruct (stereo_on P) eqn:X; [|reflexivity]. apply st_on in X. destruct (Hs X) as [x ->]. cbn [rbind]. unfold robust_ok. destruct (p_bool P "stereo_factors/robust/enabled" true) eqn:Y; [|reflexivity].
        apply on_bool in Y. destruct (A7 X Y) as (r & -> & K). cbn [rbind]. destruct r as [e|]; [|reflexivity]. rewrite (K e eq_refl). reflexivity. }
      rewrite X2. cbn [rbind].
      assert (X3 : (if baro_on P then nonzero (p_num P "barometer/noise/barometer_bias" (1#1000000)) else true) = true).
      { apply when_true. intros X. apply ba_on in X. apply nonzero_iff. exact (A5 X). }
      rewrite X3. cbn [demand rbind].
      assert (X4 : (if p_bool P "optimisation/marginalisation/enabled" false then (0 <=? p_int P "optimisation/marginalisation/window_size" 100)%Z else true) = true).
      { apply when_true. intros X. apply on_bool in X. apply Z.leb_le. exact (A8 X). }
      rewrite X4. cbn [demand rbind]. apply ok_can. }
    assert (F4 : can (formatter look P cfg)).
    { unfold formatter. rewrite Fr. cbn [rbind]. apply sensor_can in A9. destruct A9 as [y ->]. cbn [rbind]. apply ok_can. }
    assert (F5 : reg_on P = true -> forall u, can (mapping look P cfg u) /\ can (registration look P cfg u)).
    { intros X u. apply rg_on in X. destruct (A11 X) as [[mm Em] [rc Erc]]. destruct (A12 X) as [Kn Km]. destruct (Hr X) as [tl Hl'].
      unfold mapping, registration. rewrite Fr. cbn [rbind]. apply Z.leb_le in Kn. rewrite Kn. cbn [demand rbind]. apply extraction_can in Km. destruct Km as [y ->]. cbn [rbind].
      rewrite Em, Erc. cbn [rbind]. rewrite Hl'. cbn [rbind]. split; apply ok_can. }
    assert (F6 : stereo_on P = true -> can (stereo_finder P)).
    { intros X. apply st_on in X. destruct (A13 X) as ([y Ey] & K). unfold stereo_finder. rewrite Ey. cbn [rbind]. apply matcher_iff in K. rewrite K. cbn [demand rbind]. apply ok_can. }
    destruct F1 as [m1 F1]. destruct F2 as [m2 F2]. destruct F3 as [m3 F3]. destruct F4 as [m4 F4]. unfold WrModel.single. rewrite F1, F2, F3, F4, Hl. cbn [rbind].
    assert (T : threads_ok P = Ok tt) by (unfold threads_ok; apply Z.leb_le in A14; rewrite A14; reflexivity).
    assert (S' : exists x, (if stereo_on P then rbind (stereo_finder P) (fun s => Ok [s]) else Ok []) = Ok x).
    { destruct (stereo_on P) eqn:X; [|eexists; reflexivity]. destruct (F6 eq_refl) as [y ->]. eexists. reflexivity. }
    destruct S' as [x Ex].
    destruct l as [[ns u]|].
    + pose proof (lidar_shape P ns u Hl) as (X & _). destruct (F5 X u) as [[y1 ->] [y2 ->]]. cbn [rbind]. rewrite Ex. cbn [rbind]. rewrite T. cbn [rbind]. eexists; reflexivity.
    + cbn [rbind]. rewrite Ex. cbn [rbind]. rewrite T. cbn [rbind]. eexists; reflexivity.
Qed.

(* ---------------------------------------------------------------- tools beside the system *)
Theorem metrics_fed ms p : single = Ok ms -> In p measured ->
  (publishes ms p <-> (topic p = "/serpent/registration/transform" -> with_registration P)) /\
  (forall q, publishes ms q -> topic q = topic p -> kind q = kind p).
Proof.
  intros H I. pose proof (single_one_publisher look estimator_ok P cfg ms H) as N.
  assert (Rg : with_registration P -> publishes ms (Port "/serpent/registration/transform" PoseCov)).
  { intros G. apply rg_on in G. pose proof H as H'. apply single_mods in H'. destruct H' as (l & Hl & ->). destruct l as [[ns u]|]; [|apply lidar_none in Hl; congruence].
    exists (rg_mod P u). split; [|left; reflexivity]. apply in_or_app. right. apply in_or_app. left. cbn [lidar_mods]. apply in_or_app. right. right. left. reflexivity. }
  assert (Nr : forall q, publishes ms q -> topic q = "/serpent/registration/transform" -> with_registration P /\ kind q = PoseCov).
  { intros q Iq E. pose proof H as H'. apply single_mods in H'. destruct H' as (l & Hl & Em). rewrite Em in Iq. apply pubs_in in Iq. rewrite !flat_map_app in Iq. apply in_app_or in Iq. destruct Iq as [Iq|Iq]; [|apply in_app_or in Iq; destruct Iq as [Iq|Iq]].
    - exfalso. unfold fe_mod, op_mod, tf_mod, pf_mod in Iq. cbn [flat_map m_pubs] in Iq. rewrite !in_app_iff, !in_when in Iq. cbn [In] in Iq. parts; subst q; discriminate E.
    - destruct (lidar_pub l q Hl Iq) as (Hr & _). assert (G : with_registration P) by (apply rg_on; exact Hr). split; [exact G|].
      assert (Iq' : publishes ms q) by (rewrite Em; apply pubs_in; rewrite !flat_map_app; apply in_or_app; right; apply in_or_app; left; exact Iq).
      specialize (Rg G). apply pubs_in in Iq', Rg. rewrite (nodup_map_inj topic _ q _ N Iq' Rg E). reflexivity.
    - exfalso. apply in_flat_map in Iq. destruct Iq as (m & Im & Iq). apply in_when in Im. destruct Im as (_ & [<-|[]]). unfold sf_mod in Iq. cbn [m_pubs] in Iq. rewrite !in_app_iff, !in_when in Iq. cbn [In] in Iq. parts; subst q; discriminate E. }
  assert (Pa : publishes ms (Port "/serpent/output/path" Path)) by (apply (outputs_published ms _ H); constructor).
  assert (Po : publishes ms (Port "/serpent/output/pose" PoseCov)) by (apply (outputs_published ms _ H); constructor).
  assert (Un : forall a q, publishes ms a -> publishes ms q -> topic q = topic a -> kind q = kind a).
  { intros a q Ia Iq E. apply pubs_in in Ia, Iq. rewrite (nodup_map_inj topic _ q a N Iq Ia E). reflexivity. }
  unfold measured in I. cbn [In] in I. parts; subst p.
  - split; [split; [intros _ E; discriminate E | intros _; exact Pa] | intros q Iq E; exact (Un _ q Pa Iq E)].
  - split; [split; [intros _ E; discriminate E | intros _; exact Po] | intros q Iq E; exact (Un _ q Po Iq E)].
  - split; [split; [intros Ip _; exact (proj1 (Nr _ Ip eq_refl)) | intros K; apply Rg; exact (K eq_refl)] | intros q Iq E; exact (proj2 (Nr q Iq E))].
Qed.
(* of the topics recorded by default, three are always there and two are of no use without more switches *)
Theorem recorded_available ms t : single = Ok ms -> In t recorded ->
  ((exists k, publishes ms (Port t k)) <->
   In t ["/serpent/optimisation/odometry"; "/serpent/optimisation/imu_biases"; "/serpent/output/path"] \/
   t = "/serpent/registration/transform" /\ with_registration P \/
   t = "/serpent/stereo/statistics" /\ with_stereo P /\ on_ P "debug/stereo/publish_stats" false).
Proof.
  intros H I. assert (Tp : forall k, publishes ms (Port t k) -> In t all_topics).
  { intros k Ip. pose proof (single_topics look estimator_ok P cfg ms H) as T. apply (sub_in _ _ _ T). apply pubs_in in Ip. exact (in_map topic _ _ Ip). }
  pose proof (metrics_fed ms (Port "/serpent/registration/transform" PoseCov) H (or_intror (or_intror (or_introl eq_refl)))) as [M Mk].
  pose proof H as H'. apply single_mods in H'. destruct H' as (l & Hl & Em). unfold recorded in I. cbn [In] in I. parts; subst t.
  - split; [intros _; left; cbn; tauto|]. intros _. exists Odometry. rewrite Em. exists (op_mod P). split; [cbn; tauto | cbn; tauto].
  - split; [intros _; left; cbn; tauto|]. intros _. exists ImuBiases. rewrite Em. exists (op_mod P). split; [cbn; tauto | cbn; tauto].
  - split.
    + intros [k Ip]. right. left. split; [reflexivity|]. pose proof (Mk _ Ip eq_refl) as E. cbn in E. subst k. exact (proj1 M Ip eq_refl).
    + intros [X|[[_ X]|[X _]]]; [cbn in X; parts; discriminate | | discriminate X]. exists PoseCov. apply M. intros _. exact X.
  - split.
    + intros [k Ip]. right. right. split; [reflexivity|]. rewrite Em in Ip. apply pubs_in in Ip. rewrite !flat_map_app in Ip. apply in_app_or in Ip. destruct Ip as [Ip|Ip]; [|apply in_app_or in Ip; destruct Ip as [Ip|Ip]].
      * exfalso. unfold fe_mod, op_mod, tf_mod, pf_mod in Ip. cbn [flat_map m_pubs] in Ip. rewrite !in_app_iff, !in_when in Ip. cbn [In] in Ip. parts; discriminate Ip.
      * exfalso. destruct (lidar_pub l _ Hl Ip) as (_ & [[T _]|[[u I']|[u I']]]).
        -- cbn [topic] in T. vm_compute in T. parts; discriminate T.
        -- unfold mp_mod in I'. cbn [m_pubs In] in I'. parts; discriminate I'.
        -- unfold rg_mod in I'. cbn [m_pubs] in I'. rewrite !in_app_iff, !in_when in I'. cbn [In] in I'. parts; discriminate I'.
      * apply in_flat_map in Ip. destruct Ip as (m & Im & Ip). apply in_when in Im. destruct Im as (Es & [<-|[]]). split; [apply st_on; exact Es|]. apply on_bool.
        unfold sf_mod in Ip. cbn [m_pubs] in Ip. rewrite !in_app_iff, !in_when in Ip. cbn [In] in Ip. parts; try discriminate Ip. assumption.
    + intros [X|[[X _]|(_ & Hs & Hd)]]; [cbn in X; parts; discriminate | discriminate X|]. exists StereoStatistics. rewrite Em. exists (sf_mod P). apply st_on in Hs. apply on_bool in Hd. split.
      * apply in_or_app. right. apply in_or_app. right. rewrite Hs. left. reflexivity.
      * unfold sf_mod. cbn [m_pubs]. rewrite !in_app_iff, !in_when. right. left. split; [exact Hd | left; reflexivity].
  - split; [intros [k Ip]; exfalso; apply Tp in Ip; vm_compute in Ip; parts; discriminate Ip|]. intros [X|[[X _]|(X & _)]]; [cbn in X; parts; discriminate | discriminate X | discriminate X].
  - split; [intros _; left; cbn; tauto|]. intros _. exists Path. apply (outputs_published ms _ H). constructor.
Qed.
(* the services have different names *)
Theorem services_distinct ms : single = Ok ms -> NoDup (flat_map m_srvs ms) /\ In "/serpent/lookup_transform" (flat_map m_srvs ms) /\
  (with_registration P -> In "/serpent/publish_map" (flat_map m_srvs ms) /\ In "/serpent/publish_pose_graph" (flat_map m_srvs ms)).
Proof.
  intros H. apply single_mods in H. destruct H as (l & Hl & ->). rewrite !flat_map_app.
  assert (S0 : forall u ns, flat_map m_srvs (map (stage u) ns) = []) by (intros u ns; induction ns as [|n ns IH]; [reflexivity | exact IH]).
  assert (S1 : flat_map m_srvs (when (stereo_on P) [sf_mod P]) = []) by (destruct (stereo_on P); reflexivity).
  assert (S2 : flat_map m_srvs (lidar_mods P l) = match l with Some _ => ["/serpent/publish_map"; "/serpent/publish_pose_graph"] | None => [] end)
    by (destruct l as [[ns u]|]; [cbn [lidar_mods]; rewrite flat_map_app, S0; reflexivity | reflexivity]).
  rewrite S1, S2. change (flat_map m_srvs [tf_mod; fe_mod P; op_mod P; pf_mod]) with ["/serpent/lookup_transform"].
  split; [|split; [left; reflexivity|]].
  - destruct l; cbn; repeat constructor; cbn; intuition discriminate.
  - intros G. apply rg_on in G. destruct l; [cbn; tauto | apply lidar_none in Hl; congruence].
Qed.
(* the tracker alone reads what the front end of a system with stereo factors publishes, under any factors *)
Theorem stereo_alone ms p : stereo_node look P cfg = Ok ms -> reads ms p <->
  In p [Port "/serpent/stereo/left/image" Image; Port "/serpent/stereo/right/image" Image; Port "/serpent/stereo/left/camera_info" CameraInfo; Port "/serpent/stereo/right/camera_info" CameraInfo].
Proof.
  intros H. unfold stereo_node in H. apply bind_ok in H. destruct H as (tf & E1 & H). apply bind_ok in H. destruct H as (s & E2 & H). apply bind_ok in H. destruct H as (t & E3 & H). injection H as <-.
  apply frames_tf_mod in E1. apply stereo_mod in E2. subst tf s. rewrite subs_in. cbn [flat_map tf_mod sf_mod m_subs app]. reflexivity.
Qed.
Theorem stereo_alone_starts : can (stereo_node look P cfg) <->
  (exists b, BfModel.load look cfg = Ok b /\ can (BfModel.static_transforms look b)) /\ can (stereo_config P) /\
  odd_size (p_int P "stereo_tracking/stereo_keypoint_matcher/window_size/width" 3) /\
  odd_size (p_int P "stereo_tracking/stereo_keypoint_matcher/window_size/height" 3) /\
  (0 < p_num P "stereo_tracking/stereo_keypoint_matcher/ratio" (1#2) < 1)%Q /\ (1 <= p_int P "threads" 4)%Z.
Proof.
  unfold stereo_node, frames_tf, stereo_finder, threads_ok, frames. split.
  - intros H. binds H. apply bind_ok in E. destruct E as (b & Eb & E). apply bind_ok in E. destruct E as (x & Ex & _). apply bind_ok in E0. destruct E0 as (c & Ec & E0). apply bind_ok in E0. destruct E0 as (y & Ey & _).
    apply demand_ok in Ey, E1. apply matcher_iff in Ey. apply Z.leb_le in E1. split; [exists b; split; [exact Eb | eexists; exact Ex]|]. split; [eexists; exact Ec|]. tauto.
  - intros ((b & Eb & [x Ex]) & [c Ec] & K1 & K2 & K3 & K4). rewrite Eb. cbn [rbind]. rewrite Ex. cbn [rbind]. rewrite Ec. cbn [rbind].
    assert (K : StModel.matcher_ok (p_int P "stereo_tracking/stereo_keypoint_matcher/window_size/width" 3, p_int P "stereo_tracking/stereo_keypoint_matcher/window_size/height" 3)
                                   (p_num P "stereo_tracking/stereo_keypoint_matcher/ratio" (1#2)) = true) by (apply matcher_iff; auto).
    rewrite K. cbn [demand rbind]. apply Z.leb_le in K4. rewrite K4. cbn [demand rbind]. eexists; reflexivity.
Qed.
End Start.
