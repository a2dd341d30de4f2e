(* Proofs about configuration and wiring.                                                             *)
From Verif Require Import Base NetModel NetSpec NetProofs NetMore CfgModel CfgSpec.
From Coq Require Import QArith Qround.
Open Scope string_scope.
Open Scope list_scope.

(* ---------------------------------------------------------------- names *)
Ltac names :=
  split;
  [ intros s a; split;
    [ match goal with |- ?f s = _ -> _ => unfold f end;
      repeat match goal with |- context [String.eqb s ?n] => destruct (String.eqb_spec s n) as [->|?] end;
      cbn [orb]; intros E; try discriminate E; injection E as <-; cbn; tauto
    | cbn; intros H; repeat destruct H as [H|H]; try contradiction; injection H as <- <-; reflexivity ]
  | intros s H; cbn in H;
    match goal with |- ?f s = _ => unfold f end;
    repeat match goal with |- context [String.eqb s ?n] => destruct (String.eqb_spec s n) as [->|?]; [exfalso; apply H; auto 12|] end;
    reflexivity ].

Definition cov_methods := [("CONSTANT", CM_CONSTANT); ("CENSI", CM_CENSI); ("LLS", CM_LLS)].
Definition cov_models := [("POINT_TO_POINT_LINEARISED", P2P_LIN); ("POINT_TO_POINT_NONLINEAR", P2P_NONLIN);
                          ("POINT_TO_PLANE_LINEARISED", P2PL_LIN); ("POINT_TO_PLANE_NONLINEAR", P2PL_NONLIN)].
Definition point_methods := [("CONSTANT", PM_CONSTANT); ("VOXEL_SIZE", PM_VOXEL_SIZE); ("RANGE", PM_RANGE); ("RANGE_BIAS", PM_RANGE_BIAS)].
Definition reg_methods := [("NONE", RM_NONE); ("MIN_EIG", RM_MIN_EIG); ("NORMALIZED_MIN_EIG", RM_NORMALIZED_MIN_EIG);
                           ("PLANE", RM_PLANE); ("FROBENIUS", RM_FROBENIUS)].
Definition voxel_modes := [("ADDITIVE", VM_ADDITIVE); ("ADDITIVE_WEIGHTED", VM_ADDITIVE_WEIGHTED); ("MULTIPLICATIVE", VM_MULTIPLICATIVE)].
Definition neighbours := [("DIRECT27", NS_DIRECT27); ("DIRECT7", NS_DIRECT7); ("DIRECT1", NS_DIRECT1); ("DIRECT_RADIUS", NS_DIRECT_RADIUS)].
Definition orb_scores := [("HARRIS_SCORE", HARRIS_SCORE); ("FAST_SCORE", FAST_SCORE)].
Definition norm_types := [("NORM_INF", N_INF); ("NORM_L1", N_L1); ("NORM_L2", N_L2); ("NORM_L2SQR", N_L2SQR); ("NORM_HAMMING", N_HAMMING);
  ("NORM_HAMMING2", N_HAMMING2); ("NORM_TYPE_MASK", N_TYPE_MASK); ("NORM_RELATIVE", N_RELATIVE); ("NORM_MINMAX", N_MINMAX)].
Definition term_types : list (string * Z) := [("COUNT", 1%Z); ("MAX_ITER", 1%Z); ("EPS", 2%Z); ("COUNT+EPS", 3%Z); ("MAX_ITER+EPS", 3%Z)].
Definition fast_types := [("TYPE_5_8", TYPE_5_8); ("TYPE_7_12", TYPE_7_12); ("TYPE_9_16", TYPE_9_16)].
Definition match_filters := [("UNIDIRECTIONAL", UNIDIRECTIONAL); ("BIDIRECTIONAL", BIDIRECTIONAL); ("RATIO_TEST", RATIO_TEST)].
Definition sensor_types := [("OUSTER", OUSTER); ("CUSTOM", CUSTOM)].
Definition extractions := [("NEARBY", NEARBY); ("PAST", PAST)].
Definition reweights := [("BLOCK", RW_BLOCK); ("SCALAR", RW_SCALAR)].

Lemma names_cov : reads_names to_cov_method cov_methods /\ reads_names to_cov_model cov_models /\ reads_names to_point_method point_methods.
Proof. split; [names | split; names]. Qed.
Lemma names_reg : reads_names to_reg_method reg_methods /\ reads_names to_voxel_mode voxel_modes /\ reads_names to_neighbour neighbours.
Proof. split; [names | split; names]. Qed.
Lemma names_stereo : reads_names to_orb_score orb_scores /\ reads_names to_norm_type norm_types /\ reads_names to_term_criteria term_types /\
  reads_names to_fast_type fast_types /\ reads_names to_match_filter match_filters.
Proof. split; [names|]; split; [names|]; split; [names|]; split; names. Qed.
Lemma names_other : reads_names to_sensor_type sensor_types /\ reads_names to_extraction extractions /\ reads_names to_reweight reweights.
Proof. split; [names | split; names]. Qed.
Lemma named : all_named cov_methods /\ all_named cov_models /\ all_named point_methods /\ all_named reg_methods /\ all_named voxel_modes /\
  all_named neighbours /\ all_named orb_scores /\ all_named norm_types /\ all_named fast_types /\ all_named match_filters /\
  all_named sensor_types /\ all_named extractions /\ all_named reweights.
Proof. do 12 (split; [intros []; cbn; tauto|]). intros []; cbn; tauto. Qed.
Lemma printed_names :
  (forall m, to_cov_method (cov_method_str m) = Ok m) /\ (forall m, to_cov_model (cov_model_str m) = Ok m) /\
  (forall m, to_point_method (point_method_str m) = Ok m).
Proof. split; [intros []; reflexivity | split; intros []; reflexivity]. Qed.

(* unit vectors are required exactly for CENSI or LLS with RANGE or RANGE_BIAS *)
Lemma unit_spec c p b : requires_unit_s c p = Ok b ->
  (b = true <-> In c ["CENSI"; "LLS"] /\ In p ["RANGE"; "RANGE_BIAS"]).
Proof.
  unfold requires_unit_s. intros H.
  destruct (to_cov_method c) as [m| |] eqn:E1; try discriminate H. destruct (to_point_method p) as [q| |] eqn:E2; try discriminate H.
  cbn in H. injection H as <-. apply (proj1 (proj1 names_cov)) in E1. apply (proj1 (proj2 (proj2 names_cov))) in E2.
  cbn in E1, E2. repeat destruct E1 as [E1|E1]; try contradiction; injection E1 as <- <-;
  repeat destruct E2 as [E2|E2]; try contradiction; injection E2 as <- <-; cbn; split; intros G; try discriminate G; auto;
  destruct G as [G1 G2]; repeat destruct G1 as [G1|G1]; try discriminate G1; try contradiction;
  repeat destruct G2 as [G2|G2]; try discriminate G2; contradiction.
Qed.

(* ---------------------------------------------------------------- the filter chain *)
Lemma on_bool P k d : on_ P k d <-> p_bool P k d = true.
Proof.
  unfold on_, p_bool. split.
  - intros [E|[-> E]]; [rewrite E; reflexivity|]. destruct (P k) as [[b| | | |]|]; try reflexivity. exfalso. exact (E b eq_refl).
  - destruct (P k) as [[b| | | |]|] eqn:E; intros Hd; subst; auto; right; split; auto; intros b; discriminate.
Qed.
Lemma enabled_filters P : enabled_in P filters
  ((if en_voxel P then [KVoxel] else []) ++ (if en_body P then [KBody] else []) ++ (if en_range P then [KRange] else []) ++
   (if en_sor P then [KSor] else []) ++ (if en_rand P then [KRand] else [])).
Proof.
  unfold filters, en_voxel, en_body, en_range, en_sor, en_rand.
  repeat match goal with |- context [p_bool P ?k ?d] =>
    let E := fresh in assert (E := on_bool P k d); destruct (p_bool P k d) eqn:? end; cbn [app];
  repeat (first [ apply en_on; [tauto|] | apply en_off; [intuition congruence|] | apply en_nil ]).
Qed.
Lemma enabled_inj P fs : forall l l', enabled_in P fs l -> enabled_in P fs l' -> l = l'.
Proof.
  induction fs as [|[k [key d]] fs IH]; intros l l' H H'; inversion H; inversion H'; subst; try contradiction; auto.
  f_equal. apply IH; assumption.
Qed.

Theorem filter_chain P input ns l :
  filter_ctor P input = Ok ns -> enabled_in P filters l -> l <> [] -> ~ In (resolve input) filter_topics ->
  linked op (resolve input) ns "/serpent/filter/filtered_pointcloud" /\ NoDup (topics op (resolve input) ns) /\
  map (fun n => kind_of (n_op op n)) ns = l /\ incl (map (n_pub op) ns) filter_topics.
Proof.
  intros Hc He Hl Hi. pose proof (enabled_inj _ _ _ _ He (enabled_filters P)) as E. subst l.
  unfold filter_ctor in Hc. cbv zeta in Hc.
  assert (N : forall t, In t filter_topics -> resolve input <> t) by (intros t Ht Et; apply Hi; rewrite Et; exact Ht).
  destruct (en_voxel P), (en_body P), (en_range P), (en_sor P), (en_rand P); cbn [orb app] in Hc;
  (try (destruct (_ <? 0)%Z; [discriminate Hc|]; destruct (_ <? 0)%Z; [discriminate Hc|])); injection Hc as <-;
  try (exfalso; apply Hl; reflexivity);
  (split; [cbn; repeat split; reflexivity|]; split;
   [ unfold topics; cbn [map n_pub mk app];
     constructor; [intros HI; cbn [In] in HI; repeat destruct HI as [HI|HI]; try contradiction; symmetry in HI; revert HI; apply N; vm_compute; tauto |];
     repeat (constructor; [vm_compute; intuition discriminate|]); constructor
   | split; [reflexivity | intros t Ht; vm_compute in Ht; vm_compute; tauto] ]).
Qed.

(* with no filter enabled the class subscribes to nothing and never publishes its advertised topic *)
Theorem no_filter P input : enabled_in P filters [] -> filter_ctor P input = Ok [].
Proof.
  intros He. pose proof (enabled_inj _ _ _ _ He (enabled_filters P)) as E. unfold filter_ctor. cbv zeta.
  destruct (en_voxel P), (en_body P), (en_range P), (en_sor P), (en_rand P); try discriminate E. reflexivity.
Qed.

(* the constructor refuses exactly negative sample sizes and seeds, and only if sampling is on *)
Theorem filter_throws P input :
  (exists ns, filter_ctor P input = Ok ns) \/
  (filter_ctor P input = Throw /\ on_ P "random_sample_filter/enabled" false /\
   (p_int P "random_sample_filter/sample_size" 3000 < 0 \/ p_int P "random_sample_filter/random_seed" 0 < 0)%Z).
Proof.
  unfold filter_ctor. cbv zeta. destruct (en_rand P) eqn:E; [|left; eexists; reflexivity].
  destruct (Z.ltb_spec (p_int P "random_sample_filter/sample_size" 3000) 0) as [H|H];
  [right; split; [reflexivity|]; split; [apply on_bool; exact E | left; exact H]|].
  destruct (Z.ltb_spec (p_int P "random_sample_filter/random_seed" 0) 0) as [H'|H'];
  [right; split; [reflexivity|]; split; [apply on_bool; exact E | right; exact H']|].
  left; eexists; reflexivity.
Qed.

(* ---------------------------------------------------------------- the whole lidar pipeline *)
Definition t_in : string := "/serpent/frontend/deskewed_pointcloud".
Definition t_out : string := "/serpent/normal_estimation/pointcloud".
Definition last_filter (l : list kind) : string := match l with [] => t_in | _ => "/serpent/filter/filtered_pointcloud" end.

Lemma linked_app S t ns t1 ns' t' : linked S t ns t1 -> linked S t1 ns' t' -> linked S t (ns ++ ns') t'.
Proof. revert t. induction ns as [|n ns IH]; cbn; intros t; [intros <-; auto | intros [H1 H2] H3; auto]. Qed.

Lemma nodup_app {A} (a b : list A) : NoDup a -> NoDup b -> (forall x, In x a -> In x b -> False) -> NoDup (a ++ b).
Proof.
  induction a as [|x a IH]; intros Na Nb D; [exact Nb|]. apply NoDup_cons_iff in Na. destruct Na as [Nx Na]. cbn [app]. constructor.
  - intros Hx. apply in_app_or in Hx. destruct Hx as [Hx|Hx]; [contradiction|]. exact (D x (or_introl eq_refl) Hx).
  - apply IH; auto. intros y Hy Hy'. exact (D y (or_intror Hy) Hy').
Qed.

Theorem lidar_chain P ns unit l :
  lidar_nodes P = Ok (Some (ns, unit)) -> enabled_in P filters l ->
  linked op t_in ns t_out /\ NoDup (topics op t_in ns) /\
  map (fun n => kind_of (n_op op n)) ns = l ++ (if unit then [KUnit] else []) ++ [KNormal] /\
  (unit = true <-> In (p_str P "registration_covariance/method" "CENSI") ["CENSI"; "LLS"] /\
                   In (p_str P "registration_covariance/point_covariance/method" "RANGE") ["RANGE"; "RANGE_BIAS"]).
Proof.
  intros Hn He. unfold lidar_nodes in Hn. cbv zeta in Hn.
  destruct (p_bool P "optimisation/factors/registration" true); [|discriminate Hn].
  destruct (requires_unit_s _ _) as [u| |] eqn:Eu; cbn [rbind] in Hn; try discriminate Hn.
  apply unit_spec in Eu.
  pose proof (enabled_inj _ _ _ _ He (enabled_filters P)) as El.
  match type of Hn with context [if ?b then filter_ctor _ _ else _] => remember b as fe eqn:Ef end.
  assert (Hl : l = [] <-> fe = false).
  { subst l fe. unfold en_voxel, en_body, en_range, en_sor, en_rand.
    destruct (p_bool P "voxel_grid_filter/enabled" true), (p_bool P "body_filter/enabled" false), (p_bool P "range_filter/enabled" true),
      (p_bool P "statistical_outlier_removal/enabled" false), (p_bool P "random_sample_filter/enabled" false); cbn; split; congruence. }
  assert (F : exists fs t1, (if fe then filter_ctor P (resolve "frontend/deskewed_pointcloud") else Ok []) = Ok fs /\
              t1 = (if fe then "/serpent/filter/filtered_pointcloud" else t_in) /\
              linked op t_in fs t1 /\ NoDup (topics op t_in fs) /\ map (fun n => kind_of (n_op op n)) fs = l /\ incl (map (n_pub op) fs) filter_topics).
  { destruct fe.
    - destruct (filter_ctor P _) as [fs| |] eqn:Ec; cbn [rbind] in Hn; try discriminate Hn.
      exists fs, "/serpent/filter/filtered_pointcloud". split; [reflexivity|]. split; [reflexivity|].
      change t_in with (resolve (resolve "frontend/deskewed_pointcloud")). apply (filter_chain P _ fs l Ec He).
      + intros ->. destruct Hl as [Hl _]. discriminate (Hl eq_refl).
      + vm_compute. intuition discriminate.
    - exists [], t_in. repeat split; auto.
      + constructor; [intros []|constructor].
      + symmetry. apply Hl. reflexivity.
      + intros x []. }
  destruct F as (fs & t1 & E1 & Et & F1 & F2 & F3 & F4). rewrite E1 in Hn. cbn [rbind] in Hn.
  assert (Hin : forall t, In t (topics op t_in fs) -> In t (t_in :: filter_topics)).
  { intros t [<-|Ht]; [left; reflexivity | right; apply F4; exact Ht]. }
  assert (Ir : resolve (if fe then final_topic else resolve "frontend/deskewed_pointcloud") = t1) by (subst t1; destruct fe; reflexivity).
  match type of Hn with context [normal_ctor P ?i] => destruct (normal_ctor P i) as [nn| |] eqn:En; cbn [rbind] in Hn; try discriminate Hn;
    assert (Hnn : exists o, nn = [mk i o "normal_estimation/pointcloud"] /\ kind_of o = KNormal)
      by (unfold normal_ctor in En; cbv zeta in En; repeat destruct (String.eqb _ _) in En; try discriminate En;
          injection En as <-; eexists; split; reflexivity) end.
  destruct Hnn as (o & -> & Ko). injection Hn as <- <-.
  split; [|split; [|split; [|exact Eu]]].
  - apply (linked_app _ _ _ t1); [exact F1|]. destruct u; (split; [exact Ir|]); repeat split; reflexivity.
  - unfold topics. rewrite map_app, app_comm_cons. apply nodup_app; [exact F2| |].
    + destruct u; cbn; repeat constructor; cbn; intuition discriminate.
    + intros x Hx Hy. specialize (Hin x Hx).
      assert (G : In x ["/serpent/add_unit_vectors/pointcloud"; t_out]) by (destruct u; cbn in Hy |- *; tauto).
      vm_compute in Hin, G. destruct G as [G|[G|[]]]; subst x; repeat destruct Hin as [Hin|Hin]; try discriminate Hin; contradiction.
  - rewrite !map_app. rewrite F3. f_equal. destruct u; cbn; rewrite Ko; reflexivity.
Qed.

(* a configuration accepted by both: the modules downstream get unit vectors exactly if the estimator reads them *)
Definition range_based (p : option point_method) : Prop := p = Some PM_RANGE \/ p = Some PM_RANGE_BIAS.
Theorem unit_agrees P ns unit c : lidar_nodes P = Ok (Some (ns, unit)) -> reg_config P = Ok c -> (unit = true <-> range_based (rc_point c)).
Proof.
  intros Hn Hc. unfold lidar_nodes in Hn. cbv zeta in Hn.
  destruct (p_bool P "optimisation/factors/registration" true); [|discriminate Hn].
  destruct (requires_unit_s _ _) as [u| |] eqn:Eu; cbn [rbind] in Hn; try discriminate Hn.
  match type of Hn with context [rbind ?x _] => destruct x; cbn [rbind] in Hn; try discriminate Hn end.
  destruct (normal_ctor P _); cbn [rbind] in Hn; try discriminate Hn. injection Hn as _ ->.
  unfold requires_unit_s in Eu. unfold reg_config in Hc.
  destruct (to_cov_method _) as [m| |] eqn:Em; cbn [rbind] in *; try discriminate.
  destruct (to_point_method _) as [q| |] eqn:Eq; cbn [rbind] in *; try discriminate. injection Eu as <-.
  destruct m; [injection Hc as <-; cbn; unfold range_based; split; [discriminate|intros [G|G]; discriminate G]| |];
  (destruct (to_cov_model _) as [md| |]; cbn [rbind] in Hc; try discriminate Hc);
  destruct q; cbv zeta in Hc; repeat match type of Hc with (if ?b then _ else _) = _ => destruct b end; try discriminate Hc;
  injection Hc as <-; cbn; unfold range_based; split; intros G; auto; try discriminate G; destruct G as [G|G]; discriminate G.
Qed.

(* when the registration module starts *)
Theorem reg_config_total P :
  let m := p_str P "registration_covariance/method" "CENSI" in
  let md := p_str P "registration_covariance/model" "POINT_TO_PLANE_LINEARISED" in
  let pm := p_str P "registration_covariance/point_covariance/method" "RANGE" in
  (exists c, reg_config P = Ok c) <->
  (m = "CONSTANT" \/
   (In m ["CENSI"; "LLS"] /\ In md (map fst cov_models) /\
    (pm = "CONSTANT" \/ (pm = "VOXEL_SIZE" /\ on_ P "voxel_grid_filter/enabled" true) \/
     (m = "CENSI" /\ In pm ["RANGE"; "RANGE_BIAS"] /\ (0 < p_num P "registration_covariance/point_covariance/range_noise" (5#100))%Q /\
      (pm = "RANGE_BIAS" -> 0 < p_num P "registration_covariance/point_covariance/range_bias_noise" (2#100))%Q)))).
Proof.
  cbv zeta. unfold reg_config. rewrite on_bool.
  generalize (p_str P "registration_covariance/method" "CENSI") as m.
  generalize (p_str P "registration_covariance/model" "POINT_TO_PLANE_LINEARISED") as md.
  generalize (p_str P "registration_covariance/point_covariance/method" "RANGE") as pm. intros pm md m.
  assert (QL : forall q, Qle_bool q 0 = false <-> (0 < q)%Q).
  { intros q. rewrite <- not_true_iff_false, Qle_bool_iff. split; [apply Qnot_le_lt | intros a b; exact (Qlt_not_le _ _ a b)]. }
  assert (T : forall x, Qle_bool x 0 = true -> ~ (0 < x)%Q) by (intros x Hx Hy; apply QL in Hy; congruence).
  split.
  - intros [c Hc]. destruct (to_cov_method m) as [mm| |] eqn:Em; cbn [rbind] in Hc; try discriminate Hc.
    apply (proj1 (proj1 names_cov)) in Em. cbn [In cov_methods] in Em.
    destruct Em as [Em|[Em|[Em|[]]]]; injection Em as <- <-; [left; reflexivity| |]; right; (split; [cbn; tauto|]);
    (destruct (to_cov_model md) as [mo| |] eqn:Eo; cbn [rbind] in Hc; try discriminate Hc;
     apply (proj1 (proj1 (proj2 names_cov))) in Eo; split; [apply (in_map fst) in Eo; exact Eo|];
     destruct (to_point_method pm) as [pp| |] eqn:Ep; cbn [rbind] in Hc; try discriminate Hc;
     apply (proj1 (proj2 (proj2 names_cov))) in Ep; cbn [In point_methods] in Ep;
     destruct Ep as [Ep|[Ep|[Ep|[Ep|[]]]]]; injection Ep as <- <-; cbv zeta in Hc; try discriminate Hc;
     first [ left; reflexivity
           | right; left; split; [reflexivity|]; destruct (p_bool P "voxel_grid_filter/enabled" true); [reflexivity | discriminate Hc]
           | right; right; split; [reflexivity|]; split; [cbn; tauto|];
             repeat match type of Hc with context [Qle_bool ?x 0] => destruct (Qle_bool x 0) eqn:?; try discriminate Hc end;
             repeat match goal with Hx : Qle_bool _ _ = false |- _ => apply QL in Hx end;
             split; [assumption | intros Hx; first [assumption | discriminate Hx]] ]).
  - intros [->|(Hm & Hmd & Hp)]; [eexists; reflexivity|].
    assert (Ed : exists x, to_cov_model md = Ok x).
    { apply in_map_iff in Hmd. destruct Hmd as ((n, x) & En & Hx). cbn in En. subst n. exists x. apply (proj1 (proj1 (proj2 names_cov))). exact Hx. }
    destruct Ed as [x Ed].
    destruct Hp as [->|[[-> Hv]|(-> & Hpm & H1 & H2)]].
    + destruct Hm as [<-|[<-|[]]]; cbn [to_cov_method String.eqb rbind]; rewrite Ed; cbn; eexists; reflexivity.
    + destruct Hm as [<-|[<-|[]]]; cbn [rbind]; unfold to_cov_method; cbn [String.eqb Ascii.eqb Bool.eqb rbind]; rewrite Ed; cbn [rbind]; rewrite Hv; cbn; eexists; reflexivity.
    + unfold to_cov_method; cbn [String.eqb Ascii.eqb Bool.eqb rbind]; rewrite Ed; cbn [rbind].
      apply QL in H1. destruct Hpm as [<-|[<-|[]]].
      * cbn [to_point_method String.eqb Ascii.eqb Bool.eqb rbind]. cbv zeta. rewrite H1. eexists; reflexivity.
      * specialize (H2 eq_refl). apply QL in H2. cbn [to_point_method String.eqb Ascii.eqb Bool.eqb rbind]. cbv zeta. rewrite H2, H1. eexists; reflexivity.
Qed.

(* ---------------------------------------------------------------- robust noise model *)
Definition robust_names : list string :=
  ["cauchy"; "dcs"; "fair"; "geman_mcclure"; "huber"; "l2_with_dead_zone"; "null"; "tukey"; "welsch"].
(* an unknown name is not rejected: the noise model is created around a null estimator *)
Theorem robust_unknown P : ~ In (p_str P "stereo_factors/robust/type" "huber") robust_names -> robust_model P = Ok None.
Proof.
  intros H. unfold robust_model. cbv zeta. cbn [In robust_names] in H.
  repeat match goal with |- context [String.eqb ?s ?n] => destruct (String.eqb_spec s n) as [E|_]; [exfalso; rewrite E in H; tauto|] end. reflexivity.
Qed.
Theorem robust_known P : In (p_str P "stereo_factors/robust/type" "huber") robust_names -> robust_model P <> Ok None.
Proof.
  unfold robust_model, one_par. cbv zeta. cbn [In robust_names]. intros H.
  repeat destruct H as [H|H]; try contradiction; rewrite <- H; cbn [String.eqb Ascii.eqb Bool.eqb];
  try (destruct (to_reweight _); cbn; discriminate); discriminate.
Qed.

(* ---------------------------------------------------------------- body filter *)
Section Body.
  Variable Pt : Type.
  Variable inside : Q * Q * Q -> Q * Q * Q -> Q * Q * Q -> Q * Q * Q -> Pt -> bool.
  Variable range : Pt -> option Q.
  Variable voxel : Q -> Q -> list Pt -> list Pt.
  Variable sor : Z -> Q -> list Pt -> list Pt.
  Variable sample : Z -> Z -> list Pt -> list Pt.
  Variable unit normals : cloud Pt -> cloud Pt.
  Let app_ := apply_op Pt inside range voxel sor sample unit normals.

  (* in every configuration the body filter keeps exactly the points inside the body region *)
  Theorem body_keeps_inside P input ns n mn mx tr rot neg c c' :
    filter_ctor P input = Ok ns -> In n ns -> n_op op n = OBody mn mx tr rot neg -> app_ (n_op op n) c = Ok c' ->
    forall p, In p (pts Pt c') <-> In p (pts Pt c) /\ inside mn mx tr rot p = true.
  Proof.
    intros Hc Hn Ho Ha p.
    assert (Hneg : neg = false).
    { unfold filter_ctor in Hc. cbv zeta in Hc.
      destruct (en_voxel P), (en_body P), (en_range P), (en_sor P), (en_rand P); cbn [app] in Hc;
      (try (destruct (_ <? 0)%Z; [discriminate Hc|]; destruct (_ <? 0)%Z; [discriminate Hc|])); injection Hc as <-;
      cbn [In] in Hn; repeat destruct Hn as [Hn|Hn]; try contradiction; subst n; cbn in Ho; try discriminate Ho; injection Ho; congruence. }
    subst neg. rewrite Ho in Ha. unfold app_ in Ha. cbn in Ha. injection Ha as <-. cbn [pts]. unfold crop. rewrite filter_In, xorb_false_l. reflexivity.
  Qed.
End Body.

(* ---------------------------------------------------------------- settings *)
Lemma p_num_num P k d : is_num P k d (p_num P k d).
Proof. unfold is_num, p_num. destruct (P k) as [[b|z|q|x|l]|]; reflexivity. Qed.
Lemma p_int_int P k d z : P k = Some (VInt z) -> p_int P k d = z.
Proof. unfold p_int. intros ->. reflexivity. Qed.
Theorem settings_reach P input ns n : filter_ctor P input = Ok ns -> In n ns -> as_documented P (n_op op n).
Proof.
  unfold filter_ctor. cbv zeta. intros Hc Hn.
  assert (G : forall a b : list (nd op), In n (a ++ b) <-> In n a \/ In n b) by (intros; apply in_app_iff).
  assert (N3 : forall pre a b c, is_num3 P pre [a; b; c] (p_num3 P (pre ++ a) (pre ++ b) (pre ++ c))%string).
  { intros pre a b c. unfold is_num3, p_num3. cbn [fst snd]. auto using p_num_num. }
  destruct (en_rand P);
  [destruct (Z.ltb_spec (p_int P "random_sample_filter/sample_size" 3000) 0); [discriminate Hc|];
   destruct (Z.ltb_spec (p_int P "random_sample_filter/random_seed" 0) 0); [discriminate Hc|]|];
  injection Hc as <-; rewrite !G in Hn; repeat destruct Hn as [Hn|Hn];
  try match type of Hn with In _ (if ?b then _ else _) => destruct b end; try contradiction;
  try (destruct Hn as [<-|Hn]; [|contradiction]);
  cbn [n_op mk as_documented].
  all: try exact I.
  all: try (split; apply p_num_num).
  all: try (split; [exact (N3 "body_filter/min/" "x" "y" "z")|]; split; [exact (N3 "body_filter/max/" "x" "y" "z")|];
            split; [exact (N3 "body_filter/translation/" "x" "y" "z") | exact (N3 "body_filter/rotation/" "rx" "ry" "rz")]).
  all: try (split; [apply p_num_num|]; unfold p_optnum; destruct (P "range_filter/max") as [[b|z|q|x|l]|] eqn:E;
            first [ intros d; unfold is_num; rewrite E; reflexivity | intros q; discriminate ]).
  subst n. cbn [n_op mk as_documented]. split; [assumption|]. split; [assumption|]. split; intros z Hz; apply p_int_int; exact Hz.
Qed.
