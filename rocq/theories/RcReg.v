(* Pairs of points, and the estimator selected by the settings. *)
From Coq Require Import Reals Lra Lia Psatz List Qreals QArith.
From Verif Require Import Base Mx Interp Geo EgModel EgProofs CfgModel NetModel NetSpec CfgSpec CfgProofs RcGen RcModel RcSpec RcCov RcMat RcProofs RcComp RcEst RcMain RcRegModel RcRegSpec.
Import ListNotations.
Open Scope string_scope.
Open Scope list_scope.
Open Scope R_scope.

Lemma distance_pos p q : 0 <= distance p q. Proof. apply sqrt_pos. Qed.
Lemma sq_le a b : 0 <= a -> 0 <= b -> (a * a <= b * b <-> a <= b). Proof. intros. split; intros; nra. Qed.

(* the default branch, for any indices: pair i is about the point at position i of the indices *)
Lemma forward_spec nearest tf source target max : finds_nearest nearest -> 0 <= max -> forall indices i0,
  (forall k, In k indices -> (k < length source)%nat) ->
  exists l, forward_pairs nearest tf source indices target (max * max) i0 = Ok l /\ NoDup (map fst l) /\
  (forall i j, In (i, j) l -> (i0 <= i)%nat /\ exists k s t, nth_error indices (i - i0) = Some k /\ nth_error source k = Some s /\ nth_error target j = Some t /\ matched (iapp tf) target max s t) /\
  (forall n k s t, nth_error indices n = Some k -> nth_error source k = Some s -> In t target -> distance (p_x t) (iapp tf (p_x s)) <= max -> exists j, In ((i0 + n)%nat, j) l).
Proof.
  intros FN M0. induction indices as [|k idx IH]; intros i0 V.
  - exists []. split; [reflexivity|]. split; [constructor|]. split; [intros i j []|]. intros n k s t E. destruct n; discriminate E.
  - destruct (IH (S i0)) as (l & E & ND & A & B); [intros; apply V; right; assumption|]. cbn [forward_pairs].
    destruct (nth_error source k) as [s|] eqn:Es; [|apply nth_error_None in Es; specialize (V k (or_introl eq_refl)); lia].
    rewrite E. cbn [rbind].
    assert (A' : forall i j, In (i, j) l -> (i0 <= i)%nat /\ exists k' s' t, nth_error (k :: idx) (i - i0) = Some k' /\ nth_error source k' = Some s' /\ nth_error target j = Some t /\ matched (iapp tf) target max s' t).
    { intros i j H. destruct (A i j H) as (Li & k' & s' & t & E1 & E2). split; [lia|]. exists k', s', t. split; [|exact E2]. replace (i - i0)%nat with (S (i - S i0)) by lia. exact E1. }
    assert (B' : forall n k' s' t, nth_error idx n = Some k' -> nth_error source k' = Some s' -> In t target -> distance (p_x t) (iapp tf (p_x s')) <= max -> exists j, In ((i0 + S n)%nat, j) l).
    { intros n k' s' t E1 E2 E3 E4. destruct (B n k' s' t E1 E2 E3 E4) as [j Hj]. exists j. replace (i0 + S n)%nat with (S i0 + n)%nat by lia. exact Hj. }
    pose proof (FN target (iapp tf (p_x s))) as F. destruct (nearest target (iapp tf (p_x s))) as [[j d]|].
    + destruct F as (q & Eq & Ed & Min). destruct (Rle_dec d (max * max)) as [L|L].
      * subst d. apply (proj1 (sq_le _ _ (distance_pos _ _) M0)) in L. exists ((i0, j) :: l). split; [reflexivity|]. split.
        { cbn [map fst]. constructor; [|exact ND]. intros H. apply in_map_iff in H. destruct H as ([i' j'] & Ei & H). cbn in Ei. subst i'. destruct (A _ _ H) as [Li _]. lia. }
        split.
        { intros i j' [H|H]; [|apply A'; exact H]. injection H as <- <-. split; [lia|]. exists k, s, q. rewrite Nat.sub_diag. split; [reflexivity|]. split; [exact Es|]. split; [exact Eq|].
          split; [apply (nth_error_In _ _ Eq)|]. split; [exact L|exact Min]. }
        { intros n k' s' t E1 E2 E3 E4. destruct n as [|n]; [exists j; left; rewrite Nat.add_0_r; reflexivity|]. destruct (B' n k' s' t E1 E2 E3 E4) as [j' Hj]. exists j'. right. exact Hj. }
      * exists l. split; [reflexivity|]. split; [exact ND|]. split; [exact A'|]. intros n k' s' t E1 E2 E3 E4. destruct n as [|n]; [|apply (B' n k' s' t); assumption].
        exfalso. apply L. cbn in E1. injection E1 as <-. rewrite Es in E2. injection E2 as <-. subst d. apply (proj2 (sq_le _ _ (distance_pos _ _) M0)). specialize (Min t E3). lra.
    + subst target. exists l. split; [reflexivity|]. split; [exact ND|]. split; [exact A'|]. intros n k' s' t _ _ [].
Qed.
Lemma pairs_matched nearest among restricted tf source target max : finds_nearest nearest -> 0 <= max ->
  exists l, registration_pairs nearest among false restricted tf source (whole source) target max = Ok l /\ all_matched (iapp tf) source target max l.
Proof.
  intros FN M. destruct (forward_spec nearest tf source target max FN M (whole source) 0) as (l & E & ND & A & B).
  { intros k H. apply in_seq in H. lia. }
  exists l. split; [exact E|]. assert (N : forall i k, nth_error (whole source) i = Some k -> k = i).
  { intros i k H. unfold whole in H. assert (L : (i < length source)%nat) by (rewrite <- (seq_length (length source) 0); apply nth_error_Some; congruence). rewrite (nth_error_nth' _ 0%nat) in H by (rewrite seq_length; exact L). rewrite seq_nth in H by exact L. injection H as <-. reflexivity. }
  split; [exact ND|]. split.
  - intros i j H. destruct (A i j H) as (_ & k & s & t & E1 & E2). rewrite Nat.sub_0_r in E1. apply N in E1. subst k. exists s, t. exact E2.
  - intros i s t E1 E2 E3. assert (L : (i < length source)%nat) by (apply nth_error_Some; congruence).
    apply (B i i s t); try assumption. unfold whole. rewrite (nth_error_nth' _ 0%nat) by (rewrite seq_length; exact L). rewrite seq_nth by exact L. reflexivity.
Qed.
Lemma fetch_all_spec source target l : (forall i j, In (i, j) l -> exists s t, nth_error source i = Some s /\ nth_error target j = Some t) ->
  exists cs, fetch_all source target l = Ok cs /\ Forall2 (of_pair source target) l cs.
Proof.
  induction l as [|[i j] l IH]; intros H; [exists []; split; [reflexivity|constructor]|]. destruct IH as (cs & E & F); [intros; apply H; right; assumption|].
  destruct (H i j (or_introl eq_refl)) as (s & t & Es & Et). cbn [fetch_all]. unfold fetch at 1. cbn [fst snd]. rewrite Es, Et. cbn [rbind]. rewrite E. cbn [rbind].
  eexists. split; [reflexivity|]. constructor; [|exact F]. exists s, t. cbn. repeat split; assumption.
Qed.
Lemma correspondences_matched nearest among tf source target max : finds_nearest nearest -> 0 <= max ->
  exists l cs, correspondences nearest among tf source (whole source) target max = Ok cs /\ all_matched (iapp tf) source target max l /\ Forall2 (of_pair source target) l cs.
Proof.
  intros FN M. destruct (pairs_matched nearest among false tf source target max FN M) as (l & E & A). exists l.
  destruct (fetch_all_spec source target l) as (cs & EC & F).
  { intros i j H. destruct A as (_ & A & _). destruct (A i j H) as (s & t & Es & Et & _). exists s, t. split; assumption. }
  exists cs. split; [|split; assumption]. unfold correspondences. rewrite E. exact EC.
Qed.

(* the branch called reciprocal *)
Lemma backward_spec among tf source indices max : finds_nearest_among among -> 0 <= max -> (forall k, In k indices -> (k < length source)%nat) -> forall target i0,
  let l := backward_pairs among tf source indices target (max * max) i0 in
  NoDup (map snd l) /\
  (forall i j, In (i, j) l -> (i0 <= j)%nat /\ exists s t, In i indices /\ nth_error source i = Some s /\ nth_error target (j - i0) = Some t /\ distance (p_x s) (iapp (iinv tf) (p_x t)) <= max /\
     forall i' s', In i' indices -> nth_error source i' = Some s' -> distance (p_x s) (iapp (iinv tf) (p_x t)) <= distance (p_x s') (iapp (iinv tf) (p_x t))) /\
  (forall j t i s, nth_error target j = Some t -> In i indices -> nth_error source i = Some s -> distance (p_x s) (iapp (iinv tf) (p_x t)) <= max -> exists i', In (i', (i0 + j)%nat) l).
Proof.
  intros FN M0 V. induction target as [|t target IH]; intros i0 l.
  - split; [constructor|]. split; [intros i j []|]. intros j t i s E. destruct j; discriminate E.
  - destruct (IH (S i0)) as (ND & A & B). set (l0 := backward_pairs among tf source indices target (max * max) (S i0)) in *.
    assert (A' : forall i j, In (i, j) l0 -> (i0 <= j)%nat /\ exists s t0, In i indices /\ nth_error source i = Some s /\ nth_error (t :: target) (j - i0) = Some t0 /\ distance (p_x s) (iapp (iinv tf) (p_x t0)) <= max /\
     forall i' s', In i' indices -> nth_error source i' = Some s' -> distance (p_x s) (iapp (iinv tf) (p_x t0)) <= distance (p_x s') (iapp (iinv tf) (p_x t0))).
    { intros i j H. destruct (A i j H) as (Lj & s & t0 & E1 & E2 & E3 & E4). split; [lia|]. exists s, t0. split; [exact E1|]. split; [exact E2|]. split; [|exact E4]. replace (j - i0)%nat with (S (j - S i0)) by lia. exact E3. }
    assert (B' : forall j t0 i s, nth_error target j = Some t0 -> In i indices -> nth_error source i = Some s -> distance (p_x s) (iapp (iinv tf) (p_x t0)) <= max -> exists i', In (i', (i0 + S j)%nat) l0).
    { intros j t0 i s E1 E2 E3 E4. destruct (B j t0 i s E1 E2 E3 E4) as [i' H]. exists i'. replace (i0 + S j)%nat with (S i0 + j)%nat by lia. exact H. }
    unfold l. cbn [backward_pairs]. fold l0. pose proof (FN source indices (iapp (iinv tf) (p_x t)) V) as F.
    destruct (among source indices (iapp (iinv tf) (p_x t))) as [[i d]|].
    + destruct F as (Hi & q & Eq & Ed & Min). destruct (Rle_dec d (max * max)) as [L|L].
      * subst d. apply (proj1 (sq_le _ _ (distance_pos _ _) M0)) in L. split.
        { cbn [map snd]. constructor; [|exact ND]. intros H. apply in_map_iff in H. destruct H as ([i' j'] & Ei & H). cbn in Ei. subst j'. destruct (A _ _ H) as [Li _]. lia. }
        split.
        { intros i' j [H|H]; [|apply A'; exact H]. injection H as <- <-. split; [lia|]. exists q, t. rewrite Nat.sub_diag. repeat split; try assumption. }
        { intros j t0 i' s E1 E2 E3 E4. destruct j as [|j]; [exists i; left; rewrite Nat.add_0_r; reflexivity|]. destruct (B' j t0 i' s E1 E2 E3 E4) as [i'' H]. exists i''. right. exact H. }
      * split; [exact ND|]. split; [exact A'|]. intros j t0 i' s E1 E2 E3 E4. destruct j as [|j]; [|apply (B' j t0 i' s); assumption].
        exfalso. apply L. cbn in E1. injection E1 as <-. subst d. apply (proj2 (sq_le _ _ (distance_pos _ _) M0)). specialize (Min i' s E2 E3). lra.
    + split; [exact ND|]. split; [exact A'|]. subst indices. intros j t0 i' s _ [].
Qed.
Lemma distance_sym p q : distance p q = distance q p.
Proof. unfold distance, vnorm. f_equal. vring. Qed.
Lemma distance_back tf s t : motion tf -> distance s (iapp (iinv tf) t) = distance t (iapp tf s).
Proof.
  intros [O _]. rewrite (distance_sym t). unfold distance. rewrite <- (rigid_dist tf s (iapp (iinv tf) t) O). rewrite (iapp_inv tf t O). reflexivity.
Qed.
Lemma reciprocal_pairs nearest among tf source indices target max : finds_nearest_among among -> motion tf -> 0 <= max -> (forall k, In k indices -> (k < length source)%nat) ->
  exists l, registration_pairs nearest among true true tf source indices target max = Ok l /\ all_matched_back (iapp tf) source indices target max l.
Proof.
  intros FN MO M V. eexists. split; [reflexivity|]. destruct (backward_spec among tf source indices max FN M V target 0) as (ND & A & B).
  split; [exact ND|]. split.
  - intros i j H. destruct (A i j H) as (_ & s & t & E1 & E2 & E3 & E4 & E5). rewrite Nat.sub_0_r in E3. exists s, t. repeat split; try assumption.
    + rewrite <- (distance_back tf _ _ MO). exact E4.
    + intros i' s' I' N'. rewrite <- !(distance_back tf _ _ MO). apply (E5 i'); assumption.
  - intros j t i s E1 E2 E3 E4. apply (B j t i s); try assumption. rewrite (distance_back tf _ _ MO). exact E4.
Qed.
Lemma reciprocal_refused nearest among tf source indices target max : registration_pairs nearest among true false tf source indices target max = Throw.
Proof. reflexivity. Qed.

(* the settings, as the constructor keeps them *)
Definition from_settings (P : params) (cfg : reg_cfg) : Prop :=
  (method_is P "CONSTANT" /\ cfg = RegCfg CM_CONSTANT (Some (sq (p_num P "registration_covariance/constant/rotation" (174533#10000000)), sq (p_num P "registration_covariance/constant/translation" (1#100)))) None None None None None) \/
  exists md, model_is P (icp_of md) /\
  ((exists m, (method_is P "CENSI" /\ m = CM_CENSI \/ method_is P "LLS" /\ m = CM_LLS) /\
     (points_are P "CONSTANT" /\ cfg = RegCfg m None (Some md) (Some PM_CONSTANT) (Some (sq (p_num P "registration_covariance/point_covariance/constant" (5#100)))) None None \/
      points_are P "VOXEL_SIZE" /\ cfg = RegCfg m None (Some md) (Some PM_VOXEL_SIZE) (Some (sq (p_num P "voxel_grid_filter/leaf_size" (1#10)))) None None)) \/
   (method_is P "CENSI" /\
     (points_are P "RANGE" /\ cfg = RegCfg CM_CENSI None (Some md) (Some PM_RANGE) None (Some (sq (p_num P "registration_covariance/point_covariance/range_noise" (5#100)))) None \/
      points_are P "RANGE_BIAS" /\ cfg = RegCfg CM_CENSI None (Some md) (Some PM_RANGE_BIAS) None (Some (sq (p_num P "registration_covariance/point_covariance/range_noise" (5#100))))
                                       (Some (sq (p_num P "registration_covariance/point_covariance/range_bias_noise" (2#100))))))).
Lemma settings P cfg : reg_config P = Ok cfg -> from_settings P cfg.
Proof.
  unfold reg_config, from_settings, method_is, points_are, model_is, setting. cbn [String.append].
  destruct (to_cov_method _) as [m| |] eqn:Em; cbn [rbind]; try discriminate. apply (proj1 (proj1 names_cov)) in Em. cbn [In cov_methods] in Em.
  destruct Em as [Em|[Em|[Em|[]]]]; injection Em as Es <-; rewrite <- Es.
  - intros E. injection E as <-. left. split; reflexivity.
  - intros E. right. destruct (to_cov_model _) as [md| |] eqn:Eo; cbn [rbind] in E; try discriminate E. apply (proj1 (proj1 (proj2 names_cov))) in Eo.
    exists md. split; [cbn [In cov_models] in Eo; destruct Eo as [Eo|[Eo|[Eo|[Eo|[]]]]]; injection Eo as <- <-; cbn; tauto|].
    destruct (to_point_method _) as [pm| |] eqn:Ep; cbn [rbind] in E; try discriminate E. apply (proj1 (proj2 (proj2 names_cov))) in Ep. cbn [In point_methods] in Ep.
    destruct Ep as [Ep|[Ep|[Ep|[Ep|[]]]]]; injection Ep as Eq <-; rewrite <- Eq; cbv zeta in E; repeat match type of E with (if ?b then _ else _) = _ => destruct b; try discriminate E end; injection E as <-.
    + left. exists CM_CENSI. split; [left; split; reflexivity|]. left. split; reflexivity.
    + left. exists CM_CENSI. split; [left; split; reflexivity|]. right. split; reflexivity.
    + right. split; [reflexivity|]. left. split; reflexivity.
    + right. split; [reflexivity|]. right. split; reflexivity.
  - intros E. right. destruct (to_cov_model _) as [md| |] eqn:Eo; cbn [rbind] in E; try discriminate E. apply (proj1 (proj1 (proj2 names_cov))) in Eo.
    exists md. split; [cbn [In cov_models] in Eo; destruct Eo as [Eo|[Eo|[Eo|[Eo|[]]]]]; injection Eo as <- <-; cbn; tauto|].
    destruct (to_point_method _) as [pm| |] eqn:Ep; cbn [rbind] in E; try discriminate E. apply (proj1 (proj2 (proj2 names_cov))) in Ep. cbn [In point_methods] in Ep.
    destruct Ep as [Ep|[Ep|[Ep|[Ep|[]]]]]; injection Ep as Eq <-; rewrite <- Eq; cbv zeta in E; repeat match type of E with (if ?b then _ else _) = _ => destruct b; try discriminate E end; try discriminate E; injection E as <-.
    + left. exists CM_LLS. split; [right; split; reflexivity|]. left. split; reflexivity.
    + left. exists CM_LLS. split; [right; split; reflexivity|]. right. split; reflexivity.
Qed.
