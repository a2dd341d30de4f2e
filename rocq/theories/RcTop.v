(* The covariance published with a registration, from the settings. *)
From Coq Require Import Reals Lra Lia Psatz List Qreals QArith.
From Verif Require Import Base Mx Interp Geo EgModel EgProofs CfgModel NetModel NetSpec CfgSpec CfgProofs RcGen RcModel RcSpec RcCov RcMat RcProofs RcComp RcEst RcMain RcRegModel RcRegSpec RcReg.
Import ListNotations.
Open Scope string_scope.
Open Scope list_scope.
Open Scope R_scope.

Ltac settle H := destruct H as [[ME H]|(md & MO & [(m & MM & [[PE H]|[PE H]])|(ME & [[PE H]|[PE H]])])]; [|destruct MM as [[ME Em]|[ME Em]]; subst m|destruct MM as [[ME Em]|[ME Em]]; subst m| |]; subst.
Ltac sel := cbv [rc_method rc_const rc_model rc_point rc_pvar rc_rvar rc_bvar].

Lemma returns nearest among inverse P cfg unit tf source target max : finds_nearest nearest -> 0 <= max -> reg_config P = Ok cfg ->
  ((range_based (rc_point cfg) -> unit = true) -> exists o, covariance_from_registration nearest among inverse cfg unit tf source (whole source) target max = Ok o) /\
  (range_based (rc_point cfg) -> unit = false -> covariance_from_registration nearest among inverse cfg unit tf source (whole source) target max = Throw).
Proof.
  intros FN M R. apply settings in R. destruct (correspondences_matched nearest among tf source target max FN M) as (l & cs & E & _). unfold range_based.
  split; [intros U|intros U V]; settle R; unfold covariance_from_registration; sel; cbv zeta; rewrite ?E; cbn [rbind]; cbn [rc_point] in U;
  try (eexists; reflexivity); try (exfalso; destruct U as [U|U]; discriminate U); try (rewrite V; reflexivity).
  all: rewrite U by auto; eexists; reflexivity.
Qed.
Lemma pipeline_returns nearest among inverse P ns unit cfg tf source target max : finds_nearest nearest -> 0 <= max ->
  lidar_nodes P = Ok (Some (ns, unit)) -> reg_config P = Ok cfg -> exists o, covariance_from_registration nearest among inverse cfg unit tf source (whole source) target max = Ok o.
Proof.
  intros FN M L R. apply (proj1 (returns nearest among inverse P cfg unit tf source target max FN M R)). intros B. apply (unit_agrees P ns unit cfg L R). exact B.
Qed.
Lemma motion_vector m : motion m -> exists r, components m = components_rt r (tr m) /\ vnorm r <= PI /\ forall p, turn r p = mapply (lin m) p.
Proof.
  intros M. destruct (components_motion m M) as (r & E & L & Z & T). exists r. split; [exact E|]. split; [exact L|]. intros p.
  destruct (Req_EM_T (vnorm r) 0) as [N|N]; [|apply T; exact N]. rewrite (proj1 Z N), mapply_I. assert (r0 : r = v0).
  { destruct r as [[x y] zz]. unfold vnorm in N. apply sqrt_eq_0 in N; [|cbn; nra]. cbn in N. unfold v0. tup; nra. }
  unfold turn. rewrite N, cos_0, sin_0. subst r. destruct p as [[? ?] ?]. cbn. tup; ring.
Qed.
Lemma q2r_sq q : Q2R (sq q) = squared (Q2R q). Proof. unfold sq, squared. apply Q2R_mult. Qed.
Ltac neq := let G := fresh in intros G; unfold method_is, points_are in *; congruence.

Lemma bias_sigma_eq l v b : forall i j, bias_sigma l v b i j = coordinate_noise l v b i j.
Proof. intros i j. unfold bias_sigma, coordinate_noise. rewrite !stacked_ray. reflexivity. Qed.
Lemma bias_formula inverse k r t l v b C : inverts inverse -> censi_bias inverse k (components_rt r t) l v b = Some C ->
  exists H D, half_total_hessian k l r t H /\ half_total_cross k l r t D /\ censi_formula (scalem 2 H) (scalem 2 D) (coordinate_noise l v b) (6 * length l) C.
Proof.
  intros IV E. unfold censi_bias in E. destruct (made_from inverse k r t l C (fun hi d => mulm 6 (mulm 6 hi (mulm (6 * length l) (mulm (6 * length l) d (bias_sigma l v b)) (trm d))) hi) IV E) as (H & D & hi & TH & TD & I & S & ->).
  exists H, D. split; [exact TH|]. split; [exact TD|]. apply (formula_half _ H D _ hi); [exact I|].
  apply mulm_ext; [|apply eqm_refl]. apply mulm_ext; [apply eqm_refl|]. apply (mulm_ext 6 (6 * length l) 6); [|apply eqm_refl]. apply (mulm_ext 6 (6 * length l) (6 * length l)); [apply eqm_refl|]. intros i j _ _. apply bias_sigma_eq.
Qed.

Lemma asked nearest among inverse P cfg unit tf source target max C : finds_nearest nearest -> inverts inverse -> motion tf -> 0 <= max -> reg_config P = Ok cfg ->
  covariance_from_registration nearest among inverse cfg unit tf source (whole source) target max = Ok (Some C) ->
  exists l cs r, all_matched (iapp tf) source target max l /\ Forall2 (of_pair source target) l cs /\ vnorm r <= PI /\ (forall p, turn r p = mapply (lin tf) p) /\ asked_for P cs r (tr tf) C.
Proof.
  intros FN IV MT M R E. apply settings in R. destruct (correspondences_matched nearest among tf source target max FN M) as (l & cs & EC & AM & OP).
  destruct (motion_vector tf MT) as (r & EF & LE & TU). exists l, cs, r. split; [exact AM|]. split; [exact OP|]. split; [exact LE|]. split; [exact TU|].
  settle R; unfold covariance_from_registration in E; revert E; sel; cbv zeta; rewrite ?EC; cbn [rbind]; rewrite ?EF; rewrite ?q2r_sq; intros E.
  - injection E as <-. split; [|split; neq]. intros _ i j _ _. unfold constant_covariance, diagonal. rewrite !q2r_sq. reflexivity.
  - injection E as E. split; [neq|]. split; [|neq]. intros _. destruct (iid_formula _ _ _ _ _ _ _ IV E) as (H & D & A & B & F). eexists _, H, D, _. split; [exact MO|]. split; [exact A|]. split; [exact B|]. split; [|exact F].
    split; [intros _; reflexivity|]. split; [neq|]. split; neq.
  - injection E as E. split; [neq|]. split; [neq|]. intros _. destruct (lls_formula _ _ _ _ _ _ _ IV E) as (H & A & B & F & _). eexists _, H, _. split; [exact MO|]. split; [exact A|]. split; [|split; [exact B|exact F]].
    split; [intros _; reflexivity|]. split; [neq|]. split; neq.
  - injection E as E. split; [neq|]. split; [|neq]. intros _. destruct (iid_formula _ _ _ _ _ _ _ IV E) as (H & D & A & B & F). eexists _, H, D, _. split; [exact MO|]. split; [exact A|]. split; [exact B|]. split; [|exact F].
    split; [neq|]. split; [intros _; reflexivity|]. split; neq.
  - injection E as E. split; [neq|]. split; [neq|]. intros _. destruct (lls_formula _ _ _ _ _ _ _ IV E) as (H & A & B & F & _). eexists _, H, _. split; [exact MO|]. split; [exact A|]. split; [|split; [exact B|exact F]].
    split; [neq|]. split; [intros _; reflexivity|]. split; neq.
  - destruct unit; [|discriminate E]. injection E as E. split; [neq|]. split; [|neq]. intros _. destruct (range_formula _ _ _ _ _ _ _ IV E) as (H & D & A & B & F). eexists _, H, D, _. split; [exact MO|]. split; [exact A|]. split; [exact B|]. split; [|exact F].
    split; [neq|]. split; [neq|]. split; [intros _; reflexivity|neq].
  - destruct unit; [|discriminate E]. injection E as E. split; [neq|]. split; [|neq]. intros _. destruct (bias_formula _ _ _ _ _ _ _ _ IV E) as (H & D & A & B & F). eexists _, H, D, _. split; [exact MO|]. split; [exact A|]. split; [exact B|]. split; [|exact F].
    split; [neq|]. split; [neq|]. split; [neq|intros _; reflexivity].
Qed.

Lemma squared_pos x : 0 <= squared x. Proof. unfold squared. nra. Qed.
Lemma quad_diag n d x : quad n (fun i j => if Nat.eqb i j then d i else 0) x = sum n (fun i => d i * (x i * x i)).
Proof.
  unfold quad. apply sum_ext. intros i Li. unfold mulv. rewrite (sum_single n (fun j => (if Nat.eqb i j then d i else 0) * x j) i Li); [rewrite Nat.eqb_refl; ring|]. intros j _ NE. destruct (Nat.eqb_spec i j); [congruence|ring].
Qed.
Lemma constant_cov a b : let C := constant_covariance a b in symmetric 6 C /\ (0 <= Q2R a -> 0 <= Q2R b -> psd 6 C) /\ (0 < Q2R a -> 0 < Q2R b -> pd 6 C).
Proof.
  intros C. assert (Q : forall x, quad 6 C x = sum 6 (fun i => (if (i <? 3)%nat then Q2R a else Q2R b) * (x i * x i))) by (intros x; apply quad_diag). split; [|split].
  - intros i j _ _. unfold C, constant_covariance. rewrite (Nat.eqb_sym j i). destruct (Nat.eqb_spec i j); [subst; reflexivity|reflexivity].
  - intros A B x. rewrite Q. apply sum_nonneg. intros i _. destruct (i <? 3)%nat; nra.
  - intros A B x [i [Li N]]. rewrite Q. cbn. assert (S : 0 < x i * x i) by (apply Rsqr_pos_lt in N; exact N). six Li; nra.
Qed.
Lemma valid nearest among inverse P cfg unit tf source target max C : finds_nearest nearest -> inverts inverse -> motion tf -> 0 <= max -> reg_config P = Ok cfg ->
  covariance_from_registration nearest among inverse cfg unit tf source (whole source) target max = Ok (Some C) ->
  symmetric 6 C /\ (~ method_is P "LLS" \/ (exists k, linearised k /\ model_is P k) -> psd 6 C).
Proof.
  intros FN IV MT M R E. apply settings in R. destruct (correspondences_matched nearest among tf source target max FN M) as (l & cs & EC & AM & OP).
  destruct (motion_vector tf MT) as (r & EF & _). assert (G : good (components tf)) by (exists r, (tr tf); exact EF).
  settle R; unfold covariance_from_registration in E; revert E; sel; cbv zeta; rewrite ?EC; cbn [rbind]; rewrite ?q2r_sq; intros E.
  - injection E as <-. destruct (constant_cov (sq (p_num P "registration_covariance/constant/rotation" (174533 # 10000000))) (sq (p_num P "registration_covariance/constant/translation" (1 # 100)))) as (S & A & _). split; [exact S|]. intros _. apply A; rewrite q2r_sq; apply squared_pos.
  - injection E as E. rewrite EF in E. destruct (iid_covariance _ _ _ _ _ _ _ IV (squared_pos _) E) as [S A]. split; [exact S|]. intros _. exact A.
  - injection E as E. split; [exact (lls_symmetric _ _ _ _ _ _ IV G E)|]. intros [N|(k & L & K)]; [contradiction|]. assert (LK : linearised (icp_of md)).
    { unfold model_is in MO, K. cbn in MO, K. clear - MO K L. destruct md; [left; reflexivity| |right; reflexivity|]; exfalso;
      repeat destruct MO as [MO|MO]; try contradiction; try discriminate MO; injection MO as MO; rewrite <- MO in K; repeat destruct K as [K|K]; try contradiction; try discriminate K; injection K as <-; destruct L as [L|L]; discriminate L. }
    intros x. destruct (lls_inv _ _ _ _ _ _ E) as (H & hi & EH & EI & ->). destruct (est_parts (icp_of md) (components tf) cs H inverse hi IV G EH EI) as (A & S & I & Shi). rewrite quad_scale. apply Rmult_le_pos; [apply squared_pos|].
    pose proof (lin_psd _ _ _ _ LK EH (mulv 6 hi x)) as P0. rewrite <- (quad_inverse 6 H hi x S I) in P0. exact P0.
  - injection E as E. rewrite EF in E. destruct (iid_covariance _ _ _ _ _ _ _ IV (squared_pos _) E) as [S A]. split; [exact S|]. intros _. exact A.
  - injection E as E. split; [exact (lls_symmetric _ _ _ _ _ _ IV G E)|]. intros [N|(k & L & K)]; [contradiction|]. assert (LK : linearised (icp_of md)).
    { unfold model_is in MO, K. cbn in MO, K. clear - MO K L. destruct md; [left; reflexivity| |right; reflexivity|]; exfalso;
      repeat destruct MO as [MO|MO]; try contradiction; try discriminate MO; injection MO as MO; rewrite <- MO in K; repeat destruct K as [K|K]; try contradiction; try discriminate K; injection K as <-; destruct L as [L|L]; discriminate L. }
    intros x. destruct (lls_inv _ _ _ _ _ _ E) as (H & hi & EH & EI & ->). destruct (est_parts (icp_of md) (components tf) cs H inverse hi IV G EH EI) as (A & S & I & Shi). rewrite quad_scale. apply Rmult_le_pos; [apply squared_pos|].
    pose proof (lin_psd _ _ _ _ LK EH (mulv 6 hi x)) as P0. rewrite <- (quad_inverse 6 H hi x S I) in P0. exact P0.
  - destruct unit; [|discriminate E]. injection E as E. rewrite EF in E. destruct (range_covariance _ _ _ _ _ _ _ IV (squared_pos _) E) as [S A]. split; [exact S|]. intros _. exact A.
  - destruct unit; [|discriminate E]. injection E as E. rewrite EF in E. destruct (bias_covariance _ _ _ _ _ _ _ _ IV (squared_pos _) (squared_pos _) E) as [S A]. split; [exact S|]. intros _. exact A.
Qed.

Lemma model_of P k md : model_is P (icp_of md) -> model_is P k -> icp_of md = k.
Proof.
  unfold model_is. cbn. intros A B. destruct A as [A|[A|[A|[A|[]]]]]; destruct B as [B|[B|[B|[B|[]]]]]; injection A as A0 A1; injection B as B0 B1; congruence.
Qed.
Lemma defined_parts inverse k f l : inverts inverse -> good f -> linearised k ->
  exists H, hessian k f l zerom = Some H /\ mixed k f l = Some (map (hz k f) l) /\ ((exists hi, inverse H = Some hi) <-> ~ degenerate k l).
Proof.
  intros IV G L. destruct (hessian_eq k f l (lin_angle k f L) zerom) as (H & EH & _). exists H. split; [exact EH|]. split; [apply mixed_eq; apply lin_angle; exact L|].
  rewrite (lin_defined inverse k f l H IV G L EH). destruct L as [-> | ->]; [apply (point_pd f)|apply (plane_pd f)]; exact EH.
Qed.
Lemma defined nearest among inverse P cfg unit k tf source target max cs o : finds_nearest nearest -> inverts inverse -> motion tf -> 0 <= max -> reg_config P = Ok cfg -> ~ method_is P "CONSTANT" -> linearised k -> model_is P k ->
  correspondences nearest among tf source (whole source) target max = Ok cs ->
  covariance_from_registration nearest among inverse cfg unit tf source (whole source) target max = Ok o ->
  ((exists C, o = Some C) <-> ~ degenerate k cs).
Proof.
  intros FN IV MT M R NC L MK EC E. apply settings in R.
  destruct (motion_vector tf MT) as (r & EF & _). assert (G : good (components tf)) by (exists r, (tr tf); exact EF).
  destruct (defined_parts inverse k (components tf) cs IV G L) as (H & EH & EM & D).
  settle R; try contradiction; pose proof (model_of P k md MO MK) as EK; unfold covariance_from_registration in E; revert E; sel; cbv zeta; rewrite ?EC; cbn [rbind]; rewrite EK;
  try (destruct unit; [|intros E; discriminate E]); intros E; injection E as <-; rewrite <- D; unfold censi_iid, censi_range, censi_bias, lls_iid; rewrite EH; cbn [obind]; rewrite ?EM; cbn [obind];
  (split; [intros [C EI]; destruct (inverse H) as [hi|]; [exists hi; reflexivity|discriminate EI]|intros [hi EI]; rewrite EI; cbn [obind]; eexists; reflexivity]).
Qed.
(* the same noise in every coordinate, and noise at all: positive definite *)
Definition uniform_noise (P : params) (v : R) : Prop :=
  points_are P "CONSTANT" /\ v = noise P "registration_covariance/point_covariance/constant" (5#100) \/ points_are P "VOXEL_SIZE" /\ v = noise P "voxel_grid_filter/leaf_size" (1#10).
Lemma squared_nz x : x <> 0 -> 0 < squared x. Proof. intros N. apply Rsqr_pos_lt in N. exact N. Qed.
Lemma positive nearest among inverse P cfg unit k tf source target max C v : finds_nearest nearest -> inverts inverse -> motion tf -> 0 <= max -> reg_config P = Ok cfg -> ~ method_is P "CONSTANT" -> linearised k -> model_is P k ->
  uniform_noise P v -> v <> 0 -> (k = PlaneLinearised -> forall t, In t target -> vdot (p_n t) (p_n t) = 1) ->
  covariance_from_registration nearest among inverse cfg unit tf source (whole source) target max = Ok (Some C) -> pd 6 C.
Proof.
  intros FN IV MT M R NC L MK UN V NN E. apply settings in R. destruct (correspondences_matched nearest among tf source target max FN M) as (l & cs & EC & AM & OP).
  destruct (motion_vector tf MT) as (r & EF & _). assert (G : good (components tf)) by (exists r, (tr tf); exact EF).
  assert (N1 : forall c, In c cs -> k = PlaneLinearised -> vdot (k_n c) (k_n c) = 1).
  { intros c Hc K. clear - OP NN Hc K. induction OP as [|[i j] c' l cs O OP IH]; [destruct Hc|]. destruct Hc as [<-|Hc]; [|apply IH; exact Hc]. destruct O as (s & t & _ & Et & _ & _ & -> & _). apply (NN K). apply (nth_error_In _ _ Et). }
  settle R; try contradiction; try (exfalso; unfold uniform_noise, points_are in *; destruct UN as [[UN _]|[UN _]]; congruence); pose proof (model_of P k md MO MK) as EK;
  unfold covariance_from_registration in E; revert E; sel; cbv zeta; rewrite EC; cbn [rbind]; rewrite EK, q2r_sq; intros E; injection E as E.
  - destruct UN as [[_ ->]|[UN _]]; [|exfalso; unfold points_are in *; congruence]. exact (censi_pd _ _ _ _ _ _ IV G L N1 (squared_nz _ V) E).
  - destruct UN as [[_ ->]|[UN _]]; [|exfalso; unfold points_are in *; congruence]. exact (lls_pd _ _ _ _ _ _ IV G L (squared_nz _ V) E).
  - destruct UN as [[UN _]|[_ ->]]; [exfalso; unfold points_are in *; congruence|]. exact (censi_pd _ _ _ _ _ _ IV G L N1 (squared_nz _ V) E).
  - destruct UN as [[UN _]|[_ ->]]; [exfalso; unfold points_are in *; congruence|]. exact (lls_pd _ _ _ _ _ _ IV G L (squared_nz _ V) E).
Qed.
Lemma constant_positive nearest among inverse P cfg unit tf source target max : finds_nearest nearest -> 0 <= max -> reg_config P = Ok cfg -> method_is P "CONSTANT" ->
  exists C, covariance_from_registration nearest among inverse cfg unit tf source (whole source) target max = Ok (Some C) /\
  (pd 6 C <-> noise P "registration_covariance/constant/rotation" (174533#10000000) <> 0 /\ noise P "registration_covariance/constant/translation" (1#100) <> 0).
Proof.
  intros FN M R ME. apply settings in R. destruct R as [[_ ->]|(md & _ & [(m & MM & _)|[ME' _]])]; [|exfalso; unfold method_is in *; destruct MM as [[MM _]|[MM _]]; congruence|exfalso; unfold method_is in *; congruence].
  eexists. split; [reflexivity|].
  destruct (constant_cov (sq (p_num P "registration_covariance/constant/rotation" (174533 # 10000000))) (sq (p_num P "registration_covariance/constant/translation" (1 # 100)))) as (_ & _ & A). split.
  - intros PD. unfold noise. split; intros Z.
    + assert (NZ : nonzero 6 (fun i => if Nat.eqb i 0 then 1 else 0)) by (exists 0%nat; split; [lia|exact R1_neq_R0]). specialize (PD _ NZ). unfold constant_covariance in PD. rewrite quad_diag, !q2r_sq, Z in PD. unfold squared in PD. revert PD. clear. cbn [sum Nat.eqb Nat.ltb Nat.leb]. lra.
    + assert (NZ : nonzero 6 (fun i => if Nat.eqb i 3 then 1 else 0)) by (exists 3%nat; split; [lia|exact R1_neq_R0]). specialize (PD _ NZ). unfold constant_covariance in PD. rewrite quad_diag, !q2r_sq, Z in PD. unfold squared in PD. revert PD. clear. cbn [sum Nat.eqb Nat.ltb Nat.leb]. lra.
  - intros [N1 N2]. apply A; rewrite q2r_sq; apply squared_nz; assumption.
Qed.
