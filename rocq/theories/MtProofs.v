(* Proofs: metrics. *)
From Coq Require Import ZArith Reals List Bool Lia Lra.
From Verif Require Import Base Mx Interp Geo CvModel EgModel MsModel MsProofs MsPose MtModel MtSpec.
Import ListNotations.
Open Scope R_scope.

(* ---- what is kept ---- *)
Theorem kept l : let s := fold_left mstep l mstate0 in st_curr s = last_of (poses l) /\ st_prev s = last_but_one (poses l) /\ st_reg s = last_of (regs l) /\ st_path s = last_of (paths l).
Proof.
  induction l as [|e l IH] using rev_ind; [repeat split|]. cbv zeta in *. rewrite fold_left_app. cbn [fold_left]. destruct IH as (A & B & C & D). unfold poses, regs, paths. rewrite !flat_map_app. fold (poses l) (regs l) (paths l).
  unfold last_of, last_but_one. destruct e; cbn [flat_map app mstep]; rewrite ?app_nil_r, ?rev_app_distr; cbn [rev app st_curr st_prev st_reg st_path set_curr set_prev]; repeat split; try assumption.
Qed.

(* ---- the largest entry ---- *)
Lemma outlier_spec c : forall i m idx, let r := outlier i c m idx in
  ((forall j x, nth_error c j = Some (Some x) -> x <= m) /\ r = (m, idx)) \/
  (exists k, snd r = Z.of_nat (i + k) /\ nth_error c k = Some (Some (fst r)) /\ m < fst r /\ (forall j x, nth_error c j = Some (Some x) -> x <= fst r) /\ forall j x, (j < k)%nat -> nth_error c j = Some (Some x) -> x < fst r).
Proof.
  induction c as [|[x|] c IH]; intros i m idx; cbn [outlier].
  - left. split; [intros [|j] x H; discriminate|reflexivity].
  - destruct (Rlt_dec m x) as [L|L].
    + right. destruct (IH (S i) x (Z.of_nat i)) as [[A E]|(k & A & B & C & D & F)]; cbv zeta in *.
      * rewrite E. exists 0%nat. cbn [fst snd]. rewrite Nat.add_0_r. repeat split; [exact L| |intros j y H; lia]. intros [|j] y H; [injection H as <-; lra|exact (A j y H)].
      * exists (S k). rewrite A. split; [f_equal; lia|]. split; [exact B|]. split; [lra|]. split.
        -- intros [|j] y H; [injection H as <-; lra|exact (D j y H)].
        -- intros [|j] y Hj H; [injection H as <-; exact C|apply (F j y); [lia|exact H]].
    + destruct (IH (S i) m idx) as [[A E]|(k & A & B & C & D & F)]; cbv zeta in *.
      * left. split; [|exact E]. intros [|j] y H; [injection H as <-; lra|exact (A j y H)].
      * right. exists (S k). rewrite A. split; [f_equal; lia|]. split; [exact B|]. split; [lra|]. split.
        -- intros [|j] y H; [injection H as <-; lra|exact (D j y H)].
        -- intros [|j] y Hj H; [injection H as <-; lra|apply (F j y); [lia|exact H]].
  - destruct (IH (S i) m idx) as [[A E]|(k & A & B & C & D & F)]; cbv zeta in *.
    + left. split; [|exact E]. intros [|j] y H; [discriminate|exact (A j y H)].
    + right. exists (S k). rewrite A. split; [f_equal; lia|]. split; [exact B|]. split; [lra|]. split.
      * intros [|j] y H; [discriminate|exact (D j y H)].
      * intros [|j] y Hj H; [discriminate|apply (F j y); [lia|exact H]].
Qed.
Theorem outlier_found s p c : st_curr s = Some (p, c) ->
  (none_positive c /\ var_outlier s = (0, (-1)%Z)) \/ (exists m i, largest c m i /\ var_outlier s = (m, Z.of_nat i)).
Proof.
  intros E. unfold var_outlier. rewrite E. destruct (outlier_spec c 0 0 (-1)) as [[A B]|(k & A & B & C & D & F)]; cbv zeta in *.
  - left. split; assumption.
  - right. exists (fst (outlier 0 c 0 (-1))), k. split; [repeat split; assumption|]. destruct (outlier 0 c 0 (-1)). cbn [fst snd] in *. rewrite A. reflexivity.
Qed.
Theorem outlier_unknown s : st_curr s = None -> var_outlier s = (-1, (-1)%Z). Proof. intros E. unfold var_outlier. rewrite E. reflexivity. Qed.

(* ---- relative poses ---- *)
Lemma trace_qmat q : qunit q -> trace (qmat q) = 4 * (fst (fst (fst q)) * fst (fst (fst q))) - 1.
Proof. intros U. destruct q as [[[w x] y] z]. unfold qunit, qdot in U. unfold trace, qmat. cbn in *. lra. Qed.
Lemma trace_dot p q : qunit p -> qunit q -> trace (mmul (mT (qmat p)) (qmat q)) = 4 * (qdot4 p q * qdot4 p q) - 1.
Proof.
  intros P Q. rewrite <- qmat_conj, <- qmat_mul by (try apply qunit_conj; assumption). rewrite trace_qmat by (apply qunit_mul; [apply qunit_conj|]; assumption).
  destruct p as [[[a b] c] d], q as [[[e f] g] h]. unfold qmul, qconj, qdot4. cbn [fst]. ring.
Qed.
Lemma dot_bound p q : qunit p -> qunit q -> -1 <= qdot4 p q <= 1.
Proof.
  destruct p as [[[a b] c] d], q as [[[e f] g] h]. unfold qunit, qdot, qdot4. cbn. intros P Q. 
  pose proof (Rle_0_sqr (a - e)). pose proof (Rle_0_sqr (b - f)). pose proof (Rle_0_sqr (c - g)). pose proof (Rle_0_sqr (d - h)).
  pose proof (Rle_0_sqr (a + e)). pose proof (Rle_0_sqr (b + f)). pose proof (Rle_0_sqr (c + g)). pose proof (Rle_0_sqr (d + h)). unfold Rsqr in *. split; lra.
Qed.
Theorem relative_pose p1 p2 q1 q2 : np_ori p1 = Some q1 -> np_ori p2 = Some q2 -> qunit q1 -> qunit q2 -> exists a, angle_between q1 q2 a /\ fst (rel_pose p1 p2) = vnorm (vsub (np_pos p1) (np_pos p2)) /\
  snd (rel_pose p1 p2) = Some (if Rle_dec 0 (qdot4 q1 q2) then a else 2 * PI - a).
Proof.
  intros E1 E2 U1 U2. pose proof (dot_bound q1 q2 U1 U2) as B. unfold rel_pose. rewrite E1, E2. cbn [fst snd]. rewrite Rmin_right by apply B. set (d := qdot4 q1 q2) in *.
  destruct (Rlt_dec d (-1)) as [L|_]; [lra|]. pose proof (acos_bound d) as AB. pose proof (cos_acos d B) as C. assert (C2 : 1 + 2 * cos (2 * acos d) = trace (mmul (mT (qmat q1)) (qmat q2))).
  { rewrite trace_dot by assumption. fold d. rewrite cos_2a_cos, C. ring. }
  destruct (Rle_dec 0 d) as [P|N].
  - exists (2 * acos d). split; [|split; reflexivity]. split; [|exact C2]. split; [lra|]. assert (acos d <= PI / 2); [|lra]. apply Rnot_lt_le. intros L. pose proof (cos_lt_0 (acos d) L). lra.
  - exists (2 * PI - 2 * acos d). split; [|split; [reflexivity|f_equal; lra]]. split.
    + split; [lra|]. assert (PI / 2 <= acos d); [|lra]. apply Rnot_lt_le. intros L. pose proof (cos_gt_0 (acos d)). lra.
    + rewrite <- C2. f_equal. f_equal. replace (2 * PI - 2 * acos d) with (- (2 * acos d) + 2 * INR 1 * PI) by (cbn; ring). rewrite cos_period, cos_neg. reflexivity.
Qed.
Theorem angle_unique p q a b : angle_between p q a -> angle_between p q b -> a = b.
Proof. intros [A1 A2] [B1 B2]. rewrite <- (acos_cos a A1), <- (acos_cos b B1). f_equal. lra. Qed.

(* ---- the message ---- *)
Theorem raises s : (forall c, st_reg s = Some c -> length c = 36%nat) -> get_metrics s = Throw <-> exists l, st_path s = Some l /\ (length l < 2)%nat.
Proof.
  intros W. assert (D : exists d, var_diag s = Ok d).
  { unfold var_diag. destruct (st_reg s) as [c|]; [|eexists; reflexivity]. specialize (W c eq_refl). unfold at_.
    assert (G : forall i, (i < 36)%nat -> exists x, nth_error c i = Some x) by (intros i Hi; destruct (nth_error c i) eqn:E; [eauto|apply nth_error_None in E; lia]).
    destruct (G 0%nat) as [? ->]; [lia|]. destruct (G 7%nat) as [? ->]; [lia|]. destruct (G 14%nat) as [? ->]; [lia|]. destruct (G 21%nat) as [? ->]; [lia|]. destruct (G 28%nat) as [? ->]; [lia|]. destruct (G 35%nat) as [? ->]; [lia|]. cbn. eexists. reflexivity. }
  destruct D as [d D]. unfold get_metrics. rewrite D. cbn [rbind]. unfold consistent. destruct (st_path s) as [l|]; cbn [rbind].
  - destruct (rev l) as [|a [|b r]] eqn:E; apply (f_equal (@length _)) in E; rewrite rev_length in E; cbn [length] in E; cbn [rbind].
    + split; [intros _; exists l; split; [reflexivity|lia]|reflexivity].
    + split; [intros _; exists l; split; [reflexivity|lia]|reflexivity].
    + split; [discriminate|]. intros (l' & [= <-] & L). lia.
  - split; [discriminate|]. intros (l' & K & _). discriminate.
Qed.
Theorem same_places s l : get_metrics s = Ok l -> map fst l = [VAR_RX; VAR_RY; VAR_RZ; VAR_TX; VAR_TY; VAR_TZ; OUTLIER_MAX; OUTLIER_IDX; CONSISTENT_NORM; CONSISTENT_ANGL; INSTANT_NORM; INSTANT_ANGL] /\
  published_as l OUTLIER_MAX (Some (fst (var_outlier s))) /\ published_as l OUTLIER_IDX (Some (IZR (snd (var_outlier s)))) /\
  (forall a b r, option_map (@rev _) (st_path s) = Some (a :: b :: r) -> published_as l CONSISTENT_NORM (Some (fst (rel_pose a b))) /\ published_as l CONSISTENT_ANGL (snd (rel_pose a b))) /\
  (st_path s = None -> published_as l CONSISTENT_NORM (Some (-1)) /\ published_as l CONSISTENT_ANGL (Some (-1))) /\
  (forall a b ca cb, st_curr s = Some (a, ca) -> st_prev s = Some (b, cb) -> published_as l INSTANT_NORM (Some (fst (rel_pose a b))) /\ published_as l INSTANT_ANGL (snd (rel_pose a b))) /\
  (st_curr s = None \/ st_prev s = None -> published_as l INSTANT_NORM (Some (-1)) /\ published_as l INSTANT_ANGL (Some (-1))).
Proof.
  unfold get_metrics. destruct (var_diag s) as [d| |] eqn:D; try discriminate. cbn [rbind]. destruct (consistent s) as [c| |] eqn:C; try discriminate. cbn [rbind]. intros [= <-].
  assert (L : exists a b x y z w, d = [a; b; x; y; z; w]).
  { unfold var_diag in D. destruct (st_reg s) as [cv|]; [|injection D as <-; cbn; repeat eexists]. unfold at_ in D.
    destruct (nth_error cv 0); [|discriminate]. destruct (nth_error cv 7); [|discriminate]. destruct (nth_error cv 14); [|discriminate]. destruct (nth_error cv 21); [|discriminate]. destruct (nth_error cv 28); [|discriminate]. destruct (nth_error cv 35); [|discriminate]. cbn in D. injection D as <-. repeat eexists. }
  destruct L as (a & b & x & y & z & w & ->). cbn [app combine map fst]. split; [reflexivity|].
  assert (PA : forall m v rest pre, ~ In m (map fst pre) -> ~ In m (map fst rest) -> published_as (pre ++ (m, v) :: rest) m v).
  { intros m v rest pre N1 N2. split; [apply in_or_app; right; left; reflexivity|]. intros u H. apply in_app_or in H. destruct H as [H|[H|H]]; [exfalso; apply N1; apply (in_map fst) in H; exact H|congruence|exfalso; apply N2; apply (in_map fst) in H; exact H]. }
  match goal with |- context [published_as ?l0 OUTLIER_MAX _] => set (l := l0) end.
  assert (P1 : published_as l OUTLIER_MAX (Some (fst (var_outlier s)))) by (apply (PA _ _ (skipn 7 l) (firstn 6 l)); unfold l; cbn; intuition discriminate).
  assert (P2 : published_as l OUTLIER_IDX (Some (IZR (snd (var_outlier s))))) by (apply (PA _ _ (skipn 8 l) (firstn 7 l)); unfold l; cbn; intuition discriminate).
  assert (P3 : published_as l CONSISTENT_NORM (Some (fst c))) by (apply (PA _ _ (skipn 9 l) (firstn 8 l)); unfold l; cbn; intuition discriminate).
  assert (P4 : published_as l CONSISTENT_ANGL (snd c)) by (apply (PA _ _ (skipn 10 l) (firstn 9 l)); unfold l; cbn; intuition discriminate).
  assert (P5 : published_as l INSTANT_NORM (Some (fst (instant s)))) by (apply (PA _ _ (skipn 11 l) (firstn 10 l)); unfold l; cbn; intuition discriminate).
  assert (P6 : published_as l INSTANT_ANGL (snd (instant s))) by (apply (PA _ _ (skipn 12 l) (firstn 11 l)); unfold l; cbn; intuition discriminate).
  clearbody l. split; [exact P1|]. split; [exact P2|]. unfold consistent in C. unfold instant in P5, P6. split; [|split; [|split]].
  - intros p q r E. destruct (st_path s) as [pl|]; [|discriminate]. cbn in E. injection E as E. rewrite E in C. injection C as <-. split; assumption.
  - intros E. rewrite E in C. injection C as <-. split; assumption.
  - intros p q cp cq E1 E2. rewrite E1, E2 in P5, P6. split; assumption.
  - intros [E|E]; rewrite E in P5, P6; [split; assumption|]. destruct (st_curr s) as [[? ?]|]; split; assumption.
Qed.
(* finding: in the order of the messages the first three variances are those of the translation *)
Theorem labels_swapped s l arr c : st_reg s = Some arr -> ros_cov arr c -> get_metrics s = Ok l ->
  firstn 6 l = [(VAR_RX, c 3%nat 3%nat); (VAR_RY, c 4%nat 4%nat); (VAR_RZ, c 5%nat 5%nat); (VAR_TX, c 0%nat 0%nat); (VAR_TY, c 1%nat 1%nat); (VAR_TZ, c 2%nat 2%nat)].
Proof.
  intros E [_ H] G. unfold get_metrics, var_diag in G. rewrite E in G. unfold at_ in G.
  destruct (H 0%nat 0%nat) as (A1 & _ & _ & A2); try lia. destruct (H 1%nat 1%nat) as (B1 & _ & _ & B2); try lia. destruct (H 2%nat 2%nat) as (C1 & _ & _ & C2); try lia. cbn [Nat.mul Nat.add] in *.
  rewrite A1, A2, B1, B2, C1, C2 in G. cbn [rbind] in G. destruct (consistent s) as [k| |]; try discriminate. cbn [rbind] in G. injection G as <-. reflexivity.
Qed.
