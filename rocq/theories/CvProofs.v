(* Proofs about the covariance check and reordering. *)
From Coq Require Import ZArith Reals Lra Lia Psatz Bool List.
From Verif Require Import Base Mx CvModel.
Open Scope R_scope.

Lemma all_below_iff n f : all_below n f = true <-> forall i, (i < n)%nat -> f i = true.
Proof. unfold all_below. rewrite forallb_forall. split; intros H i L; apply H; [apply in_seq; lia|apply in_seq in L; lia]. Qed.

(* the factor is lower triangular with positive diagonal, depends on A only through the lower triangle, and reproduces it *)
Record factor (A L : mx) (n : nat) : Prop := {
  f_lower : forall i j, (i < j)%nat -> (j < n)%nat -> L i j = 0;
  f_diag : forall i, (i < n)%nat -> 0 < L i i;
  f_low : forall i j, (j <= i)%nat -> (j < n)%nat -> A i j = sum (S j) (fun l => L i l * L j l) }.
Lemma llt_factor A n L : llt A n = Some L -> factor A L n.
Proof.
  revert L. induction n as [|n IH]; intros L; cbn.
  - intros [= <-]. split; intros; lia.
  - destruct (llt A n) as [L0|] eqn:E; [|discriminate]. specialize (IH L0 eq_refl). unfold llt_step. destruct (Rle_dec (pivot A L0 n) 0) as [N|P]; [discriminate|].
    intros [= <-]. assert (P' : 0 < pivot A L0 n) by lra. pose proof (sqrt_lt_R0 _ P') as SP. destruct IH as [F1 F2 F3]. split.
    + intros i j Lij Ln. destruct (Nat.eqb_spec j n) as [->|NE]; [destruct (Nat.ltb_spec i n); [reflexivity|lia]|apply F1; lia].
    + intros i Li. destruct (Nat.eqb_spec i n) as [->|NE]; [rewrite Nat.ltb_irrefl; exact SP|apply F2; lia].
    + intros i j Lji Ln. destruct (Nat.eq_dec j n) as [->|NE].
      * cbn [sum]. rewrite Nat.eqb_refl, Nat.ltb_irrefl.
        rewrite (sum_ext n _ (fun l => L0 i l * L0 n l)) by (intros l Ll; destruct (Nat.eqb_spec l n); [lia|reflexivity]).
        destruct (Nat.eqb_spec i n) as [->|NE'].
        -- rewrite Nat.ltb_irrefl. rewrite sqrt_sqrt by lra. unfold pivot. ring.
        -- destruct (Nat.ltb_spec i n); [lia|]. field. lra.
      * rewrite (F3 i j) by lia. apply sum_ext. intros l Ll. destruct (Nat.eqb_spec l n); [lia|reflexivity].
Qed.
(* for symmetric A the quadratic form is a sum of squares of L^T x *)
Lemma sum_cut n k f : (k <= n)%nat -> (forall i, (k <= i)%nat -> (i < n)%nat -> f i = 0) -> sum n f = sum k f.
Proof. intros L H. replace n with (k + (n - k))%nat by lia. rewrite sum_add. rewrite (sum_zero (n - k)); [ring|]. intros i Li. apply H; lia. Qed.
Lemma factor_entry A L n i j : factor A L n -> symmetric n A -> (i < n)%nat -> (j < n)%nat -> A i j = sum n (fun l => L i l * L j l).
Proof.
  intros F S Li Lj. destruct (le_lt_dec j i) as [H|H].
  - rewrite (f_low _ _ _ F i j) by lia. symmetry. apply sum_cut; [lia|]. intros l L1 L2. rewrite (f_lower _ _ _ F j l) by lia. ring.
  - rewrite S by assumption. rewrite (f_low _ _ _ F j i) by lia. rewrite (sum_cut n (Datatypes.S i)); [apply sum_ext; intros l _; ring|lia|]. intros l L1 L2. rewrite (f_lower _ _ _ F i l) by lia. ring.
Qed.
Lemma factor_quad A L n x : factor A L n -> symmetric n A -> quad n A x = sum n (fun l => Rsqr (sum n (fun i => L i l * x i))).
Proof.
  intros F S. unfold quad, mulv. rewrite (sum_ext n _ (fun i => sum n (fun j => sum n (fun l => x i * (L i l * L j l * x j))))).
  2:{ intros i Li. rewrite <- sum_scale. apply sum_ext. intros j Lj. rewrite (factor_entry A L n i j F S Li Lj). rewrite <- sum_scale_r. rewrite <- sum_scale. reflexivity. }
  rewrite (sum_ext n _ (fun i => sum n (fun l => (L i l * x i) * sum n (fun j => L j l * x j)))).
  2:{ intros i Li. rewrite sum_swap. apply sum_ext. intros l Ll. rewrite <- sum_scale. apply sum_ext. intros j Lj. ring. }
  rewrite sum_swap. apply sum_ext. intros l Ll. unfold Rsqr. rewrite sum_scale_r. reflexivity.
Qed.
Lemma factor_pd A L n : factor A L n -> symmetric n A -> pd n A.
Proof.
  intros F S x NZ. rewrite (factor_quad A L n x F S). apply sum_pos; [intros; apply Rle_0_sqr|].
  (* the last non zero entry of x *)
  assert (D : exists k, (k < n)%nat /\ x k <> 0 /\ forall i, (k < i)%nat -> (i < n)%nat -> x i = 0).
  { destruct NZ as [i [Li NZ]]. clear F S. revert Li. induction n as [|n IH]; intros Li; [lia|]. destruct (Req_EM_T (x n) 0) as [E|NE].
    - destruct (Nat.eq_dec i n) as [->|]; [contradiction|]. destruct IH as [k [Lk [Nk Z]]]; [lia|]. exists k. split; [lia|]. split; [exact Nk|]. intros j L1 L2. destruct (Nat.eq_dec j n) as [->|]; [exact E|apply Z; lia].
    - exists n. split; [lia|]. split; [exact NE|]. intros; lia. }
  destruct D as [k [Lk [Nk Z]]]. exists k. split; [exact Lk|]. apply Rsqr_pos_lt.
  rewrite (sum_single n _ k Lk). { apply Rmult_integral_contrapositive. split; [|exact Nk]. pose proof (f_diag _ _ _ F k Lk). lra. }
  intros i Li NE. destruct (lt_eq_lt_dec i k) as [[H|H]|H]; [rewrite (f_lower _ _ _ F i k) by lia; ring|contradiction|rewrite (Z i) by lia; ring].
Qed.

(* triangular solve: z with sum_i L i j z i = r j *)
Lemma solve L n r : (forall i, (i < n)%nat -> 0 < L i i) -> (forall i j, (i < j)%nat -> (j < n)%nat -> L i j = 0) ->
  exists z, forall j, (j < n)%nat -> sum n (fun i => L i j * z i) = r j.
Proof.
  revert r. induction n as [|n IH]; intros r D Lo.
  - exists (fun _ => 0). intros; lia.
  - set (zn := r n / L n n). destruct (IH (fun j => r j - L n j * zn)) as [z Hz]; [intros; apply D; lia|intros; apply Lo; lia|].
    exists (fun i => if Nat.eqb i n then zn else z i). intros j Lj. cbn [sum]. rewrite Nat.eqb_refl.
    rewrite (sum_ext n _ (fun i => L i j * z i)) by (intros i Li; destruct (Nat.eqb_spec i n); [lia|reflexivity]).
    destruct (Nat.eq_dec j n) as [->|NE].
    + rewrite sum_zero by (intros i Li; rewrite (Lo i n) by lia; ring). unfold zn. field. specialize (D n ltac:(lia)). lra.
    + rewrite Hz by lia. ring.
Qed.
(* leading blocks of a positive definite matrix *)
Lemma pd_lead n A : pd (S n) A -> pd n A.
Proof.
  intros P x [k [Lk NZ]]. set (y := fun i => if Nat.eqb i n then 0 else x i). assert (E : quad (S n) A y = quad n A x).
  { unfold quad, mulv. cbn [sum]. unfold y at 4. rewrite Nat.eqb_refl. rewrite Rmult_0_l, Rplus_0_r. apply sum_ext. intros i Li. unfold y at 3. rewrite Nat.eqb_refl, Rmult_0_r, Rplus_0_r.
    assert (Yi : y i = x i) by (unfold y; destruct (Nat.eqb_spec i n); [lia|reflexivity]). rewrite Yi. f_equal. apply sum_ext. intros j Lj. unfold y. destruct (Nat.eqb_spec j n); [lia|reflexivity]. }
  rewrite <- E. apply P. exists k. split; [lia|]. unfold y. destruct (Nat.eqb_spec k n); [lia|exact NZ].
Qed.
Lemma sym_lead n A : symmetric (S n) A -> symmetric n A. Proof. intros H i j Li Lj. apply H; lia. Qed.

Lemma llt_complete A n : symmetric n A -> pd n A -> exists L, llt A n = Some L.
Proof.
  induction n as [|n IH]; intros S P; [cbn; eauto|]. destruct (IH (sym_lead _ _ S) (pd_lead _ _ P)) as [L E]. cbn. rewrite E. unfold llt_step.
  pose proof (llt_factor A n L E) as F. assert (SL := sym_lead _ _ S).
  destruct (Rle_dec (pivot A L n) 0) as [N|N]; [exfalso|eauto].
  destruct (solve L n (fun j => L n j) (f_diag _ _ _ F) (f_lower _ _ _ F)) as [z Hz].
  set (y := fun i => if Nat.eqb i n then -1 else z i).
  assert (Q : quad (Datatypes.S n) A y = pivot A L n).
  { (* border: quad n A z - 2 (z . a) + a_nn *)
    set (u := sum n (fun l => L n l * L n l)).
    assert (B : forall i, (i < n)%nat -> A i n = sum n (fun l => L i l * L n l)).
    { intros i Li. rewrite S by lia. rewrite (f_low _ _ _ F n i) by lia. symmetry. rewrite (sum_cut n (Datatypes.S i)); [apply sum_ext; intros l _; ring|lia|]. intros l L1 L2. rewrite (f_lower _ _ _ F i l) by lia. ring. }
    assert (Zu : sum n (fun i => A i n * z i) = u).
    { rewrite (sum_ext n _ (fun i => sum n (fun l => L n l * (L i l * z i)))). 2:{ intros i Li. rewrite (B i Li). rewrite <- sum_scale_r. apply sum_ext. intros l _. ring. }
      rewrite sum_swap. unfold u. apply sum_ext. intros l Ll. rewrite sum_scale. rewrite Hz by exact Ll. reflexivity. }
    assert (Qz : quad n A z = u).
    { rewrite (factor_quad A L n z F SL). unfold u. apply sum_ext. intros l Ll. rewrite Hz by exact Ll. reflexivity. }
    unfold quad, mulv. cbn [sum].
    assert (Yn : y n = -1) by (unfold y; rewrite Nat.eqb_refl; reflexivity).
    assert (Yi : forall i, (i < n)%nat -> y i = z i) by (intros i Li; unfold y; destruct (Nat.eqb_spec i n); [lia|reflexivity]).
    rewrite Yn. rewrite (sum_ext n _ (fun i => z i * sum n (fun j => A i j * z j) - A i n * z i)).
    2:{ intros i Li. rewrite (Yi i Li). rewrite (sum_ext n (fun i0 => A i i0 * y i0) (fun j => A i j * z j)) by (intros j Lj; rewrite (Yi j Lj); reflexivity). ring. }
    rewrite sum_minus. rewrite Zu. change (sum n (fun i => z i * sum n (fun j => A i j * z j))) with (quad n A z). rewrite Qz.
    rewrite (sum_ext n (fun i => A n i * y i) (fun i => A i n * z i)) by (intros i Li; rewrite (Yi i Li), S by lia; reflexivity). rewrite Zu.
    unfold pivot. fold u. ring. }
  assert (0 < quad (Datatypes.S n) A y) by (apply P; exists n; split; [lia|]; unfold y; rewrite Nat.eqb_refl; lra). lra.
Qed.
(* only the lower triangle matters *)
Definition mirror (A : mx) : mx := fun i j => if Nat.leb j i then A i j else A j i.
Lemma mirror_sym n A : symmetric n (mirror A).
Proof. intros i j _ _. unfold mirror. destruct (Nat.leb_spec j i), (Nat.leb_spec i j); try reflexivity; try lia. assert (i = j) by lia. subst. reflexivity. Qed.
Lemma llt_lower A B n : (forall i j, (j <= i)%nat -> A i j = B i j) ->
  match llt A n, llt B n with Some L, Some L' => forall i j, L i j = L' i j | None, None => True | _, _ => False end.
Proof.
  intros H. induction n as [|n IH]; cbn; [reflexivity|]. destruct (llt A n) as [L|], (llt B n) as [L'|]; try contradiction; [|exact I].
  unfold llt_step. assert (E : pivot A L n = pivot B L' n) by (unfold pivot; rewrite H by lia; f_equal; apply sum_ext; intros j _; rewrite !IH; reflexivity).
  rewrite E. destruct (Rle_dec (pivot B L' n) 0); [exact I|]. intros i j. destruct (Nat.eqb j n); [|apply IH]. destruct (Nat.ltb_spec i n); [reflexivity|]. destruct (Nat.eqb i n); [reflexivity|].
  rewrite H by lia. f_equal. f_equal. apply sum_ext. intros l _. rewrite !IH. reflexivity.
Qed.
Lemma positive_definite_iff A n : is_positive_definite A n = true <-> pd n (mirror A).
Proof.
  unfold is_positive_definite. assert (H : forall i j, (j <= i)%nat -> A i j = mirror A i j) by (intros i j L; unfold mirror; destruct (Nat.leb_spec j i); [reflexivity|lia]).
  pose proof (llt_lower A (mirror A) n H) as K. split.
  - destruct (llt A n) as [L|] eqn:E; [|discriminate]. intros _. destruct (llt (mirror A) n) as [L'|] eqn:E'; [|contradiction]. exact (factor_pd _ L' _ (llt_factor _ _ _ E') (mirror_sym n A)).
  - intros P. destruct (llt_complete (mirror A) n (mirror_sym n A) P) as [L' E']. rewrite E' in K. destruct (llt A n); [reflexivity|contradiction].
Qed.
Lemma pd_ext n A B : eqm n n A B -> pd n A -> pd n B. Proof. intros H P x NZ. rewrite <- (quad_ext n A B x x H) by reflexivity. apply P. exact NZ. Qed.
Lemma psd_ext n A B : eqm n n A B -> psd n A -> psd n B. Proof. intros H P x. rewrite <- (quad_ext n A B x x H) by reflexivity. apply P. Qed.
Lemma symmetric_ext n A B : eqm n n A B -> symmetric n A -> symmetric n B. Proof. intros H P i j Li Lj. rewrite <- !H by assumption. apply P; assumption. Qed.
Lemma mirror_eq n A : symmetric n A -> eqm n n (mirror A) A.
Proof. intros S i j Li Lj. unfold mirror. destruct (Nat.leb_spec j i); [reflexivity|]. apply S; assumption. Qed.
Lemma is_symmetric_iff A n p : is_symmetric A n n p = true <-> forall i j, (i < n)%nat -> (j < n)%nat -> i <> j -> Rabs (A i j - A j i) <= p.
Proof.
  unfold is_symmetric. rewrite all_below_iff. split.
  - intros H. assert (K : forall i j, (i < j)%nat -> (j < n)%nat -> Rabs (A i j - A j i) <= p).
    { intros i j L1 L2. specialize (H i ltac:(lia)). rewrite forallb_forall in H. specialize (H j ltac:(apply in_seq; lia)). destruct (Rlt_dec p (Rabs (A i j - A j i))); [discriminate|lra]. }
    intros i j Li Lj NE. destruct (lt_eq_lt_dec i j) as [[L|L]|L]; [apply K; assumption|contradiction|]. rewrite Rabs_minus_sym. apply K; assumption.
  - intros H r Lr. apply forallb_forall. intros c Hc. apply in_seq in Hc. specialize (H r c ltac:(lia) ltac:(lia) ltac:(lia)). destruct (Rlt_dec p (Rabs (A r c - A c r))); [lra|reflexivity].
Qed.
Lemma all_finite_iff m : all_finite m = true <-> forall i j, (i < d_rows m)%nat -> (j < d_cols m)%nat -> exists x, d_at m i j = Some x.
Proof.
  unfold all_finite. rewrite all_below_iff. split.
  - intros H i j Li Lj. specialize (H i Li). rewrite all_below_iff in H. specialize (H j Lj). destruct (d_at m i j); [eauto|discriminate].
  - intros H i Li. apply all_below_iff. intros j Lj. destruct (H i j Li Lj) as [x ->]. reflexivity.
Qed.
Lemma pd_diag n A i : pd n A -> (i < n)%nat -> 0 < A i i.
Proof.
  intros P L. set (e := fun j => if Nat.eqb j i then 1 else 0). assert (E : quad n A e = A i i).
  { unfold quad, mulv. rewrite (sum_single n _ i L). 2:{ intros j Lj NE. unfold e at 1. destruct (Nat.eqb_spec j i); [contradiction|ring]. }
    rewrite (sum_single n _ i L). 2:{ intros j Lj NE. unfold e. destruct (Nat.eqb_spec j i); [contradiction|ring]. } unfold e. rewrite Nat.eqb_refl. ring. }
  rewrite <- E. apply P. exists i. split; [exact L|]. unfold e. rewrite Nat.eqb_refl. lra.
Qed.

(* What the check decides, for every tolerance. *)
Theorem valid_covariance_iff m p : is_valid_covariance m p = true <->
  d_rows m = d_cols m /\ (forall i j, (i < d_rows m)%nat -> (j < d_cols m)%nat -> exists x, d_at m i j = Some x) /\
  pd (d_rows m) (mirror (num m)) /\ (forall i j, (i < d_rows m)%nat -> (j < d_rows m)%nat -> i <> j -> Rabs (num m i j - num m j i) <= p).
Proof.
  unfold is_valid_covariance. split.
  - destruct (all_finite m) eqn:F; [|discriminate]. destruct (Nat.eqb_spec (d_rows m) (d_cols m)) as [E|]; [|discriminate].
    destruct (is_positive_definite (num m) (d_rows m)) eqn:P; [|discriminate]. destruct (is_symmetric (num m) (d_rows m) (d_cols m) p) eqn:S; [|discriminate]. intros _.
    split; [exact E|]. split; [apply all_finite_iff; exact F|]. split; [apply positive_definite_iff; exact P|]. rewrite <- E in S. apply is_symmetric_iff. exact S.
  - intros (E & F & P & S). apply all_finite_iff in F. rewrite F, <- E, Nat.eqb_refl. rewrite (proj2 (positive_definite_iff _ _) P), (proj2 (is_symmetric_iff _ _ _) S). cbn [negb orb].
    apply all_below_iff. intros r Lr. pose proof (pd_diag _ _ r P ltac:(lia)) as D. unfold mirror in D. rewrite Nat.leb_refl in D. destruct (Rlt_dec (num m r r) 0); [lra|reflexivity].
Qed.
(* With the default tolerance: exactly the symmetric positive definite matrices. *)
Theorem valid_covariance_default m : is_valid_covariance m 0 = true <->
  d_rows m = d_cols m /\ (forall i j, (i < d_rows m)%nat -> (j < d_cols m)%nat -> exists x, d_at m i j = Some x) /\
  symmetric (d_rows m) (num m) /\ pd (d_rows m) (num m).
Proof.
  rewrite valid_covariance_iff. split; intros (E & F & P & S).
  - assert (Y : symmetric (d_rows m) (num m)).
    { intros i j Li Lj. destruct (Nat.eq_dec i j) as [->|NE]; [reflexivity|]. specialize (S i j Li Lj NE). pose proof (Rabs_pos (num m i j - num m j i)).
      destruct (Req_dec (num m i j - num m j i) 0); [lra|]. apply Rabs_no_R0 in H0. lra. }
    split; [exact E|]. split; [exact F|]. split; [exact Y|]. exact (pd_ext _ _ _ (mirror_eq _ _ Y) P).
  - split; [exact E|]. split; [exact F|]. split; [exact (pd_ext _ _ _ (eqm_sym _ _ _ _ (mirror_eq _ _ P)) S)|].
    intros i j Li Lj _. rewrite P by assumption. rewrite Rminus_diag_eq by reflexivity. rewrite Rabs_R0. lra.
Qed.
(* non_zero_diagonals: every diagonal entry is positive; every valid covariance passes *)
Lemma min_diag_pos A k : 0 < min_diag A k <-> forall i, (i <= k)%nat -> 0 < A i i.
Proof.
  induction k as [|k IH].
  - cbn. split; [intros H i L; replace i with 0%nat by lia; exact H|intros H; apply H; lia].
  - cbn [min_diag]. split.
    + intros H i L. pose proof (Rmin_l (min_diag A k) (A (S k) (S k))). pose proof (Rmin_r (min_diag A k) (A (S k) (S k))).
      destruct (Nat.eq_dec i (S k)) as [->|NE]; [lra|]. apply IH; [lra|lia].
    + intros H. apply Rmin_glb_lt; [apply IH; intros i L; apply H; lia|apply H; lia].
Qed.
Theorem non_zero_diagonals_spec A n b : non_zero_diagonals A n = Ok b -> (b = true <-> forall i, (i < n)%nat -> 0 < A i i).
Proof.
  destruct n as [|n]; cbn [non_zero_diagonals]; [discriminate|]. intros [= <-]. destruct (Rlt_dec 0 (min_diag A n)) as [P|P].
  - split; [intros _ i L|reflexivity]. apply (proj1 (min_diag_pos A n) P). lia.
  - split; [discriminate|]. intros H. exfalso. apply P. apply min_diag_pos. intros i L. apply H. lia.
Qed.
Theorem valid_has_diagonals m p n : is_valid_covariance m p = true -> d_rows m = S n -> non_zero_diagonals (num m) (d_rows m) = Ok true.
Proof.
  intros V E. apply valid_covariance_iff in V. destruct V as (_ & _ & P & _). destruct (non_zero_diagonals (num m) (d_rows m)) as [b| |] eqn:N; try (rewrite E in N; discriminate).
  f_equal. apply (proj2 (non_zero_diagonals_spec _ _ _ N)). intros i L. pose proof (pd_diag _ _ i P L) as D. unfold mirror in D. rewrite Nat.leb_refl in D. exact D.
Qed.

(* Reordering *)
Definition sigma (n b i : nat) : nat := if Nat.ltb i (n - b) then (i + b)%nat else (i - (n - b))%nat.
Lemma sigma_lt n b i : (b <= n)%nat -> (i < n)%nat -> (sigma n b i < n)%nat.
Proof. intros Lb Li. unfold sigma. destruct (Nat.ltb_spec i (n - b)); lia. Qed.
Lemma sigma_mod n b i : (0 < b)%nat -> (b < n)%nat -> (i < n)%nat -> sigma n b i = ((i + b) mod n)%nat.
Proof.
  intros L0 Lb Li. unfold sigma. destruct (Nat.ltb_spec i (n - b)).
  - rewrite Nat.mod_small by lia. reflexivity.
  - replace (i + b)%nat with ((i - (n - b)) + 1 * n)%nat by lia. rewrite Nat.mod_add by lia. rewrite Nat.mod_small by lia. reflexivity.
Qed.
Lemma sigma_back n b i : (b <= n)%nat -> (i < n)%nat -> sigma n b (sigma n (n - b) i) = i.
Proof. intros Lb Li. unfold sigma. repeat match goal with |- context[Nat.ltb ?x ?y] => destruct (Nat.ltb_spec x y) end; lia. Qed.

Lemma reorder_ok m b : d_rows m = d_cols m -> (0 < b)%nat -> (b < d_rows m)%nat ->
  exists m', reorder true m (Z.of_nat b) = Ok m' /\ d_rows m' = d_rows m /\ d_cols m' = d_rows m /\ forall i j, d_at m' i j = d_at m (sigma (d_rows m) b i) (sigma (d_rows m) b j).
Proof.
  intros E L0 Lb. unfold reorder. destruct (Z.eqb_spec (Z.of_nat b) 0); [lia|]. rewrite <- E, Nat.eqb_refl. cbn [negb]. destruct (Z.leb_spec (Z.of_nat (d_rows m)) (Z.of_nat b)); [lia|]. destruct (Z.ltb_spec (Z.of_nat b) 0); [lia|].
  rewrite Nat2Z.id. eexists. split; [reflexivity|]. cbn [d_rows d_cols d_at]. split; [reflexivity|]. split; [reflexivity|]. intros i j. unfold sigma.
  destruct (Nat.ltb_spec i (d_rows m - b)), (Nat.ltb_spec j (d_rows m - b)); f_equal; lia.
Qed.
Lemma reorder_dom m b m' : reorder true m b = Ok m' -> d_rows m = d_cols m /\ (0 < b < Z.of_nat (d_rows m))%Z.
Proof.
  intros H. unfold reorder in H. destruct (Z.eqb_spec b 0); [discriminate|]. destruct (Nat.eqb_spec (d_rows m) (d_cols m)); [|discriminate]. cbn [negb] in H.
  destruct (Z.leb_spec (Z.of_nat (d_rows m)) b); [discriminate|]. destruct (Z.ltb_spec b 0); [discriminate|]. repeat split; try assumption; lia.
Qed.
(* entry (i, j) is entry (i+b mod n, j+b mod n) *)
Theorem reorder_entries m b : d_rows m = d_cols m -> (0 < b)%nat -> (b < d_rows m)%nat ->
  exists m', reorder true m (Z.of_nat b) = Ok m' /\ d_rows m' = d_rows m /\ d_cols m' = d_rows m /\
  forall i j, (i < d_rows m)%nat -> (j < d_rows m)%nat -> d_at m' i j = d_at m ((i + b) mod d_rows m) ((j + b) mod d_rows m).
Proof.
  intros E L0 Lb. destruct (reorder_ok m b E L0 Lb) as (m' & R & R1 & R2 & R3). exists m'. split; [exact R|]. split; [exact R1|]. split; [exact R2|]. intros i j Li Lj. rewrite R3, !sigma_mod by assumption. reflexivity.
Qed.
Theorem reorder_throws fixed m b : reorder fixed m b = Throw <-> b = 0%Z \/ d_rows m <> d_cols m \/ (Z.of_nat (d_rows m) <= b)%Z.
Proof.
  unfold reorder. destruct (Z.eqb_spec b 0); [split; auto|]. destruct (Nat.eqb_spec (d_rows m) (d_cols m)); cbn [negb]; [|split; auto].
  destruct (Z.leb_spec (Z.of_nat (d_rows m)) b); [split; auto|]. destruct (Z.ltb_spec b 0), fixed; cbn [negb]; split; try discriminate; intros [?|[?|?]]; try contradiction; lia.
Qed.
Theorem reorder_dynamic_ub m b : d_rows m = d_cols m -> (0 < b < Z.of_nat (d_rows m))%Z -> reorder false m b = UB.
Proof.
  intros E L. unfold reorder. destruct (Z.eqb_spec b 0); [lia|]. rewrite <- E, Nat.eqb_refl. cbn [negb]. destruct (Z.leb_spec (Z.of_nat (d_rows m)) b); [lia|]. destruct (Z.ltb_spec b 0); reflexivity.
Qed.
Theorem reorder_back m b m' : (0 < b)%nat -> (b < d_rows m)%nat -> reorder true m (Z.of_nat b) = Ok m' ->
  exists m'', reorder true m' (Z.of_nat (d_rows m - b)) = Ok m'' /\ d_rows m'' = d_rows m /\ d_cols m'' = d_cols m /\
  forall i j, (i < d_rows m)%nat -> (j < d_rows m)%nat -> d_at m'' i j = d_at m i j.
Proof.
  intros L0 Lb R. destruct (reorder_dom _ _ _ R) as (E & _). destruct (reorder_ok m b E L0 Lb) as (m1 & R' & R1 & R2 & R3). rewrite R in R'. injection R' as <-.
  destruct (reorder_ok m' (d_rows m - b)) as (m2 & Q & Q1 & Q2 & Q3); [congruence|lia|rewrite R1; lia|]. exists m2. split; [exact Q|]. rewrite R1 in Q1, Q2. split; [exact Q1|]. split; [congruence|].
  intros i j Li Lj. rewrite Q3, R3, R1, !sigma_back by lia. reflexivity.
Qed.
Lemma permuted_sym n s A : (forall i, (i < n)%nat -> (s i < n)%nat) -> symmetric n A -> symmetric n (fun i j => A (s i) (s j)).
Proof. intros B S i j Li Lj. apply S; apply B; assumption. Qed.
Lemma permuted_quad n b A x : (b <= n)%nat -> quad n (fun i j => A (sigma n b i) (sigma n b j)) x = quad n A (fun i => x (sigma n (n - b) i)).
Proof.
  intros Lb. assert (BK : forall i, (i < n)%nat -> sigma n (n - b) (sigma n b i) = i) by (intros i Li; replace b with (n - (n - b))%nat at 2 by lia; apply sigma_back; lia).
  unfold quad, mulv. rewrite <- (sum_rotate n b (fun i => x (sigma n (n - b) i) * sum n (fun j => A i j * x (sigma n (n - b) j)))) by exact Lb.
  apply sum_ext. intros i Li. fold (sigma n b i). rewrite BK by exact Li. f_equal.
  rewrite <- (sum_rotate n b (fun j => A (sigma n b i) j * x (sigma n (n - b) j))) by exact Lb. apply sum_ext. intros j Lj. fold (sigma n b j). rewrite BK by exact Lj. reflexivity.
Qed.
Lemma reorder_num m b m' : (0 < b)%nat -> (b < d_rows m)%nat -> reorder true m (Z.of_nat b) = Ok m' ->
  d_rows m' = d_rows m /\ forall i j, num m' i j = num m (sigma (d_rows m) b i) (sigma (d_rows m) b j).
Proof.
  intros L0 Lb R. destruct (reorder_dom _ _ _ R) as (E & _). destruct (reorder_ok m b E L0 Lb) as (m1 & R' & R1 & R2 & R3). rewrite R in R'. injection R' as <-.
  split; [exact R1|]. intros i j. unfold num. rewrite R3. reflexivity.
Qed.
Theorem reorder_keeps m b m' : reorder true m b = Ok m' ->
  (symmetric (d_rows m) (num m) -> symmetric (d_rows m) (num m')) /\ (psd (d_rows m) (num m) -> psd (d_rows m) (num m')) /\
  (pd (d_rows m) (num m) -> pd (d_rows m) (num m')) /\ is_valid_covariance m' 0 = is_valid_covariance m 0.
Proof.
  intros R. destruct (reorder_dom _ _ _ R) as (E & [L0 Lb]).
  assert (Gen : forall m b m', (0 < b)%nat -> (b < d_rows m)%nat -> reorder true m (Z.of_nat b) = Ok m' ->
    (symmetric (d_rows m) (num m) -> symmetric (d_rows m) (num m')) /\ (psd (d_rows m) (num m) -> psd (d_rows m) (num m')) /\ (pd (d_rows m) (num m) -> pd (d_rows m) (num m')) /\
    (is_valid_covariance m 0 = true -> is_valid_covariance m' 0 = true)).
  { clear. intros m b m' L0 Lb R. destruct (reorder_num m b m' L0 Lb R) as [E1 N].
    assert (A1 : symmetric (d_rows m) (num m) -> symmetric (d_rows m) (num m')).
    { intros S i j Li Lj. rewrite !N. apply S; apply sigma_lt; lia. }
    assert (EQ : eqm (d_rows m) (d_rows m) (fun i j => num m (sigma (d_rows m) b i) (sigma (d_rows m) b j)) (num m')) by (intros i j _ _; symmetry; apply N).
    assert (A2 : psd (d_rows m) (num m) -> psd (d_rows m) (num m')).
    { intros P. apply (psd_ext _ _ _ EQ). intros x. rewrite permuted_quad by lia. apply P. }
    assert (A3 : pd (d_rows m) (num m) -> pd (d_rows m) (num m')).
    { intros P. apply (pd_ext _ _ _ EQ). intros x [k [Lk NZ]]. rewrite permuted_quad by lia. apply P. exists (sigma (d_rows m) b k). split; [apply sigma_lt; lia|].
      replace (sigma (d_rows m) (d_rows m - b) (sigma (d_rows m) b k)) with k; [exact NZ|]. symmetry. replace b with (d_rows m - (d_rows m - b))%nat at 2 by lia. apply sigma_back; lia. }
    split; [exact A1|]. split; [exact A2|]. split; [exact A3|]. rewrite !valid_covariance_default. intros (E & F & S & P).
    destruct (reorder_ok m b E L0 Lb) as (m1 & R' & R1 & R2 & R3). rewrite R in R'. injection R' as <-. rewrite R1. split; [congruence|]. split; [|split; [apply A1; exact S|apply A3; exact P]].
    intros i j Li Lj. rewrite R3. apply F; [|rewrite <- E]; apply sigma_lt; lia. }
  set (k := Z.to_nat b). assert (Eb : b = Z.of_nat k) by (unfold k; lia). rewrite Eb in R. destruct (Gen m k m' ltac:(lia) ltac:(lia) R) as (A1 & A2 & A3 & A4).
  split; [exact A1|]. split; [exact A2|]. split; [exact A3|]. destruct (is_valid_covariance m 0) eqn:V; [apply A4; reflexivity|]. apply not_true_is_false. intros V'.
  destruct (reorder_back m k m' ltac:(lia) ltac:(lia) R) as (m2 & Q & Q1 & Q2 & Q3). destruct (reorder_num m k m' ltac:(lia) ltac:(lia) R) as [E1 _].
  rewrite <- E1 in Q. destruct (Gen m' (d_rows m' - k)%nat m2 ltac:(lia) ltac:(lia) Q) as (_ & _ & _ & B4). specialize (B4 V').
  assert (V2 : is_valid_covariance m 0 = true); [|congruence]. apply valid_covariance_default in B4. apply valid_covariance_default. destruct B4 as (_ & F & S & P). rewrite Q1 in F, S, P. rewrite Q2 in F.
  assert (EQ : eqm (d_rows m) (d_rows m) (num m2) (num m)) by (intros i j Li Lj; unfold num; rewrite Q3 by assumption; reflexivity).
  split; [exact E|]. split; [|split; [exact (symmetric_ext _ _ _ EQ S)|exact (pd_ext _ _ _ EQ P)]]. intros i j Li Lj. rewrite <- Q3 by (rewrite ?E in *; assumption). apply F; assumption.
Qed.
