(* Matrices over R as functions of row and column, of stated size. *)
From Coq Require Import Reals Lra Lia Psatz.
From Verif Require Import Base.
Open Scope R_scope.

Fixpoint sum (n : nat) (f : nat -> R) : R := match n with O => 0 | S k => sum k f + f k end.
Lemma sum_ext n f g : (forall i, (i < n)%nat -> f i = g i) -> sum n f = sum n g.
Proof. induction n as [|n IH]; intros H; cbn; [reflexivity|]. rewrite IH by (intros i L; apply H; lia). rewrite H by lia. reflexivity. Qed.
Lemma sum_plus n f g : sum n (fun i => f i + g i) = sum n f + sum n g. Proof. induction n as [|n IH]; cbn; [ring|]. rewrite IH. ring. Qed.
Lemma sum_minus n f g : sum n (fun i => f i - g i) = sum n f - sum n g. Proof. induction n as [|n IH]; cbn; [ring|]. rewrite IH. ring. Qed.
Lemma sum_scale n k f : sum n (fun i => k * f i) = k * sum n f. Proof. induction n as [|n IH]; cbn; [ring|]. rewrite IH. ring. Qed.
Lemma sum_scale_r n k f : sum n (fun i => f i * k) = sum n f * k. Proof. induction n as [|n IH]; cbn; [ring|]. rewrite IH. ring. Qed.
Lemma sum_zero n f : (forall i, (i < n)%nat -> f i = 0) -> sum n f = 0.
Proof. induction n as [|n IH]; intros H; cbn; [reflexivity|]. rewrite IH by (intros i L; apply H; lia). rewrite H by lia. ring. Qed.
Lemma sum_swap n m (f : nat -> nat -> R) : sum n (fun i => sum m (fun j => f i j)) = sum m (fun j => sum n (fun i => f i j)).
Proof. induction n as [|n IH]; cbn; [symmetry; apply sum_zero; reflexivity|]. rewrite IH, <- sum_plus. reflexivity. Qed.
Lemma sum_add n m f : sum (n + m) f = sum n f + sum m (fun i => f (n + i)%nat).
Proof. induction m as [|m IH]; cbn; [rewrite Nat.add_0_r; ring|]. rewrite Nat.add_succ_r. cbn. rewrite IH. ring. Qed.
Lemma sum_nonneg n f : (forall i, (i < n)%nat -> 0 <= f i) -> 0 <= sum n f.
Proof. induction n as [|n IH]; intros H; cbn; [lra|]. specialize (IH ltac:(intros; apply H; lia)). specialize (H n ltac:(lia)). lra. Qed.
Lemma sum_pos n f : (forall i, (i < n)%nat -> 0 <= f i) -> (exists i, (i < n)%nat /\ 0 < f i) -> 0 < sum n f.
Proof.
  induction n as [|n IH]; intros H [i [L P]]; [lia|]. cbn. destruct (Nat.eq_dec i n) as [->|NE].
  - assert (0 <= sum n f) by (apply sum_nonneg; intros; apply H; lia). lra.
  - assert (0 < sum n f) by (apply IH; [intros; apply H; lia|exists i; split; [lia|exact P]]). specialize (H n ltac:(lia)). lra.
Qed.
Lemma sum_single n f k : (k < n)%nat -> (forall i, (i < n)%nat -> i <> k -> f i = 0) -> sum n f = f k.
Proof.
  induction n as [|n IH]; intros L H; [lia|]. cbn. destruct (Nat.eq_dec k n) as [->|NE].
  - rewrite sum_zero by (intros; apply H; lia). ring.
  - rewrite IH by (try lia; intros; apply H; lia). rewrite (H n) by lia. ring.
Qed.
Lemma sum_first n f : sum (S n) f = f 0%nat + sum n (fun i => f (S i)).
Proof. change (S n) with (1 + n)%nat. rewrite sum_add. cbn. ring. Qed.
Lemma sum_triple n (f : nat -> nat -> R) g : sum n (fun i => g i * sum n (fun j => f i j)) = sum n (fun i => sum n (fun j => g i * f i j)).
Proof. apply sum_ext. intros i _. symmetry. apply sum_scale. Qed.
(* a bijection of the indices does not change a sum *)
Lemma sum_rotate n b f : (b <= n)%nat -> sum n (fun i => f (if i <? n - b then i + b else i - (n - b))%nat) = sum n f.
Proof.
  intros L. replace n with ((n - b) + b)%nat at 1 by lia. rewrite sum_add.
  rewrite (sum_ext (n - b) _ (fun i => f (b + i)%nat)) by (intros i H; destruct (Nat.ltb_spec i (n - b)); [f_equal; lia|lia]).
  rewrite (sum_ext b _ f) by (intros i H; destruct (Nat.ltb_spec (n - b + i) (n - b)); [lia|f_equal; lia]).
  replace n with (b + (n - b))%nat at 2 by lia. rewrite sum_add. ring.
Qed.

Notation mx := (nat -> nat -> R).
Definition eqm (n m : nat) (A B : mx) : Prop := forall i j, (i < n)%nat -> (j < m)%nat -> A i j = B i j.
Definition mulm (k : nat) (A B : mx) : mx := fun i j => sum k (fun l => A i l * B l j).
Definition trm (A : mx) : mx := fun i j => A j i.
Definition addm (A B : mx) : mx := fun i j => A i j + B i j.
Definition idm : mx := fun i j => if Nat.eqb i j then 1 else 0.
Definition mulv (k : nat) (A : mx) (x : nat -> R) : nat -> R := fun i => sum k (fun j => A i j * x j).
Definition quad (n : nat) (A : mx) (x : nat -> R) : R := sum n (fun i => x i * mulv n A x i).
Definition symmetric (n : nat) (A : mx) : Prop := forall i j, (i < n)%nat -> (j < n)%nat -> A i j = A j i.
Definition nonzero (n : nat) (x : nat -> R) : Prop := exists i, (i < n)%nat /\ x i <> 0.
Definition psd (n : nat) (A : mx) : Prop := forall x, 0 <= quad n A x.
Definition pd (n : nat) (A : mx) : Prop := forall x, nonzero n x -> 0 < quad n A x.
Definition inverse_of (n : nat) (A B : mx) : Prop := eqm n n (mulm n A B) idm /\ eqm n n (mulm n B A) idm.

Lemma eqm_refl n m A : eqm n m A A. Proof. intros i j _ _. reflexivity. Qed.
Lemma eqm_sym n m A B : eqm n m A B -> eqm n m B A. Proof. intros H i j Hi Hj. symmetry. apply H; assumption. Qed.
Lemma eqm_trans n m A B C : eqm n m A B -> eqm n m B C -> eqm n m A C. Proof. intros H K i j Hi Hj. rewrite H, K by assumption. reflexivity. Qed.
Lemma mulm_ext n k m A A' B B' : eqm n k A A' -> eqm k m B B' -> eqm n m (mulm k A B) (mulm k A' B').
Proof. intros H K i j Hi Hj. unfold mulm. apply sum_ext. intros l L. rewrite H, K by assumption. reflexivity. Qed.
Lemma mulm_assoc k l A B C i j : mulm l (mulm k A B) C i j = mulm k A (mulm l B C) i j.
Proof.
  unfold mulm. rewrite (sum_ext l _ (fun a => sum k (fun b => A i b * B b a * C a j))) by (intros a _; symmetry; apply sum_scale_r).
  rewrite sum_swap. apply sum_ext. intros b _. rewrite <- sum_scale. apply sum_ext. intros a _. ring.
Qed.
Lemma trm_mulm k A B i j : trm (mulm k A B) i j = mulm k (trm B) (trm A) i j.
Proof. unfold trm, mulm. apply sum_ext. intros l _. ring. Qed.
Lemma mulm_id_l n m A : eqm n m (mulm n idm A) A.
Proof. intros i j Hi Hj. unfold mulm, idm. rewrite (sum_single n _ i) by (assumption || (intros l _ NE; destruct (Nat.eqb_spec i l); [congruence|ring])). rewrite Nat.eqb_refl. ring. Qed.
Lemma mulm_id_r n m A : eqm n m (mulm m A idm) A.
Proof. intros i j Hi Hj. unfold mulm, idm. rewrite (sum_single m _ j) by (assumption || (intros l _ NE; destruct (Nat.eqb_spec l j); [congruence|ring])). rewrite Nat.eqb_refl. ring. Qed.
Lemma mulv_mulm k l A B x i : mulv l (mulm k A B) x i = mulv k A (mulv l B x) i.
Proof.
  unfold mulv, mulm. rewrite (sum_ext l _ (fun a => sum k (fun b => A i b * B b a * x a))) by (intros a _; symmetry; apply sum_scale_r).
  rewrite sum_swap. apply sum_ext. intros b _. rewrite <- sum_scale. apply sum_ext. intros a _. ring.
Qed.
Lemma mulv_ext n k A A' x y i : eqm n k A A' -> (forall j, (j < k)%nat -> x j = y j) -> (i < n)%nat -> mulv k A x i = mulv k A' y i.
Proof. intros H K Hi. unfold mulv. apply sum_ext. intros j L. rewrite H, K by assumption. reflexivity. Qed.
Lemma quad_ext n A B x y : eqm n n A B -> (forall i, (i < n)%nat -> x i = y i) -> quad n A x = quad n B y.
Proof. intros H K. unfold quad. apply sum_ext. intros i Hi. rewrite K by exact Hi. f_equal. apply (mulv_ext n); assumption. Qed.
(* x (A C A^T) x = (A^T x) C (A^T x) *)
Lemma quad_congruence n A C x : quad n (mulm n (mulm n A C) (trm A)) x = quad n C (mulv n (trm A) x).
Proof.
  unfold quad. rewrite (sum_ext n _ (fun i => sum n (fun k => x i * A i k * mulv n C (mulv n (trm A) x) k))).
  - rewrite sum_swap. apply sum_ext. intros k _. rewrite (sum_scale_r n (mulv n C (mulv n (trm A) x) k) (fun i => x i * A i k)). f_equal. unfold mulv, trm. apply sum_ext. intros i _. ring.
  - intros i Hi. rewrite mulv_mulm, mulv_mulm. unfold mulv at 1. rewrite <- sum_scale. apply sum_ext. intros k _. ring.
Qed.
Lemma quad_add n A B x : quad n (addm A B) x = quad n A x + quad n B x.
Proof. unfold quad, mulv, addm. rewrite <- sum_plus. apply sum_ext. intros i _. rewrite <- Rmult_plus_distr_l, <- sum_plus. f_equal. apply sum_ext. intros j _. ring. Qed.
Lemma congruence_sym n A C : symmetric n C -> symmetric n (mulm n (mulm n A C) (trm A)).
Proof.
  intros S i j Hi Hj. unfold mulm, trm. rewrite (sum_ext n _ (fun l => sum n (fun k => A i k * C k l * A j l))) by (intros l _; symmetry; apply sum_scale_r).
  rewrite (sum_ext n (fun l => sum n (fun l0 => A j l0 * C l0 l) * A i l) (fun l => sum n (fun k => A j k * C k l * A i l))) by (intros l _; symmetry; apply sum_scale_r).
  rewrite sum_swap. apply sum_ext. intros l L. apply sum_ext. intros k Lk. rewrite (S l k) by assumption. ring.
Qed.
Lemma congruence_psd n A C : psd n C -> psd n (mulm n (mulm n A C) (trm A)).
Proof. intros P x. rewrite quad_congruence. apply P. Qed.
Lemma congruence_pd n A B C : inverse_of n A B -> pd n C -> pd n (mulm n (mulm n A C) (trm A)).
Proof.
  intros [IA IB] P x [i [Hi NZ]]. rewrite quad_congruence. apply P.
  (* if A^T x = 0 then x = B^T A^T x = 0 *)
  assert (D : (exists k, (k < n)%nat /\ mulv n (trm A) x k <> 0) \/ forall k, (k < n)%nat -> mulv n (trm A) x k = 0).
  { generalize (mulv n (trm A) x). intros y. clear. induction n as [|n IH]; [right; intros k L; lia|]. destruct (Req_EM_T (y n) 0) as [E|NE]; [|left; exists n; split; [lia|exact NE]].
    destruct IH as [[k [L NE]]|Z]; [left; exists k; split; [lia|exact NE]|]. right. intros k L. destruct (Nat.eq_dec k n) as [->|]; [exact E|apply Z; lia]. }
  destruct D as [D|Z]; [exact D|]. exfalso. apply NZ.
  assert (E : x i = mulv n (trm B) (mulv n (trm A) x) i).
  { rewrite <- mulv_mulm. rewrite (mulv_ext n n _ idm x x i); [|intros a b Ha Hb; rewrite <- trm_mulm; unfold trm; rewrite IA by assumption; unfold idm; rewrite Nat.eqb_sym; reflexivity|reflexivity|exact Hi].
    unfold mulv, idm. rewrite (sum_single n _ i) by (assumption || (intros l _ NE; destruct (Nat.eqb_spec i l); [congruence|ring])). rewrite Nat.eqb_refl. ring. }
  rewrite E. unfold mulv at 1. apply sum_zero. intros k Hk. rewrite Z by exact Hk. ring.
Qed.
Lemma psd_add n A B : psd n A -> psd n B -> psd n (addm A B).
Proof. intros P Q x. rewrite quad_add. specialize (P x). specialize (Q x). lra. Qed.
Lemma pd_psd n A : pd n A -> psd n A.
Proof.
  intros P x. assert (D : nonzero n x \/ forall k, (k < n)%nat -> x k = 0).
  { unfold nonzero. clear. induction n as [|n IH]; [right; intros k L; lia|]. destruct (Req_EM_T (x n) 0) as [E|NE]; [|left; exists n; split; [lia|exact NE]].
    destruct IH as [[k [L NE]]|Z]; [left; exists k; split; [lia|exact NE]|]. right. intros k L. destruct (Nat.eq_dec k n) as [->|]; [exact E|apply Z; lia]. }
  destruct D as [D|Z]; [specialize (P x D); lra|]. unfold quad. rewrite sum_zero; [lra|]. intros i Hi. rewrite Z by exact Hi. ring.
Qed.
