(* Matrix facts for the covariance estimators. *)
From Coq Require Import Reals Lra Lia Psatz List.
From Verif Require Import Base Mx.
Open Scope R_scope.

(* blocks of b terms *)
Lemma sum_blocks b m f : sum (b * m) f = sum m (fun c => sum b (fun k => f (b * c + k)%nat)).
Proof. induction m as [|m IH]; [rewrite Nat.mul_0_r; reflexivity|]. rewrite Nat.mul_succ_r, sum_add, IH. cbn [sum]. reflexivity. Qed.
Lemma sum_S n f : sum (S n) f = sum n f + f n. Proof. reflexivity. Qed.

(* x (D C D^T) x = (D^T x) C (D^T x), D of n rows and m columns *)
Lemma quad_rect n m D C x : quad n (mulm m (mulm m D C) (trm D)) x = quad m C (mulv n (trm D) x).
Proof.
  unfold quad. rewrite (sum_ext n _ (fun i => sum m (fun k => x i * D i k * mulv m C (mulv n (trm D) x) k))).
  - rewrite sum_swap. apply sum_ext. intros k _. rewrite (sum_scale_r n (mulv m C (mulv n (trm D) x) k) (fun i => x i * D i k)). f_equal. unfold mulv, trm. apply sum_ext. intros i _. ring.
  - intros i Hi. rewrite mulv_mulm, mulv_mulm. unfold mulv at 1. rewrite <- sum_scale. apply sum_ext. intros k _. ring.
Qed.
Lemma quad_gram n m D x : quad n (mulm m D (trm D)) x = sum m (fun j => mulv n (trm D) x j * mulv n (trm D) x j).
Proof.
  unfold quad. rewrite (sum_ext n _ (fun i => sum m (fun k => x i * D i k * mulv n (trm D) x k))).
  - rewrite sum_swap. apply sum_ext. intros k _. rewrite (sum_scale_r n (mulv n (trm D) x k) (fun i => x i * D i k)). f_equal. unfold mulv, trm. apply sum_ext. intros i _. ring.
  - intros i Hi. rewrite mulv_mulm. unfold mulv at 1. rewrite <- sum_scale. apply sum_ext. intros k _. ring.
Qed.
Lemma rect_sym n m D C : symmetric m C -> symmetric n (mulm m (mulm m D C) (trm D)).
Proof.
  intros S i j Hi Hj. unfold mulm, trm. rewrite (sum_ext m _ (fun l => sum m (fun k => D i k * C k l * D j l))) by (intros l _; symmetry; apply sum_scale_r).
  rewrite (sum_ext m (fun l => sum m (fun l0 => D j l0 * C l0 l) * D i l) (fun l => sum m (fun k => D j k * C k l * D i l))) by (intros l _; symmetry; apply sum_scale_r).
  rewrite sum_swap. apply sum_ext. intros l L. apply sum_ext. intros k Lk. rewrite (S l k) by assumption. ring.
Qed.
Lemma gram_sym n m D : symmetric n (mulm m D (trm D)).
Proof. intros i j _ _. unfold mulm, trm. apply sum_ext. intros l _. ring. Qed.

(* the inverse of a symmetric matrix is symmetric, and unique *)
Lemma inverse_unique n A B C : inverse_of n A B -> inverse_of n A C -> eqm n n B C.
Proof.
  intros [_ BA] [AC _]. apply (eqm_trans _ _ _ (mulm n B (mulm n A C))).
  - apply eqm_sym. apply (eqm_trans _ _ _ (mulm n B idm)); [apply mulm_ext; [apply eqm_refl|exact AC]|apply mulm_id_r].
  - apply (eqm_trans _ _ _ (mulm n (mulm n B A) C)); [intros i j _ _; symmetry; apply mulm_assoc|]. apply (eqm_trans _ _ _ (mulm n idm C)); [apply mulm_ext; [exact BA|apply eqm_refl]|apply mulm_id_l].
Qed.
Lemma inverse_sym n A B : symmetric n A -> inverse_of n A B -> symmetric n B.
Proof.
  intros S I. assert (T : inverse_of n A (trm B)).
  { destruct I as [AB BA]. split; intros i j Hi Hj.
    - transitivity (trm (mulm n B A) i j); [rewrite trm_mulm; unfold mulm; apply sum_ext; intros l L; unfold trm; rewrite (S i l) by assumption; reflexivity|].
      unfold trm. rewrite BA by assumption. unfold idm. rewrite Nat.eqb_sym. reflexivity.
    - transitivity (trm (mulm n A B) i j); [rewrite trm_mulm; unfold mulm; apply sum_ext; intros l L; unfold trm; rewrite (S l j) by assumption; reflexivity|].
      unfold trm. rewrite AB by assumption. unfold idm. rewrite Nat.eqb_sym. reflexivity. }
  intros i j Hi Hj. exact (inverse_unique n A B (trm B) I T i j Hi Hj).
Qed.
Lemma inverse_flip n A B : inverse_of n A B -> inverse_of n B A. Proof. intros [X Y]. split; assumption. Qed.
Lemma inverse_cancel n A B x i : inverse_of n A B -> (i < n)%nat -> mulv n A (mulv n B x) i = x i.
Proof.
  intros [AB _] Hi. rewrite <- mulv_mulm. rewrite (mulv_ext n n _ idm x x i) by (try exact AB; try exact Hi; reflexivity).
  unfold mulv, idm. rewrite (sum_single n _ i) by (assumption || (intros l _ NE; destruct (Nat.eqb_spec i l); [congruence|ring])). rewrite Nat.eqb_refl. ring.
Qed.
(* x B x = (B x) A (B x) for B the inverse of A *)
Lemma quad_inverse n A B x : symmetric n A -> inverse_of n A B -> quad n B x = quad n A (mulv n B x).
Proof.
  intros S I. unfold quad. rewrite (sum_ext n (fun i => mulv n B x i * mulv n A (mulv n B x) i) (fun i => x i * mulv n B x i)); [reflexivity|].
  intros i Hi. rewrite (inverse_cancel n A B x i I Hi). ring.
Qed.
Lemma mulv_nonzero n A B x : inverse_of n A B -> nonzero n x -> nonzero n (mulv n B x).
Proof.
  intros I [i [Hi NZ]]. assert (D : nonzero n (mulv n B x) \/ forall k, (k < n)%nat -> mulv n B x k = 0).
  { unfold nonzero. generalize (mulv n B x). intros y. clear. induction n as [|n IH]; [right; intros k L; lia|]. destruct (Req_EM_T (y n) 0) as [E|NE]; [|left; exists n; split; [lia|exact NE]].
    destruct IH as [[k [L NE]]|Z]; [left; exists k; split; [lia|exact NE]|]. right. intros k L. destruct (Nat.eq_dec k n) as [->|]; [exact E|apply Z; lia]. }
  destruct D as [D|Z]; [exact D|]. exfalso. apply NZ. rewrite <- (inverse_cancel n A B x i I Hi). unfold mulv at 1. apply sum_zero. intros k Hk. rewrite Z by exact Hk. ring.
Qed.
Lemma pd_inverse n A B : symmetric n A -> inverse_of n A B -> pd n A -> pd n B.
Proof. intros S I P x NZ. rewrite (quad_inverse n A B x S I). apply P. apply (mulv_nonzero n A B x I NZ). Qed.
Lemma quad_sandwich n B M x : symmetric n B -> quad n (mulm n (mulm n B M) B) x = quad n M (mulv n B x).
Proof.
  intros S. transitivity (quad n (mulm n (mulm n B M) (trm B)) x).
  - apply quad_ext; [|reflexivity]. apply mulm_ext; [apply eqm_refl|]. intros i j Hi Hj. unfold trm. apply S; assumption.
  - rewrite quad_congruence. apply quad_ext; [apply eqm_refl|]. intros i Hi. unfold mulv. apply sum_ext. intros j Hj. unfold trm. rewrite (S j i) by assumption. reflexivity.
Qed.
Lemma sandwich_sym n B M : symmetric n B -> symmetric n M -> symmetric n (mulm n (mulm n B M) B).
Proof.
  intros S T i j Hi Hj. pose proof (congruence_sym n B M T i j Hi Hj) as K.
  assert (E : forall i j, (i < n)%nat -> (j < n)%nat -> mulm n (mulm n B M) B i j = mulm n (mulm n B M) (trm B) i j).
  { intros a b Ha Hb. unfold mulm. apply sum_ext. intros l L. unfold trm. rewrite (S l b) by assumption. reflexivity. }
  rewrite !E by assumption. exact K.
Qed.

(* a symmetric positive definite matrix has an inverse *)
Lemma quad_last n A x : quad (S n) A x = quad n A x + x n * sum n (fun j => A n j * x j) + x n * sum n (fun i => A i n * x i) + A n n * (x n * x n).
Proof.
  unfold quad, mulv. rewrite sum_S. rewrite (sum_ext n _ (fun i => x i * sum n (fun j => A i j * x j) + x n * (A i n * x i))) by (intros i _; cbn [sum]; ring).
  rewrite sum_plus, sum_scale. cbn [sum]. ring.
Qed.
Lemma pd_minor n A : pd (S n) A -> pd n A.
Proof.
  intros P x [k [Lk NZ]]. specialize (P (fun i => if (i <? n)%nat then x i else 0)). rewrite quad_last in P. rewrite Nat.ltb_irrefl in P.
  rewrite (quad_ext n A A _ x) in P; [|apply eqm_refl|intros i Hi; apply Nat.ltb_lt in Hi; rewrite Hi; reflexivity].
  assert (0 < quad n A x + 0 * sum n (fun j => A n j * (if (j <? n)%nat then x j else 0)) + 0 * sum n (fun i => A i n * (if (i <? n)%nat then x i else 0)) + A n n * (0 * 0)); [|lra].
  apply P. exists k. split; [lia|]. apply Nat.ltb_lt in Lk. rewrite Lk. exact NZ.
Qed.
Lemma pd_invertible n : forall A, symmetric n A -> pd n A -> exists B, inverse_of n A B.
Proof.
  induction n as [|n IH]; intros A SA P; [exists idm; split; intros i j Hi; lia|].
  assert (SA' : symmetric n A) by (intros i j Hi Hj; apply SA; lia).
  destruct (IH A SA' (pd_minor n A P)) as [B IB]. assert (SB : symmetric n B) by exact (inverse_sym n A B SA' IB).
  set (b := fun i => A i n). set (y := mulv n B b). set (s := A n n - sum n (fun i => b i * y i)).
  assert (Ay : forall i, (i < n)%nat -> sum n (fun k => A i k * y k) = b i) by (intros i Hi; exact (inverse_cancel n A B b i IB Hi)).
  assert (Sp : 0 < s).
  { specialize (P (fun i => if (i <? n)%nat then - y i else 1)). rewrite quad_last in P. rewrite Nat.ltb_irrefl in P.
    replace s with (quad n A (fun i => if (i <? n)%nat then - y i else 1) + 1 * sum n (fun j => A n j * (if (j <? n)%nat then - y j else 1)) + 1 * sum n (fun i => A i n * (if (i <? n)%nat then - y i else 1)) + A n n * (1 * 1)).
    - apply P. exists n. split; [lia|]. rewrite Nat.ltb_irrefl. lra.
    - rewrite (quad_ext n A A _ (fun i => - y i)) by (try apply eqm_refl; intros i Hi; apply Nat.ltb_lt in Hi; rewrite Hi; reflexivity).
      rewrite (sum_ext n (fun j => A n j * (if (j <? n)%nat then - y j else 1)) (fun j => - 1 * (b j * y j))) by (intros j Hj; pose proof (proj2 (Nat.ltb_lt j n) Hj) as E; rewrite E; unfold b; rewrite (SA n j) by lia; ring).
      rewrite (sum_ext n (fun j => A j n * (if (j <? n)%nat then - y j else 1)) (fun j => - 1 * (b j * y j))) by (intros j Hj; pose proof (proj2 (Nat.ltb_lt j n) Hj) as E; rewrite E; unfold b; ring).
      unfold quad. rewrite (sum_ext n (fun i => - y i * mulv n A (fun i0 => - y i0) i) (fun i => b i * y i)).
      + rewrite !sum_scale. unfold s. ring.
      + intros i Hi. unfold mulv. rewrite (sum_ext n _ (fun j => - 1 * (A i j * y j))) by (intros; ring). rewrite sum_scale, Ay by exact Hi. ring. }
  set (N := fun i j => if (i <? n)%nat then (if (j <? n)%nat then B i j + y i * y j / s else - y i / s) else (if (j <? n)%nat then - y j / s else / s)).
  assert (NS : symmetric (S n) N).
  { intros i j Hi Hj. unfold N. destruct (Nat.ltb_spec i n) as [L|L], (Nat.ltb_spec j n) as [L'|L']; try reflexivity. rewrite (SB i j) by assumption. field. lra. }
  assert (R : eqm (S n) (S n) (mulm (S n) A N) idm).
  { intros i j Hi Hj. unfold mulm. rewrite sum_S.
    assert (Z : forall k, (k < n)%nat -> N k j = if (j <? n)%nat then B k j + y k * y j / s else - y k / s) by (intros k Hk; unfold N; apply Nat.ltb_lt in Hk; rewrite Hk; reflexivity).
    rewrite (sum_ext n _ (fun k => A i k * (if (j <? n)%nat then B k j + y k * y j / s else - y k / s))) by (intros k Hk; rewrite Z by exact Hk; reflexivity).
    unfold N at 1. rewrite Nat.ltb_irrefl. destruct (Nat.ltb_spec j n) as [Lj|Lj].
    - rewrite (sum_ext n _ (fun k => A i k * B k j + (A i k * y k) * (y j / s))) by (intros k _; field; lra). rewrite sum_plus, sum_scale_r.
      destruct (Nat.eq_dec i n) as [->|NE].
      + rewrite (sum_ext n (fun k => A n k * B k j) (fun k => B j k * b k)) by (intros k Hk; unfold b; rewrite (SA n k), (SB k j) by lia; ring). fold (mulv n B b j). fold y.
        rewrite (sum_ext n (fun k => A n k * y k) (fun k => b k * y k)) by (intros k Hk; unfold b; rewrite (SA n k) by lia; reflexivity).
        replace (sum n (fun k => b k * y k)) with (A n n - s) by (unfold s; ring). unfold idm. destruct (Nat.eqb_spec n j); [lia|]. change (mulv n B b j) with (y j). field. lra.
      + assert (Li : (i < n)%nat) by lia. rewrite Ay by exact Li. change (A i n) with (b i). destruct IB as [AB _]. specialize (AB i j Li Lj). unfold mulm in AB. rewrite AB. field. lra.
    - assert (j = n) by lia. subst j. rewrite (sum_ext n _ (fun k => (A i k * y k) * (- / s))) by (intros k _; field; lra). rewrite sum_scale_r.
      destruct (Nat.eq_dec i n) as [->|NE].
      + rewrite (sum_ext n (fun k => A n k * y k) (fun k => b k * y k)) by (intros k Hk; unfold b; rewrite (SA n k) by lia; reflexivity).
        replace (sum n (fun k => b k * y k)) with (A n n - s) by (unfold s; ring). unfold idm. rewrite Nat.eqb_refl. field. lra.
      + assert (Li : (i < n)%nat) by lia. rewrite Ay by exact Li. change (A i n) with (b i). unfold idm. destruct (Nat.eqb_spec i n); [lia|]. field. lra. }
  exists N. split; [exact R|]. intros i j Hi Hj. transitivity (mulm (S n) A N j i).
  - unfold mulm. apply sum_ext. intros l L. rewrite (NS i l), (SA l j) by assumption. ring.
  - rewrite R by assumption. unfold idm. rewrite Nat.eqb_sym. reflexivity.
Qed.
(* a symmetric positive semidefinite matrix with an inverse is positive definite *)
Lemma quad_line n A x y t : symmetric n A -> quad n A (fun i => y i + t * x i) = quad n A y + 2 * t * sum n (fun i => y i * mulv n A x i) + t * t * quad n A x.
Proof.
  intros S. assert (E : forall x y, sum n (fun i => y i * mulv n A x i) = sum n (fun i => x i * mulv n A y i)).
  { intros a c. unfold mulv. rewrite (sum_ext n _ (fun i => sum n (fun j => c i * (A i j * a j)))) by (intros i _; symmetry; apply sum_scale). rewrite sum_swap. apply sum_ext. intros j Hj. rewrite <- sum_scale. apply sum_ext. intros i Hi. rewrite (S i j) by assumption. ring. }
  unfold quad. rewrite (sum_ext n _ (fun i => y i * mulv n A y i + (t * (y i * mulv n A x i) + (t * (x i * mulv n A y i) + t * t * (x i * mulv n A x i))))).
  - rewrite sum_plus, sum_plus, sum_plus, !sum_scale. rewrite (E y x). ring.
  - intros i _. replace (mulv n A (fun j => y j + t * x j) i) with (mulv n A y i + t * mulv n A x i); [ring|]. unfold mulv. rewrite <- sum_scale, <- sum_plus. apply sum_ext. intros; ring.
Qed.
Lemma psd_invertible_pd n A B : symmetric n A -> psd n A -> inverse_of n A B -> pd n A.
Proof.
  intros S P I x NZ. specialize (P x) as P0. destruct (Rle_lt_or_eq_dec _ _ P0) as [L|E]; [exact L|]. exfalso.
  (* A x = 0 *)
  assert (Z : forall i, (i < n)%nat -> mulv n A x i = 0).
  { set (g := mulv n A x). set (q := sum n (fun i => g i * g i)). assert (Q0 : 0 <= q) by (apply sum_nonneg; intros; nra).
    assert (Q : q = 0).
    { destruct (Req_EM_T q 0) as [H|NQ]; [exact H|]. assert (QP : 0 < q) by lra.
      pose proof (quad_line n A x g (- (quad n A g + 1) / (2 * q)) S) as K. fold g in K. fold q in K. rewrite <- E in K.
      specialize (P (fun i => g i + - (quad n A g + 1) / (2 * q) * x i)). rewrite K in P. replace (2 * (- (quad n A g + 1) / (2 * q)) * q) with (- (quad n A g + 1)) in P by (field; lra). lra. }
    intros i Hi. destruct (Req_EM_T (g i) 0) as [H|NG]; [exact H|]. assert (0 < q); [|lra]. apply sum_pos; [intros; nra|]. exists i. split; [exact Hi|]. nra. }
  destruct (mulv_nonzero n B A x (inverse_flip _ _ _ I) NZ) as [i [Hi NE]]. apply NE. apply Z. exact Hi.
Qed.
