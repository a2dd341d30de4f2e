(* Normalised matching costs over the reals (stereo_cost_functions.cpp = CF, window_functions.cpp = WF).
   double is read as R; a NaN or infinite result is None. *)
From Verif Require Import Base StModel StSpec StCost.
From Coq Require Import Reals Lra.
Open Scope R_scope.

(* the double loop over two windows with a real accumulator (CF 70-78, 106-114, 141-146) *)
Definition window_loopR (g : Z -> Z -> R) (im1 im2 : image) (tl1 tl2 : Z * Z) (w : Z * Z) (acc : R) : res R :=
  for_up (snd w) (fun row =>
    for_up (fst w) (fun col s =>
      rbind (pixel im1 (snd tl1 + row) (fst tl1 + col)) (fun a =>
      rbind (pixel im2 (snd tl2 + row) (fst tl2 + col)) (fun b =>
      Ok (s + g a b))))) acc.
(* window_sum, window_sum_squares (WF 12-20, 26-34): [j] is the value of the uninitialised accumulator *)
Definition rsum (j : R) (im : image) (tl w : Z * Z) : res R :=
  rbind (window_sum 0 im tl w) (fun s => Ok (j + IZR s)).
Definition rsum_squares (j : R) (im : image) (tl w : Z * Z) : res R :=
  rbind (window_sum_squares 0 im tl w) (fun s => Ok (j + IZR s)).
(* window_mean (WF 22-24) *)
Definition window_mean (j : R) (im : image) (tl w : Z * Z) : res R :=
  rbind (rsum j im tl w) (fun s => Ok (s / IZR (fst w * snd w))).

Definition non8u (im1 im2 : image) : bool := negb (i8u im1) || negb (i8u im2).
(* zero_mean_sum_of_absolute_differences (CF 44-79); [j1], [j2] are the two accumulators' initial values *)
Definition zmsad (j1 j2 : R) (im1 im2 : image) (a b w : Z * Z) : res R :=
  if negb (i8u im1) then Throw else
  rbind (window_mean j1 im1 a w) (fun m1 =>
  if non8u im1 im2 then Throw else
  rbind (window_mean j2 im2 b w) (fun m2 =>
  window_loopR (fun x y => Rabs (IZR x - IZR y - m1 + m2)) im1 im2 a b w 0)).
(* locally_scaled_sum_of_absolute_differences (CF 81-116) *)
Definition lssad (j1 j2 : R) (im1 im2 : image) (a b w : Z * Z) : res (option R) :=
  if negb (i8u im1) then Throw else
  rbind (window_mean j1 im1 a w) (fun m1 =>
  if non8u im1 im2 then Throw else
  rbind (window_mean j2 im2 b w) (fun m2 =>
  if Req_EM_T m2 0 then Ok None
  else rbind (window_loopR (fun x y => Rabs (IZR x - m1 / m2 * IZR y)) im1 im2 a b w 0) (fun s => Ok (Some s)))).
(* negative_normalised_cross_correlation (CF 118-155): a non-positive product under the root gives
   NaN or a division by zero *)
Definition nncc (j1 j2 : R) (im1 im2 : image) (a b w : Z * Z) : res (option R) :=
  if negb (i8u im1) then Throw else
  rbind (rsum_squares j1 im1 a w) (fun s1 =>
  if non8u im1 im2 then Throw else
  rbind (rsum_squares j2 im2 b w) (fun s2 =>
  rbind (window_loopR (fun x y => IZR x * IZR y) im1 im2 a b w 0) (fun cc =>
  if Rle_dec (s1 * s2) 0 then Ok None else Ok (Some (- (cc / sqrt (s1 * s2))))))).

(* ---- sums ---- *)
Definition sumR (l : list R) : R := fold_right Rplus 0 l.
Lemma sumR_app a b : sumR (a ++ b) = sumR a + sumR b.
Proof. unfold sumR. induction a as [|x a IH]; cbn [app fold_right]; [rewrite Rplus_0_l; reflexivity|]. rewrite IH. lra. Qed.
Lemma sumR_plus {A} (f g : A -> R) l : sumR (map (fun x => f x + g x) l) = sumR (map f l) + sumR (map g l).
Proof. unfold sumR. induction l as [|x l IH]; cbn [map fold_right]; [lra|]. rewrite IH. lra. Qed.
Lemma sumR_scal {A} k (f : A -> R) l : sumR (map (fun x => k * f x) l) = k * sumR (map f l).
Proof. unfold sumR. induction l as [|x l IH]; cbn [map fold_right]; [lra|]. rewrite IH. lra. Qed.
Lemma sumR_const {A} k (l : list A) : sumR (map (fun _ => k) l) = INR (length l) * k.
Proof. induction l as [|x l IH]; [cbn; lra|]. cbn [map sumR fold_right length]. rewrite S_INR. unfold sumR in *. rewrite IH. lra. Qed.
Lemma sumR_ext {A} (f g : A -> R) l : (forall x, In x l -> f x = g x) -> sumR (map f l) = sumR (map g l).
Proof.
  induction l as [|x l IH]; intros H; [reflexivity|]. cbn [map sumR fold_right]. rewrite (H x (or_introl eq_refl)).
  f_equal. apply IH. intros; apply H; right; assumption.
Qed.
Lemma sumR_nonneg {A} (f : A -> R) l : (forall x, In x l -> 0 <= f x) -> 0 <= sumR (map f l).
Proof.
  induction l as [|x l IH]; intros H; [cbn; lra|]. cbn [map sumR fold_right]. pose proof (H x (or_introl eq_refl)).
  assert (0 <= sumR (map f l)) by (apply IH; intros; apply H; right; assumption). unfold sumR in *. lra.
Qed.
Lemma sumR_zero {A} (f : A -> R) l : (forall x, In x l -> 0 <= f x) -> sumR (map f l) = 0 -> forall x, In x l -> f x = 0.
Proof.
  induction l as [|y l IH]; intros H S x Hx; [destruct Hx|]. cbn [map sumR fold_right] in S. pose proof (H y (or_introl eq_refl)) as Hy.
  assert (N : 0 <= sumR (map f l)) by (apply sumR_nonneg; intros; apply H; right; assumption). unfold sumR in *.
  destruct Hx as [<-|Hx]; [lra|]. apply IH; [intros; apply H; right; assumption | lra | exact Hx].
Qed.
Lemma sumR_IZR {A} (f : A -> Z) l : IZR (sumZ (map f l)) = sumR (map (fun x => IZR (f x)) l).
Proof. induction l as [|x l IH]; [reflexivity|]. cbn [map sumZ sumR fold_right]. rewrite plus_IZR. unfold sumZ, sumR in *. rewrite IH. reflexivity. Qed.

Lemma Rabs_eq_0 x : Rabs x = 0 -> x = 0.
Proof. intros H. destruct (Req_dec x 0) as [E|E]; [exact E|]. apply Rabs_no_R0 in E. contradiction. Qed.

(* sum of squares = 0, Cauchy-Schwarz *)
Lemma schwarz {A} (f g : A -> R) l :
  let X := sumR (map (fun p => f p * f p) l) in let Y := sumR (map (fun p => g p * g p) l) in
  let C := sumR (map (fun p => f p * g p) l) in
  sumR (map (fun p => (Y * f p - C * g p) * (Y * f p - C * g p)) l) = Y * (X * Y - C * C).
Proof.
  intros X Y C.
  rewrite (sumR_ext _ (fun p => (Y * Y) * (f p * f p) + ((-2 * Y * C) * (f p * g p) + (C * C) * (g p * g p)))) by (intros; ring).
  rewrite sumR_plus, sumR_plus, !sumR_scal. fold X Y C. ring.
Qed.

(* ---- loops ---- *)
Lemma for_from_sumR (f : Z -> R -> res R) (h : Z -> R) : forall n i acc,
  (forall k s, (i <= k < i + Z.of_nat n)%Z -> f k s = Ok (s + h k)) ->
  for_from n i f acc = Ok (acc + sumR (map (fun x => h (i + x)%Z) (upto n))).
Proof.
  induction n as [|n IH]; intros i acc H; cbn [for_from]; [cbn; f_equal; lra|].
  rewrite H by lia. cbn [rbind]. rewrite IH by (intros; apply H; lia). f_equal.
  assert (E : forall g : Z -> R, sumR (map g (upto (S n))) = g 0%Z + sumR (map (fun x => g (1 + x)%Z) (upto n))).
  { clear. induction n as [|n IH]; intros g; [cbn; lra|].
    change (upto (S (S n))) with (upto (S n) ++ [Z.of_nat (S n)]). rewrite map_app, sumR_app, IH.
    change (upto (S n)) with (upto n ++ [Z.of_nat n]). rewrite map_app, sumR_app.
    cbn [map sumR fold_right]. replace (Z.of_nat (S n)) with (1 + Z.of_nat n)%Z by lia. lra. }
  rewrite (E (fun x => h (i + x)%Z)). rewrite Z.add_0_r.
  replace (map (fun x => h (i + 1 + x)%Z) (upto n)) with (map (fun x => h (i + (1 + x))%Z) (upto n)); [lra|].
  apply map_ext. intros. f_equal. lia.
Qed.
Lemma loopR_inside g im1 im2 tl1 tl2 w acc : inside im1 tl1 w -> inside im2 tl2 w ->
  window_loopR g im1 im2 tl1 tl2 w acc = Ok (acc + sumR (map (fun p => g (at_cell im1 tl1 p) (at_cell im2 tl2 p)) (cells w))).
Proof.
  intros I1 I2. unfold window_loopR, for_up.
  rewrite (for_from_sumR _ (fun r => sumR (map (fun c => g (at_cell im1 tl1 (r, c)) (at_cell im2 tl2 (r, c))) (upto (Z.to_nat (fst w)))))).
  - do 2 f_equal. unfold cells. generalize (upto (Z.to_nat (snd w))). intros l.
    induction l as [|r l IH]; [reflexivity|]. cbn [map flat_map]. rewrite map_app, sumR_app, <- IH, map_map. reflexivity.
  - intros r s Hr. rewrite (for_from_sumR _ (fun c => g (at_cell im1 tl1 (r, c)) (at_cell im2 tl2 (r, c)))); [reflexivity|].
    intros c s' Hc. rewrite (pixel_inside im1 tl1 w), (pixel_inside im2 tl2 w) by (assumption || lia). reflexivity.
Qed.
Lemma upto_length n : length (upto n) = n.
Proof. induction n as [|n IH]; [reflexivity|]. cbn [upto]. rewrite app_length, IH. cbn. lia. Qed.
Lemma cells_length w : length (cells w) = (Z.to_nat (snd w) * Z.to_nat (fst w))%nat.
Proof.
  unfold cells. rewrite <- (upto_length (Z.to_nat (snd w))) at 2. generalize (upto (Z.to_nat (snd w))). intros l.
  induction l as [|r l IH]; [reflexivity|]. cbn [flat_map]. rewrite app_length, map_length, upto_length, IH. reflexivity.
Qed.

Section Costs.
Variables im1 im2 : image.
Variables a b w : Z * Z.
Hypothesis U1 : i8u im1 = true.
Hypothesis U2 : i8u im2 = true.
Hypothesis I1 : inside im1 a w.
Hypothesis I2 : inside im2 b w.
Hypothesis Wp : (0 < fst w)%Z.
Hypothesis Hp : (0 < snd w)%Z.
(* the two windows' pixels *)
Definition p1 p := IZR (at_cell im1 a p).
Definition p2 p := IZR (at_cell im2 b p).
Definition n := INR (length (cells w)).
Lemma area_n : IZR (fst w * snd w) = n.
Proof. unfold n. rewrite INR_IZR_INZ, cells_length. f_equal. rewrite Nat2Z.inj_mul, !Z2Nat.id by lia. lia. Qed.
Lemma n_pos : 0 < n.
Proof. unfold n. rewrite INR_IZR_INZ. apply IZR_lt. rewrite cells_length. nia. Qed.
Definition S1 := sumR (map p1 (cells w)).
Definition S2 := sumR (map p2 (cells w)).
Lemma mean1_eq j : window_mean j im1 a w = Ok ((j + S1) / n).
Proof.
  unfold window_mean, rsum. rewrite (proj1 (window_sums_exact 0 im1 a w I1)). cbn [rbind]. rewrite area_n.
  do 2 f_equal. f_equal. rewrite plus_IZR, Rplus_0_l. apply sumR_IZR.
Qed.
Lemma mean2_eq j : window_mean j im2 b w = Ok ((j + S2) / n).
Proof.
  unfold window_mean, rsum. rewrite (proj1 (window_sums_exact 0 im2 b w I2)). cbn [rbind]. rewrite area_n.
  do 2 f_equal. f_equal. rewrite plus_IZR, Rplus_0_l. apply sumR_IZR.
Qed.
Lemma non8u_f : non8u im1 im2 = false.
Proof. unfold non8u. rewrite U1, U2. reflexivity. Qed.
Lemma zmsad_eq j1 j2 : zmsad j1 j2 im1 im2 a b w =
  Ok (sumR (map (fun p => Rabs (p1 p - p2 p - (j1 + S1) / n + (j2 + S2) / n)) (cells w))).
Proof.
  unfold zmsad. rewrite U1. cbn [negb]. rewrite mean1_eq. cbn [rbind]. rewrite non8u_f, mean2_eq. cbn [rbind].
  rewrite loopR_inside by assumption. rewrite Rplus_0_l. reflexivity.
Qed.

(* pixels differ by a constant *)
Definition shifted (d : R) : Prop := forall p, In p (cells w) -> p1 p = p2 p + d.
Lemma shifted_sum d : shifted d -> S1 = S2 + n * d.
Proof.
  intros H. unfold S1, S2, n. rewrite (sumR_ext _ (fun p => p2 p + d)) by (intros; apply H; assumption).
  rewrite sumR_plus, sumR_const. reflexivity.
Qed.
Theorem zmsad_zero : exists c, zmsad 0 0 im1 im2 a b w = Ok c /\ 0 <= c /\ (c = 0 <-> exists d, shifted d).
Proof.
  rewrite zmsad_eq. eexists. split; [reflexivity|]. set (f := fun p => Rabs _).
  assert (N : forall p, In p (cells w) -> 0 <= f p) by (intros; apply Rabs_pos).
  split; [apply sumR_nonneg; exact N|]. pose proof n_pos as NP. split.
  - intros Z. exists ((0 + S1) / n - (0 + S2) / n). intros p Hp'. pose proof (sumR_zero f _ N Z p Hp') as E. unfold f in E.
    apply Rabs_eq_0 in E. lra.
  - intros [d H]. rewrite (sumR_ext f (fun _ => 0)); [rewrite sumR_const; lra|]. intros p Hp'. unfold f.
    rewrite (shifted_sum d H), (H p Hp'). replace (_ - _ - _ + _) with 0 by (field; lra). apply Rabs_R0.
Qed.
(* with the accumulators as they are: two identical windows cost |j2 - j1| *)
Theorem zmsad_junk j1 j2 : shifted 0 -> zmsad j1 j2 im1 im2 a b w = Ok (Rabs (j2 - j1)).
Proof.
  intros H. rewrite zmsad_eq. f_equal. pose proof n_pos as NP. pose proof (shifted_sum 0 H) as E.
  rewrite (sumR_ext _ (fun _ => Rabs ((j2 - j1) / n))).
  - rewrite sumR_const. fold n. unfold Rdiv. rewrite Rabs_mult, (Rabs_right (/ n)).
    + field. lra.
    + apply Rle_ge, Rlt_le, Rinv_0_lt_compat. exact NP.
  - intros p Hp'. f_equal. rewrite E, (H p Hp'). field. lra.
Qed.

Lemma lssad_eq j1 j2 : (j2 + S2) / n <> 0 -> lssad j1 j2 im1 im2 a b w =
  Ok (Some (sumR (map (fun p => Rabs (p1 p - (j1 + S1) / n / ((j2 + S2) / n) * p2 p)) (cells w)))).
Proof.
  intros Z. unfold lssad. rewrite U1. cbn [negb]. rewrite mean1_eq. cbn [rbind]. rewrite non8u_f, mean2_eq. cbn [rbind].
  destruct (Req_EM_T _ _); [contradiction|]. rewrite loopR_inside by assumption. cbn [rbind]. rewrite Rplus_0_l. reflexivity.
Qed.
(* pixels differ by a factor *)
Definition scaled (k : R) : Prop := forall p, In p (cells w) -> p1 p = k * p2 p.
Theorem lssad_zero : S2 <> 0 -> exists c, lssad 0 0 im1 im2 a b w = Ok (Some c) /\ 0 <= c /\ (c = 0 <-> exists k, scaled k).
Proof.
  intros Z. pose proof n_pos as NP.
  assert (ZM : (0 + S2) / n <> 0).
  { rewrite Rplus_0_l. unfold Rdiv. apply Rmult_integral_contrapositive. split; [exact Z|]. apply Rinv_neq_0_compat. lra. }
  rewrite lssad_eq by exact ZM. eexists. split; [reflexivity|]. set (f := fun p => Rabs _).
  assert (N : forall p, In p (cells w) -> 0 <= f p) by (intros; apply Rabs_pos).
  split; [apply sumR_nonneg; exact N|]. split.
  - intros E. exists ((0 + S1) / n / ((0 + S2) / n)). intros p Hp'. pose proof (sumR_zero f _ N E p Hp') as E'. unfold f in E'.
    apply Rabs_eq_0 in E'. lra.
  - intros [k H]. rewrite (sumR_ext f (fun _ => 0)); [rewrite sumR_const; lra|]. intros p Hp'. unfold f.
    assert (ES : S1 = k * S2).
    { unfold S1, S2. rewrite (sumR_ext _ (fun p => k * p2 p)) by (intros; apply H; assumption). apply sumR_scal. }
    rewrite ES, (H p Hp'). replace (_ - _) with 0 by (field; lra). apply Rabs_R0.
Qed.
(* a black search window gives no comparable cost *)
Theorem lssad_black j1 : S2 = 0 -> lssad j1 0 im1 im2 a b w = Ok None.
Proof.
  intros Z. unfold lssad. rewrite U1. cbn [negb]. rewrite mean1_eq. cbn [rbind]. rewrite non8u_f, mean2_eq, Z. cbn [rbind].
  destruct (Req_EM_T ((0 + 0) / n) 0) as [E|E]; [reflexivity|]. exfalso. apply E. unfold Rdiv. lra.
Qed.

Definition Q1 := sumR (map (fun p => p1 p * p1 p) (cells w)).
Definition Q2 := sumR (map (fun p => p2 p * p2 p) (cells w)).
Definition C12 := sumR (map (fun p => p1 p * p2 p) (cells w)).
Lemma nncc_eq j1 j2 : nncc j1 j2 im1 im2 a b w =
  Ok (if Rle_dec ((j1 + Q1) * (j2 + Q2)) 0 then None else Some (- (C12 / sqrt ((j1 + Q1) * (j2 + Q2))))).
Proof.
  unfold nncc, rsum_squares. rewrite U1. cbn [negb].
  rewrite (proj2 (window_sums_exact 0 im1 a w I1)). cbn [rbind]. rewrite non8u_f.
  rewrite (proj2 (window_sums_exact 0 im2 b w I2)). cbn [rbind]. rewrite loopR_inside by assumption. cbn [rbind].
  rewrite !plus_IZR, !Rplus_0_l. unfold wsum. rewrite !sumR_IZR.
  replace (sumR (map (fun x => IZR (at_cell im1 a x * at_cell im1 a x)) (cells w))) with Q1 by (apply sumR_ext; intros; unfold p1; rewrite mult_IZR; reflexivity).
  replace (sumR (map (fun x => IZR (at_cell im2 b x * at_cell im2 b x)) (cells w))) with Q2 by (apply sumR_ext; intros; unfold p2; rewrite mult_IZR; reflexivity).
  change (sumR (map (fun p => IZR (at_cell im1 a p) * IZR (at_cell im2 b p)) (cells w))) with C12.
  destruct (Rle_dec _ 0); reflexivity.
Qed.
Lemma Q1_nonneg : 0 <= Q1. Proof. apply sumR_nonneg. intros. apply Rle_0_sqr. Qed.
Lemma Q2_nonneg : 0 <= Q2. Proof. apply sumR_nonneg. intros. apply Rle_0_sqr. Qed.
Lemma cauchy : C12 * C12 <= Q1 * Q2.
Proof.
  pose proof (schwarz p1 p2 (cells w)) as S. cbn zeta in S. fold Q1 Q2 C12 in S.
  assert (N : 0 <= Q2 * (Q1 * Q2 - C12 * C12)) by (rewrite <- S; apply sumR_nonneg; intros; apply Rle_0_sqr).
  pose proof Q2_nonneg as P2. destruct (Rle_lt_or_eq_dec _ _ P2) as [L|E].
  { assert (0 <= Q1 * Q2 - C12 * C12); [|lra]. apply (Rmult_le_reg_l Q2); [exact L | lra]. }
  (* Q2 = 0: all pixels of the second window are 0, so C12 = 0 *)
  assert (Z : C12 = 0).
  { unfold C12. rewrite (sumR_ext _ (fun _ => 0)); [rewrite sumR_const; lra|]. intros p Hp'.
    assert (F : p2 p * p2 p = 0) by (apply (sumR_zero (fun p => p2 p * p2 p) (cells w)); [intros; apply Rle_0_sqr | symmetry; exact E | exact Hp']).
    assert (F' : p2 p = 0) by (apply Rmult_integral in F; tauto). rewrite F'. ring. }
  rewrite Z, <- E. lra.
Qed.
(* the cost is the negative of a correlation coefficient *)
Theorem nncc_range : exists o, nncc 0 0 im1 im2 a b w = Ok o /\
  (o = None <-> Q1 = 0 \/ Q2 = 0) /\
  (forall c, o = Some c -> -1 <= c <= 1 /\ (c = -1 <-> exists k, 0 < k /\ scaled k)).
Proof.
  rewrite nncc_eq. eexists. split; [reflexivity|]. rewrite !Rplus_0_l.
  pose proof Q1_nonneg as P1. pose proof Q2_nonneg as P2. pose proof cauchy as CS.
  destruct (Rle_dec (Q1 * Q2) 0) as [L|L].
  - split; [|intros c; discriminate]. split; [intros _|reflexivity].
    assert (E : Q1 * Q2 = 0) by nra. apply Rmult_integral in E. exact E.
  - assert (PP : 0 < Q1 * Q2) by lra.
    assert (L1 : 0 < Q1) by nra. assert (L2 : 0 < Q2) by nra.
    split; [split; [discriminate | intros [E|E]; rewrite E in *; lra]|].
    intros c [= <-]. set (s := sqrt (Q1 * Q2)).
    assert (SP : 0 < s) by (apply sqrt_lt_R0; exact PP).
    assert (SS : s * s = Q1 * Q2) by (apply sqrt_sqrt; lra).
    assert (B : - s <= C12 <= s) by (split; nra).
    assert (E1 : C12 / s <= 1) by (apply (Rmult_le_reg_r s); [exact SP|]; unfold Rdiv; rewrite Rmult_assoc, Rinv_l by lra; lra).
    assert (E2 : -1 <= C12 / s) by (apply (Rmult_le_reg_r s); [exact SP|]; unfold Rdiv; rewrite Rmult_assoc, Rinv_l by lra; lra).
    split; [lra|]. split.
    + intros E. assert (CE : C12 = s).
      { assert (C12 / s = 1) by lra. replace C12 with (C12 / s * s) by (field; lra). rewrite H. lra. }
      exists (C12 / Q2). split; [rewrite CE; unfold Rdiv; apply Rmult_lt_0_compat; [exact SP | apply Rinv_0_lt_compat; exact L2]|].
      intros p Hp'. pose proof (schwarz p1 p2 (cells w)) as SW. cbn zeta in SW. fold Q1 Q2 C12 in SW.
      rewrite CE, SS in SW. replace (Q2 * (Q1 * Q2 - Q1 * Q2)) with 0 in SW by ring.
      pose proof (sumR_zero _ (cells w) ltac:(intros; apply Rle_0_sqr) SW p Hp') as X. cbn beta in X.
      assert (Y : Q2 * p1 p - s * p2 p = 0) by (apply Rmult_integral in X; tauto). rewrite CE.
      apply (Rmult_eq_reg_l Q2); [|lra]. replace (Q2 * (s / Q2 * p2 p)) with (s * p2 p) by (field; lra). lra.
    + intros (k & K & H).
      assert (EC : C12 = k * Q2).
      { unfold C12, Q2. rewrite (sumR_ext _ (fun p => k * (p2 p * p2 p))) by (intros p Hp'; rewrite (H p Hp'); ring). apply sumR_scal. }
      assert (EQ : Q1 = k * k * Q2).
      { unfold Q1, Q2. rewrite (sumR_ext _ (fun p => k * k * (p2 p * p2 p))) by (intros p Hp'; rewrite (H p Hp'); ring). apply sumR_scal. }
      assert (ES : s = k * Q2).
      { unfold s. rewrite EQ. replace (k * k * Q2 * Q2) with ((k * Q2) * (k * Q2)) by ring. apply sqrt_square. nra. }
      rewrite EC, ES. field. split; lra.
Qed.
End Costs.

(* two identical grey windows, and accumulators whose initial values differ by one *)
Definition grey : image := Im 3 3 true (fun r c => (r * 3 + c + 1)%Z).
Theorem zmsad_junk_refuted : exists j1 j2 im a w c, inside im a w /\ zmsad j1 j2 im im a a w = Ok c /\ c <> 0.
Proof.
  exists 0, 1, grey, (0, 0)%Z, (3, 3)%Z, 1. assert (I : inside grey (0, 0)%Z (3, 3)%Z) by (apply inside_spec; reflexivity).
  split; [exact I|]. split; [|lra]. rewrite (zmsad_junk grey grey (0, 0)%Z (0, 0)%Z (3, 3)%Z); try assumption; try reflexivity.
  - rewrite Rminus_0_r, Rabs_R1. reflexivity.
  - intros p _. unfold p1, p2. lra.
Qed.
(* the hypotheses of the theorems above hold for it, with non-zero sums *)
Example grey_sums : i8u grey = true /\ inside grey (0, 0)%Z (3, 3)%Z /\ S2 grey (0, 0)%Z (3, 3)%Z = 45 /\ Q2 grey (0, 0)%Z (3, 3)%Z = 285.
Proof.
  split; [reflexivity|]. split; [apply inside_spec; reflexivity|].
  assert (A : wsum (fun a => a) grey (0, 0)%Z (3, 3)%Z = 45%Z) by (vm_compute; reflexivity).
  assert (B : wsum (fun a => a * a)%Z grey (0, 0)%Z (3, 3)%Z = 285%Z) by (vm_compute; reflexivity).
  split.
  - rewrite <- A. symmetry. apply sumR_IZR.
  - rewrite <- B. unfold wsum. rewrite sumR_IZR. apply sumR_ext. intros p _. unfold p2. rewrite mult_IZR. reflexivity.
Qed.
