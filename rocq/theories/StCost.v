(* Window loops (C33), integer costs, dense matching. *)
From Verif Require Import Base StModel StSpec StFilter StMatch.
From Coq Require Import Lqa.

(* ---- specification: the cells of a window and sums over them ---- *)
Fixpoint upto (n : nat) : list Z := match n with O => [] | S k => upto k ++ [Z.of_nat k] end.
Definition cells (w : Z * Z) : list (Z * Z) :=
  flat_map (fun r => map (fun c => (r, c)) (upto (Z.to_nat (fst w)))) (upto (Z.to_nat (snd w))).
Definition sumZ (l : list Z) : Z := fold_right Z.add 0 l.
(* the pixel of the window at a cell *)
Definition at_cell (im : image) (tl : Z * Z) (p : Z * Z) : Z := ipix im (snd tl + fst p) (fst tl + snd p).
Definition wsum (g : Z -> Z) (im : image) (tl w : Z * Z) : Z := sumZ (map (fun p => g (at_cell im tl p)) (cells w)).
Definition wsum2 (g : Z -> Z -> Z) (im1 im2 : image) (tl1 tl2 w : Z * Z) : Z :=
  sumZ (map (fun p => g (at_cell im1 tl1 p) (at_cell im2 tl2 p)) (cells w)).
(* every pixel of the window exists *)
Definition inside (im : image) (tl w : Z * Z) : Prop :=
  0 <= fst tl /\ fst tl + fst w <= icols im /\ 0 <= snd tl /\ snd tl + snd w <= irows im.

Lemma inside_spec im tl w : window_within_image im tl w = true <-> inside im tl w.
Proof. unfold window_within_image, inside. rewrite !andb_true_iff, !Z.leb_le. tauto. Qed.
Lemma upto_in n x : In x (upto n) <-> 0 <= x < Z.of_nat n.
Proof.
  induction n as [|n IH]; [cbn; lia|]. cbn [upto]. rewrite in_app_iff, IH. cbn [In]. lia.
Qed.
Lemma cells_in w p : In p (cells w) <-> 0 <= fst p < snd w /\ 0 <= snd p < fst w.
Proof.
  unfold cells. rewrite in_flat_map. split.
  - intros (r & Hr & Hp). apply in_map_iff in Hp. destruct Hp as (c & <- & Hc). rewrite upto_in in *. cbn. lia.
  - intros [A B]. exists (fst p). rewrite upto_in. split; [lia|]. apply in_map_iff. exists (snd p).
    rewrite upto_in. split; [destruct p; reflexivity | lia].
Qed.
Lemma sumZ_app a b : sumZ (a ++ b) = sumZ a + sumZ b.
Proof. induction a as [|x a IH]; cbn; [reflexivity|]. unfold sumZ in *. rewrite IH. lia. Qed.

(* ---- loops ---- *)
Lemma for_from_sum (f : Z -> Z -> res Z) (h : Z -> Z) : forall n i acc,
  (forall k s, i <= k < i + Z.of_nat n -> f k s = Ok (s + h k)) ->
  for_from n i f acc = Ok (acc + sumZ (map (fun x => h (i + x)) (upto n))).
Proof.
  induction n as [|n IH]; intros i acc H; cbn [for_from]; [cbn; f_equal; lia|].
  rewrite H by lia. cbn [rbind]. rewrite IH by (intros; apply H; lia). f_equal.
  assert (E : forall g : Z -> Z, sumZ (map g (upto (S n))) = g 0 + sumZ (map (fun x => g (1 + x)) (upto n))).
  { clear. induction n as [|n IH]; intros g; [cbn; lia|].
    change (upto (S (S n))) with (upto (S n) ++ [Z.of_nat (S n)]). rewrite map_app, sumZ_app, IH.
    change (upto (S n)) with (upto n ++ [Z.of_nat n]). rewrite map_app, sumZ_app.
    cbn [map sumZ fold_right]. replace (Z.of_nat (S n)) with (1 + Z.of_nat n) by lia. lia. }
  rewrite (E (fun x => h (i + x))). rewrite Z.add_0_r.
  replace (map (fun x => h (i + 1 + x)) (upto n)) with (map (fun x => h (i + (1 + x))) (upto n)); [lia|].
  apply map_ext. intros. f_equal. lia.
Qed.
Lemma sum_rows (h : Z * Z -> Z) W l : sumZ (map (fun r => sumZ (map (fun c => h (r, c)) W)) l) =
  sumZ (map h (flat_map (fun r => map (fun c => (r, c)) W) l)).
Proof.
  induction l as [|r l IH]; [reflexivity|]. cbn [map flat_map]. rewrite map_app, sumZ_app, <- IH, map_map. reflexivity.
Qed.
Lemma loop_sum (f : Z -> Z -> Z -> res Z) (h : Z * Z -> Z) w acc :
  (forall r c s, 0 <= r < snd w -> 0 <= c < fst w -> f r c s = Ok (s + h (r, c))) ->
  for_up (snd w) (fun r => for_up (fst w) (f r)) acc = Ok (acc + sumZ (map h (cells w))).
Proof.
  intros H. unfold for_up. rewrite (for_from_sum _ (fun r => sumZ (map (fun c => h (r, c)) (upto (Z.to_nat (fst w)))))).
  - do 2 f_equal. unfold cells. rewrite <- sum_rows. f_equal.
  - intros r s Hr. rewrite (for_from_sum _ (fun c => h (r, c))); [reflexivity|].
    intros c s' Hc. apply H; lia.
Qed.
Lemma pixel_inside im tl w r c : inside im tl w -> 0 <= r < snd w -> 0 <= c < fst w ->
  pixel im (snd tl + r) (fst tl + c) = Ok (at_cell im tl (r, c)).
Proof.
  unfold inside. intros I Hr Hc. unfold pixel, at_cell. cbn [fst snd].
  destruct ((0 <=? snd tl + r) && (snd tl + r <? irows im) && (0 <=? fst tl + c) && (fst tl + c <? icols im)) eqn:E; [reflexivity|].
  exfalso. repeat rewrite andb_false_iff in E. lia.
Qed.

Lemma loop1_inside g im tl w acc : inside im tl w -> window_loop1 g im tl w acc = Ok (acc + wsum g im tl w).
Proof.
  intros I. unfold window_loop1, wsum.
  rewrite (loop_sum (fun r c s => rbind (pixel im (snd tl + r) (fst tl + c)) (fun a => Ok (s + g a))) (fun p => g (at_cell im tl p))); [reflexivity|].
  intros r c s Hr Hc. rewrite (pixel_inside im tl w) by assumption. reflexivity.
Qed.
Lemma loop2_inside g im1 im2 tl1 tl2 w acc : inside im1 tl1 w -> inside im2 tl2 w ->
  window_loop2 g im1 im2 tl1 tl2 w acc = Ok (acc + wsum2 g im1 im2 tl1 tl2 w).
Proof.
  intros I1 I2. unfold window_loop2, wsum2.
  rewrite (loop_sum (fun r c s => rbind (pixel im1 (snd tl1 + r) (fst tl1 + c)) (fun a =>
    rbind (pixel im2 (snd tl2 + r) (fst tl2 + c)) (fun b => Ok (s + g a b)))) (fun p => g (at_cell im1 tl1 p) (at_cell im2 tl2 p))); [reflexivity|].
  intros r c s Hr Hc. rewrite (pixel_inside im1 tl1 w), (pixel_inside im2 tl2 w) by assumption. reflexivity.
Qed.

(* a window that leaves the image is read outside it *)
Lemma for_from_ub {A} (f : Z -> A -> res A) : forall n i acc k, i <= k < i + Z.of_nat n ->
  (forall s, f k s = UB) -> (forall j s, exists s', f j s = Ok s' \/ f j s = UB) -> for_from n i f acc = UB.
Proof.
  induction n as [|n IH]; intros i acc k Hk U T; [lia|]. cbn [for_from].
  destruct (Z.eq_dec i k) as [->|N]; [rewrite U; reflexivity|].
  destruct (T i acc) as [s' [E|E]]; rewrite E; cbn [rbind]; [|reflexivity]. apply (IH (i + 1) s' k); [lia | exact U | exact T].
Qed.
Lemma for_from_cases {A} (f : Z -> A -> res A) : (forall j s, exists s', f j s = Ok s' \/ f j s = UB) ->
  forall n i acc, exists s', for_from n i f acc = Ok s' \/ for_from n i f acc = UB.
Proof.
  intros T. induction n as [|n IH]; intros i acc; cbn [for_from]; [exists acc; left; reflexivity|].
  destruct (T i acc) as [s' [E|E]]; rewrite E; cbn [rbind]; [apply IH | exists acc; right; reflexivity].
Qed.
Lemma pixel_cases im r c : exists a, pixel im r c = Ok a \/ pixel im r c = UB.
Proof. unfold pixel. destruct (_ && _); [exists (ipix im r c); left | exists 0; right]; reflexivity. Qed.
Lemma loop1_outside g im tl w acc : 0 < fst w -> 0 < snd w -> ~ inside im tl w -> window_loop1 g im tl w acc = UB.
Proof.
  intros W H N. unfold window_loop1, for_up.
  assert (T : forall row j (s : Z), exists s', rbind (pixel im (snd tl + row) (fst tl + j)) (fun a => Ok (s + g a)) = Ok s' \/
     rbind (pixel im (snd tl + row) (fst tl + j)) (fun a => Ok (s + g a)) = UB).
  { intros row j s. destruct (pixel_cases im (snd tl + row) (fst tl + j)) as [a [E|E]]; rewrite E; cbn [rbind];
      [exists (s + g a); left | exists 0; right]; reflexivity. }
  assert (P : exists r c, 0 <= r < snd w /\ 0 <= c < fst w /\ pixel im (snd tl + r) (fst tl + c) = UB).
  { unfold inside in N. destruct (Z_lt_dec (fst tl) 0).
    - exists 0, 0. split; [lia|]. split; [lia|]. unfold pixel. destruct (_ && _) eqn:E; [|reflexivity]. rewrite !andb_true_iff in E. lia.
    - destruct (Z_lt_dec (snd tl) 0).
      + exists 0, 0. split; [lia|]. split; [lia|]. unfold pixel. destruct (_ && _) eqn:E; [|reflexivity]. rewrite !andb_true_iff in E. lia.
      + exists (snd w - 1), (fst w - 1). split; [lia|]. split; [lia|]. unfold pixel. destruct (_ && _) eqn:E; [|reflexivity].
        rewrite !andb_true_iff in E. lia. }
  destruct P as (r & c & Hr & Hc & P). apply (for_from_ub _ _ 0 acc r); [lia | |].
  - intros s. apply (for_from_ub _ _ 0 s c); [lia | |apply T]. intros s'. rewrite P. reflexivity.
  - intros j s. apply for_from_cases. apply T.
Qed.

(* ---- C33 ---- *)
Theorem window_sums_exact junk im tl w : inside im tl w ->
  window_sum junk im tl w = Ok (junk + wsum (fun a => a) im tl w) /\
  window_sum_squares junk im tl w = Ok (junk + wsum (fun a => a * a) im tl w).
Proof. intros I. split; apply loop1_inside; exact I. Qed.
Theorem window_reads_inside junk im tl w : 0 < fst w -> 0 < snd w ->
  (window_within_image im tl w = true <-> window_sum junk im tl w <> UB) /\
  (window_within_image im tl w = true <-> window_sum_squares junk im tl w <> UB).
Proof.
  intros W H. rewrite inside_spec. assert (D : inside im tl w \/ ~ inside im tl w) by (unfold inside; lia).
  split; (destruct D as [D|D]; [split; [intros _|intros _; exact D] | split; [tauto | intros N; exfalso; apply N; apply loop1_outside; assumption]]).
  - rewrite (proj1 (window_sums_exact junk im tl w D)). discriminate.
  - rewrite (proj2 (window_sums_exact junk im tl w D)). discriminate.
Qed.

(* ---- SAD and SSD ---- *)
Lemma sumZ_nonneg l : (forall x, In x l -> 0 <= x) -> 0 <= sumZ l.
Proof.
  induction l as [|a l IH]; intros H; [cbn; lia|]. cbn [sumZ fold_right]. pose proof (H a (or_introl eq_refl)).
  assert (0 <= sumZ l) by (apply IH; intros; apply H; right; assumption). unfold sumZ in *. lia.
Qed.
Lemma sumZ_zero l : (forall x, In x l -> 0 <= x) -> sumZ l = 0 -> forall x, In x l -> x = 0.
Proof.
  induction l as [|a l IH]; intros H S x Hx; [destruct Hx|].
  assert (N : 0 <= sumZ l) by (apply sumZ_nonneg; intros; apply H; right; assumption).
  pose proof (H a (or_introl eq_refl)) as Ha. assert (E : a + sumZ l = 0) by exact S.
  destruct Hx as [<-|Hx]; [lia|]. apply IH; [intros; apply H; right; assumption | lia | exact Hx].
Qed.
Lemma sumZ_le {A} (f g : A -> Z) l : (forall x, In x l -> f x <= g x) -> sumZ (map f l) <= sumZ (map g l).
Proof.
  induction l as [|a l IH]; intros H; [cbn; lia|]. cbn [map sumZ fold_right]. pose proof (H a (or_introl eq_refl)).
  assert (sumZ (map f l) <= sumZ (map g l)) by (apply IH; intros; apply H; right; assumption). unfold sumZ in *. lia.
Qed.
Lemma sumZ_plus {A} (f g : A -> Z) l : sumZ (map (fun x => f x + g x) l) = sumZ (map f l) + sumZ (map g l).
Proof. induction l as [|a l IH]; [reflexivity|]. cbn [map sumZ fold_right]. unfold sumZ in *. rewrite IH. lia. Qed.

(* the windows show the same pixels *)
Definition same_window (im1 im2 : image) (a b w : Z * Z) : Prop :=
  forall r c, 0 <= r < snd w -> 0 <= c < fst w -> ipix im1 (snd a + r) (fst a + c) = ipix im2 (snd b + r) (fst b + c).

Section Two.
Variables im1 im2 : image.
Variables a b w : Z * Z.
Hypothesis U1 : i8u im1 = true.
Hypothesis U2 : i8u im2 = true.
Hypothesis I1 : inside im1 a w.
Hypothesis I2 : inside im2 b w.

Lemma sad_eq : sad im1 im2 a b w = Ok (wsum2 (fun x y => Z.abs (x - y)) im1 im2 a b w).
Proof. unfold sad. rewrite U1, U2. cbn [negb orb]. rewrite loop2_inside by assumption. f_equal. Qed.
Lemma ssd_eq : ssd im1 im2 a b w = Ok (wsum2 (fun x y => (x - y) * (x - y)) im1 im2 a b w).
Proof. unfold ssd. rewrite U1, U2. cbn [negb orb]. rewrite loop2_inside by assumption. f_equal. Qed.
Lemma wsum2_zero g : (forall x y, 0 <= g x y) -> (forall x y, g x y = 0 <-> x = y) ->
  (0 <= wsum2 g im1 im2 a b w /\ (wsum2 g im1 im2 a b w = 0 <-> same_window im1 im2 a b w)).
Proof.
  intros P Z. unfold wsum2. set (h := fun p => g (at_cell im1 a p) (at_cell im2 b p)).
  assert (N : forall x, In x (map h (cells w)) -> 0 <= x).
  { intros x Hx. apply in_map_iff in Hx. destruct Hx as (p & <- & _). apply P. }
  split; [apply sumZ_nonneg; exact N|]. split.
  - intros S r c Hr Hc. apply Z. apply (sumZ_zero _ N S). apply in_map_iff. exists (r, c). split; [reflexivity|].
    apply cells_in. cbn. tauto.
  - intros S. enough (E : forall l, (forall p, In p l -> h p = 0) -> sumZ (map h l) = 0).
    { apply E. intros p Hp. apply cells_in in Hp. apply Z. apply S; tauto. }
    induction l as [|p l IH]; intros H; [reflexivity|]. cbn [map sumZ fold_right].
    change (h p + sumZ (map h l) = 0). rewrite IH by (intros; apply H; right; assumption).
    rewrite H by (left; reflexivity). reflexivity.
Qed.
End Two.

Theorem sad_ssd_zero im1 im2 a b w : i8u im1 = true -> i8u im2 = true -> inside im1 a w -> inside im2 b w ->
  exists x y, sad im1 im2 a b w = Ok x /\ ssd im1 im2 a b w = Ok y /\ 0 <= x /\ 0 <= y /\
    (x = 0 <-> same_window im1 im2 a b w) /\ (y = 0 <-> same_window im1 im2 a b w).
Proof.
  intros U1 U2 I1 I2. rewrite sad_eq, ssd_eq by assumption. do 2 eexists. split; [reflexivity|]. split; [reflexivity|].
  destruct (wsum2_zero im1 im2 a b w (fun x y => Z.abs (x - y))) as [A B]; [intros; lia | intros; split; intros; lia |].
  destruct (wsum2_zero im1 im2 a b w (fun x y => (x - y) * (x - y))) as [C D]; [intros; apply Z.square_nonneg | intros x y; split; intros E; [apply Z.mul_eq_0 in E; lia | subst; lia] |].
  split; [exact A|]. split; [exact C|]. split; [exact B | exact D].
Qed.
Lemma loop2_symmetric g im1 im2 a b w acc : (forall x y, g x y = g y x) ->
  window_loop2 g im1 im2 a b w acc = window_loop2 g im2 im1 b a w acc.
Proof.
  intros G. unfold window_loop2, for_up. generalize (Z.to_nat (fst w)) (Z.to_nat (snd w)). intros W H.
  generalize 0 at 1 3. revert acc.
  assert (E : forall W i j s, for_from W j (fun col s0 => rbind (pixel im1 (snd a + i) (fst a + col)) (fun x => rbind (pixel im2 (snd b + i) (fst b + col)) (fun y => Ok (s0 + g x y)))) s =
    for_from W j (fun col s0 => rbind (pixel im2 (snd b + i) (fst b + col)) (fun x => rbind (pixel im1 (snd a + i) (fst a + col)) (fun y => Ok (s0 + g x y)))) s).
  { clear - G. induction W as [|W IH]; intros i j s; cbn [for_from]; [reflexivity|].
    destruct (pixel_cases im1 (snd a + i) (fst a + j)) as [x [E1|E1]]; destruct (pixel_cases im2 (snd b + i) (fst b + j)) as [y [E2|E2]]; rewrite E1, E2; cbn [rbind]; try reflexivity.
    rewrite (G x y). apply IH. }
  induction H as [|H IH]; intros acc i; cbn [for_from]; [reflexivity|].
  rewrite E. match goal with |- rbind ?t _ = _ => destruct t end; cbn [rbind]; [apply IH | reflexivity..].
Qed.
Theorem sad_ssd_symmetric im1 im2 a b w :
  sad im1 im2 a b w = sad im2 im1 b a w /\ ssd im1 im2 a b w = ssd im2 im1 b a w.
Proof.
  unfold sad, ssd. rewrite (orb_comm (negb (i8u im1))).
  rewrite (loop2_symmetric (fun x y => Z.abs (x - y))) by (intros; lia).
  rewrite (loop2_symmetric (fun x y => (x - y) * (x - y))) by (intros; lia). split; reflexivity.
Qed.
Theorem sad_triangle im1 im2 im3 a b c w x y z :
  inside im1 a w -> inside im2 b w -> inside im3 c w ->
  sad im1 im2 a b w = Ok x -> sad im2 im3 b c w = Ok y -> sad im1 im3 a c w = Ok z -> z <= x + y.
Proof.
  intros I1 I2 I3 X Y Z. unfold sad in X, Y, Z.
  destruct (negb (i8u im1) || negb (i8u im2)); [discriminate|]. destruct (negb (i8u im2) || negb (i8u im3)); [discriminate|].
  destruct (negb (i8u im1) || negb (i8u im3)); [discriminate|].
  rewrite loop2_inside in X, Y, Z by assumption. injection X as <-. injection Y as <-. injection Z as <-.
  unfold wsum2. rewrite ?Z.add_0_l, <- sumZ_plus. apply sumZ_le. intros p _. lia.
Qed.

(* the two integer matchers never fail on grey images of equal size *)
Lemma sad_cost_total m imL imR : m_gen m = gen_sad \/ m_gen m = gen_ssd -> i8u imL = true -> i8u imR = true -> cost_total m imL imR.
Proof.
  intros G UL UR rim sim a b RS W1 W2. apply inside_spec in W1. apply inside_spec in W2.
  assert (U1 : i8u rim = true) by (destruct RS as [[-> ->]|[-> ->]]; assumption).
  assert (U2 : i8u sim = true) by (destruct RS as [[-> ->]|[-> ->]]; assumption).
  destruct G as [-> | ->]; unfold gen_sad, gen_ssd; [rewrite sad_eq | rewrite ssd_eq]; try assumption; eexists; reflexivity.
Qed.

(* ---- dense search along the row ---- *)
(* the abscissae visited from x in steps of s while the guard holds *)
Fixpoint walk (s : Z) (ok : Z -> bool) (n : nat) (x : Z) : list Z :=
  match n with O => [] | S k => if ok x then x :: walk s ok k (x + s) else [] end.
Lemma dense_fold cf s ok y : forall n x st r, dense cf s ok y n x st = Ok r ->
  exists E, map fst E = walk s ok n x /\ (forall e, In e E -> cf (fst e, y) = Ok (snd e)) /\ r = fold_left upd E st.
Proof.
  induction n as [|n IH]; intros x st r H; cbn [dense] in H.
  - injection H as <-. exists []. split; [reflexivity|]. split; [intros e []|reflexivity].
  - cbn [walk]. destruct (ok x).
    + destruct (cf (x, y)) as [wc| |] eqn:C; cbn [rbind] in H; try discriminate. destruct st as [[bx cost] second].
      apply IH in H. destruct H as (E & M & A & ->). exists ((x, wc) :: E). split; [cbn; rewrite M; reflexivity|].
      split; [intros e [<-|He]; [exact C | apply A; exact He] | reflexivity].
    + injection H as <-. exists []. split; [reflexivity|]. split; [intros e []|reflexivity].
Qed.
Lemma fold_start a : forall E, let r := fold_left upd E (-1, None, None) in
  fold_left upd E (a, None, None) = match snd (fst r) with Some _ => r | None => (a, None, None) end.
Proof.
  intros E. cbn zeta. induction E as [|[j w] E IH] using rev_ind; [reflexivity|]. rewrite !fold_left_app. cbn [fold_left].
  rewrite IH. pose proof (fold_best E) as B. destruct (fold_left upd E (-1, None, None)) as [[i c] s]. cbn [fst snd].
  destruct B as [(-> & -> & -> & _)|(C & _)].
  - unfold upd. cbn [fst snd]. destruct w; reflexivity.
  - destruct c as [c|]; [|congruence]. unfold upd. cbn [fst snd]. destruct (dlt w (Some c)) eqn:D; cbn [fst snd].
    + destruct w; [reflexivity | discriminate].
    + reflexivity.
Qed.
Lemma walk_down n : forall x z, (Z.to_nat x < n)%nat -> 0 <= x -> (In z (walk (-1) (fun x => 0 <=? x) n x) <-> 0 <= z <= x).
Proof.
  induction n as [|n IH]; intros x z L P; [lia|]. cbn [walk]. destruct (0 <=? x) eqn:E; [|lia]. cbn [In].
  destruct (Z.eq_dec x 0) as [->|N].
  - assert (W : walk (-1) (fun x => 0 <=? x) n (0 + -1) = []) by (destruct n; reflexivity). rewrite W. cbn. lia.
  - rewrite IH by lia. lia.
Qed.
Lemma walk_up m n : forall x z, x <= m -> (Z.to_nat (m - x) < n)%nat -> (In z (walk 1 (fun x => x <=? m) n x) <-> x <= z <= m).
Proof.
  induction n as [|n IH]; intros x z P L; [lia|]. cbn [walk]. destruct (x <=? m) eqn:E; [|lia]. cbn [In].
  destruct (Z.eq_dec x m) as [->|N].
  - assert (W : walk 1 (fun x => x <=? m) n (m + 1) = []) by (destruct n; cbn; [reflexivity|]; destruct (m + 1 <=? m) eqn:X; [lia|reflexivity]).
    rewrite W. cbn. lia.
  - rewrite IH by lia. lia.
Qed.

(* the abscissae a window may have in the other image *)
Definition along (m : matcher) (im : image) (right : bool) (x0 x : Z) : Prop :=
  if right then 0 <= x <= x0 else x0 <= x <= icols im - fst (m_win m).

(* the dense search returns the centre of a cheapest window on the row, in the direction of positive disparity *)
Theorem dense_best m k imL imR right c0 k' cost b : 0 < fst (m_win m) ->
  keypoint_in_other m k imL imR right c0 = Ok (k', cost, Some b) ->
  let rim := if right then imL else imR in let sim := if right then imR else imL in
  let tl := top_left m (kpt k) in
  let c x := m_gen m rim tl rim sim tl (x, snd tl) (m_win m) in
  exists x, along m imL right (fst tl) x /\
    kpt k' = Pt (inject_Z x + inject_Z (fst (m_win m)) / 2) (inject_Z (snd tl) + inject_Z (snd (m_win m)) / 2) /\
    (forall z, along m imL right (fst tl) z -> exists w, c z = Ok w /\ dle cost w) /\
    (cost <> None -> c x = Ok cost).
Proof.
  intros WP. unfold keypoint_in_other. cbn zeta.
  destruct (negb ((icols imL =? icols imR) && (irows imL =? irows imR))) eqn:SZ; [discriminate|].
  apply negb_false_iff, andb_true_iff in SZ. destruct SZ as [SC SR]. apply Z.eqb_eq in SC. apply Z.eqb_eq in SR.
  set (rim := if right then imL else imR). set (sim := if right then imR else imL). set (tl := top_left m (kpt k)).
  destruct (negb (window_within_image rim tl (m_win m))) eqn:WI; [discriminate|].
  apply negb_false_iff, inside_spec in WI. unfold inside in WI.
  set (cf := fun s => m_gen m rim tl rim sim tl s (m_win m)). set (n := S (Z.to_nat (icols imL))).
  set (ok := if right then fun x => 0 <=? x else fun x => x <=? icols imL - fst (m_win m)).
  assert (CR : icols rim = icols imL) by (unfold rim; destruct right; congruence).
  assert (AL : forall z, In z (walk (if right then -1 else 1) ok n (fst tl)) <-> along m imL right (fst tl) z).
  { intros z. unfold along, ok, n. destruct right; [apply walk_down; lia | apply walk_up; lia]. }
  destruct (dense cf (if right then -1 else 1) ok (snd tl) n (fst tl) (fst tl, None, None)) as [[[bx cs] second]| |] eqn:D; cbn [rbind]; try discriminate.
  match goal with |- rbind ?t _ = _ -> _ => destruct t as [matched| |]; cbn [rbind]; try discriminate end.
  intros [= <- <- <-]. apply dense_fold in D. destruct D as (E & M & C & R). rewrite fold_start in R.
  pose proof (fold_best E) as B. destruct (fold_left upd E (-1, None, None)) as [[i q] s]. cbn [fst snd] in R.
  assert (IN : forall z, along m imL right (fst tl) z -> exists w, In (z, w) E /\ cf (z, snd tl) = Ok w).
  { intros z Hz. apply AL in Hz. rewrite <- M in Hz. apply in_map_iff in Hz. destruct Hz as ([z' w] & <- & Hw).
    exists w. split; [exact Hw | apply (C _ Hw)]. }
  destruct B as [(-> & -> & -> & N)|(Q & pre & post & EE & P1 & P2 & _)].
  - injection R as -> -> ->. exists (fst tl). split; [apply AL; cbn [walk]; unfold n; cbn [walk]; unfold ok; destruct right|].
    + destruct (0 <=? fst tl) eqn:X; [left; reflexivity | lia].
    + destruct (fst tl <=? icols imL - fst (m_win m)) eqn:X; [left; reflexivity | lia].
    + split; [reflexivity|]. split; [|congruence]. intros z Hz. destruct (IN z Hz) as (w & Hw & CW). exists w.
      split; [exact CW|]. pose proof (N _ Hw) as NW. cbn in NW. subst w. exact I.
  - destruct q as [q|]; [|congruence]. injection R as -> -> ->.
    assert (HI : In (i, Some q) E) by (rewrite EE; apply in_or_app; right; left; reflexivity).
    exists i. split; [apply AL; rewrite <- M; exact (in_map fst _ _ HI)|]. split; [reflexivity|]. split.
    + intros z Hz. destruct (IN z Hz) as (w & Hw & CW). exists w. split; [exact CW|]. rewrite EE in Hw.
      apply in_app_or in Hw. destruct Hw as [Hw|[[= <- <-]|Hw]].
      * apply dlt_le. exact (proj1 (P1 _ Hw)).
      * apply dle_refl.
      * exact (P2 _ Hw).
    + intros _. exact (C _ HI).
Qed.
