(* Times and pressures in floating point: error bounds, order, end points. *)
From Coq Require Import ZArith Reals Lra Lia List Psatz.
From Flocq Require Import Core Relative.
From Verif Require Import FlModel.
Import ListNotations.
Open Scope R_scope.

#[local] Instance p32 : Prec_gt_0 24 := eq_refl.
#[local] Instance p64 : Prec_gt_0 53 := eq_refl.
Notation F32 := (FLT_exp (-149) 24).
Notation F64 := (FLT_exp (-1074) 53).

(* ---- rounding ---- *)
Lemma fl32_le x y : x <= y -> fl32 x <= fl32 y. Proof. apply round_le; typeclasses eauto. Qed.
Lemma fl64_le x y : x <= y -> fl64 x <= fl64 y. Proof. apply round_le; typeclasses eauto. Qed.
Lemma fl32_0 : fl32 0 = 0. Proof. apply round_0. typeclasses eauto. Qed.
Lemma fl64_0 : fl64 0 = 0. Proof. apply round_0. typeclasses eauto. Qed.
Lemma fl64_pos x : 0 <= x -> 0 <= fl64 x. Proof. intros H. rewrite <- fl64_0. apply fl64_le. exact H. Qed.
Lemma fl32_pos x : 0 <= x -> 0 <= fl32 x. Proof. intros H. rewrite <- fl32_0. apply fl32_le. exact H. Qed.
Definition e64 : R := / 9007199254740992.
Definition e32 : R := / 16777216.
Definition tiny : R := / 1000000000000000000000000000000.
Lemma fl64_rel x : tiny <= Rabs x -> Rabs (fl64 x - x) <= e64 * Rabs x.
Proof.
  intros H. pose proof (relative_error_N_FLT radix2 (-1074) 53 eq_refl (fun z => negb (Z.even z)) x) as E. change (/ 2 * bpow radix2 (- (53) + 1)) with (/ 2 * / 4503599627370496) in E.
  apply Rle_trans with (/ 2 * / 4503599627370496 * Rabs x); [apply E|unfold e64; lra]. apply Rle_trans with (2 := H). apply Rle_trans with (bpow radix2 (-100)); [apply bpow_le; lia|].
  change (bpow radix2 (-100)) with (/ 1267650600228229401496703205376). unfold tiny. lra.
Qed.
Lemma fl32_rel x : tiny <= Rabs x -> Rabs (fl32 x - x) <= e32 * Rabs x.
Proof.
  intros H. pose proof (relative_error_N_FLT radix2 (-149) 24 eq_refl (fun z => negb (Z.even z)) x) as E. change (/ 2 * bpow radix2 (- (24) + 1)) with (/ 2 * / 8388608) in E.
  apply Rle_trans with (/ 2 * / 8388608 * Rabs x); [apply E|unfold e32; lra]. apply Rle_trans with (2 := H). apply Rle_trans with (bpow radix2 (-100)); [apply bpow_le; lia|].
  change (bpow radix2 (-100)) with (/ 1267650600228229401496703205376). unfold tiny. lra.
Qed.
Lemma fl64_near x : tiny <= x -> x * (1 - e64) <= fl64 x <= x * (1 + e64).
Proof. intros H. assert (T : 0 < tiny) by (unfold tiny; lra). pose proof (fl64_rel x) as E. rewrite (Rabs_pos_eq x) in E by lra. specialize (E H). apply Rabs_le_inv in E. lra. Qed.
Lemma fl32_near x : tiny <= x -> x * (1 - e32) <= fl32 x <= x * (1 + e32).
Proof. intros H. assert (T : 0 < tiny) by (unfold tiny; lra). pose proof (fl32_rel x) as E. rewrite (Rabs_pos_eq x) in E by lra. specialize (E H). apply Rabs_le_inv in E. lra. Qed.
(* integers up to 2^53 *)
Lemma fl64_IZR z : (Z.abs z <= 9007199254740992)%Z -> fl64 (IZR z) = IZR z.
Proof.
  intros H. apply round_generic; [typeclasses eauto|]. destruct (Z.eq_dec (Z.abs z) 9007199254740992) as [E|E].
  - assert (C : z = 9007199254740992%Z \/ z = (-9007199254740992)%Z) by lia. destruct C as [->| ->].
    + apply generic_format_bpow with (e := 53%Z). cbn. lia.
    + change (IZR (-9007199254740992)) with (- bpow radix2 53). apply generic_format_opp, generic_format_bpow. cbn. lia.
  - apply generic_format_FLT. exists (Float radix2 z 0); unfold F2R; cbn [Fnum Fexp]; [cbn; ring|cbn; lia|lia].
Qed.
Lemma fl64_half x : generic_format radix2 F64 x -> fl64 x = x. Proof. apply round_generic. typeclasses eauto. Qed.
Lemma fl64_1 : fl64 1 = 1. Proof. apply (fl64_IZR 1). lia. Qed.

(* ---- times of points ---- *)
Lemma nano_near : / 1000000000 * (1 - e64) <= nano <= / 1000000000 * (1 + e64).
Proof. apply fl64_near. unfold tiny. lra. Qed.
Lemma milli_near : / 1000 * (1 - e64) <= milli <= / 1000 * (1 + e64).
Proof. apply fl64_near. unfold tiny. lra. Qed.
Lemma nano_pos : 0 < nano. Proof. pose proof nano_near as H. unfold e64 in H. lra. Qed.
Lemma scaled_near k m t : (1 <= t)%Z -> / 1000000000 <= k -> k * (1 - e64) <= m <= k * (1 + e64) -> let T := IZR t * k in T * (1 - e64) * (1 - e64) * (1 - e32) <= fl32 (fl64 (IZR t * m)) <= T * (1 + e64) * (1 + e64) * (1 + e32).
Proof.
  intros Ht Hk Hm T. apply IZR_le in Ht. assert (HT : / 1000000000 <= T) by (unfold T; nra). assert (H1 : T * (1 - e64) <= IZR t * m <= T * (1 + e64)) by (unfold T; unfold e64 in *; split; nra).
  set (x := IZR t * m) in *. clearbody x T. clear k m t Ht Hk Hm. assert (Hx : tiny <= x) by (unfold tiny, e64 in *; lra). pose proof (fl64_near x Hx) as H2. set (y := fl64 x) in *. clearbody y.
  assert (Hy : tiny <= y) by (unfold tiny, e64 in *; lra). pose proof (fl32_near y Hy) as H3. unfold e64, e32 in *. lra.
Qed.
Lemma point_time_near t : (0 <= t)%Z -> Rabs (point_time t - IZR t / 1000000000) <= IZR t / 1000000000 * (/ 16777216 + / 1125899906842624).
Proof.
  intros Ht. destruct (Z.eq_dec t 0) as [->|N].
  - unfold point_time. rewrite Rmult_0_l, fl64_0, fl32_0. unfold Rdiv. rewrite !Rmult_0_l, Rminus_0_r, Rabs_R0. lra.
  - pose proof (scaled_near (/ 1000000000) nano t ltac:(lia) ltac:(lra) nano_near) as H. cbn zeta in H. fold (point_time t) in H. assert (P : 1 <= IZR t) by (apply IZR_le; lia). apply Rabs_le. unfold e64, e32 in H. unfold Rdiv. lra.
Qed.
Lemma point_range_near r : (0 <= r)%Z -> Rabs (point_range r - IZR r / 1000) <= IZR r / 1000 * (/ 16777216 + / 1125899906842624).
Proof.
  intros Ht. destruct (Z.eq_dec r 0) as [->|N].
  - unfold point_range. rewrite Rmult_0_l, fl64_0, fl32_0. unfold Rdiv. rewrite !Rmult_0_l, Rminus_0_r, Rabs_R0. lra.
  - pose proof (scaled_near (/ 1000) milli r ltac:(lia) ltac:(lra) milli_near) as H. cbn zeta in H. fold (point_range r) in H. assert (P : 1 <= IZR r) by (apply IZR_le; lia). apply Rabs_le. unfold e64, e32 in H. unfold Rdiv. lra.
Qed.
Lemma point_time_le t1 t2 : (t1 <= t2)%Z -> point_time t1 <= point_time t2.
Proof. intros H. apply fl32_le, fl64_le. apply IZR_le in H. pose proof nano_pos. nra. Qed.
Lemma point_time_0 : point_time 0 = 0. Proof. unfold point_time. rewrite Rmult_0_l, fl64_0, fl32_0. reflexivity. Qed.
Lemma point_time_pos t : (0 <= t)%Z -> 0 <= point_time t. Proof. intros H. rewrite <- point_time_0. apply point_time_le. exact H. Qed.
Lemma point_time_gt0 t : (1 <= t)%Z -> IZR t / 1000000000 * (1 - / 8388608) <= point_time t.
Proof. intros H. pose proof (point_time_near t ltac:(lia)) as E. apply Rabs_le_inv in E. assert (P : 1 <= IZR t) by (apply IZR_le; exact H). unfold Rdiv in *. lra. Qed.

(* the maximum of a cloud is the time of its latest point *)
Lemma last_time_max first others : last_time first others = point_time (fold_left Z.max others first).
Proof.
  unfold last_time. revert first. induction others as [|t others IH]; intros first; [reflexivity|]. cbn [map fold_left]. rewrite <- IH. f_equal.
  destruct (Z.max_spec first t) as [[L ->]|[L ->]]; [apply Rmax_right|apply Rmax_left]; apply point_time_le; lia.
Qed.
(* one half unit in the last place, below 1/8 s *)
Lemma fl32_eighth y : 0 <= y < / 8 -> Rabs (fl32 y - y) <= / 268435456.
Proof.
  intros Hy. pose proof (error_le_half_ulp radix2 F32 (fun z => negb (Z.even z)) y) as E. fold (fl32 y) in E. apply Rle_trans with (1 := E).
  apply Rle_trans with (/ 2 * ulp radix2 F32 (bpow radix2 (-4))).
  - apply Rmult_le_compat_l; [lra|]. destruct (Rle_lt_dec (bpow radix2 (-4)) y) as [L|L].
    + right. unfold ulp. rewrite Req_bool_false by (pose proof (bpow_gt_0 radix2 (-4)); lra). rewrite (Req_bool_false (bpow radix2 (-4))) by (pose proof (bpow_gt_0 radix2 (-4)); lra).
      f_equal. unfold cexp. f_equal. rewrite (mag_unique radix2 y (-3)), (mag_unique radix2 (bpow radix2 (-4)) (-3)); [reflexivity| |].
      * rewrite Rabs_pos_eq by apply bpow_ge_0. split; [apply bpow_le; lia|apply bpow_lt; lia].
      * rewrite Rabs_pos_eq by lra. split; [exact L|]. change (bpow radix2 (-3)) with (/ 8). lra.
    + apply ulp_le_pos; try typeclasses eauto; lra.
  - rewrite ulp_bpow. cbn -[bpow]. change (bpow radix2 (-27)) with (/ 134217728). lra.
Qed.
Lemma point_time_eighth t : (0 <= t < 125000000)%Z -> Rabs (point_time t - IZR t / 1000000000) <= / 268435456 + / 1000000000000000.
Proof.
  intros Ht. destruct (Z.eq_dec t 0) as [->|N].
  - rewrite point_time_0. unfold Rdiv. rewrite Rmult_0_l, Rminus_0_r, Rabs_R0. lra.
  - assert (P : 1 <= IZR t <= 124999999) by (split; apply IZR_le; lia). pose proof nano_near as Hn. assert (H1 : IZR t * / 1000000000 * (1 - e64) <= IZR t * nano <= IZR t * / 1000000000 * (1 + e64)) by (unfold e64 in *; split; nra).
    unfold point_time. set (x := IZR t * nano) in *. clearbody x. assert (Hx : tiny <= x) by (unfold tiny, e64 in *; lra). pose proof (fl64_near x Hx) as H2. set (y := fl64 x) in *. clearbody y.
    assert (Hy : 0 <= y < / 8) by (unfold e64 in *; lra). pose proof (fl32_eighth y Hy) as H3. apply Rabs_le_inv in H3. apply Rabs_le. unfold e64, Rdiv in *. lra.
Qed.
Lemma point_time_lt t1 t2 : (0 <= t1)%Z -> (t1 + 8 <= t2 < 125000000)%Z -> point_time t1 < point_time t2.
Proof.
  intros H1 H2. pose proof (point_time_eighth t1 ltac:(lia)) as E1. pose proof (point_time_eighth t2 ltac:(lia)) as E2. apply Rabs_le_inv in E1. apply Rabs_le_inv in E2.
  assert (L : IZR t1 + 8 <= IZR t2) by (rewrite <- plus_IZR; apply IZR_le; lia). unfold Rdiv in *. lra.
Qed.

(* ---- durations ---- *)
Lemma fl64_abs x : 0 <= x -> Rabs (fl64 x - x) <= e64 * x + 2 * tiny.
Proof.
  intros H. destruct (Rle_lt_dec tiny x) as [L|L].
  - pose proof (fl64_rel x) as E. rewrite (Rabs_pos_eq x) in E by exact H. specialize (E L). assert (0 < tiny) by (unfold tiny; lra). lra.
  - pose proof (fl64_pos x H) as H0. assert (L' : fl64 x <= bpow radix2 (-99)).
    { assert (G : fl64 (bpow radix2 (-99)) = bpow radix2 (-99)) by (apply fl64_half, generic_format_bpow; cbn; lia). rewrite <- G. apply fl64_le. apply Rle_trans with tiny; [lra|]. change (bpow radix2 (-99)) with (/ 633825300114114700748351602688). unfold tiny. lra. }
    assert (L2 : fl64 x <= tiny + tiny) by (apply Rle_trans with (1 := L'); change (bpow radix2 (-99)) with (/ 633825300114114700748351602688); unfold tiny; lra).
    apply Rabs_le. assert (0 <= e64 * x) by (unfold e64; lra). lra.
Qed.
Lemma from_sec_near d : 0 <= d -> Rabs (IZR (from_sec d) - d * 1000000000) <= / 2 + / 1000000.
Proof.
  intros Hd. unfold from_sec. set (s := Zfloor d). assert (Hs : 0 <= d - IZR s < 1) by (pose proof (Zfloor_lb d); pose proof (Zfloor_ub d); unfold s; lra).
  pose proof (fl64_abs (d - IZR s) ltac:(lra)) as E1. pose proof (fl64_pos (d - IZR s) ltac:(lra)) as P1. set (d1 := fl64 (d - IZR s)) in *. clearbody d1.
  pose proof (fl64_abs (d1 * 1000000000) ltac:(lra)) as E2. set (d2 := fl64 (d1 * 1000000000)) in *. clearbody d2. pose proof (Znearest_half (Z.leb 0) d2) as E3. change (Znearest (Z.leb 0) d2) with (ZnearestA d2) in E3.
  rewrite plus_IZR, mult_IZR. apply Rabs_le_inv in E1. apply Rabs_le_inv in E2. apply Rabs_le_inv in E3. apply Rabs_le. unfold e64, tiny in *. split; lra.
Qed.
Lemma sweep_near first others : let m := fold_left Z.max others first in (0 <= m)%Z -> Rabs (IZR (sweep_duration first others) - IZR m) <= IZR m * (/ 16777216 + / 1125899906842624) + / 2 + / 1000000.
Proof.
  intros m Hm. unfold sweep_duration. rewrite last_time_max. fold m. pose proof (point_time_near m Hm) as E1. pose proof (from_sec_near (point_time m) (point_time_pos m Hm)) as E2. apply Rabs_le_inv in E1. apply Rabs_le_inv in E2. apply Rabs_le. unfold Rdiv in *. lra.
Qed.
Lemma int_close a b e : Rabs (IZR a - IZR b) <= e -> forall n, e < IZR n + 1 -> (Z.abs (a - b) <= n)%Z.
Proof. intros H n He. rewrite <- minus_IZR, <- abs_IZR in H. assert (X : IZR (Z.abs (a - b)) < IZR (n + 1)) by (rewrite plus_IZR; lra). apply lt_IZR in X. lia. Qed.
Lemma sweep_eighth first others : let m := fold_left Z.max others first in (0 <= m < 125000000)%Z -> (Z.abs (sweep_duration first others - m) <= 4)%Z.
Proof.
  intros m Hm. unfold sweep_duration. rewrite last_time_max. fold m. pose proof (point_time_eighth m Hm) as E1. pose proof (from_sec_near (point_time m) (point_time_pos m ltac:(lia))) as E2. apply Rabs_le_inv in E1. apply Rabs_le_inv in E2.
  apply int_close with (e := 1000000000 * (/ 268435456 + / 1000000000000000) + / 2 + / 1000000); [|lra]. apply Rabs_le. unfold Rdiv in *. lra.
Qed.
Lemma sweep_zero first others : let m := fold_left Z.max others first in (0 <= m)%Z -> (0 <= sweep_duration first others)%Z /\ (sweep_duration first others = 0%Z <-> m = 0%Z).
Proof.
  intros m Hm. unfold sweep_duration. rewrite last_time_max. fold m. pose proof (from_sec_near (point_time m) (point_time_pos m Hm)) as E. apply Rabs_le_inv in E. pose proof (point_time_pos m Hm) as P0.
  assert (H0 : (0 <= from_sec (point_time m))%Z). { assert (X : IZR (-1) < IZR (from_sec (point_time m))) by lra. apply lt_IZR in X. lia. }
  split; [exact H0|]. split; intros H.
  - destruct (Z.eq_dec m 0) as [->|N]; [reflexivity|exfalso]. pose proof (point_time_gt0 m ltac:(lia)) as G. assert (P : 1 <= IZR m) by (apply IZR_le; lia). rewrite H in E. unfold Rdiv in G. lra.
  - rewrite H, point_time_0 in *. assert (X : IZR (from_sec 0) < IZR 1) by lra. apply lt_IZR in X. lia.
Qed.

(* toSec *)
Lemma to_sec_0 : to_sec 0 = 0. Proof. unfold to_sec. cbn [Z.div Z.modulo Z.div_eucl]. change (0 / 1000000000)%Z with 0%Z. change (0 mod 1000000000)%Z with 0%Z. rewrite Rmult_0_r, fl64_0, Rplus_0_l, fl64_0. reflexivity. Qed.
Lemma to_sec_near ns : (0 <= ns)%Z -> IZR ns / 1000000000 * (1 - 4 * e64) <= to_sec ns <= IZR ns / 1000000000 * (1 + 4 * e64).
Proof.
  intros H. destruct (Z.eq_dec ns 0) as [->|N]; [rewrite to_sec_0; unfold e64; lra|]. unfold to_sec. pose proof (Z.div_mod ns 1000000000 ltac:(lia)) as D. pose proof (Z.mod_pos_bound ns 1000000000 ltac:(lia)) as B. assert (Q : (0 <= ns / 1000000000)%Z) by (apply Z.div_pos; lia).
  set (q := (ns / 1000000000)%Z) in *. set (r := (ns mod 1000000000)%Z) in *. clearbody q r. assert (Er : IZR r * / 1000000000 * (1 - 5 / 2 * e64) <= fl64 (nano * IZR r) <= IZR r * / 1000000000 * (1 + 5 / 2 * e64)).
  { destruct (Z.eq_dec r 0) as [->|Nr]; [rewrite Rmult_0_r, fl64_0; lra|]. assert (P : 1 <= IZR r) by (apply IZR_le; lia). pose proof nano_near as Hn. assert (H1 : IZR r * / 1000000000 * (1 - e64) <= nano * IZR r <= IZR r * / 1000000000 * (1 + e64)) by (unfold e64 in *; split; nra).
    set (x := nano * IZR r) in *. clearbody x. assert (Hx : tiny <= x) by (unfold tiny, e64 in *; lra). pose proof (fl64_near x Hx) as H2. unfold e64 in *. lra. }
  assert (En : IZR ns = 1000000000 * IZR q + IZR r) by (rewrite D, plus_IZR, mult_IZR; reflexivity). assert (Pn : 1 <= IZR ns) by (apply IZR_le; lia). apply IZR_le in Q. assert (Br : 0 <= IZR r) by (apply IZR_le; lia). set (y := fl64 (nano * IZR r)) in *. clearbody y.
  assert (Hy : tiny <= IZR q + y) by (unfold tiny, e64 in *; lra). pose proof (fl64_near (IZR q + y) Hy) as H3. unfold e64, Rdiv in *. lra.
Qed.
Lemma to_sec_pos ns : (1 <= ns)%Z -> 0 < to_sec ns.
Proof. intros H. pose proof (to_sec_near ns ltac:(lia)) as E. assert (P : 1 <= IZR ns) by (apply IZR_le; exact H). unfold e64, Rdiv in E. lra. Qed.
Lemma to_sec_le a b : (0 <= a <= b)%Z -> to_sec a <= to_sec b.
Proof.
  intros H. unfold to_sec. apply fl64_le. pose proof (Z.div_mod a 1000000000 ltac:(lia)) as Da. pose proof (Z.div_mod b 1000000000 ltac:(lia)) as Db. pose proof (Z.mod_pos_bound a 1000000000 ltac:(lia)) as Ba. pose proof (Z.mod_pos_bound b 1000000000 ltac:(lia)) as Bb.
  set (qa := (a / 1000000000)%Z) in *. set (ra := (a mod 1000000000)%Z) in *. set (qb := (b / 1000000000)%Z) in *. set (rb := (b mod 1000000000)%Z) in *. clearbody qa qb ra rb. pose proof nano_pos as Np.
  assert (C : (qa < qb)%Z \/ (qa = qb /\ ra <= rb)%Z) by lia. destruct C as [C|[-> C]].
  - assert (C' : IZR qa + 1 <= IZR qb) by (rewrite <- plus_IZR; apply IZR_le; lia). assert (U : fl64 (nano * IZR ra) <= 1).
    { rewrite <- fl64_1. apply fl64_le. assert (R1 : IZR ra <= 999999999) by (apply IZR_le; lia). pose proof nano_near as Hn. unfold e64 in Hn. nra. }
    assert (V : 0 <= fl64 (nano * IZR rb)) by (apply fl64_pos; assert (0 <= IZR rb) by (apply IZR_le; lia); nra). lra.
  - apply Rplus_le_compat_l, fl64_le. apply IZR_le in C. nra.
Qed.

(* where a point was taken *)
Lemma sweep_fraction_le sweep t1 t2 : (1 <= sweep)%Z -> (t1 <= t2)%Z -> sweep_fraction sweep t1 <= sweep_fraction sweep t2.
Proof. intros Hs H. apply fl64_le. pose proof (to_sec_pos sweep Hs) as P. apply Rmult_le_compat_r; [left; apply Rinv_0_lt_compat; exact P|apply point_time_le; exact H]. Qed.
Lemma sweep_fraction_0 sweep : sweep_fraction sweep 0 = 0.
Proof. unfold sweep_fraction. rewrite point_time_0. unfold Rdiv. rewrite Rmult_0_l. apply fl64_0. Qed.
Lemma fold_max_ge others : forall first t, In t (first :: others) -> (t <= fold_left Z.max others first)%Z.
Proof.
  induction others as [|u others IH]; intros first t [<-|H]; cbn [fold_left].
  - lia.
  - destruct H.
  - etransitivity; [|apply IH; left; reflexivity]. lia.
  - destruct H as [<-|H]; [etransitivity; [|apply IH; left; reflexivity]; lia|]. apply IH. right. exact H.
Qed.
Lemma sweep_fraction_bound first others t : Forall (fun u => (0 <= u < 4294967296)%Z) (first :: others) -> In t (first :: others) -> (1 <= sweep_duration first others)%Z ->
  0 <= sweep_fraction (sweep_duration first others) t <= 1 + / IZR (sweep_duration first others).
Proof.
  intros Hf Hi Hs. rewrite Forall_forall in Hf. pose proof (Hf t Hi) as Ht. split; [rewrite <- (sweep_fraction_0 (sweep_duration first others)); apply sweep_fraction_le; [exact Hs|lia]|].
  pose proof (fold_max_ge others first t Hi) as Hm. assert (Bm : (fold_left Z.max others first < 4294967296)%Z).
  { clear Hi Hs Ht Hm. assert (G : forall l f, (f < 4294967296)%Z -> (forall u, In u l -> (u < 4294967296)%Z) -> (fold_left Z.max l f < 4294967296)%Z) by (induction l as [|u l IH]; intros f H0 H1; cbn [fold_left]; [exact H0|apply IH; [specialize (H1 u (or_introl eq_refl)); lia|intros w Hw; apply H1; right; exact Hw]]).
    apply G; [apply (Hf first); left; reflexivity|intros u Hu; apply (Hf u); right; exact Hu]. }
  set (m := fold_left Z.max others first) in *. assert (Hm0 : (0 <= m)%Z) by lia. unfold sweep_fraction. pose proof (point_time_le t m Hm) as Lp. revert Hs. unfold sweep_duration. rewrite last_time_max. fold m. pose proof (from_sec_near (point_time m) (point_time_pos m Hm0)) as E. set (sw := from_sec (point_time m)) in *. intros Hs.
  pose proof (point_time_near m Hm0) as Em. apply Rabs_le_inv in Em. apply Rabs_le_inv in E. assert (Bm' : IZR m <= 4294967295) by (apply IZR_le; lia). assert (Bm0 : 0 <= IZR m) by (apply IZR_le; exact Hm0).
  assert (S1 : 1 <= IZR sw) by (apply IZR_le; exact Hs). assert (S2 : IZR sw <= 4300000000) by (unfold Rdiv in Em; lra). pose proof (to_sec_near sw ltac:(lia)) as Et. pose proof (point_time_pos t ltac:(lia)) as Pt.
  set (D := to_sec sw) in *. set (M := point_time t) in *. set (s := IZR sw) in *. assert (HM : M <= (s + / 2 + / 1000000) / 1000000000) by (unfold Rdiv; lra). clearbody D M. clear Em E Lp.
  assert (Pi : 0 < / s) by (apply Rinv_0_lt_compat; lra). assert (Ii : s * / s = 1) by (apply Rinv_r; lra). assert (Li : / 4300000000 <= / s) by (apply Rinv_le; lra). set (i := / s) in *. clearbody s i.
  assert (Dp : 0 < D) by (unfold e64, Rdiv in *; lra). assert (HQ : M / D <= 1 + 6 / 10 * i).
  { apply Rmult_le_reg_r with D; [exact Dp|]. unfold Rdiv at 1. rewrite Rmult_assoc, Rinv_l by lra. assert (X : (1 + 6 / 10 * i) * (s / 1000000000 * (1 - 4 * e64)) <= (1 + 6 / 10 * i) * D) by (apply Rmult_le_compat_l; lra).
    apply Rle_trans with (2 := X). replace ((1 + 6 / 10 * i) * (s / 1000000000 * (1 - 4 * e64))) with ((s + 6 / 10 * (s * i)) * (1 - 4 * e64) / 1000000000) by (unfold Rdiv; ring). rewrite Ii. unfold e64, Rdiv in *. lra. }
  apply Rle_trans with (fl64 (1 + 6 / 10 * i)); [apply fl64_le; exact HQ|]. assert (Hi1 : tiny <= 1 + 6 / 10 * i) by (unfold tiny; lra). pose proof (fl64_near _ Hi1) as [_ N]. unfold e64 in *. lra.
Qed.

(* the time filter *)
Lemma kept_below max t : (0 <= t)%Z -> tiny <= max -> IZR t / 1000000000 * (1 + / 16777216 + / 1125899906842624) <= max * (1 - / 16777216) -> passes max t.
Proof. intros Ht Hm H. unfold passes. pose proof (point_time_near t Ht) as E. apply Rabs_le_inv in E. pose proof (fl32_near max Hm) as N. unfold e32 in N. lra. Qed.
Lemma dropped_above max t : (0 <= t)%Z -> tiny <= max -> passes max t -> IZR t / 1000000000 * (1 - / 16777216 - / 1125899906842624) <= max * (1 + / 16777216).
Proof. intros Ht Hm H. unfold passes in H. pose proof (point_time_near t Ht) as E. apply Rabs_le_inv in E. pose proof (fl32_near max Hm) as N. unfold e32 in N. lra. Qed.

(* ---- where between two messages a time is ---- *)
Lemma fraction_le t1 t2 t t' : (t1 < t2)%Z -> (t1 <= t <= t')%Z -> fraction t1 t2 t <= fraction t1 t2 t'.
Proof. intros H1 H2. apply fl64_le. pose proof (to_sec_pos (t2 - t1) ltac:(lia)) as P. apply Rmult_le_compat_r; [left; apply Rinv_0_lt_compat; exact P|apply to_sec_le; lia]. Qed.
Lemma fraction_first t1 t2 : fraction t1 t2 t1 = 0.
Proof. unfold fraction. rewrite Z.sub_diag, to_sec_0. unfold Rdiv. rewrite Rmult_0_l. apply fl64_0. Qed.
Lemma fraction_last t1 t2 : (t1 < t2)%Z -> fraction t1 t2 t2 = 1.
Proof. intros H. unfold fraction. pose proof (to_sec_pos (t2 - t1) ltac:(lia)) as P. unfold Rdiv. rewrite Rinv_r by lra. apply fl64_1. Qed.
Lemma fraction_unit t1 t2 t : (t1 < t2)%Z -> (t1 <= t <= t2)%Z -> 0 <= fraction t1 t2 t <= 1.
Proof. intros H1 H2. split; [rewrite <- (fraction_first t1 t2)|rewrite <- (fraction_last t1 t2 H1)]; apply fraction_le; lia. Qed.
Lemma quot_near A B a b : 0 < B -> 0 <= A -> a * (1 - 4 * e64) <= A <= a * (1 + 4 * e64) -> b * (1 - 4 * e64) <= B <= b * (1 + 4 * e64) -> 0 <= a -> 0 < b -> a / b * (1 - 10 * e64) <= A / B <= a / b * (1 + 10 * e64).
Proof.
  intros PB PA HA HB Pa Pb. assert (Ib : 0 < / b) by (apply Rinv_0_lt_compat; exact Pb). assert (Eb : b * / b = 1) by (apply Rinv_r; lra). assert (Q : 0 <= a / b) by (apply Rmult_le_pos; lra). assert (Eq : a / b * b = a) by (unfold Rdiv; rewrite Rmult_assoc, Rinv_l; lra). set (q := a / b) in *. clearbody q.
  assert (QB : q * b * (1 - 4 * e64) <= q * B <= q * b * (1 + 4 * e64)) by (rewrite !Rmult_assoc; split; apply Rmult_le_compat_l; tauto). rewrite Eq in QB.
  split; apply Rmult_le_reg_r with B; try exact PB; unfold Rdiv; rewrite Rmult_assoc with (r1 := A), Rinv_l, Rmult_1_r by lra.
  - replace (q * (1 - 10 * e64) * B) with (q * B * (1 - 10 * e64)) by ring. unfold e64 in *. lra.
  - replace (q * (1 + 10 * e64) * B) with (q * B * (1 + 10 * e64)) by ring. unfold e64 in *. lra.
Qed.
Lemma fraction_near t1 t2 t : (t1 < t2)%Z -> (t1 <= t)%Z -> Rabs (fraction t1 t2 t - IZR (t - t1) / IZR (t2 - t1)) <= IZR (t - t1) / IZR (t2 - t1) * (12 * e64) + 2 * tiny.
Proof.
  intros H1 H2. assert (Pa : 0 <= IZR (t - t1)) by (apply IZR_le; lia). assert (Pb : 1 <= IZR (t2 - t1)) by (apply IZR_le; lia). unfold fraction. pose proof (to_sec_near (t - t1) ltac:(lia)) as Ea. pose proof (to_sec_near (t2 - t1) ltac:(lia)) as Eb. pose proof (to_sec_pos (t2 - t1) ltac:(lia)) as PB.
  set (A := to_sec (t - t1)) in *. set (B := to_sec (t2 - t1)) in *. set (a := IZR (t - t1)) in *. set (b := IZR (t2 - t1)) in *. clearbody A B a b. assert (PA : 0 <= A) by (unfold e64, Rdiv in *; lra).
  pose proof (quot_near A B (a / 1000000000) (b / 1000000000) PB PA Ea Eb ltac:(unfold Rdiv; lra) ltac:(unfold Rdiv; lra)) as Q. replace (a / 1000000000 / (b / 1000000000)) with (a / b) in Q by (field; lra).
  assert (Qp : 0 <= a / b) by (apply Rmult_le_pos; [lra|left; apply Rinv_0_lt_compat; lra]). assert (Qq : 0 <= A / B) by (apply Rmult_le_pos; [lra|left; apply Rinv_0_lt_compat; lra]). pose proof (fl64_abs (A / B) Qq) as F. apply Rabs_le_inv in F. set (q := a / b) in *. set (Q' := A / B) in *. clearbody q Q'. apply Rabs_le. unfold e64, tiny in *. lra.
Qed.
(* doubling commutes with rounding away from the smallest numbers *)
Lemma fl64_double x : tiny <= x -> fl64 (2 * x) = 2 * fl64 x.
Proof.
  intros Hx. assert (T : bpow radix2 (-100) <= x) by (apply Rle_trans with (2 := Hx); change (bpow radix2 (-100)) with (/ 1267650600228229401496703205376); unfold tiny; lra).
  assert (X0 : x <> 0) by (pose proof (bpow_gt_0 radix2 (-100)); lra). assert (Mx : (-100 < mag radix2 x)%Z) by (apply mag_gt_bpow; rewrite Rabs_pos_eq by (pose proof (bpow_gt_0 radix2 (-100)); lra); exact T).
  assert (E2 : 2 * x = x * bpow radix2 1) by (change (bpow radix2 1) with 2; ring). assert (M2 : mag radix2 (2 * x) = (mag radix2 x + 1)%Z :> Z) by (rewrite E2; apply mag_mult_bpow; exact X0).
  unfold fl64, round, F2R, scaled_mantissa, cexp. cbn [Fnum Fexp]. rewrite M2. assert (C : FLT_exp (-1074) 53 (mag radix2 x + 1) = (FLT_exp (-1074) 53 (mag radix2 x) + 1)%Z) by (unfold FLT_exp; lia). rewrite C.
  set (c := FLT_exp (-1074) 53 (mag radix2 x)). replace (2 * x * bpow radix2 (- (c + 1))) with (x * bpow radix2 (- c)).
  - rewrite (bpow_plus radix2 c 1). change (bpow radix2 1) with 2. ring.
  - rewrite E2, Rmult_assoc, <- bpow_plus. f_equal. f_equal. lia.
Qed.
Lemma to_sec_small ns : (0 <= ns < 1000000000)%Z -> to_sec ns = fl64 (nano * IZR ns).
Proof. intros H. unfold to_sec. rewrite Z.div_small, Z.mod_small by lia. rewrite Rplus_0_l. apply round_generic; [typeclasses eauto|apply generic_format_round; typeclasses eauto]. Qed.
Lemma first_half t1 t2 t : (t1 < t2)%Z -> (t1 <= t <= t2)%Z -> (t2 - t1 < 1000000000)%Z -> takes_first (fraction t1 t2 t) <-> (2 * (t - t1) <= t2 - t1)%Z.
Proof.
  intros H1 H2 H3. unfold takes_first. split; intros H.
  - destruct (Z_le_gt_dec (2 * (t - t1)) (t2 - t1)) as [L|G]; [exact L|exfalso]. pose proof (fraction_near t1 t2 t H1 ltac:(lia)) as F. apply Rabs_le_inv in F.
    assert (Pb : 1 <= IZR (t2 - t1) <= 999999999) by (split; apply IZR_le; lia). assert (Ga : IZR (t2 - t1) + 1 <= 2 * IZR (t - t1)) by (rewrite <- (mult_IZR 2), <- plus_IZR; apply IZR_le; lia). assert (La : IZR (t - t1) <= IZR (t2 - t1)) by (apply IZR_le; lia).
    set (a := IZR (t - t1)) in *. set (b := IZR (t2 - t1)) in *. clearbody a b. assert (Ib : / 999999999 <= / b) by (apply Rinv_le; lra). assert (Eb : b * / b = 1) by (apply Rinv_r; lra). assert (Q1 : a / b <= 1) by (apply Rmult_le_reg_r with b; [lra|]; unfold Rdiv; rewrite Rmult_assoc, Rinv_l by lra; lra).
    assert (Q2 : / 2 + / 2 * / b <= a / b). { apply Rmult_le_reg_r with b; [lra|]. unfold Rdiv. rewrite Rmult_assoc, Rinv_l by lra. replace ((/ 2 + / 2 * / b) * b) with (/ 2 * b + / 2 * (b * / b)) by ring. rewrite Eb. lra. }
    set (q := a / b) in *. clearbody q. unfold e64, tiny in F. lra.
  - unfold fraction. rewrite (to_sec_small (t - t1)), (to_sec_small (t2 - t1)) by lia. set (a := (t - t1)%Z) in *. set (b := (t2 - t1)%Z) in *. assert (Pb : 1 <= IZR b) by (apply IZR_le; lia). pose proof nano_near as Hn.
    assert (Bp : 0 < fl64 (nano * IZR b)). { assert (X : tiny <= nano * IZR b) by (unfold tiny, e64 in *; nra). pose proof (fl64_near _ X) as Y. unfold tiny, e64 in *. lra. }
    assert (fl64 (/ 2) = / 2) as <-. { apply fl64_half. change (/ 2) with (bpow radix2 (-1)). apply generic_format_bpow. cbn. lia. }
    apply fl64_le. apply Rmult_le_reg_r with (fl64 (nano * IZR b)); [exact Bp|]. unfold Rdiv. rewrite Rmult_assoc, Rinv_l by lra. cut (2 * fl64 (nano * IZR a) <= fl64 (nano * IZR b)); [lra|].
    destruct (Z.eq_dec a 0) as [->|N]; [rewrite Rmult_0_r, fl64_0; lra|]. assert (Pa : 1 <= IZR a) by (apply IZR_le; lia). rewrite <- fl64_double by (unfold tiny, e64 in *; nra). apply fl64_le. assert (L : 2 * IZR a <= IZR b) by (rewrite <- (mult_IZR 2); apply IZR_le; lia). unfold e64 in Hn. nra.
Qed.

(* ---- pressures ---- *)
Lemma blend_first a b : fl64 a = a -> blend 0 a b = a.
Proof. intros Ha. unfold blend. rewrite Rminus_0_r, fl64_1, Rmult_1_l, Rmult_0_l, fl64_0, Ha, Rplus_0_r. exact Ha. Qed.
Lemma blend_last a b : fl64 b = b -> blend 1 a b = b.
Proof. intros Hb. unfold blend. rewrite Rminus_diag_eq by reflexivity. rewrite fl64_0, Rmult_1_l, Rmult_0_l, fl64_0, Hb, Rplus_0_l. exact Hb. Qed.
Lemma blend_le f a b a' b' : 0 <= f <= 1 -> a <= a' -> b <= b' -> blend f a b <= blend f a' b'.
Proof.
  intros Hf Ha Hb. unfold blend. apply fl64_le. apply Rplus_le_compat; apply fl64_le; apply Rmult_le_compat_l; try lra. apply fl64_pos. lra.
Qed.
Lemma blend_near f a b M : 0 <= f <= 1 -> 0 <= a <= M -> 0 <= b <= M -> Rabs (blend f a b - ((1 - f) * a + f * b)) <= M * / 1125899906842624 + / 1237940039285380274899124224.
Proof.
  intros Hf Ha Hb. unfold blend. pose proof (fl64_abs (1 - f) ltac:(lra)) as E1. pose proof (fl64_pos (1 - f) ltac:(lra)) as P1. set (g := fl64 (1 - f)) in *. clearbody g. apply Rabs_le_inv in E1.
  assert (G1 : (1 - f) * a - a * (e64 + 2 * tiny) <= g * a <= (1 - f) * a + a * (e64 + 2 * tiny)) by (unfold e64, tiny in *; split; nra).
  pose proof (fl64_abs (g * a) ltac:(nra)) as E2. pose proof (fl64_pos (g * a) ltac:(nra)) as P2. set (u := fl64 (g * a)) in *. clearbody u. apply Rabs_le_inv in E2.
  pose proof (fl64_abs (f * b) ltac:(nra)) as E3. pose proof (fl64_pos (f * b) ltac:(nra)) as P3. set (v := fl64 (f * b)) in *. clearbody v. apply Rabs_le_inv in E3.
  assert (B1 : 0 <= (1 - f) * a <= M) by (split; nra). assert (B2 : 0 <= f * b <= M) by (split; nra). set (x := (1 - f) * a) in *. set (y := f * b) in *. set (z := g * a) in *. clearbody x y z. 
  pose proof (fl64_abs (u + v) ltac:(lra)) as E4. set (w := fl64 (u + v)) in *. clearbody w. apply Rabs_le_inv in E4. apply Rabs_le. unfold e64, tiny in *. split; lra.
Qed.
Lemma blend_pos f a b : 0 <= f <= 1 -> / 10000000000000000000000000 <= a -> / 10000000000000000000000000 <= b -> 0 < blend f a b.
Proof.
  intros Hf Ha Hb. unfold blend. assert (T : 0 < tiny) by (unfold tiny; lra). cut (tiny <= fl64 (fl64 (1 - f) * a) + fl64 (f * b)).
  { intros X. pose proof (fl64_near _ X) as Y. unfold e64 in Y. unfold tiny in *. lra. }
  assert (P1 : 0 <= fl64 (1 - f)) by (apply fl64_pos; lra). assert (P2 : 0 <= fl64 (fl64 (1 - f) * a)) by (apply fl64_pos; apply Rmult_le_pos; lra). assert (P3 : 0 <= fl64 (f * b)) by (apply fl64_pos; apply Rmult_le_pos; lra).
  destruct (Rle_lt_dec (/ 2) f) as [L|L].
  - assert (X : tiny + tiny <= f * b) by (unfold tiny; nra). assert (X' : tiny <= f * b) by lra. pose proof (fl64_near _ X') as Y. unfold e64 in Y. lra.
  - assert (G : / 2 <= fl64 (1 - f)). { assert (X : tiny <= 1 - f) by (unfold tiny; lra). assert (fl64 (/ 2) = / 2) as <-; [|apply fl64_le; lra]. apply fl64_half. change (/ 2) with (bpow radix2 (-1)). apply generic_format_bpow. cbn. lia. }
    assert (X : tiny + tiny <= fl64 (1 - f) * a) by (unfold tiny; nra). assert (X' : tiny <= fl64 (1 - f) * a) by lra. pose proof (fl64_near _ X') as Y. unfold e64 in Y. lra.
Qed.
