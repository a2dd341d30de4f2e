(* Properties C108-C110: times and pressures in floating point. Proofs in FlProofs.v, FlMore.v; cases in FlExamples.v. *)
From Coq Require Import ZArith Reals List.
Import ListNotations.
Open Scope R_scope.
From Verif Require Import FlModel FlProofs FlWitness FlMore.

(* C108 *)
Theorem C108_time_near :
  forall t : Z, (0 <= t)%Z -> Rabs (point_time t - IZR t / 1000000000) <= IZR t / 1000000000 * (/ 16777216 + / 1125899906842624).
Proof. exact (@point_time_near). Qed.
Theorem C108_range_near :
  forall r : Z, (0 <= r)%Z -> Rabs (point_range r - IZR r / 1000) <= IZR r / 1000 * (/ 16777216 + / 1125899906842624).
Proof. exact (@point_range_near). Qed.
Theorem C108_order_kept :
  forall t1 t2 : Z, (t1 <= t2)%Z -> point_time t1 <= point_time t2.
Proof. exact (@point_time_le). Qed.
Theorem C108_apart_told_apart :
  forall t1 t2 : Z, (0 <= t1)%Z -> (t1 + 8 <= t2 < 125000000)%Z -> point_time t1 < point_time t2.
Proof. exact (@point_time_lt). Qed.
Theorem C108_all_told_apart_refuted :
  exists t1 t2 : Z, (0 <= t1 < t2)%Z /\ (t2 < 125000000)%Z /\ point_time t1 = point_time t2.
Proof. exact (@same_float_refuted). Qed.
Theorem C108_sweep_within_4ns :
  forall (first : Z) (others : list Z) (m : Z),
    latest m (first :: others) -> (0 <= m < 125000000)%Z -> (Z.abs (sweep_duration first others - m) <= 4)%Z.
Proof. exact (@sweep_within). Qed.
Theorem C108_sweep_within :
  forall (first : Z) (others : list Z) (m : Z),
    latest m (first :: others) ->
    (0 <= m)%Z -> Rabs (IZR (sweep_duration first others) - IZR m) <= IZR m * (/ 16777216 + / 1125899906842624) + / 2 + / 1000000.
Proof. exact (@sweep_within_long). Qed.
Theorem C108_sweep_empty :
  forall (first : Z) (others : list Z) (m : Z),
    latest m (first :: others) -> (0 <= m)%Z -> (0 <= sweep_duration first others)%Z /\ (sweep_duration first others = 0%Z <-> m = 0%Z).
Proof. exact (@sweep_empty_iff). Qed.
Theorem C108_sweep_exact_refuted :
  exists (first : Z) (others : list Z) (m : Z), latest m (first :: others) /\ (0 <= m < 125000000)%Z /\ sweep_duration first others <> m.
Proof. exact (@sweep_exact_refuted). Qed.
Theorem C108_fraction_bound :
  forall (first : Z) (others : list Z) (t : Z),
    Forall (fun u : Z => (0 <= u < 4294967296)%Z) (first :: others) ->
    In t (first :: others) ->
    (1 <= sweep_duration first others)%Z -> 0 <= sweep_fraction (sweep_duration first others) t <= 1 + / IZR (sweep_duration first others).
Proof. exact (@sweep_fraction_bound). Qed.
Theorem C108_fraction_first :
  forall sweep : Z, sweep_fraction sweep 0 = 0.
Proof. exact (@sweep_fraction_0). Qed.
Theorem C108_fraction_order :
  forall sweep t1 t2 : Z, (1 <= sweep)%Z -> (t1 <= t2)%Z -> sweep_fraction sweep t1 <= sweep_fraction sweep t2.
Proof. exact (@sweep_fraction_le). Qed.
Theorem C108_fraction_one_refuted :
  exists (first : Z) (others : list Z) (t : Z),
      Forall (fun u : Z => (0 <= u < 125000000)%Z) (first :: others) /\
      In t (first :: others) /\ 1 < sweep_fraction (sweep_duration first others) t.
Proof. exact (@beyond_sweep_refuted). Qed.
Theorem C108_filter_sides :
  forall (max : R) (t : Z),
    (0 <= t)%Z ->
    / 1000000000 <= max ->
    (IZR t / 1000000000 <= max * (1 - / 4194304) -> passes max t) /\ (max * (1 + / 4194304) <= IZR t / 1000000000 -> ~ passes max t).
Proof. exact (@filter_sides). Qed.

(* C109 *)
Theorem C109_fraction_unit :
  forall t1 t2 t : Z, (t1 < t2)%Z -> (t1 <= t <= t2)%Z -> 0 <= fraction t1 t2 t <= 1.
Proof. exact (@fraction_unit). Qed.
Theorem C109_fraction_first :
  forall t1 t2 : Z, fraction t1 t2 t1 = 0.
Proof. exact (@fraction_first). Qed.
Theorem C109_fraction_last :
  forall t1 t2 : Z, (t1 < t2)%Z -> fraction t1 t2 t2 = 1.
Proof. exact (@fraction_last). Qed.
Theorem C109_fraction_order :
  forall t1 t2 t t' : Z, (t1 < t2)%Z -> (t1 <= t <= t')%Z -> fraction t1 t2 t <= fraction t1 t2 t'.
Proof. exact (@fraction_le). Qed.
Theorem C109_fraction_near :
  forall t1 t2 t : Z,
    (t1 < t2)%Z -> (t1 <= t)%Z -> Rabs (fraction t1 t2 t - IZR (t - t1) / IZR (t2 - t1)) <= IZR (t - t1) / IZR (t2 - t1) * (12 * e64) + 2 * tiny.
Proof. exact (@fraction_near). Qed.
Theorem C109_nearer_message :
  forall t1 t2 t : Z,
    (t1 < t2)%Z -> (t1 <= t <= t2)%Z -> (t2 - t1 < 1000000000)%Z -> takes_first (fraction t1 t2 t) <-> (2 * (t - t1) <= t2 - t1)%Z.
Proof. exact (@first_half). Qed.
Theorem C109_nearer_as_integers :
  forall (t : Z) (m1 m2 : MsModel.rimu),
    (MsModel.ri_time m1 < MsModel.ri_time m2)%Z ->
    (MsModel.ri_time m1 <= t <= MsModel.ri_time m2)%Z ->
    (MsModel.ri_time m2 - MsModel.ri_time m1 < 1000000000)%Z ->
    (takes_first (fraction (MsModel.ri_time m1) (MsModel.ri_time m2) t) -> FoModel.nearer t m1 m2 = m1) /\
    (~ takes_first (fraction (MsModel.ri_time m1) (MsModel.ri_time m2) t) -> FoModel.nearer t m1 m2 = m2).
Proof. exact (@nearer_float). Qed.
Theorem C109_nearer_message_refuted :
  exists t1 t2 t : Z, (t1 < t2)%Z /\ (t1 <= t <= t2)%Z /\ (2 * (t - t1) <= t2 - t1)%Z /\ ~ takes_first (fraction t1 t2 t).
Proof. exact (@half_way_refuted). Qed.
Theorem C109_steps_add_up :
  forall ds : list Z,
    Forall (fun d : Z => (0 <= d)%Z) ds ->
    let s := fold_right Z.add 0%Z ds in
    let r := fold_right Rplus 0 (map to_sec ds) in Rabs (r - IZR s / 1000000000) <= IZR s / 1000000000 * / 2251799813685248.
Proof. exact (@steps_add_up). Qed.

(* C110 *)
Theorem C110_first :
  forall a b : R, fl64 a = a -> blend 0 a b = a.
Proof. exact (@blend_first). Qed.
Theorem C110_last :
  forall a b : R, fl64 b = b -> blend 1 a b = b.
Proof. exact (@blend_last). Qed.
Theorem C110_near :
  forall f a b M : R,
    0 <= f <= 1 ->
    0 <= a <= M -> 0 <= b <= M -> Rabs (blend f a b - ((1 - f) * a + f * b)) <= M * / 1125899906842624 + / 1237940039285380274899124224.
Proof. exact (@blend_near). Qed.
Theorem C110_between_up_to_rounding :
  forall f a b lo hi : R,
    0 <= f <= 1 ->
    0 <= lo ->
    lo <= a <= hi ->
    lo <= b <= hi ->
    lo - (hi * / 1125899906842624 + / 1237940039285380274899124224) <= blend f a b <=
    hi + (hi * / 1125899906842624 + / 1237940039285380274899124224).
Proof. exact (@blend_between). Qed.
Theorem C110_between_refuted :
  exists (t1 t2 t : Z) (p : R), (t1 < t2)%Z /\ (t1 <= t <= t2)%Z /\ fl64 p = p /\ 0 < p < blend (fraction t1 t2 t) p p.
Proof. exact (@between_refuted). Qed.
Theorem C110_order :
  forall f a b a' b' : R, 0 <= f <= 1 -> a <= a' -> b <= b' -> blend f a b <= blend f a' b'.
Proof. exact (@blend_le). Qed.
Theorem C110_positive :
  forall f a b : R, 0 <= f <= 1 -> / 10000000000000000000000000 <= a -> / 10000000000000000000000000 <= b -> 0 < blend f a b.
Proof. exact (@blend_pos). Qed.

Print Assumptions C108_time_near.
Print Assumptions C108_range_near.
Print Assumptions C108_order_kept.
Print Assumptions C108_apart_told_apart.
Print Assumptions C108_all_told_apart_refuted.
Print Assumptions C108_sweep_within_4ns.
Print Assumptions C108_sweep_within.
Print Assumptions C108_sweep_empty.
Print Assumptions C108_sweep_exact_refuted.
Print Assumptions C108_fraction_bound.
Print Assumptions C108_fraction_first.
Print Assumptions C108_fraction_order.
Print Assumptions C108_fraction_one_refuted.
Print Assumptions C108_filter_sides.
Print Assumptions C109_fraction_unit.
Print Assumptions C109_fraction_first.
Print Assumptions C109_fraction_last.
Print Assumptions C109_fraction_order.
Print Assumptions C109_fraction_near.
Print Assumptions C109_nearer_message.
Print Assumptions C109_nearer_as_integers.
Print Assumptions C109_nearer_message_refuted.
Print Assumptions C109_steps_add_up.
Print Assumptions C110_first.
Print Assumptions C110_last.
Print Assumptions C110_near.
Print Assumptions C110_between_up_to_rounding.
Print Assumptions C110_between_refuted.
Print Assumptions C110_order.
Print Assumptions C110_positive.
