(* Times and pressures in floating point: the statements used by the properties, and what does not hold. *)
From Coq Require Import ZArith Reals Lra Lia List.
From Flocq Require Import Core.
From Verif Require MsModel FoModel.
From Verif Require Import FlModel FlProofs FlWitness.
Import ListNotations.
Open Scope R_scope.

(* the latest of the times of a sweep *)
Definition latest (m : Z) (ts : list Z) : Prop := In m ts /\ forall t, In t ts -> (t <= m)%Z.
Lemma latest_fold others : forall first m, latest m (first :: others) -> fold_left Z.max others first = m.
Proof.
  intros first m [Hi Hm]. apply Z.le_antisymm; [|apply fold_max_ge; exact Hi]. assert (G : forall l f, (f <= m)%Z -> (forall t, In t l -> (t <= m)%Z) -> (fold_left Z.max l f <= m)%Z).
  { induction l as [|u l IH]; intros f Hf Hl; cbn [fold_left]; [exact Hf|]. apply IH; [specialize (Hl u (or_introl eq_refl)); lia|intros t Ht; apply Hl; right; exact Ht]. }
  apply G; [apply Hm; left; reflexivity|intros t Ht; apply Hm; right; exact Ht].
Qed.
Lemma sweep_within first others m : latest m (first :: others) -> (0 <= m < 125000000)%Z -> (Z.abs (sweep_duration first others - m) <= 4)%Z.
Proof. intros L Hm. rewrite <- (latest_fold others first m L) in *. apply sweep_eighth. exact Hm. Qed.
Lemma sweep_within_long first others m : latest m (first :: others) -> (0 <= m)%Z -> Rabs (IZR (sweep_duration first others) - IZR m) <= IZR m * (/ 16777216 + / 1125899906842624) + / 2 + / 1000000.
Proof. intros L Hm. rewrite <- (latest_fold others first m L) in *. apply sweep_near. exact Hm. Qed.
Lemma sweep_empty_iff first others m : latest m (first :: others) -> (0 <= m)%Z -> (0 <= sweep_duration first others)%Z /\ (sweep_duration first others = 0%Z <-> m = 0%Z).
Proof. intros L Hm. rewrite <- (latest_fold others first m L) in *. apply sweep_zero. exact Hm. Qed.
Lemma filter_sides max t : (0 <= t)%Z -> / 1000000000 <= max -> (IZR t / 1000000000 <= max * (1 - / 4194304) -> passes max t) /\ (max * (1 + / 4194304) <= IZR t / 1000000000 -> ~ passes max t).
Proof.
  intros Ht Hm. assert (P : 0 <= IZR t) by (apply IZR_le; exact Ht). assert (T : tiny <= max) by (unfold tiny; lra). split; intros H.
  - apply kept_below; [exact Ht|exact T|]. unfold Rdiv in *. lra.
  - intros K. pose proof (dropped_above max t Ht T K) as D. unfold Rdiv in *. lra.
Qed.

Lemma same_float_refuted : exists t1 t2, (0 <= t1 < t2)%Z /\ (t2 < 125000000)%Z /\ point_time t1 = point_time t2.
Proof. exists 15625001%Z, 15625002%Z. split; [lia|]. split; [lia|]. rewrite pt15625001, pt15625002. reflexivity. Qed.
Lemma sweep_exact_refuted : exists first others m, latest m (first :: others) /\ (0 <= m < 125000000)%Z /\ sweep_duration first others <> m.
Proof. exists 100000000%Z, nil, 100000000%Z. split; [split; [left; reflexivity|intros t [<-|[]]; lia]|]. split; [lia|]. rewrite sweep_v. discriminate. Qed.
Lemma beyond_sweep_refuted : exists first others t, Forall (fun u => (0 <= u < 125000000)%Z) (first :: others) /\ In t (first :: others) /\ 1 < sweep_fraction (sweep_duration first others) t.
Proof. exists 100000000%Z, nil, 100000000%Z. split; [constructor; [lia|constructor]|]. split; [left; reflexivity|]. rewrite sweep_v. unfold sweep_fraction. rewrite frac_v. lra. Qed.
Lemma half_way_refuted : exists t1 t2 t, (t1 < t2)%Z /\ (t1 <= t <= t2)%Z /\ (2 * (t - t1) <= t2 - t1)%Z /\ ~ takes_first (fraction t1 t2 t).
Proof. exists 0%Z, 1249458448%Z, 624729224%Z. split; [lia|]. split; [lia|]. split; [lia|]. rewrite half_v. unfold takes_first. lra. Qed.
Lemma fl64_101325 : fl64 101325 = 101325. Proof. apply (fl64_IZR 101325). lia. Qed.
Lemma between_refuted : exists t1 t2 t p, (t1 < t2)%Z /\ (t1 <= t <= t2)%Z /\ fl64 p = p /\ 0 < p /\ p < blend (fraction t1 t2 t) p p.
Proof. exists 0%Z, 200000000%Z, 55000000%Z, 101325. split; [lia|]. split; [lia|]. split; [exact fl64_101325|]. split; [lra|]. rewrite pb. lra. Qed.

(* an interpolated pressure leaves the interval between the two pressures by rounding only *)
Lemma blend_between f a b lo hi : 0 <= f <= 1 -> 0 <= lo -> lo <= a <= hi -> lo <= b <= hi -> lo - (hi * / 1125899906842624 + / 1237940039285380274899124224) <= blend f a b <= hi + (hi * / 1125899906842624 + / 1237940039285380274899124224).
Proof.
  intros Hf Hl Ha Hb. pose proof (blend_near f a b hi Hf ltac:(lra) ltac:(lra)) as E. apply Rabs_le_inv in E. assert (B : lo <= (1 - f) * a + f * b <= hi).
  { assert (X1 : (1 - f) * lo <= (1 - f) * a <= (1 - f) * hi) by (split; apply Rmult_le_compat_l; lra). assert (X2 : f * lo <= f * b <= f * hi) by (split; apply Rmult_le_compat_l; lra). lra. }
  lra.
Qed.

(* the integration steps of a preintegration add up to the time covered (UT 46-49) *)
Lemma steps_add_up ds : Forall (fun d => (0 <= d)%Z) ds -> let s := fold_right Z.add 0%Z ds in let r := fold_right Rplus 0 (map to_sec ds) in Rabs (r - IZR s / 1000000000) <= IZR s / 1000000000 * / 2251799813685248.
Proof.
  intros H. cbv zeta. apply Rabs_le. induction H as [|d ds Hd H IH]; cbn [fold_right map]; [unfold Rdiv; lra|]. pose proof (to_sec_near d Hd) as E. rewrite plus_IZR. set (a := fold_right Rplus 0 (map to_sec ds)) in *. set (b := IZR (fold_right Z.add 0%Z ds)) in *. clearbody a b. unfold e64, Rdiv in *. lra.
Qed.
(* FoModel reads the comparison of IM 87-95 in integers; up to a second between the messages that is what the doubles give *)
Lemma nearer_float t m1 m2 : (MsModel.ri_time m1 < MsModel.ri_time m2)%Z -> (MsModel.ri_time m1 <= t <= MsModel.ri_time m2)%Z -> (MsModel.ri_time m2 - MsModel.ri_time m1 < 1000000000)%Z ->
  (takes_first (fraction (MsModel.ri_time m1) (MsModel.ri_time m2) t) -> FoModel.nearer t m1 m2 = m1) /\ (~ takes_first (fraction (MsModel.ri_time m1) (MsModel.ri_time m2) t) -> FoModel.nearer t m1 m2 = m2).
Proof.
  intros H1 H2 H3. pose proof (first_half _ _ t H1 H2 H3) as E. unfold FoModel.nearer. rewrite (proj2 (Z.eqb_neq _ _)) by lia. destruct (Z.leb_spec (2 * (t - MsModel.ri_time m1)) (MsModel.ri_time m2 - MsModel.ri_time m1)) as [L|L]; split; intros K; try reflexivity; exfalso.
  - apply K. apply E. exact L.
  - apply E in K. lia.
Qed.
