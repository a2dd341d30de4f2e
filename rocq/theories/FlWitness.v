(* Times and pressures in floating point: values at particular times. *)
From Coq Require Import ZArith Reals Lra Lia List.
From Flocq Require Import Core.
From Verif Require Import FlModel FlProofs.
Import ListNotations.
Open Scope R_scope.

Lemma nearest_tie m : ZnearestE (IZR m + / 2) = if Z.even m then m else (m + 1)%Z.
Proof.
  unfold Znearest. assert (Fm : Zfloor (IZR m + / 2) = m) by (apply Zfloor_imp; rewrite plus_IZR; lra). rewrite Fm. replace (IZR m + / 2 - IZR m) with (/ 2) by ring. rewrite Rcompare_Eq by reflexivity. destruct (Z.even m); cbn [negb]; [reflexivity|].
  apply Zceil_imp. rewrite minus_IZR, plus_IZR. lra.
Qed.
Lemma round_at p e0 x k n lo hi c : (0 < p)%Z -> (e0 <= k - p)%Z -> bpow radix2 (k - 1) = lo -> bpow radix2 k = hi -> bpow radix2 (p - k) = c -> lo <= x < hi -> ZnearestE (x * c) = n ->
  round radix2 (FLT_exp e0 p) ZnearestE x = IZR n / c.
Proof.
  intros Hp He Hlo Hhi Hc Hx Hn. assert (X0 : 0 <= x) by (pose proof (bpow_gt_0 radix2 (k - 1)); lra). unfold round, F2R, scaled_mantissa, cexp. cbn [Fnum Fexp]. rewrite (mag_unique radix2 x k) by (rewrite Rabs_pos_eq by exact X0; lra).
  assert (C : FLT_exp e0 p k = (k - p)%Z) by (unfold FLT_exp; lia). rewrite C. replace (- (k - p))%Z with (p - k)%Z by lia. rewrite Hc, Hn. unfold Rdiv. rewrite <- Hc, <- bpow_opp. f_equal. f_equal. lia.
Qed.
Lemma nearest_in y n : - / 2 < y - IZR n < / 2 -> ZnearestE y = n. Proof. intros H. apply Znearest_imp. apply Rabs_lt. lra. Qed.
Lemma nearest_down y n : y = IZR n + / 2 -> Z.even n = true -> ZnearestE y = n. Proof. intros -> H. rewrite nearest_tie, H. reflexivity. Qed.
Lemma nearest_up y n : y = IZR n - / 2 -> Z.even n = true -> ZnearestE y = n.
Proof. intros -> H. replace (IZR n - / 2) with (IZR (n - 1) + / 2) by (rewrite minus_IZR; lra). rewrite nearest_tie, Z.even_sub, H. cbn. lia. Qed.
Ltac go_ k n lo hi c t := let R0 := fresh in pose proof (fun x p e0 H1 H2 H3 H4 H5 => round_at p e0 x k n lo hi c H1 H2 H3 H4 H5) as R0; unfold fl32, fl64; rewrite R0; [lra|lia|lia|reflexivity|reflexivity|reflexivity|lra|t].
Ltac at_ k n lo hi c := go_ k n lo hi c ltac:(apply nearest_in; lra).
Ltac up_ k n lo hi c := go_ k n lo hi c ltac:(apply nearest_up; [lra|reflexivity]).
Ltac down_ k n lo hi c := go_ k n lo hi c ltac:(apply nearest_down; [lra|reflexivity]).
Lemma nano_v0 : fl64 (/ 1000000000) = (4835703278458517 / 4835703278458516698824704).
Proof. at_ (-29)%Z (4835703278458517)%Z (/ 1073741824) (/ 536870912) (4835703278458516698824704). Qed.
Lemma nano_v : nano = (4835703278458517 / 4835703278458516698824704). Proof. exact nano_v0. Qed.
Lemma a15625001 : fl64 (15625001 * nano) = (562949989450109 / 36028797018963968).
Proof. rewrite nano_v. at_ (-5)%Z (4503599915600872)%Z (/ 64) (/ 32) (288230376151711744). Qed.
Lemma b15625001 : fl32 (fl64 (15625001 * nano)) = (8388609 / 536870912).
Proof. rewrite a15625001. at_ (-5)%Z (8388609)%Z (/ 64) (/ 32) (536870912). Qed.
Lemma pt15625001 : point_time 15625001 = (8388609 / 536870912). Proof. exact b15625001. Qed.
Lemma a15625002 : fl64 (15625002 * nano) = (4503600203831249 / 288230376151711744).
Proof. rewrite nano_v. at_ (-5)%Z (4503600203831249)%Z (/ 64) (/ 32) (288230376151711744). Qed.
Lemma b15625002 : fl32 (fl64 (15625002 * nano)) = (8388609 / 536870912).
Proof. rewrite a15625002. at_ (-5)%Z (8388609)%Z (/ 64) (/ 32) (536870912). Qed.
Lemma pt15625002 : point_time 15625002 = (8388609 / 536870912). Proof. exact b15625002. Qed.
Lemma a100000000 : fl64 (100000000 * nano) = (3602879701896397 / 36028797018963968).
Proof. rewrite nano_v. at_ (-3)%Z (7205759403792794)%Z (/ 16) (/ 8) (72057594037927936). Qed.
Lemma b100000000 : fl32 (fl64 (100000000 * nano)) = (13421773 / 134217728).
Proof. rewrite a100000000. at_ (-3)%Z (13421773)%Z (/ 16) (/ 8) (134217728). Qed.
Lemma pt100000000 : point_time 100000000 = (13421773 / 134217728). Proof. exact b100000000. Qed.
Lemma e1 : fl64 (point_time 100000000 - IZR 0) = (13421773 / 134217728).
Proof. rewrite pt100000000. at_ (-3)%Z (7205759511166976)%Z (/ 16) (/ 8) (72057594037927936). Qed.
Lemma e2 : fl64 ((13421773 / 134217728) * 1000000000) = (26214400390625 / 262144).
Proof. at_ (27)%Z (6710886500000000)%Z (67108864) (134217728) (67108864). Qed.
Lemma sweep_v : sweep_duration 100000000 nil = 100000001%Z.
Proof.
  unfold sweep_duration, last_time. cbn [map fold_left]. unfold from_sec. assert (Fz : Zfloor (point_time 100000000) = 0%Z) by (apply Zfloor_imp; rewrite pt100000000; cbn [Z.add]; split; lra).
  rewrite Fz, e1, e2. rewrite (Znearest_imp _ _ 100000001); [reflexivity|]. apply Rabs_lt. split; lra.
Qed.
Lemma c100000001 : fl64 (nano * 100000001) = (1801439868962597 / 18014398509481984).
Proof. rewrite nano_v. at_ (-3)%Z (7205759475850388)%Z (/ 16) (/ 8) (72057594037927936). Qed.
Lemma d100000001 : fl64 (0 + fl64 (nano * 100000001)) = (1801439868962597 / 18014398509481984).
Proof. rewrite c100000001. at_ (-3)%Z (7205759475850388)%Z (/ 16) (/ 8) (72057594037927936). Qed.
Lemma ts100000001 : to_sec 100000001 = (1801439868962597 / 18014398509481984). Proof. exact d100000001. Qed.
Lemma frac_v : fl64 (point_time 100000000 / to_sec 100000001) = (4503599649443363 / 4503599627370496).
Proof. rewrite pt100000000, ts100000001. at_ (1)%Z (4503599649443363)%Z (1) (2) (4503599627370496). Qed.
Lemma c624729224 : fl64 (nano * 624729224) = (5627060600827719 / 9007199254740992).
Proof. rewrite nano_v. at_ (0)%Z (5627060600827719)%Z (/ 2) (1) (9007199254740992). Qed.
Lemma d624729224 : fl64 (0 + fl64 (nano * 624729224)) = (5627060600827719 / 9007199254740992).
Proof. rewrite c624729224. at_ (0)%Z (5627060600827719)%Z (/ 2) (1) (9007199254740992). Qed.
Lemma ts624729224 : to_sec 624729224 = (5627060600827719 / 9007199254740992). Proof. exact d624729224. Qed.
Lemma c1249458448 : fl64 (nano * 249458448) = (8987687787657779 / 36028797018963968).
Proof. rewrite nano_v. at_ (-2)%Z (8987687787657779)%Z (/ 8) (/ 4) (36028797018963968). Qed.
Lemma d1249458448 : fl64 (1 + fl64 (nano * 249458448)) = (2813530300413859 / 2251799813685248).
Proof. rewrite c1249458448. at_ (1)%Z (5627060600827718)%Z (1) (2) (4503599627370496). Qed.
Lemma ts1249458448 : to_sec 1249458448 = (2813530300413859 / 2251799813685248). Proof. exact d1249458448. Qed.
Lemma half_v0 : fl64 (to_sec 624729224 / to_sec 1249458448) = (4503599627370497 / 9007199254740992).
Proof. rewrite ts624729224, ts1249458448. at_ (0)%Z (4503599627370497)%Z (/ 2) (1) (9007199254740992). Qed.
Lemma half_v : fraction 0 1249458448 624729224 = (4503599627370497 / 9007199254740992). Proof. exact half_v0. Qed.
Lemma c55000000 : fl64 (nano * 55000000) = (7926335344172073 / 144115188075855872).
Proof. rewrite nano_v. at_ (-4)%Z (7926335344172073)%Z (/ 32) (/ 16) (144115188075855872). Qed.
Lemma d55000000 : fl64 (0 + fl64 (nano * 55000000)) = (7926335344172073 / 144115188075855872).
Proof. rewrite c55000000. at_ (-4)%Z (7926335344172073)%Z (/ 32) (/ 16) (144115188075855872). Qed.
Lemma ts55000000 : to_sec 55000000 = (7926335344172073 / 144115188075855872). Proof. exact d55000000. Qed.
Lemma c200000000 : fl64 (nano * 200000000) = (3602879701896397 / 18014398509481984).
Proof. rewrite nano_v. at_ (-2)%Z (7205759403792794)%Z (/ 8) (/ 4) (36028797018963968). Qed.
Lemma d200000000 : fl64 (0 + fl64 (nano * 200000000)) = (3602879701896397 / 18014398509481984).
Proof. rewrite c200000000. at_ (-2)%Z (7205759403792794)%Z (/ 8) (/ 4) (36028797018963968). Qed.
Lemma ts200000000 : to_sec 200000000 = (3602879701896397 / 18014398509481984). Proof. exact d200000000. Qed.
Lemma pf0 : fl64 (to_sec 55000000 / to_sec 200000000) = (4953959590107545 / 18014398509481984).
Proof. rewrite ts55000000, ts200000000. at_ (-1)%Z (4953959590107545)%Z (/ 4) (/ 2) (18014398509481984). Qed.
Lemma pf : fraction 0 200000000 55000000 = (4953959590107545 / 18014398509481984). Proof. exact pf0. Qed.
Lemma pg : fl64 (1 - (4953959590107545 / 18014398509481984)) = (1632554864921805 / 2251799813685248).
Proof. up_ (0)%Z (6530219459687220)%Z (/ 2) (1) (9007199254740992). Qed.
Lemma pu : fl64 ((1632554864921805 / 2251799813685248) * 101325) = (5048175710699521 / 68719476736).
Proof. at_ (17)%Z (5048175710699521)%Z (65536) (131072) (68719476736). Qed.
Lemma pv : fl64 ((4953959590107545 / 18014398509481984) * 101325) = (7659301078302719 / 274877906944).
Proof. at_ (15)%Z (7659301078302719)%Z (16384) (32768) (274877906944). Qed.
Lemma pw : fl64 ((5048175710699521 / 68719476736) + (7659301078302719 / 274877906944)) = (6963000980275201 / 68719476736).
Proof. at_ (17)%Z (6963000980275201)%Z (65536) (131072) (68719476736). Qed.
Lemma pb : blend (fraction 0 200000000 55000000) 101325 101325 = (6963000980275201 / 68719476736). Proof. rewrite pf. unfold blend. rewrite pg, pu, pv. exact pw. Qed.
