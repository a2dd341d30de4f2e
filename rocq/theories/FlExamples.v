(* Times and pressures in floating point: cases that meet the hypotheses of the theorems. *)
From Coq Require Import ZArith Reals Lra Lia List.
From Flocq Require Import Core.
From Verif Require Import FlModel FlProofs FlWitness FlMore.
Import ListNotations.
Open Scope R_scope.

(* a sweep of a tenth of a second *)
Example sweep1 : latest 100000000 [0%Z; 50000000%Z; 100000000%Z].
Proof. split; [right; right; left; reflexivity|]. intros t [<-|[<-|[<-|[]]]]; lia. Qed.
Example sweep1_duration : sweep_duration 0 [50000000%Z; 100000000%Z] = 100000001%Z.
Proof. unfold sweep_duration. rewrite last_time_max. cbn [fold_left Z.max Z.compare Pos.compare Pos.compare_cont]. change (sweep_duration 100000000 [] = 100000001%Z). exact sweep_v. Qed.
Example sweep1_within : (Z.abs (sweep_duration 0 [50000000%Z; 100000000%Z] - 100000000) <= 4)%Z := sweep_within _ _ _ sweep1 (conj (proj1 (Z.leb_le 0 100000000) eq_refl) (proj1 (Z.ltb_lt 100000000 125000000) eq_refl)).
Example sweep1_inside : 0 <= sweep_fraction (sweep_duration 0 [50000000%Z; 100000000%Z]) 50000000 <= 1 + / 100000001.
Proof. pose proof (sweep_fraction_bound 0 [50000000%Z; 100000000%Z] 50000000) as H. rewrite sweep1_duration in *. apply H; [repeat constructor; lia|right; left; reflexivity|lia]. Qed.
(* the exact value of one point's time: 0.1 s becomes 0.100000001490116 s *)
Example tenth : point_time 100000000 = 13421773 / 134217728. Proof. exact pt100000000. Qed.
(* points 8 ns apart are told apart, these two are not *)
Example apart : point_time 15625001 < point_time 15625009. Proof. apply point_time_lt; lia. Qed.
Example not_apart : point_time 15625001 = point_time 15625002. Proof. rewrite pt15625001, pt15625002. reflexivity. Qed.
(* a filter at half a second *)
Example keeps : passes (/ 2) 499999000. Proof. apply filter_sides; [lia|lra|unfold Rdiv; lra]. Qed.
Example drops : ~ passes (/ 2) 500001000. Proof. apply filter_sides; [lia|lra|unfold Rdiv; lra]. Qed.
(* between two messages 5 ms apart *)
Example early : takes_first (fraction 1000000000 1005000000 1002500000). Proof. apply first_half; lia. Qed.
Example late : ~ takes_first (fraction 1000000000 1005000000 1002500001). Proof. rewrite first_half; lia. Qed.
Example inside : 0 <= fraction 1000000000 1005000000 1002500001 <= 1. Proof. apply fraction_unit; lia. Qed.
(* pressures *)
Example start : blend 0 101325 101300 = 101325. Proof. apply blend_first. exact fl64_101325. Qed.
Example positive : 0 < blend (/ 2) 101325 101300. Proof. apply blend_pos; lra. Qed.
Example near : Rabs (blend (/ 2) 101325 101300 - 101312.5) <= / 1000000000.
Proof. pose proof (blend_near (/ 2) 101325 101300 101325 ltac:(lra) ltac:(lra) ltac:(lra)) as E. apply Rabs_le_inv in E. apply Rabs_le. lra. Qed.
