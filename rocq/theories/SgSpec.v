(* What the figures of summary statistics are meant to show. *)
From Coq Require Import String ZArith List Bool Reals.
From Verif Require Import Base Interp Geo EgModel MsModel RoModel BfModel EvModel EvData FgModel FgSpec SgModel.
Import ListNotations.
Open Scope R_scope.

(* the five cells: what the label says and the number *)
Definition cell_name (i : nat) : string := nth (i - 1) ["Min"; "Mean"; "Count"; "Max"; "Variance"]%string ""%string.
Definition cell_number (i : nat) (s : sstat) : R := match i with 1 => ss_min s | 2 => ss_mean s | 3 => ss_count s | 4 => ss_max s | _ => ss_var s end%nat.
(* seconds, since the first message of the list or since the epoch *)
Definition seconds (m : smsg) : R := IZR (su_sec m) + IZR (su_nsec m) / 1000000000.
Definition across (zero : bool) (l : list smsg) (m : smsg) : R := if zero then match l with [] => 0 | first :: _ => seconds m - seconds first end else seconds m.
Definition no_stat : sstat := mkSS "" 0 0 0 0 0.
(* window f: one curve for each list of messages, in its colour, through the numbers at position f *)
Definition summary_shows (w : figure) (zero : bool) (f : nat) (label : string) (data : list (list smsg)) (colours : list (Z * Z * Z)) : Prop :=
  fg_name w = (label ^^ " Statistics")%string /\ List.length (fg_axes w) = 5%nat /\
  forall i, (1 <= i <= 5)%nat -> exists a, the_axes w (Cell 2 3 i) a /\ ax_x a = "t (s)"%string /\ ax_y a = cell_name i /\ ax_legend a = [] /\
    ax_curves a = map (fun lc => mkCurve Line [map (across zero (fst lc)) (fst lc); map (fun m => cell_number i (nth f (su_stats m) no_stat)) (fst lc)] (Colour (snd lc))) (combine data colours).
