(* Figures of summary statistics (MATLAB): plotting/plot_summary_statistics.m (SS), as called in main.m 268.  Drawing commands as in FgModel.
   The output fig is never assigned (SS 1); main.m does not ask for it. *)
From Coq Require Import String ZArith List Bool Reals.
From Verif Require Import Base Interp Geo EgModel MsModel RoModel BfModel EvModel EvData FgModel.
Import ListNotations.
Open Scope R_scope.

(* statistics_msgs/SummaryStatistics, SummaryStatisticsArray; the count as a number of the array of SS 33 *)
Record sstat := mkSS { ss_label : string; ss_min : R; ss_max : R; ss_mean : R; ss_var : R; ss_count : R }.
Record smsg := mkSM { su_sec : Z; su_nsec : Z; su_stats : list sstat }.
(* extract_timestamps.m *)
Definition su_stamp (m : smsg) : R := IZR (su_sec m) + IZR (su_nsec m) / 1000000000.
(* SS 26-29: timestamps(1) of none is an index error *)
Definition su_times (zero : bool) (l : list smsg) : res (list R) :=
  if zero then match l with [] => Throw | m :: _ => Ok (map (fun x => su_stamp x - su_stamp m) l) end else Ok (map su_stamp l).
(* SS 4, 35 *)
Definition su_fields : list (string * (sstat -> R)) := [("Min", ss_min); ("Mean", ss_mean); ("Count", ss_count); ("Max", ss_max); ("Variance", ss_var)]%string.
(* Statistics(f) of every message *)
Fixpoint su_nth (f : nat) (l : list smsg) : res (list sstat) :=
  match l with [] => Ok [] | m :: l => rbind (nth_res (su_stats m) f) (fun s => rbind (su_nth f l) (fun r => Ok (s :: r))) end.
(* SS 26-38 *)
Definition su_curves (zero : bool) (f : nat) (l : list smsg) (c : Z * Z * Z) : res (list cmd) :=
  rbind (su_times zero l) (fun t => rbind (su_nth f l) (fun ss =>
  Ok (flat_map (fun x => [Subplot 2 3 (fst x); HoldOn; Draw (mkCurve Line [t; map (snd (snd x)) ss] (Colour c))]) (combine (seq 1 5) su_fields)))).
(* SS 24-39 *)
Fixpoint su_all (zero : bool) (f : nat) (data : list (list smsg)) (colours : list (Z * Z * Z)) : res (list cmd) :=
  match data, colours with
  | [], _ => Ok []
  | l :: data, c :: colours => rbind (su_curves zero f l c) (fun a => rbind (su_all zero f data colours) (fun b => Ok (a ++ b)))
  | _ :: _, [] => Throw
  end.
(* SS 9-21; grids left out *)
Definition su_frame (f : nat) (label : string) : list cmd :=
  [NewFigure (label ^^ " Statistics"); SetFigure f; Title (label ^^ " Statistics")] ++
  flat_map (fun x => [Subplot 2 3 (fst x); XLabel "t (s)"; YLabel (snd x)]) (combine (seq 1 5) (map fst su_fields)).
(* SS 8-40, from figure f on *)
Fixpoint su_figures (zero : bool) (data : list (list smsg)) (colours : list (Z * Z * Z)) (f : nat) (labels : list string) : res (list cmd) :=
  match labels with
  | [] => Ok []
  | x :: labels => rbind (su_all zero f data colours) (fun a => rbind (su_figures zero data colours (S f) labels) (fun b => Ok ((su_frame f x ++ a) ++ b)))
  end.
(* SS 3: the labels of the first message of the first list *)
Definition plot_summary_statistics (zero : bool) (colours : list (Z * Z * Z)) (data : list (list smsg)) : res (list figure) :=
  match data with
  | (m :: _) :: _ => rbind (su_figures zero data colours 0 (map ss_label (su_stats m))) (fun l => rbind (run l screen0) (fun s => Ok (sc_figs s)))
  | _ => Throw
  end.
