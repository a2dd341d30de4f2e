(* Figures of the Jacobians (MATLAB): plotting/plot_jacobian.m (PJ), plot_and_save_jacobians.m (SJ).  Drawing commands as in FgModel. *)
From Coq Require Import String ZArith List Bool Reals.
From Verif Require Import Base Interp Geo EgModel MsModel RoModel BfModel EvModel EcModel EvData FgModel.
Import ListNotations.
Open Scope R_scope.

(* rows * columns of the grid: 2 and round(dim / 2), halves away from zero (PJ 7-8, 23-24, 39-40) *)
Definition half_up (n : nat) : nat := Nat.div (n + 1) 2.
(* axis_labels(k, 1), ..., axis_labels(k, n); a label that is not there is an index error, and none is read for n = 0 *)
Definition label_row (labels : list (list string)) (k n : nat) : res (list string) :=
  match n with
  | O => Ok []
  | _ => rbind (nth_res labels k) (fun row => if Nat.leb n (List.length row) then Ok (firstn n row) else Throw)
  end.
(* PJ 4-18, 20-34, 36-50; limits left out *)
Definition jac_frame (k : nat) (name : string) (n : nat) (row : list string) : list cmd :=
  [NewFigure name; SetFigure k; Title name] ++ flat_map (fun x => [Subplot 2 (half_up n) (fst x); XLabel "idx"; YLabel (snd x)]) (combine (seq 1 n) row).
(* entry.jacobians(:, j) *)
Definition column (rows : list (list R)) (j : nat) : list R := map (fun r => nth (j - 1) r 0) rows.
(* plot with one vector draws it over 1, 2, ... *)
Definition over_index (y : list R) (c : Z * Z * Z) : curve := mkCurve Line [map INR (seq 1 (List.length y)); y] (Colour c).
(* PJ 56-71 *)
Definition jac_curves (cols : nat) (e : jac_entry) (c : Z * Z * Z) : list cmd :=
  flat_map (fun j => [SetFigure 0; Subplot 2 cols j; HoldOn; Draw (over_index (column (je_rows e) j) c);
                      SetFigure 1; Subplot 2 cols j; HoldOn; Draw (over_index (column (je_abs e) j) c);
                      SetFigure 2; Subplot 2 cols j; HoldOn; Draw (over_index (column (je_sq e) j) c)]) (seq 1 (je_dim e)).
(* PJ 75-78: on the window that happens to be current *)
Definition jac_legend (cols n : nat) (names : list string) : list cmd := flat_map (fun i => [Subplot 2 cols i; Legend names]) (seq 1 n).
(* PJ; entries{1} of no entries is an index error *)
Definition plot_jacobian (labels : list (list string)) (colours : list (Z * Z * Z)) (names : list string) (es : list jac_entry) : res (list figure) :=
  match es with
  | [] => Throw
  | e1 :: _ =>
      let n := je_dim e1 in
      rbind (label_row labels 0 n) (fun r1 => rbind (label_row labels 1 n) (fun r2 => rbind (label_row labels 2 n) (fun r3 =>
      rbind (with_colours (jac_curves (half_up n)) colours es) (fun l =>
      rbind (run (jac_frame 0 "Jacobian" n r1 ++ jac_frame 1 "Absolute Value Jacobian" n r2 ++ jac_frame 2 "Squared Jacobian" n r3 ++ l ++
                  jac_legend (half_up n) (je_dim (last es e1)) names) screen0) (fun s => Ok (sc_figs s))))))
  end.
(* JD 5-20 *)
Fixpoint jacobian_entries (data : list (list (list R))) : res (list jac_entry) :=
  match data with [] => Ok [] | m :: data' => rbind (jacobian_entry m) (fun e => rbind (jacobian_entries data') (fun l => Ok (e :: l))) end.
Definition jac_files : list string := ["jacobian"; "abs_jacobian"; "squared_jacobian"]%string.
(* SJ: the windows drawn, those left open (19-21: only the first is closed), the pictures saved as (file, type, window) *)
Record jac_outcome := mkJO { jo_drawn : list figure; jo_open : list figure; jo_saved : list (string * string * figure) }.
Definition plot_and_save_jacobians (save close : bool) (types : list string) (labels : list (list string)) (colours : list (Z * Z * Z)) (names : list string) (data : list (list (list R))) : res jac_outcome :=
  rbind (jacobian_entries data) (fun es => rbind (plot_jacobian labels colours names es) (fun figs =>
  Ok (mkJO figs (if close then tl figs else figs) (if save then flat_map (fun ty => map (fun x => (fst x, ty, snd x)) (combine jac_files figs)) types else [])))).
