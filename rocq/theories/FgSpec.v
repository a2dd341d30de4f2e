(* What the figures and the summary of the evaluation are meant to show. *)
From Coq Require Import String ZArith List Bool Reals.
From Verif Require Import Base Interp Geo EgModel MsModel RoModel BfModel EvModel EvData FgModel.
Import ListNotations.
Open Scope R_scope.

(* the axes at a place of a window: there is one and no other *)
Definition the_axes (w : figure) (p : place) (a : axes) : Prop := forall x, (In x (fg_axes w) /\ ax_place x = p) <-> x = a.
(* what a reader finds in row and column of a window of four rows and three columns *)
Definition shows (w : figure) (row col : nat) (label : string) (legend : list string) (curves : list curve) : Prop :=
  exists a, the_axes w (Cell 4 3 (S (3 * row + col))) a /\ ax_x a = "t (s)"%string /\ ax_y a = label /\ ax_legend a = legend /\ ax_curves a = curves.
Definition coordinate (k : nat) (v : vec3) : R := let '(x, y, z) := v in match k with O => x | S O => y | _ => z end.
(* three rows for the coordinates, the last row for the size *)
Definition in_row (row : nat) (vs : list vec3) (sizes : list R) : list R := if Nat.ltb row 3 then map (coordinate row) vs else sizes.
(* the number a quantity in radians is multiplied by when it is given in the unit *)
Definition per_radian (unit : string) (f : R) : Prop := (unit = "deg"%string /\ f * PI = 180) \/ (unit = "rad"%string /\ f = 1).
Definition times (f : R) (l : list R) : list R := map (fun x => f * x) l.
(* the label of a cell: kind of error (columns 1 and 2), quantity (rows 0 to 2) or the word for the size, unit *)
Definition caption (kinds quantities : list string) (size unit : string) (row col : nat) : string :=
  ((match col, Nat.ltb row 3 with O, true => nth row quantities "" | O, false => size | _, true => nth (col - 1) kinds "" ^^ " " ^^ nth row quantities "" | _, false => nth (col - 1) kinds "" end) ^^ " (" ^^ unit ^^ ")")%string.
(* a window of twelve cells: reference and estimates in the first column, the estimates' errors in the others; in every cell one curve for each
   estimate in its colour and the legend naming the curves in their order *)
Definition table_shows {E} (w : figure) (label : nat -> nat -> string) (spec : string) (names : list string) (reference : nat -> list R * list R) (value : nat -> nat -> E -> list R * list R)
    (es : list E) (colours : list (Z * Z * Z)) : Prop :=
  List.length (fg_axes w) = 12%nat /\
  forall row col, (row < 4)%nat -> (col < 3)%nat ->
    shows w row col (label row col) ((if Nat.eqb col 0 then ["Reference"%string] else []) ++ names)
      ((if Nat.eqb col 0 then [mkCurve Line [fst (reference row); snd (reference row)] (Spec spec)] else []) ++
       map (fun ec => mkCurve Line [fst (value row col (fst ec)); snd (value row col (fst ec))] (Colour (snd ec))) (combine es colours)).
(* a window with one picture of trajectories *)
Definition picture_shows (w : figure) (curves : list curve) (legend : list string) : Prop :=
  exists a, fg_axes w = [a] /\ ax_x a = "x"%string /\ ax_y a = "y"%string /\ ax_z a = "z"%string /\ ax_curves a = curves /\ ax_legend a = legend.
Definition coordinates (l : list vec3) : list (list R) := [map (coordinate 0) l; map (coordinate 1) l; map (coordinate 2) l].

(* stamps and quantities of an estimate by row and column: value, absolute error, relative error *)
Definition pose_position (row col : nat) (e : pose_entry) : list R * list R :=
  match col with
  | O => (map fst (tk_traj (pe_track e)), in_row row (map (fun x => mp_pos (snd x)) (tk_traj (pe_track e))) (tk_distances (pe_track e)))
  | S O => (es_t (pe_ape e), in_row row (es_1 (pe_ape e)) (es_norm1 (pe_ape e)))
  | _ => (es_t (pe_rpe e), in_row row (es_1 (pe_rpe e)) (es_norm1 (pe_rpe e)))
  end.
Definition pose_orientation (f : R) (row col : nat) (e : pose_entry) : list R * list R :=
  match col with
  | O => (map fst (tk_traj (pe_track e)), times f (in_row row (tk_rots (pe_track e)) (tk_angles (pe_track e))))
  | S O => (es_t (pe_ape e), times f (in_row row (es_2 (pe_ape e)) (es_norm2 (pe_ape e))))
  | _ => (es_t (pe_rpe e), times f (in_row row (es_2 (pe_rpe e)) (es_norm2 (pe_rpe e))))
  end.
Definition twist_linear (row col : nat) (e : twist_entry) : list R * list R :=
  match col with
  | O => (te_t e, in_row row (te_lin e) (te_speeds e))
  | S O => (es_t (te_ae e), in_row row (es_1 (te_ae e)) (es_norm1 (te_ae e)))
  | _ => (es_t (te_re e), in_row row (es_1 (te_re e)) (es_norm1 (te_re e)))
  end.
Definition twist_angular (f : R) (row col : nat) (e : twist_entry) : list R * list R :=
  match col with
  | O => (te_t e, times f (in_row row (te_ang e) (te_rates e)))
  | S O => (es_t (te_ae e), times f (in_row row (es_2 (te_ae e)) (es_norm2 (te_ae e))))
  | _ => (es_t (te_re e), times f (in_row row (es_2 (te_re e)) (es_norm2 (te_re e))))
  end.

(* the same report with every stamp s earlier *)
Definition earlier (s : R) (l l' : list R) : Prop := l' = map (fun t => t - s) l.
Definition errs_earlier (s : R) (e e' : errs) : Prop :=
  earlier s (es_t e) (es_t e') /\ es_1 e' = es_1 e /\ es_2 e' = es_2 e /\ es_norm1 e' = es_norm1 e /\ es_norm2 e' = es_norm2 e /\ es_rmse1 e' = es_rmse1 e /\ es_rmse2 e' = es_rmse2 e.
Definition track_earlier (s : R) (k k' : track) : Prop :=
  earlier s (map fst (tk_traj k)) (map fst (tk_traj k')) /\ map snd (tk_traj k') = map snd (tk_traj k) /\ tk_distances k' = tk_distances k /\ tk_rots k' = tk_rots k /\ tk_angles k' = tk_angles k /\ tk_length k' = tk_length k.
Definition pose_earlier (s : R) (d d' : pose_report) : Prop :=
  track_earlier s (pr_gt d) (pr_gt d') /\ Forall2 (fun e e' => track_earlier s (pe_track e) (pe_track e') /\ errs_earlier s (pe_ape e) (pe_ape e') /\ errs_earlier s (pe_rpe e) (pe_rpe e')) (pr_entries d) (pr_entries d').
Definition twist_earlier (s : R) (g g' : twist_track) (l l' : list twist_entry) : Prop :=
  (earlier s (tt_t g) (tt_t g') /\ tt_lin g' = tt_lin g /\ tt_ang g' = tt_ang g /\ tt_speeds g' = tt_speeds g /\ tt_rates g' = tt_rates g) /\
  Forall2 (fun e e' => earlier s (te_t e) (te_t e') /\ te_lin e' = te_lin e /\ te_ang e' = te_ang e /\ te_speeds e' = te_speeds e /\ te_rates e' = te_rates e /\ errs_earlier s (te_ae e) (te_ae e') /\ errs_earlier s (te_re e) (te_re e')) l l'.
(* the last of a list *)
Definition final (l : list R) (x : R) : Prop := exists l', l = l' ++ [x].
(* the ten lines about an estimate *)
Definition block (name : string) (p : pose_entry) (t : twist_entry) (lines : list line) : Prop :=
  exists fp fo fl fa, final (es_norm1 (pe_ape p)) fp /\ final (es_norm2 (pe_ape p)) fo /\ final (es_norm1 (te_ae t)) fl /\ final (es_norm2 (te_ae t)) fa /\
  lines = [Heading (name ^^ " Summary:"); Value "Length" (Some (tk_length (pe_track p))) "m"; Value "Final Translation ||APE||" (Some fp) "m"; Value "Final Orientation ||APE||" (Some fo) "rad";
    Value "Translation APE RMSE" (es_rmse1 (pe_ape p)) "m"; Value "Orientation APE RMSE" (es_rmse2 (pe_ape p)) "rad"; Value "Final Linear Velocity ||APE||" (Some fl) "m/s";
    Value "Final Angular Velocity ||APE||" (Some fa) "rad/s"; Value "Linear Velocity APE RMSE" (es_rmse1 (te_ae t)) "m/s"; Value "Angular Velocity APE RMSE" (es_rmse2 (te_ae t)) "rad/s"]%string.
Inductive blocks : list string -> list pose_entry -> list twist_entry -> list line -> Prop :=
| blocks_nil : blocks [] [] [] []
| blocks_cons n p t l names ps ts ls : block n p t l -> blocks names ps ts ls -> blocks (n :: names) (p :: ps) (t :: ts) (l ++ ls).
(* the files the windows are saved in *)
Definition saved_as : list string := ["position"; "orientation"; "linear_velocity"; "angular_velocity"; "trajectory"; "trajectory orientation"; "trajectory velocity"]%string.

(* a number of fields between a square and the next product k * (k + 1) *)
Definition squarish (n : nat) : Prop := exists k, (k * k <= n <= k * (k + 1))%nat.
