(* Figures and summaries of the evaluation scripts (MATLAB): plotting/plot_and_save.m (PS), plot_pose.m (PP), plot_twist.m (PT), plot_trajectory.m (PJ),
   default_plot_opts.m (DO), plot_pointcloud_statistics.m (PC).  Each script is the list of drawing commands it issues, run on the windows it opened.  Limits, grids, window sizes and line
   widths are left out.  A column without rows draws a curve without points. *)
From Coq Require Import String ZArith List Bool Reals.
From Verif Require Import Base Interp Geo EgModel MsModel RoModel BfModel EvModel EvData.
Import ListNotations.
Open Scope R_scope.

Infix "^^" := String.append (right associativity, at level 60).
Fixpoint nth_res {A} (l : list A) (n : nat) : res A := match l, n with [], _ => Throw | a :: _, O => Ok a | _ :: l', S n' => nth_res l' n' end.

(* ---- windows ---- *)
(* the whole window or cell i of a grid of r rows and c columns, counted row by row from 1 *)
Inductive place := Whole | Cell (r c i : nat).
(* a colour in ten-thousandths (DO 16-22), the same with LineStyle '--', or a line specification *)
Inductive style := Colour (rgb : Z * Z * Z) | Dashed (rgb : Z * Z * Z) | Spec (s : string).
(* plot, plot3, quiver3, surf (its matrices row by row) *)
Inductive kind := Line | Line3 | Arrows3 | Surface.
Record curve := mkCurve { cv_kind : kind; cv_cols : list (list R); cv_style : style }.
Record axes := mkAxes { ax_place : place; ax_hold : bool; ax_curves : list curve; ax_title : string; ax_x : string; ax_y : string; ax_z : string; ax_legend : list string }.
Definition blank (p : place) : axes := mkAxes p false [] "" "" "" "" [].
Record figure := mkFigure { fg_name : string; fg_axes : list axes; fg_current : place }.
Record screen := mkScreen { sc_figs : list figure; sc_current : nat }.
Definition screen0 : screen := mkScreen [] 0.

Inductive cmd :=
| NewFigure (name : string)
| SetFigure (n : nat)
| Title (s : string)
| Subplot (r c i : nat)
| HoldOn
| Draw (c : curve)
| XLabel (s : string)
| YLabel (s : string)
| ZLabel (s : string)
| Legend (names : list string).

Definition place_eqb (p q : place) : bool :=
  match p, q with Whole, Whole => true | Cell r c i, Cell r' c' i' => Nat.eqb r r' && Nat.eqb c c' && Nat.eqb i i' | _, _ => false end.
(* subplot removes the axes it would overlap; cells of another grid count as overlapping *)
Definition apart (p q : place) : bool := match p, q with Cell r c i, Cell r' c' i' => Nat.eqb r r' && Nat.eqb c c' && negb (Nat.eqb i i') | _, _ => false end.
(* a command for the current axes of a window, which is made when there is none *)
Definition on_axes (f : axes -> axes) (w : figure) : figure :=
  match fg_axes w with
  | [] => mkFigure (fg_name w) [f (blank Whole)] Whole
  | l => mkFigure (fg_name w) (map (fun a => if place_eqb (ax_place a) (fg_current w) then f a else a) l) (fg_current w)
  end.
Definition subplot (p : place) (w : figure) : figure :=
  if existsb (fun a => place_eqb (ax_place a) p) (fg_axes w) then mkFigure (fg_name w) (fg_axes w) p
  else mkFigure (fg_name w) (filter (fun a => apart (ax_place a) p) (fg_axes w) ++ [blank p]) p.
(* a curve is added to axes that hold and otherwise replaces everything in them, labels included *)
Definition draw (c : curve) (a : axes) : axes :=
  if ax_hold a then mkAxes (ax_place a) true (ax_curves a ++ [c]) (ax_title a) (ax_x a) (ax_y a) (ax_z a) (ax_legend a)
  else mkAxes (ax_place a) false [c] "" "" "" "" [].
Fixpoint set_nth {A} (n : nat) (x : A) (l : list A) : list A := match l, n with [], _ => [] | _ :: l', O => x :: l' | a :: l', S n' => a :: set_nth n' x l' end.
Fixpoint on_nth {A} (f : A -> A) (n : nat) (l : list A) : list A := match l, n with [], _ => [] | a :: l', O => f a :: l' | a :: l', S n' => a :: on_nth f n' l' end.
Definition on_figure (f : figure -> figure) (s : screen) : screen := mkScreen (on_nth f (sc_current s) (sc_figs s)) (sc_current s).
(* the effect of a command that is accepted *)
Definition effect (c : cmd) (s : screen) : screen :=
  match c with
  | NewFigure n => mkScreen (sc_figs s ++ [mkFigure n [] Whole]) (List.length (sc_figs s))
  | SetFigure n => mkScreen (sc_figs s) n
  | Title t => on_figure (on_axes (fun a => mkAxes (ax_place a) (ax_hold a) (ax_curves a) t (ax_x a) (ax_y a) (ax_z a) (ax_legend a))) s
  | Subplot r c' i => on_figure (subplot (Cell r c' i)) s
  | HoldOn => on_figure (on_axes (fun a => mkAxes (ax_place a) true (ax_curves a) (ax_title a) (ax_x a) (ax_y a) (ax_z a) (ax_legend a))) s
  | Draw cv => on_figure (on_axes (draw cv)) s
  | XLabel t => on_figure (on_axes (fun a => mkAxes (ax_place a) (ax_hold a) (ax_curves a) (ax_title a) t (ax_y a) (ax_z a) (ax_legend a))) s
  | YLabel t => on_figure (on_axes (fun a => mkAxes (ax_place a) (ax_hold a) (ax_curves a) (ax_title a) (ax_x a) t (ax_z a) (ax_legend a))) s
  | ZLabel t => on_figure (on_axes (fun a => mkAxes (ax_place a) (ax_hold a) (ax_curves a) (ax_title a) (ax_x a) (ax_y a) t (ax_legend a))) s
  | Legend l => on_figure (on_axes (fun a => mkAxes (ax_place a) (ax_hold a) (ax_curves a) (ax_title a) (ax_x a) (ax_y a) (ax_z a) l)) s
  end.
(* columns of one length; a cell of the grid *)
Definition accepted (c : cmd) : bool :=
  match c with
  | Draw cv => match cv_cols cv with [] => true | x :: l => forallb (fun y => Nat.eqb (List.length y) (List.length x)) l end
  | Subplot r c' i => Nat.leb 1 i && Nat.leb i (r * c')
  | _ => true
  end.
Fixpoint run (l : list cmd) (s : screen) : res screen := match l with [] => Ok s | c :: l' => if accepted c then run l' (effect c s) else Throw end.

(* ---- options ---- *)
Record plot_opts := mkOpts { op_zero : bool; op_angle : string; op_colours : list (Z * Z * Z); op_spec : string; op_save : bool; op_types : list string; op_close : bool }.
(* DO 16-22 *)
Definition default_colours : list (Z * Z * Z) :=
  [(0, 4470, 7410); (8500, 3250, 980); (9290, 6940, 1250); (4940, 1840, 5560); (4660, 6740, 1880); (3010, 7450, 9330); (6350, 780, 1840);
   (7000, 3000, 7000); (4000, 1000, 9000); (6000, 9000, 1000); (2000, 6000, 5000); (0, 7000, 3000); (7000, 0, 3000); (0, 3000, 7000); (3000, 0, 7000); (7000, 3000, 0); (3000, 7000, 0)]%Z.
(* DO 10-28, without the directory and the options of the computation *)
Definition default_opts : plot_opts := mkOpts true "deg" default_colours "k--" false ["fig"; "png"; "svg"]%string false.

Definition rad2deg (x : R) : R := x * 180 / PI.
(* PP 7-11, 161-168, PT 7-10, 165-172: angles are converted when the option says deg, otherwise shown as they are *)
Definition angles_in (angle : string) (l : list R) : list R := if String.eqb angle "deg" then map rad2deg l else l.
Definition vmap (f : R -> R) (v : vec3) : vec3 := let '(x, y, z) := v in (f x, f y, f z).
Definition vectors_in (angle : string) (l : list vec3) : list vec3 := if String.eqb angle "deg" then map (vmap rad2deg) l else l.
(* M(:, k) *)
Definition col1 (l : list vec3) : list R := map (fun v => let '(x, _, _) := v in x) l.
Definition col2 (l : list vec3) : list R := map (fun v => let '(_, y, _) := v in y) l.
Definition col3 (l : list vec3) : list R := map (fun v => let '(_, _, z) := v in z) l.
(* the loops over the entries take colours{i}, an index error past the last colour *)
Fixpoint with_colours {E} (f : E -> Z * Z * Z -> list cmd) (colours : list (Z * Z * Z)) (es : list E) : res (list cmd) :=
  match es, colours with
  | [], _ => Ok []
  | e :: es', c :: colours' => rbind (with_colours f colours' es') (fun l => Ok (f e c ++ l))
  | _ :: _, [] => Throw
  end.
Definition positions (tk : track) : list vec3 := map (fun e => mp_pos (snd e)) (tk_traj tk).
Definition stamps (tk : track) : list R := map fst (tk_traj tk).

(* subplot, plot, xlabel, ylabel (PP 21-26); subplot, xlabel, ylabel (PP 27-30); subplot, hold on, plot (PP 172-174) *)
Definition with_reference (i : nat) (t y : list R) (spec label : string) : list cmd := [Subplot 4 3 i; Draw (mkCurve Line [t; y] (Spec spec)); XLabel "t (s)"; YLabel label].
Definition without_reference (i : nat) (label : string) : list cmd := [Subplot 4 3 i; XLabel "t (s)"; YLabel label].
Definition add_curve (i : nat) (t y : list R) (c : Z * Z * Z) : list cmd := [Subplot 4 3 i; HoldOn; Draw (mkCurve Line [t; y] (Colour c))].
(* PP 246-257, PT 250-261 *)
Definition legends (with_gt names : list string) : list cmd :=
  flat_map (fun n => [SetFigure n] ++ flat_map (fun i => [Subplot 4 3 i; Legend with_gt]) [1; 4; 7; 10]%nat ++ flat_map (fun i => [Subplot 4 3 i; Legend names]) [2; 5; 8; 11; 3; 6; 9; 12]%nat) [0; 1]%nat.

(* PP 13-74 *)
Definition pose_frame1 (o : plot_opts) (gt : track) : list cmd :=
  let t := stamps gt in let s := op_spec o in
  [NewFigure "Position"; SetFigure 0; Title "Position"] ++
  with_reference 1 t (col1 (positions gt)) s "x (m)" ++ without_reference 2 "APE x (m)" ++ without_reference 3 "RPE x (m)" ++
  with_reference 4 t (col2 (positions gt)) s "y (m)" ++ without_reference 5 "APE y (m)" ++ without_reference 6 "RPE y (m)" ++
  with_reference 7 t (col3 (positions gt)) s "z (m)" ++ without_reference 8 "APE z (m)" ++ without_reference 9 "RPE z (m)" ++
  with_reference 10 t (tk_distances gt) s "Distance (m)" ++ without_reference 11 "APE (m)" ++ without_reference 12 "RPE (m)".
(* PP 4-11, 76-141 *)
Definition pose_frame2 (o : plot_opts) (gt : track) : list cmd :=
  let t := stamps gt in let s := op_spec o in let a := op_angle o in
  let rots := vectors_in a (tk_rots gt) in let angles := angles_in a (tk_angles gt) in
  let label l := ((l ^^ " (") ^^ a ^^ ")")%string in
  [NewFigure "Orientation"; SetFigure 1; Title "Orientation"] ++
  with_reference 1 t (col1 rots) s (label "r_x") ++ without_reference 2 (label "APE r_x") ++ without_reference 3 (label "RPE r_x") ++
  with_reference 4 t (col2 rots) s (label "r_y") ++ without_reference 5 (label "APE r_y") ++ without_reference 6 (label "RPE r_y") ++
  with_reference 7 t (col3 rots) s (label "r_z") ++ without_reference 8 (label "APE r_z") ++ without_reference 9 (label "RPE r_z") ++
  with_reference 10 t angles s (label "Angle") ++ without_reference 11 (label "APE") ++ without_reference 12 (label "RPE").
(* PP 145-243 *)
Definition pose_curves (o : plot_opts) (e : pose_entry) (c : Z * Z * Z) : list cmd :=
  let t := stamps (pe_track e) in let ta := es_t (pe_ape e) in let tr := es_t (pe_rpe e) in let a := op_angle o in
  let p := positions (pe_track e) in let pa := es_1 (pe_ape e) in let pr := es_1 (pe_rpe e) in
  let r := vectors_in a (tk_rots (pe_track e)) in let ra := vectors_in a (es_2 (pe_ape e)) in let rr := vectors_in a (es_2 (pe_rpe e)) in
  [SetFigure 0] ++
  add_curve 1 t (col1 p) c ++ add_curve 4 t (col2 p) c ++ add_curve 7 t (col3 p) c ++ add_curve 10 t (tk_distances (pe_track e)) c ++
  add_curve 2 ta (col1 pa) c ++ add_curve 5 ta (col2 pa) c ++ add_curve 8 ta (col3 pa) c ++ add_curve 11 ta (es_norm1 (pe_ape e)) c ++
  add_curve 3 tr (col1 pr) c ++ add_curve 6 tr (col2 pr) c ++ add_curve 9 tr (col3 pr) c ++ add_curve 12 tr (es_norm1 (pe_rpe e)) c ++
  [SetFigure 1] ++
  add_curve 1 t (col1 r) c ++ add_curve 4 t (col2 r) c ++ add_curve 7 t (col3 r) c ++ add_curve 10 t (angles_in a (tk_angles (pe_track e))) c ++
  add_curve 2 ta (col1 ra) c ++ add_curve 5 ta (col2 ra) c ++ add_curve 8 ta (col3 ra) c ++ add_curve 11 ta (angles_in a (es_norm2 (pe_ape e))) c ++
  add_curve 3 tr (col1 rr) c ++ add_curve 6 tr (col2 rr) c ++ add_curve 9 tr (col3 rr) c ++ add_curve 12 tr (angles_in a (es_norm2 (pe_rpe e))) c.
(* PP: fig_position and fig_orientation are windows 0 and 1 of the result *)
Definition plot_pose (o : plot_opts) (names : list string) (d : pose_report) : res (list figure) :=
  rbind (with_colours (pose_curves o) (op_colours o) (pr_entries d)) (fun l =>
  rbind (run (pose_frame1 o (pr_gt d) ++ pose_frame2 o (pr_gt d) ++ l ++ legends ("Reference"%string :: names) names) screen0) (fun s => Ok (sc_figs s))).

(* the reference columns of twist_data (compute_twist_data.m 4-23) *)
Record twist_track := mkTT { tt_t : list R; tt_lin : list vec3; tt_ang : list vec3; tt_speeds : list R; tt_rates : list R }.
Definition twist_reference (b : bounds) (gt : list odom) : res twist_track :=
  rbind (time_filter b (stamped (fun m => (od_lin m, od_ang m)) gt)) (fun g =>
  let lin := map (fun e => fst (snd e)) g in let ang := map (fun e => snd (snd e)) g in Ok (mkTT (map fst g) lin ang (map vnorm lin) (map vnorm ang))).
(* PT 12-72 *)
Definition twist_frame1 (o : plot_opts) (gt : twist_track) : list cmd :=
  let t := tt_t gt in let s := op_spec o in
  [NewFigure "Linear Velocity"; SetFigure 0; Title "Linear Velocity"] ++
  with_reference 1 t (col1 (tt_lin gt)) s "v_x (m/s)" ++ without_reference 2 "AE v_x (m/s)" ++ without_reference 3 "RE v_x (m/s)" ++
  with_reference 4 t (col2 (tt_lin gt)) s "v_y (m/s)" ++ without_reference 5 "AE v_y (m/s)" ++ without_reference 6 "RE v_y (m/s)" ++
  with_reference 7 t (col3 (tt_lin gt)) s "v_z (m/s)" ++ without_reference 8 "AE v_z (m/s)" ++ without_reference 9 "RE v_z (m/s)" ++
  with_reference 10 t (tt_speeds gt) s "Speed (m/s)" ++ without_reference 11 "AE (m/s)" ++ without_reference 12 "RE (m/s)".
(* PT 5-10, 74-142; join without a delimiter puts spaces between its parts *)
Definition twist_frame2 (o : plot_opts) (gt : twist_track) : list cmd :=
  let t := tt_t gt in let s := op_spec o in let a := op_angle o in
  let rates := vectors_in a (tt_ang gt) in let speeds := angles_in a (tt_rates gt) in
  let label l := ((l ^^ " (") ^^ " " ^^ a ^^ " " ^^ "/s)")%string in
  [NewFigure "Angular Velocity"; SetFigure 1; Title "Orientation"] ++
  with_reference 1 t (col1 rates) s (label "\omega_x") ++ without_reference 2 (label "AE \omega_x") ++ without_reference 3 (label "RE \omega_x") ++
  with_reference 4 t (col2 rates) s (label "\omega_y") ++ without_reference 5 (label "AE \omega_y") ++ without_reference 6 (label "RE \omega_y") ++
  with_reference 7 t (col3 rates) s (label "\omega_z") ++ without_reference 8 (label "APE \omega_z") ++ without_reference 9 (label "RE \omega_z") ++
  with_reference 10 t speeds s (label "Angular Speed") ++ without_reference 11 (label "APE") ++ without_reference 12 (label "RE").
(* PT 145-247 *)
Definition twist_curves (o : plot_opts) (e : twist_entry) (c : Z * Z * Z) : list cmd :=
  let t := te_t e in let ta := es_t (te_ae e) in let tr := es_t (te_re e) in let a := op_angle o in
  let v := te_lin e in let va := es_1 (te_ae e) in let vr := es_1 (te_re e) in
  let w := vectors_in a (te_ang e) in let wa := vectors_in a (es_2 (te_ae e)) in let wr := vectors_in a (es_2 (te_re e)) in
  [SetFigure 0] ++
  add_curve 1 t (col1 v) c ++ add_curve 4 t (col2 v) c ++ add_curve 7 t (col3 v) c ++ add_curve 10 t (te_speeds e) c ++
  add_curve 2 ta (col1 va) c ++ add_curve 5 ta (col2 va) c ++ add_curve 8 ta (col3 va) c ++ add_curve 11 ta (es_norm1 (te_ae e)) c ++
  add_curve 3 tr (col1 vr) c ++ add_curve 6 tr (col2 vr) c ++ add_curve 9 tr (col3 vr) c ++ add_curve 12 tr (es_norm1 (te_re e)) c ++
  [SetFigure 1] ++
  add_curve 1 t (col1 w) c ++ add_curve 4 t (col2 w) c ++ add_curve 7 t (col3 w) c ++ add_curve 10 t (angles_in a (te_rates e)) c ++
  add_curve 2 ta (col1 wa) c ++ add_curve 5 ta (col2 wa) c ++ add_curve 8 ta (col3 wa) c ++ add_curve 11 ta (angles_in a (es_norm2 (te_ae e))) c ++
  add_curve 3 tr (col1 wr) c ++ add_curve 6 tr (col2 wr) c ++ add_curve 9 tr (col3 wr) c ++ add_curve 12 tr (angles_in a (es_norm2 (te_re e))) c.
(* PT *)
Definition plot_twist (o : plot_opts) (names : list string) (gt : twist_track) (es : list twist_entry) : res (list figure) :=
  rbind (with_colours (twist_curves o) (op_colours o) es) (fun l =>
  rbind (run (twist_frame1 o gt ++ twist_frame2 o gt ++ l ++ legends ("Reference"%string :: names) names) screen0) (fun s => Ok (sc_figs s))).

(* PJ *)
Definition cols3 (l : list vec3) : list (list R) := [col1 l; col2 l; col3 l].
Definition labels3 : list cmd := [XLabel "x"; YLabel "y"; ZLabel "z"].
Definition line3 (p : list vec3) (s : style) : cmd := Draw (mkCurve Line3 (cols3 p) s).
Definition arrows3 (p v : list vec3) (s : style) : cmd := Draw (mkCurve Arrows3 (cols3 p ++ cols3 v) s).
(* PJ 4-44 *)
Definition trajectory_frame (o : plot_opts) (gt : track) (tt : twist_track) : list cmd :=
  let s := Spec (op_spec o) in let p := positions gt in
  [NewFigure "Trajectory"; NewFigure "Trajectory Orientation"; NewFigure "Trajectory Velocity"] ++
  [SetFigure 0; line3 p s; HoldOn] ++ labels3 ++
  [SetFigure 1; line3 p s; HoldOn; arrows3 p (tk_rots gt) s] ++ labels3 ++
  [SetFigure 2; line3 p s; HoldOn; arrows3 p (tt_lin tt) s] ++ labels3.
(* PJ 59-77 *)
Definition trajectory_curves (e : pose_entry * twist_entry) (c : Z * Z * Z) : list cmd :=
  let s := Colour c in let p := positions (pe_track (fst e)) in
  [SetFigure 0; line3 p s; SetFigure 1; line3 p s; arrows3 p (tk_rots (pe_track (fst e))) s; SetFigure 2; line3 p s; arrows3 p (te_lin (snd e)) s].
(* PJ 48-58: the entries 2 * i + 1 and 2 * i + 2, counted from 1; names(i) past the last name is an index error *)
Fixpoint trajectory_names (suffix : string) (names : list string) (i : nat) (todo : nat) (l : list string) : res (list string) :=
  match todo with
  | O => Ok l
  | S todo' => rbind (nth_res names (i - 1)) (fun n => trajectory_names suffix names (S i) todo' (set_nth (2 * i + 2 - 1) (n ^^ suffix) (set_nth (2 * i + 1 - 1) n l)))
  end.
Definition plot_trajectory (o : plot_opts) (names : list string) (d : pose_report) (tt : twist_track) (es : list twist_entry) : res (list figure) :=
  let n := List.length (pr_entries d) in
  let table w := ["Reference"%string; ("Reference"%string ^^ w)] ++ repeat ""%string (n * 2) in
  if Nat.ltb (List.length es) n then Throw else
  rbind (trajectory_names " orientation" names 1 n (table " orientation"%string)) (fun l1 =>
  rbind (trajectory_names " velocity" names 1 n (table " velocity"%string)) (fun l2 =>
  rbind (with_colours trajectory_curves (op_colours o) (combine (pr_entries d) es)) (fun l =>
  rbind (run (trajectory_frame o (pr_gt d) tt ++ l ++ [SetFigure 0; Legend ("Reference"%string :: names); SetFigure 1; Legend l1; SetFigure 2; Legend l2]) screen0) (fun s => Ok (sc_figs s))))).

(* ---- plot_and_save ---- *)
(* PS 5-17, 22-34: all stamps less the first of the reference *)
Definition shift (s : R) (l : list R) : list R := map (fun t => t - s) l.
Definition shift_track (s : R) (tk : track) : track := mkTrack (map (fun e => (fst e - s, snd e)) (tk_traj tk)) (tk_distances tk) (tk_rots tk) (tk_angles tk) (tk_length tk).
Definition shift_errs (s : R) (e : errs) : errs := mkErrs (shift s (es_t e)) (es_1 e) (es_2 e) (es_norm1 e) (es_norm2 e) (es_rmse1 e) (es_rmse2 e).
Definition zero_pose (d : pose_report) : res pose_report :=
  match stamps (pr_gt d) with
  | [] => Throw
  | s :: _ => Ok (mkPR (shift_track s (pr_gt d)) (map (fun e => mkPE (shift_track s (pe_track e)) (shift_errs s (pe_ape e)) (shift_errs s (pe_rpe e))) (pr_entries d)))
  end.
Definition zero_twist (gt : twist_track) (es : list twist_entry) : res (twist_track * list twist_entry) :=
  match tt_t gt with
  | [] => Throw
  | s :: _ => Ok (mkTT (shift s (tt_t gt)) (tt_lin gt) (tt_ang gt) (tt_speeds gt) (tt_rates gt),
                  map (fun e => mkTE (shift s (te_t e)) (te_lin e) (te_ang e) (te_speeds e) (te_rates e) (shift_errs s (te_ae e)) (shift_errs s (te_re e))) es)
  end.
(* PS 86-121: a line is the words, the number (None: NaN) and the unit *)
Inductive line := Heading (s : string) | Value (words : string) (x : option R) (unit : string).
(* (end) of an empty column is an index error *)
Definition last_res (l : list R) : res R := match l with [] => Throw | x :: _ => Ok (last l x) end.
Definition summary_of (name : string) (p : pose_entry) (t : twist_entry) : res (list line) :=
  rbind (last_res (es_norm1 (pe_ape p))) (fun fp => rbind (last_res (es_norm2 (pe_ape p))) (fun fo =>
  rbind (last_res (es_norm1 (te_ae t))) (fun fl => rbind (last_res (es_norm2 (te_ae t))) (fun fa =>
  Ok [Heading (name ^^ " Summary:"); Value "Length" (Some (tk_length (pe_track p))) "m"; Value "Final Translation ||APE||" (Some fp) "m"; Value "Final Orientation ||APE||" (Some fo) "rad";
      Value "Translation APE RMSE" (es_rmse1 (pe_ape p)) "m"; Value "Orientation APE RMSE" (es_rmse2 (pe_ape p)) "rad"; Value "Final Linear Velocity ||APE||" (Some fl) "m/s";
      Value "Final Angular Velocity ||APE||" (Some fa) "rad/s"; Value "Linear Velocity APE RMSE" (es_rmse1 (te_ae t)) "m/s"; Value "Angular Velocity APE RMSE" (es_rmse2 (te_ae t)) "rad/s"]))))%string.
(* for i = 1:length(data.names) *)
Fixpoint summaries (names : list string) (ps : list pose_entry) (ts : list twist_entry) : res (list line) :=
  match names, ps, ts with
  | [], _, _ => Ok []
  | n :: names', p :: ps', t :: ts' => rbind (summary_of n p t) (fun l => rbind (summaries names' ps' ts') (fun l' => Ok (l ++ l')))
  | _ :: _, _, _ => Throw
  end.
Definition file_names : list string := ["position"; "orientation"; "linear_velocity"; "angular_velocity"; "trajectory"; "trajectory orientation"; "trajectory velocity"]%string.
(* what is left: the windows as drawn, those still open, the pictures saved as (file, type, window), the text printed and the text of data.txt *)
Record outcome := mkOut { ou_drawn : list figure; ou_open : list figure; ou_saved : list (string * string * figure); ou_text : list line; ou_file : option (list line) }.

Section Save.
Variable mixq : quat -> quat -> R -> quat.
Variable r2q : mat3 -> quat.
Variable r2a : mat3 -> vec3 * R.
Variable q2a : quat -> vec3 * R.
Definition plot_and_save (o : plot_opts) (b : bounds) (first fit : bool) (p : align_params) (names : list string) (gt : list odom) (odoms : list (list odom)) : res outcome :=
  rbind (compute_pose_data mixq r2q r2a q2a b first fit p gt odoms) (fun d0 =>
  rbind (if op_zero o then zero_pose d0 else Ok d0) (fun d =>
  rbind (twist_reference b gt) (fun tt0 => rbind (compute_twist_data b gt odoms) (fun es0 =>
  rbind (if op_zero o then zero_twist tt0 es0 else Ok (tt0, es0)) (fun t =>
  rbind (plot_pose o names d) (fun f1 => rbind (plot_twist o names (fst t) (snd t)) (fun f2 => rbind (plot_trajectory o names d (fst t) (snd t)) (fun f3 =>
  let figs := f1 ++ f2 ++ f3 in
  let saved := if op_save o then flat_map (fun ty => map (fun x => (fst x, ty, snd x)) (combine file_names figs)) (op_types o) else [] in
  rbind (summaries names (pr_entries d) (snd t)) (fun l =>
  let text := [Heading "GT Summary:"%string; Value "Length"%string (Some (tk_length (pr_gt d))) "m"%string] ++ l in
  Ok (mkOut figs (if op_close o then [] else figs) saved text (if op_save o then Some text else None))))))))))).
End Save.

(* ---- point clouds ---- *)
(* floor and ceil of sqrt(n) *)
Definition root_down (n : nat) : nat := Nat.sqrt n.
Definition root_up (n : nat) : nat := if Nat.eqb (Nat.sqrt n * Nat.sqrt n) n then Nat.sqrt n else S (Nat.sqrt n).
(* PC 12-26: a cell for every field of the first cloud; the boxes drawn into them (28-47) are left out *)
Definition cloud_frame (fields : list string) : list cmd :=
  let n := List.length fields in
  [NewFigure "PointCloud Statistics"; SetFigure 0; Title "PointCloud Statistics"] ++
  flat_map (fun x => [Subplot (root_down n) (root_up n) (fst x); XLabel "t (s)"; YLabel (snd x)]) (combine (seq 1 n) fields).
Definition plot_pointcloud_frame (fields : list string) : res (list figure) := rbind (run (cloud_frame fields) screen0) (fun s => Ok (sc_figs s)).
(* PC 48: the ticks kept, XTick(1:round(n/10):end), of one tick for each of n clouds; a range with step 0 is empty *)
Definition tick_step (n : nat) : nat := Nat.div (n + 5) 10.
Definition ticks_kept (n : nat) : list nat := match tick_step n with O => [] | S k => filter (fun i => Nat.eqb (Nat.modulo (i - 1) (S k)) 0) (seq 1 n) end.
