(* Figures of the evaluation: what the windows show. *)
From Coq Require Import String ZArith List Bool Reals Lra Lia.
From Verif Require Import Base Interp Geo EgModel MsModel RoModel BfModel EvModel EvData FgModel FgSpec.
Import ListNotations.
Open Scope R_scope.

Definition effects (l : list cmd) (s : screen) : screen := fold_left (fun s c => effect c s) l s.
Lemma effects_app l k s : effects (l ++ k) s = effects k (effects l s). Proof. apply fold_left_app. Qed.
Lemma run_ok l s : forallb accepted l = true -> run l s = Ok (effects l s).
Proof. revert s. induction l as [|c l IH]; intros s H; [reflexivity|]. cbn in H. apply andb_prop in H. destruct H as [A B]. cbn. rewrite A. apply IH. exact B. Qed.
Lemma run_inv l s s' : run l s = Ok s' -> forallb accepted l = true /\ s' = effects l s.
Proof. revert s. induction l as [|c l IH]; intros s H; [injection H as <-; split; reflexivity|]. cbn in H. destruct (accepted c) eqn:E; [|discriminate]. destruct (IH _ H) as [A B]. split; [cbn; rewrite E; exact A|exact B]. Qed.
Lemma run_throw l s : forallb accepted l = false -> run l s = Throw.
Proof. revert s. induction l as [|c l IH]; intros s H; [discriminate|]. cbn in *. destruct (accepted c); [apply IH; exact H|reflexivity]. Qed.
Lemma with_colours_is {E} (f : E -> Z * Z * Z -> list cmd) colours es :
  with_colours f colours es = if Nat.leb (List.length es) (List.length colours) then Ok (flat_map (fun ec => f (fst ec) (snd ec)) (combine es colours)) else Throw.
Proof. revert colours. induction es as [|e es IH]; intros [|c colours]; cbn; try reflexivity. rewrite IH. destruct (Nat.leb _ _); reflexivity. Qed.

(* ---- windows of twelve cells ---- *)
Definition G (name : string) (hold : bool) (labs : nat -> string) (legs : nat -> list string) (cs : nat -> list curve) : figure :=
  mkFigure name (map (fun i => mkAxes (Cell 4 3 i) hold (cs i) "" "t (s)" (labs i) "" (legs i)) (seq 1 12)) (Cell 4 3 12).
Definition refp (i : nat) (c : curve) (l : string) : list cmd := [Subplot 4 3 i; Draw c; XLabel "t (s)"; YLabel l].
Definition frame (n : nat) (name title : string) (ref : nat -> curve) (labs : nat -> string) : list cmd :=
  [NewFigure name; SetFigure n; Title title] ++
  refp 1 (ref 0%nat) (labs 1%nat) ++ without_reference 2 (labs 2%nat) ++ without_reference 3 (labs 3%nat) ++ refp 4 (ref 1%nat) (labs 4%nat) ++ without_reference 5 (labs 5%nat) ++ without_reference 6 (labs 6%nat) ++
  refp 7 (ref 2%nat) (labs 7%nat) ++ without_reference 8 (labs 8%nat) ++ without_reference 9 (labs 9%nat) ++ refp 10 (ref 3%nat) (labs 10%nat) ++ without_reference 11 (labs 11%nat) ++ without_reference 12 (labs 12%nat).
Definition first_curves (ref : nat -> curve) (i : nat) : list curve := match i with 1 => [ref 0%nat] | 4 => [ref 1%nat] | 7 => [ref 2%nat] | 10 => [ref 3%nat] | _ => [] end%nat.
Lemma frame_one n1 t1 ref1 labs1 : effects (frame 0 n1 t1 ref1 labs1) screen0 = mkScreen [G n1 false labs1 (fun _ => []) (first_curves ref1)] 0.
Proof. reflexivity. Qed.
Lemma frame_two f1 n2 t2 ref2 labs2 : effects (frame 1 n2 t2 ref2 labs2) (mkScreen [f1] 0) = mkScreen [f1; G n2 false labs2 (fun _ => []) (first_curves ref2)] 1.
Proof. reflexivity. Qed.
Definition addp (i : nat) (c : curve) : list cmd := [Subplot 4 3 i; HoldOn; Draw c].
Definition adds (n : nat) (k : nat -> curve) : list cmd :=
  [SetFigure n] ++ addp 1 (k 1%nat) ++ addp 4 (k 4%nat) ++ addp 7 (k 7%nat) ++ addp 10 (k 10%nat) ++ addp 2 (k 2%nat) ++ addp 5 (k 5%nat) ++ addp 8 (k 8%nat) ++ addp 11 (k 11%nat) ++
  addp 3 (k 3%nat) ++ addp 6 (k 6%nat) ++ addp 9 (k 9%nat) ++ addp 12 (k 12%nat).
Lemma adds_one n1 h labs legs cs f2 m k : effects (adds 0 k) (mkScreen [G n1 h labs legs cs; f2] m) = mkScreen [G n1 true labs legs (fun i => cs i ++ [k i]); f2] 0.
Proof. destruct h; reflexivity. Qed.
Lemma adds_two n2 h labs legs cs f1 m k : effects (adds 1 k) (mkScreen [f1; G n2 h labs legs cs] m) = mkScreen [f1; G n2 true labs legs (fun i => cs i ++ [k i])] 1.
Proof. destruct h; reflexivity. Qed.
Definition legend_of (with_gt names : list string) (i : nat) : list string := match i with 1 | 4 | 7 | 10 => with_gt | _ => names end%nat.
Lemma legends_two n1 n2 h1 h2 labs1 labs2 legs1 legs2 cs1 cs2 m w names :
  effects (legends w names) (mkScreen [G n1 h1 labs1 legs1 cs1; G n2 h2 labs2 legs2 cs2] m) = mkScreen [G n1 h1 labs1 (legend_of w names) cs1; G n2 h2 labs2 (legend_of w names) cs2] 1.
Proof. reflexivity. Qed.
Lemma adds_all {E} (k1 k2 : E -> nat -> curve) (es : list E) : forall n1 n2 h labs1 labs2 legs1 legs2 cs1 cs2, exists h',
  effects (flat_map (fun e => adds 0 (k1 e) ++ adds 1 (k2 e)) es) (mkScreen [G n1 h labs1 legs1 cs1; G n2 h labs2 legs2 cs2] 1) =
  mkScreen [G n1 h' labs1 legs1 (fun i => cs1 i ++ map (fun e => k1 e i) es); G n2 h' labs2 legs2 (fun i => cs2 i ++ map (fun e => k2 e i) es)] 1.
Proof.
  induction es as [|e es IH]; intros n1 n2 h labs1 labs2 legs1 legs2 cs1 cs2; cbn [flat_map map].
  - exists h. unfold G. cbn [map seq effects fold_left]. rewrite !app_nil_r. reflexivity.
  - rewrite !effects_app, adds_one, adds_two. destruct (IH n1 n2 true labs1 labs2 legs1 legs2 (fun i => cs1 i ++ [k1 e i]) (fun i => cs2 i ++ [k2 e i])) as [h' ->]. exists h'. unfold G. cbn [map seq]. rewrite <- !app_assoc. reflexivity.
Qed.
(* two windows drawn by a frame each, curves for all entries and the legends *)
Lemma windows {E} n1 n2 t1 t2 ref1 ref2 labs1 labs2 (k1 k2 : E -> nat -> curve) es w names : exists h,
  effects (frame 0 n1 t1 ref1 labs1 ++ frame 1 n2 t2 ref2 labs2 ++ flat_map (fun e => adds 0 (k1 e) ++ adds 1 (k2 e)) es ++ legends w names) screen0 =
  mkScreen [G n1 h labs1 (legend_of w names) (fun i => first_curves ref1 i ++ map (fun e => k1 e i) es); G n2 h labs2 (legend_of w names) (fun i => first_curves ref2 i ++ map (fun e => k2 e i) es)] 1.
Proof. rewrite !effects_app, frame_one, frame_two. destruct (adds_all k1 k2 es n1 n2 false labs1 labs2 (fun _ => []) (fun _ => []) (first_curves ref1) (first_curves ref2)) as [h ->]. exists h. apply legends_two. Qed.
Lemma G_axes n h labs legs cs i : (1 <= i <= 12)%nat -> the_axes (G n h labs legs cs) (Cell 4 3 i) (mkAxes (Cell 4 3 i) h (cs i) "" "t (s)" (labs i) "" (legs i)).
Proof.
  intros Hi x. unfold G. cbn [fg_axes]. rewrite in_map_iff. split.
  - intros [(j & <- & Hj) P]. cbn in P. injection P as ->. reflexivity.
  - intros ->. split; [|reflexivity]. exists i. split; [reflexivity|]. apply in_seq. lia.
Qed.
Lemma G_table {E} n h labs cs names (label : nat -> nat -> string) spec reference value (es : list E) colours :
  (forall row col, (row < 4)%nat -> (col < 3)%nat -> labs (S (3 * row + col)) = label row col) ->
  (forall row col, (row < 4)%nat -> (col < 3)%nat -> cs (S (3 * row + col)) = (if Nat.eqb col 0 then [mkCurve Line [fst (reference row); snd (reference row)] (Spec spec)] else []) ++
       map (fun ec => mkCurve Line [fst (value row col (fst ec)); snd (value row col (fst ec))] (Colour (snd ec))) (combine es colours)) ->
  table_shows (G n h labs (legend_of ("Reference"%string :: names) names) cs) label spec names reference value es colours.
Proof.
  intros L C. split; [reflexivity|]. intros row col Hr Hc. eexists. split; [apply G_axes; lia|]. cbn [ax_x ax_y ax_legend ax_curves]. split; [reflexivity|]. split; [apply L; assumption|]. split; [|apply C; assumption].
  destruct row as [|[|[|[|row]]]]; try lia; destruct col as [|[|[|col]]]; try lia; reflexivity.
Qed.

(* ---- units ---- *)
Lemma coord1 l : col1 l = map (coordinate 0) l. Proof. apply map_ext. intros [[x y] z]. reflexivity. Qed.
Lemma coord2 l : col2 l = map (coordinate 1) l. Proof. apply map_ext. intros [[x y] z]. reflexivity. Qed.
Lemma coord3 l : col3 l = map (coordinate 2) l. Proof. apply map_ext. intros [[x y] z]. reflexivity. Qed.
Lemma angles_times a f l : per_radian a f -> angles_in a l = times f l.
Proof.
  intros [[-> H]|[-> ->]]; unfold angles_in, times.
  - change (String.eqb "deg" "deg") with true. cbn iota. apply map_ext. intros x. unfold rad2deg. rewrite <- H. field. apply PI_neq0.
  - change (String.eqb "rad" "deg") with false. cbn iota. rewrite <- (map_id l) at 1. apply map_ext. intros x. ring.
Qed.
Lemma vectors_times a f l : per_radian a f ->
  col1 (vectors_in a l) = times f (map (coordinate 0) l) /\ col2 (vectors_in a l) = times f (map (coordinate 1) l) /\ col3 (vectors_in a l) = times f (map (coordinate 2) l).
Proof.
  intros [[-> H]|[-> ->]]; unfold vectors_in, times, col1, col2, col3.
  - change (String.eqb "deg" "deg") with true. cbn iota. rewrite !map_map. repeat split; apply map_ext; intros [[x y] z]; cbn; unfold rad2deg; rewrite <- H; field; apply PI_neq0.
  - change (String.eqb "rad" "deg") with false. cbn iota. rewrite !map_map. repeat split; apply map_ext; intros [[x y] z]; cbn; ring.
Qed.

(* ---- poses ---- *)
Definition line_curve (t y : list R) (s : style) : curve := mkCurve Line [t; y] s.
Definition pick {A} (l : list A) (d : A) (i : nat) : A := nth (i - 1) l d.
Definition c0 : curve := mkCurve Line [] (Spec "").
Definition position_labels : list string := ["x (m)"; "APE x (m)"; "RPE x (m)"; "y (m)"; "APE y (m)"; "RPE y (m)"; "z (m)"; "APE z (m)"; "RPE z (m)"; "Distance (m)"; "APE (m)"; "RPE (m)"]%string.
Definition orientation_labels (a : string) : list string := map (fun l => (l ^^ " (") ^^ a ^^ ")")%string ["r_x"; "APE r_x"; "RPE r_x"; "r_y"; "APE r_y"; "RPE r_y"; "r_z"; "APE r_z"; "RPE r_z"; "Angle"; "APE"; "RPE"]%string.
Definition rows (t : list R) (vs : list vec3) (sizes : list R) (s : style) (j : nat) : curve := nth j [line_curve t (col1 vs) s; line_curve t (col2 vs) s; line_curve t (col3 vs) s; line_curve t sizes s] c0.
Definition cells (t ta tr : list R) (v va vr : list vec3) (s sa sr : list R) (st : style) (i : nat) : curve :=
  pick [line_curve t (col1 v) st; line_curve ta (col1 va) st; line_curve tr (col1 vr) st; line_curve t (col2 v) st; line_curve ta (col2 va) st; line_curve tr (col2 vr) st;
        line_curve t (col3 v) st; line_curve ta (col3 va) st; line_curve tr (col3 vr) st; line_curve t s st; line_curve ta sa st; line_curve tr sr st] c0 i.
Definition pose_cells1 (ec : pose_entry * (Z * Z * Z)) : nat -> curve :=
  let e := fst ec in cells (stamps (pe_track e)) (es_t (pe_ape e)) (es_t (pe_rpe e)) (positions (pe_track e)) (es_1 (pe_ape e)) (es_1 (pe_rpe e)) (tk_distances (pe_track e)) (es_norm1 (pe_ape e)) (es_norm1 (pe_rpe e)) (Colour (snd ec)).
Definition pose_cells2 (a : string) (ec : pose_entry * (Z * Z * Z)) : nat -> curve :=
  let e := fst ec in cells (stamps (pe_track e)) (es_t (pe_ape e)) (es_t (pe_rpe e)) (vectors_in a (tk_rots (pe_track e))) (vectors_in a (es_2 (pe_ape e))) (vectors_in a (es_2 (pe_rpe e)))
    (angles_in a (tk_angles (pe_track e))) (angles_in a (es_norm2 (pe_ape e))) (angles_in a (es_norm2 (pe_rpe e))) (Colour (snd ec)).
Lemma pose_frame1_is o gt : pose_frame1 o gt = frame 0 "Position" "Position" (rows (stamps gt) (positions gt) (tk_distances gt) (Spec (op_spec o))) (pick position_labels ""%string).
Proof. reflexivity. Qed.
Lemma pose_frame2_is o gt : pose_frame2 o gt = frame 1 "Orientation" "Orientation" (rows (stamps gt) (vectors_in (op_angle o) (tk_rots gt)) (angles_in (op_angle o) (tk_angles gt)) (Spec (op_spec o))) (pick (orientation_labels (op_angle o)) ""%string).
Proof. reflexivity. Qed.
Lemma pose_curves_is o ec : pose_curves o (fst ec) (snd ec) = adds 0 (pose_cells1 ec) ++ adds 1 (pose_cells2 (op_angle o) ec).
Proof. reflexivity. Qed.
Lemma flat_map_same {A B} (f g : A -> list B) l : (forall a, f a = g a) -> flat_map f l = flat_map g l.
Proof. intros H. induction l as [|a l IH]; [reflexivity|]. cbn. rewrite H, IH. reflexivity. Qed.
Ltac cells12 := intros [|[|[|[|row]]]] [|[|[|col]]] Hr Hc; try lia; clear Hr Hc.

Lemma pose_windows o names d figs : plot_pose o names d = Ok figs -> (List.length (pr_entries d) <= List.length (op_colours o))%nat /\ exists h,
  figs = [G "Position" h (pick position_labels ""%string) (legend_of ("Reference"%string :: names) names)
            (fun i => first_curves (rows (stamps (pr_gt d)) (positions (pr_gt d)) (tk_distances (pr_gt d)) (Spec (op_spec o))) i ++ map (fun ec => pose_cells1 ec i) (combine (pr_entries d) (op_colours o)));
          G "Orientation" h (pick (orientation_labels (op_angle o)) ""%string) (legend_of ("Reference"%string :: names) names)
            (fun i => first_curves (rows (stamps (pr_gt d)) (vectors_in (op_angle o) (tk_rots (pr_gt d))) (angles_in (op_angle o) (tk_angles (pr_gt d))) (Spec (op_spec o))) i ++ map (fun ec => pose_cells2 (op_angle o) ec i) (combine (pr_entries d) (op_colours o)))].
Proof.
  unfold plot_pose. rewrite with_colours_is. destruct (Nat.leb _ _) eqn:L; cbn [rbind]; [|discriminate]. rewrite pose_frame1_is, pose_frame2_is, (flat_map_same _ _ _ (pose_curves_is o)).
  destruct (run _ screen0) as [s| |] eqn:R; cbn [rbind]; try discriminate. intros H. injection H as <-. apply run_inv in R. destruct R as [_ ->]. split; [apply Nat.leb_le; exact L|].
  destruct (windows "Position" "Orientation" "Position" "Orientation" (rows (stamps (pr_gt d)) (positions (pr_gt d)) (tk_distances (pr_gt d)) (Spec (op_spec o)))
    (rows (stamps (pr_gt d)) (vectors_in (op_angle o) (tk_rots (pr_gt d))) (angles_in (op_angle o) (tk_angles (pr_gt d))) (Spec (op_spec o))) (pick position_labels ""%string) (pick (orientation_labels (op_angle o)) ""%string)
    pose_cells1 (pose_cells2 (op_angle o)) (combine (pr_entries d) (op_colours o)) ("Reference"%string :: names) names) as [h ->].
  exists h. reflexivity.
Qed.
Theorem poses_drawn o names d figs : plot_pose o names d = Ok figs -> exists w1 w2, figs = [w1; w2] /\ fg_name w1 = "Position"%string /\ fg_name w2 = "Orientation"%string /\
  table_shows w1 (caption ["APE"; "RPE"] ["x"; "y"; "z"] "Distance" "m")%string (op_spec o) names
    (fun row => (map fst (tk_traj (pr_gt d)), in_row row (map (fun x => mp_pos (snd x)) (tk_traj (pr_gt d))) (tk_distances (pr_gt d)))) pose_position (pr_entries d) (op_colours o) /\
  forall f, per_radian (op_angle o) f ->
  table_shows w2 (caption ["APE"; "RPE"] ["r_x"; "r_y"; "r_z"] "Angle" (op_angle o))%string (op_spec o) names
    (fun row => (map fst (tk_traj (pr_gt d)), times f (in_row row (tk_rots (pr_gt d)) (tk_angles (pr_gt d))))) (pose_orientation f) (pr_entries d) (op_colours o).
Proof.
  intros H. apply pose_windows in H. destruct H as [_ [h ->]]. do 2 eexists. split; [reflexivity|]. split; [reflexivity|]. split; [reflexivity|]. split.
  - apply G_table; [cells12; reflexivity|]. cells12; cbn; unfold line_curve; rewrite ?coord1, ?coord2, ?coord3; try reflexivity.
  - intros f Hf. apply G_table; [cells12; reflexivity|].
    assert (A := fun l => angles_times _ f l Hf). assert (V := fun l => vectors_times _ f l Hf).
    assert (V1 := fun l => proj1 (V l)). assert (V2 := fun l => proj1 (proj2 (V l))). assert (V3 := fun l => proj2 (proj2 (V l))).
    cells12; cbn [Nat.mul Nat.add first_curves app]; unfold pose_cells2, rows, cells, pick, line_curve; cbn [nth Nat.sub fst snd Nat.eqb app]; rewrite ?V1, ?V2, ?V3, ?A; cbn [app];
    try (apply f_equal2; [reflexivity|]); try apply map_ext; try intros [e c]; cbn [fst snd pose_orientation]; rewrite ?V1, ?V2, ?V3, ?A; reflexivity.
Qed.

(* ---- velocities ---- *)
Lemma append_assoc (a b c : string) : ((a ^^ b) ^^ c)%string = (a ^^ b ^^ c)%string.
Proof. induction a as [|x a IH]; [reflexivity|]. cbn. rewrite IH. reflexivity. Qed.
Definition linear_labels : list string := ["v_x (m/s)"; "AE v_x (m/s)"; "RE v_x (m/s)"; "v_y (m/s)"; "AE v_y (m/s)"; "RE v_y (m/s)"; "v_z (m/s)"; "AE v_z (m/s)"; "RE v_z (m/s)"; "Speed (m/s)"; "AE (m/s)"; "RE (m/s)"]%string.
Definition angular_labels (a : string) : list string :=
  map (fun l => (l ^^ " (") ^^ " " ^^ a ^^ " " ^^ "/s)")%string ["\omega_x"; "AE \omega_x"; "RE \omega_x"; "\omega_y"; "AE \omega_y"; "RE \omega_y"; "\omega_z"; "APE \omega_z"; "RE \omega_z"; "Angular Speed"; "APE"; "RE"]%string.
Definition twist_cells1 (ec : twist_entry * (Z * Z * Z)) : nat -> curve :=
  let e := fst ec in cells (te_t e) (es_t (te_ae e)) (es_t (te_re e)) (te_lin e) (es_1 (te_ae e)) (es_1 (te_re e)) (te_speeds e) (es_norm1 (te_ae e)) (es_norm1 (te_re e)) (Colour (snd ec)).
Definition twist_cells2 (a : string) (ec : twist_entry * (Z * Z * Z)) : nat -> curve :=
  let e := fst ec in cells (te_t e) (es_t (te_ae e)) (es_t (te_re e)) (vectors_in a (te_ang e)) (vectors_in a (es_2 (te_ae e))) (vectors_in a (es_2 (te_re e)))
    (angles_in a (te_rates e)) (angles_in a (es_norm2 (te_ae e))) (angles_in a (es_norm2 (te_re e))) (Colour (snd ec)).
Lemma twist_frame1_is o gt : twist_frame1 o gt = frame 0 "Linear Velocity" "Linear Velocity" (rows (tt_t gt) (tt_lin gt) (tt_speeds gt) (Spec (op_spec o))) (pick linear_labels ""%string).
Proof. reflexivity. Qed.
Lemma twist_frame2_is o gt : twist_frame2 o gt = frame 1 "Angular Velocity" "Orientation" (rows (tt_t gt) (vectors_in (op_angle o) (tt_ang gt)) (angles_in (op_angle o) (tt_rates gt)) (Spec (op_spec o))) (pick (angular_labels (op_angle o)) ""%string).
Proof. reflexivity. Qed.
Lemma twist_curves_is o ec : twist_curves o (fst ec) (snd ec) = adds 0 (twist_cells1 ec) ++ adds 1 (twist_cells2 (op_angle o) ec).
Proof. reflexivity. Qed.
Lemma twist_windows o names gt es figs : plot_twist o names gt es = Ok figs -> (List.length es <= List.length (op_colours o))%nat /\ exists h,
  figs = [G "Linear Velocity" h (pick linear_labels ""%string) (legend_of ("Reference"%string :: names) names)
            (fun i => first_curves (rows (tt_t gt) (tt_lin gt) (tt_speeds gt) (Spec (op_spec o))) i ++ map (fun ec => twist_cells1 ec i) (combine es (op_colours o)));
          G "Angular Velocity" h (pick (angular_labels (op_angle o)) ""%string) (legend_of ("Reference"%string :: names) names)
            (fun i => first_curves (rows (tt_t gt) (vectors_in (op_angle o) (tt_ang gt)) (angles_in (op_angle o) (tt_rates gt)) (Spec (op_spec o))) i ++ map (fun ec => twist_cells2 (op_angle o) ec i) (combine es (op_colours o)))].
Proof.
  unfold plot_twist. rewrite with_colours_is. destruct (Nat.leb _ _) eqn:L; cbn [rbind]; [|discriminate]. rewrite twist_frame1_is, twist_frame2_is, (flat_map_same _ _ _ (twist_curves_is o)).
  destruct (run _ screen0) as [s| |] eqn:R; cbn [rbind]; try discriminate. intros H. injection H as <-. apply run_inv in R. destruct R as [_ ->]. split; [apply Nat.leb_le; exact L|].
  destruct (windows "Linear Velocity" "Angular Velocity" "Linear Velocity" "Orientation" (rows (tt_t gt) (tt_lin gt) (tt_speeds gt) (Spec (op_spec o)))
    (rows (tt_t gt) (vectors_in (op_angle o) (tt_ang gt)) (angles_in (op_angle o) (tt_rates gt)) (Spec (op_spec o))) (pick linear_labels ""%string) (pick (angular_labels (op_angle o)) ""%string)
    twist_cells1 (twist_cells2 (op_angle o)) (combine es (op_colours o)) ("Reference"%string :: names) names) as [h ->].
  exists h. reflexivity.
Qed.
(* two cells of the window of angular velocities say APE where the others say AE *)
Theorem velocities_drawn o names gt es figs : plot_twist o names gt es = Ok figs -> exists w1 w2, figs = [w1; w2] /\ fg_name w1 = "Linear Velocity"%string /\ fg_name w2 = "Angular Velocity"%string /\
  table_shows w1 (caption ["AE"; "RE"] ["v_x"; "v_y"; "v_z"] "Speed" "m/s")%string (op_spec o) names (fun row => (tt_t gt, in_row row (tt_lin gt) (tt_speeds gt))) twist_linear es (op_colours o) /\
  forall f, per_radian (op_angle o) f ->
  table_shows w2 (fun row => caption [if Nat.ltb row 2 then "AE" else "APE"; "RE"] ["\omega_x"; "\omega_y"; "\omega_z"] "Angular Speed" (" " ^^ op_angle o ^^ " /s") row)%string (op_spec o) names
    (fun row => (tt_t gt, times f (in_row row (tt_ang gt) (tt_rates gt)))) (twist_angular f) es (op_colours o).
Proof.
  intros H. apply twist_windows in H. destruct H as [_ [h ->]]. do 2 eexists. split; [reflexivity|]. split; [reflexivity|]. split; [reflexivity|]. split.
  - apply G_table; [cells12; reflexivity|]. cells12; cbn; unfold line_curve; rewrite ?coord1, ?coord2, ?coord3; try reflexivity.
  - intros f Hf. apply G_table; [cells12; cbn; rewrite append_assoc; reflexivity|].
    assert (A := fun l => angles_times _ f l Hf). assert (V := fun l => vectors_times _ f l Hf).
    assert (V1 := fun l => proj1 (V l)). assert (V2 := fun l => proj1 (proj2 (V l))). assert (V3 := fun l => proj2 (proj2 (V l))).
    cells12; cbn [Nat.mul Nat.add first_curves app]; unfold twist_cells2, rows, cells, pick, line_curve; cbn [nth Nat.sub fst snd Nat.eqb app]; rewrite ?V1, ?V2, ?V3, ?A; cbn [app];
    try (apply f_equal2; [reflexivity|]); try apply map_ext; try intros [e c]; cbn [fst snd twist_angular]; rewrite ?V1, ?V2, ?V3, ?A; reflexivity.
Qed.

(* ---- trajectories ---- *)
Definition T (name : string) (cs : list curve) (leg : list string) : figure := mkFigure name [mkAxes Whole true cs "" "x" "y" "z" leg] Whole.
Definition tcurves (suffix : pose_entry * twist_entry -> list vec3) (ec : (pose_entry * twist_entry) * (Z * Z * Z)) : list curve :=
  let p := positions (pe_track (fst (fst ec))) in [mkCurve Line3 (cols3 p) (Colour (snd ec)); mkCurve Arrows3 (cols3 p ++ cols3 (suffix (fst ec))) (Colour (snd ec))].
Lemma trajectory_frame_is o gt tt : let s := Spec (op_spec o) in let l := mkCurve Line3 (cols3 (positions gt)) s in
  effects (trajectory_frame o gt tt) screen0 = mkScreen [T "Trajectory" [l] []; T "Trajectory Orientation" [l; mkCurve Arrows3 (cols3 (positions gt) ++ cols3 (tk_rots gt)) s] [];
    T "Trajectory Velocity" [l; mkCurve Arrows3 (cols3 (positions gt) ++ cols3 (tt_lin tt)) s] []] 2.
Proof. reflexivity. Qed.
Lemma app_cons_two {A} (l : list A) x y : l ++ [x; y] = (l ++ [x]) ++ [y]. Proof. rewrite <- app_assoc. reflexivity. Qed.
Lemma trajectory_step ec a b c m : effects (trajectory_curves (fst ec) (snd ec)) (mkScreen [T "Trajectory" a []; T "Trajectory Orientation" b []; T "Trajectory Velocity" c []] m) =
  mkScreen [T "Trajectory" (a ++ [mkCurve Line3 (cols3 (positions (pe_track (fst (fst ec))))) (Colour (snd ec))]) []; T "Trajectory Orientation" (b ++ tcurves (fun e => tk_rots (pe_track (fst e))) ec) [];
    T "Trajectory Velocity" (c ++ tcurves (fun e => te_lin (snd e)) ec) []] 2.
Proof.
  unfold tcurves. rewrite (app_cons_two b), (app_cons_two c). reflexivity.
Qed.
Lemma trajectory_all l : forall a b c,
  effects (flat_map (fun ec => trajectory_curves (fst ec) (snd ec)) l) (mkScreen [T "Trajectory" a []; T "Trajectory Orientation" b []; T "Trajectory Velocity" c []] 2) =
  mkScreen [T "Trajectory" (a ++ map (fun ec => mkCurve Line3 (cols3 (positions (pe_track (fst (fst ec))))) (Colour (snd ec))) l) [];
    T "Trajectory Orientation" (b ++ flat_map (tcurves (fun e => tk_rots (pe_track (fst e)))) l) []; T "Trajectory Velocity" (c ++ flat_map (tcurves (fun e => te_lin (snd e))) l) []] 2.
Proof.
  induction l as [|ec l IH]; intros a b c; cbn [flat_map map]; [rewrite !app_nil_r; reflexivity|]. rewrite effects_app, trajectory_step, IH, <- !app_assoc. reflexivity.
Qed.
Lemma set_nth_app {A} (pre : list A) x y l : set_nth (List.length pre) x (pre ++ y :: l) = pre ++ x :: l.
Proof. induction pre as [|a pre IH]; [reflexivity|]. cbn. rewrite IH. reflexivity. Qed.
Lemma nth_res_is {A} (l : list A) n : nth_res l n = match nth_error l n with Some a => Ok a | None => Throw end.
Proof. revert n. induction l as [|a l IH]; intros [|n]; cbn; try reflexivity. apply IH. Qed.
Lemma skipn_at {A} (n : A) k : forall l, nth_error l k = Some n -> skipn k l = n :: skipn (S k) l.
Proof. induction k as [|k IH]; intros [|a l] E; try discriminate; [injection E as ->; reflexivity|]. cbn in E. apply IH in E. exact E. Qed.
Lemma names_filled suffix names : forall todo i (pre : list string), (1 <= i)%nat -> List.length pre = (2 * i)%nat ->
  trajectory_names suffix names i todo (pre ++ repeat ""%string (todo * 2)) =
  if Nat.leb todo (List.length (skipn (i - 1) names)) then Ok (pre ++ flat_map (fun n => [n; n ^^ suffix]) (firstn todo (skipn (i - 1) names))) else Throw.
Proof.
  induction todo as [|todo IH]; intros i pre Hi Hp; cbn [trajectory_names]; [cbn; rewrite !app_nil_r; reflexivity|]. rewrite nth_res_is.
  destruct (nth_error names (i - 1)) as [n|] eqn:E; cbn [rbind].
  - assert (S1 : skipn (i - 1) names = n :: skipn (S i - 1) names) by (replace (S i - 1)%nat with (S (i - 1)) by lia; apply skipn_at; exact E).
    rewrite S1. change (S todo * 2)%nat with (S (S (todo * 2))). cbn [repeat]. replace (2 * i + 1 - 1)%nat with (List.length pre) by lia. rewrite set_nth_app.
    change (pre ++ n :: ""%string :: repeat ""%string (todo * 2)) with (pre ++ [n] ++ ""%string :: repeat ""%string (todo * 2)). rewrite app_assoc. replace (2 * i + 2 - 1)%nat with (List.length (pre ++ [n])) by (rewrite app_length; cbn; lia).
    rewrite set_nth_app. replace ((pre ++ [n]) ++ (n ^^ suffix) :: repeat ""%string (todo * 2)) with ((pre ++ [n; n ^^ suffix]) ++ repeat ""%string (todo * 2)) by (rewrite <- !app_assoc; reflexivity).
    rewrite IH by (try rewrite app_length; cbn; lia). cbn [List.length Nat.leb]. destruct (Nat.leb todo _); [|reflexivity]. cbn [firstn flat_map]. rewrite <- app_assoc. reflexivity.
  - assert (L : (List.length names <= i - 1)%nat) by (apply nth_error_None; exact E). rewrite skipn_all2 by exact L. reflexivity.
Qed.
Lemma trajectory_windows o names d tt es figs : plot_trajectory o names d tt es = Ok figs ->
  let n := List.length (pr_entries d) in let s := Spec (op_spec o) in let p := positions (pr_gt d) in let l := mkCurve Line3 (cols3 p) s in let all := combine (combine (pr_entries d) es) (op_colours o) in
  (n <= List.length names)%nat /\ (n <= List.length es)%nat /\ (n <= List.length (op_colours o))%nat /\
  figs = [T "Trajectory" ([l] ++ map (fun ec => mkCurve Line3 (cols3 (positions (pe_track (fst (fst ec))))) (Colour (snd ec))) all) ("Reference"%string :: names);
    T "Trajectory Orientation" ([l; mkCurve Arrows3 (cols3 p ++ cols3 (tk_rots (pr_gt d))) s] ++ flat_map (tcurves (fun e => tk_rots (pe_track (fst e)))) all)
      (["Reference"; "Reference orientation"]%string ++ flat_map (fun n => [n; n ^^ " orientation"%string]) (firstn n names));
    T "Trajectory Velocity" ([l; mkCurve Arrows3 (cols3 p ++ cols3 (tt_lin tt)) s] ++ flat_map (tcurves (fun e => te_lin (snd e))) all)
      (["Reference"; "Reference velocity"]%string ++ flat_map (fun n => [n; n ^^ " velocity"%string]) (firstn n names))].
Proof.
  intros H n s p l all. unfold plot_trajectory in H. fold n in H. destruct (Nat.ltb (List.length es) n) eqn:L1; [discriminate|]. apply Nat.ltb_ge in L1.
  rewrite (names_filled " orientation"%string names n 1 ["Reference"; "Reference" ^^ " orientation"]%string (le_n 1) eq_refl), (names_filled " velocity"%string names n 1 ["Reference"; "Reference" ^^ " velocity"]%string (le_n 1) eq_refl) in H. change (1 - 1)%nat with 0%nat in H. rewrite !skipn_O in H.
  destruct (Nat.leb n (List.length names)) eqn:L2; cbn [rbind] in H; [|discriminate]. apply Nat.leb_le in L2. rewrite with_colours_is in H. replace (List.length (combine (pr_entries d) es)) with n in H by (rewrite combine_length; unfold n in *; lia).
  destruct (Nat.leb n (List.length (op_colours o))) eqn:L3; cbn [rbind] in H; [|discriminate]. apply Nat.leb_le in L3. fold all in H. destruct (run _ screen0) as [sc| |] eqn:R; cbn [rbind] in H; try discriminate. injection H as <-. apply run_inv in R. destruct R as [_ ->].
  split; [exact L2|]. split; [exact L1|]. split; [exact L3|]. rewrite !effects_app, trajectory_frame_is. cbv zeta. rewrite trajectory_all. reflexivity.
Qed.

Theorem trajectories_drawn o names d tt es figs : plot_trajectory o names d tt es = Ok figs -> exists w1 w2 w3, figs = [w1; w2; w3] /\
  let at_ tk := map (fun x => mp_pos (snd x)) (tk_traj tk) in
  let path l st := mkCurve Line3 (coordinates l) st in let arrows l v st := mkCurve Arrows3 (coordinates l ++ coordinates v) st in
  let gt := at_ (pr_gt d) in let st := Spec (op_spec o) in let all := combine (combine (pr_entries d) es) (op_colours o) in let shown := firstn (List.length (pr_entries d)) names in
  fg_name w1 = "Trajectory"%string /\ fg_name w2 = "Trajectory Orientation"%string /\ fg_name w3 = "Trajectory Velocity"%string /\
  picture_shows w1 (path gt st :: map (fun ec => path (at_ (pe_track (fst (fst ec)))) (Colour (snd ec))) all) ("Reference"%string :: names) /\
  picture_shows w2 (path gt st :: arrows gt (tk_rots (pr_gt d)) st :: flat_map (fun ec => let p := at_ (pe_track (fst (fst ec))) in [path p (Colour (snd ec)); arrows p (tk_rots (pe_track (fst (fst ec)))) (Colour (snd ec))]) all)
    ("Reference" :: "Reference orientation" :: flat_map (fun n => [n; n ^^ " orientation"]) shown)%string /\
  picture_shows w3 (path gt st :: arrows gt (tt_lin tt) st :: flat_map (fun ec => let p := at_ (pe_track (fst (fst ec))) in [path p (Colour (snd ec)); arrows p (te_lin (snd (fst ec))) (Colour (snd ec))]) all)
    ("Reference" :: "Reference velocity" :: flat_map (fun n => [n; n ^^ " velocity"]) shown)%string.
Proof.
  intros H. apply trajectory_windows in H. cbv zeta in H. destruct H as (_ & _ & _ & ->). do 3 eexists. split; [reflexivity|]. cbv zeta. split; [reflexivity|]. split; [reflexivity|]. split; [reflexivity|].
  split; [|split]; eexists; repeat split; reflexivity.
Qed.
