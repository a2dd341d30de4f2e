(* Property C127: figures and summary of the evaluation scripts. Proofs in FgProofs.v, FgSave.v, FgCloud.v; cases in FgExamples.v. *)
From Coq Require Import String ZArith List Bool Reals.
From Verif Require Import Base Interp Geo EgModel EgProofs MsModel RoModel RoSpec RcModel RoProofs BfModel EvModel EvSpec EvProofs EvPose EvMove EvInter EvAlign EvSelf EvTrack EvExamples EvData EvDataSpec EvDataProofs EvDataMore EvDataEx FgModel FgSpec FgProofs FgSave FgCloud FgExamples.
Import ListNotations.
Open Scope R_scope.

(* C127 *)
Theorem C127_poses :
  forall (o : plot_opts) (names : list string) (d : pose_report) (figs : list figure),
    plot_pose o names d = Ok figs ->
    exists w1 w2 : figure,
      figs = [w1; w2] /\
      fg_name w1 = "Position" /\
      fg_name w2 = "Orientation" /\
      table_shows w1 (caption ["APE"; "RPE"] ["x"; "y"; "z"] "Distance" "m") (op_spec o) names
        (fun row : nat =>
         (map fst (tk_traj (pr_gt d)), in_row row (map (fun x : R * mpose => mp_pos (snd x)) (tk_traj (pr_gt d))) (tk_distances (pr_gt d))))
        pose_position (pr_entries d) (op_colours o) /\
      (forall f : R,
       per_radian (op_angle o) f ->
       table_shows w2 (caption ["APE"; "RPE"] ["r_x"; "r_y"; "r_z"] "Angle" (op_angle o)) (op_spec o) names
         (fun row : nat => (map fst (tk_traj (pr_gt d)), times f (in_row row (tk_rots (pr_gt d)) (tk_angles (pr_gt d))))) 
         (pose_orientation f) (pr_entries d) (op_colours o)).
Proof. exact (@poses_drawn). Qed.
Theorem C127_velocities :
  forall (o : plot_opts) (names : list string) (gt : twist_track) (es : list twist_entry) (figs : list figure),
    plot_twist o names gt es = Ok figs ->
    exists w1 w2 : figure,
      figs = [w1; w2] /\
      fg_name w1 = "Linear Velocity" /\
      fg_name w2 = "Angular Velocity" /\
      table_shows w1 (caption ["AE"; "RE"] ["v_x"; "v_y"; "v_z"] "Speed" "m/s") (op_spec o) names
        (fun row : nat => (tt_t gt, in_row row (tt_lin gt) (tt_speeds gt))) twist_linear es (op_colours o) /\
      (forall f : R,
       per_radian (op_angle o) f ->
       table_shows w2
         (fun row : nat =>
          caption [if row <? 2 then "AE" else "APE"; "RE"] ["\omega_x"; "\omega_y"; "\omega_z"] "Angular Speed" (" " ^^ op_angle o ^^ " /s") row)
         (op_spec o) names (fun row : nat => (tt_t gt, times f (in_row row (tt_ang gt) (tt_rates gt)))) (twist_angular f) es 
         (op_colours o)).
Proof. exact (@velocities_drawn). Qed.
Theorem C127_trajectories :
  forall (o : plot_opts) (names : list string) (d : pose_report) (tt : twist_track) (es : list twist_entry) (figs : list figure),
    plot_trajectory o names d tt es = Ok figs ->
    exists w1 w2 w3 : figure,
      figs = [w1; w2; w3] /\
      (let at_ := fun tk : track => map (fun x : R * mpose => mp_pos (snd x)) (tk_traj tk) in
       let path := fun (l : list vec3) (st : style) => {| cv_kind := Line3; cv_cols := coordinates l; cv_style := st |} in
       let arrows := fun (l v : list vec3) (st : style) => {| cv_kind := Arrows3; cv_cols := coordinates l ++ coordinates v; cv_style := st |} in
       let gt := at_ (pr_gt d) in
       let st := Spec (op_spec o) in
       let all := combine (combine (pr_entries d) es) (op_colours o) in
       let shown := firstn (Datatypes.length (pr_entries d)) names in
       fg_name w1 = "Trajectory" /\
       fg_name w2 = "Trajectory Orientation" /\
       fg_name w3 = "Trajectory Velocity" /\
       picture_shows w1
         (path gt st :: map (fun ec : pose_entry * twist_entry * (Z * Z * Z) => path (at_ (pe_track (fst (fst ec)))) (Colour (snd ec))) all)
         ("Reference" :: names) /\
       picture_shows w2
         (path gt st
          :: arrows gt (tk_rots (pr_gt d)) st
             :: flat_map
                  (fun ec : pose_entry * twist_entry * (Z * Z * Z) =>
                   let p := at_ (pe_track (fst (fst ec))) in
                   [path p (Colour (snd ec)); arrows p (tk_rots (pe_track (fst (fst ec)))) (Colour (snd ec))]) all)
         ("Reference" :: "Reference orientation" :: flat_map (fun n : string => [n; n ^^ " orientation"]) shown) /\
       picture_shows w3
         (path gt st
          :: arrows gt (tt_lin tt) st
             :: flat_map
                  (fun ec : pose_entry * twist_entry * (Z * Z * Z) =>
                   let p := at_ (pe_track (fst (fst ec))) in [path p (Colour (snd ec)); arrows p (te_lin (snd (fst ec))) (Colour (snd ec))]) all)
         ("Reference" :: "Reference velocity" :: flat_map (fun n : string => [n; n ^^ " velocity"]) shown)).
Proof. exact (@trajectories_drawn). Qed.
Theorem C127_saves :
  forall (mixq : quat -> quat -> R -> quat) (r2q r2a : mat3 -> quat) (q2a : quat -> quat) (o : plot_opts) (b : bounds) 
      (first fit : bool) (p : align_params) (gt : list odom) (odoms : list (list odom)) (names : list string),
    (exists out : outcome, plot_and_save mixq r2q r2a q2a o b first fit p names gt odoms = Ok out) <->
    (exists d : pose_report, compute_pose_data mixq r2q r2a q2a b first fit p gt odoms = Ok d) /\
    Datatypes.length names = Datatypes.length odoms /\ (Datatypes.length odoms <= Datatypes.length (op_colours o))%nat.
Proof. exact (@saves_exactly). Qed.
Theorem C127_outcome :
  forall (mixq : quat -> quat -> R -> quat) (r2q r2a : mat3 -> quat) (q2a : quat -> quat) (o : plot_opts) (b : bounds) 
      (first fit : bool) (p : align_params) (gt : list odom) (odoms : list (list odom)) (names : list string) (out : outcome),
    plot_and_save mixq r2q r2a q2a o b first fit p names gt odoms = Ok out ->
    exists
      (d0 : pose_report) (g0 : twist_track) (es0 : list twist_entry) (d : pose_report) (g : twist_track) (es : list twist_entry) 
    (f1 f2 f3 : list figure) (lines : list line),
      compute_pose_data mixq r2q r2a q2a b first fit p gt odoms = Ok d0 /\
      twist_reference b gt = Ok g0 /\
      compute_twist_data b gt odoms = Ok es0 /\
      shown o d0 d g0 g es0 es /\
      plot_pose o names d = Ok f1 /\
      plot_twist o names g es = Ok f2 /\
      plot_trajectory o names d g es = Ok f3 /\
      ou_drawn out = f1 ++ f2 ++ f3 /\
      blocks names (pr_entries d0) es0 lines /\
      ou_text out = Heading "GT Summary:" :: Value "Length" (Some (tk_length (pr_gt d0))) "m" :: lines /\
      ou_file out = (if op_save o then Some (ou_text out) else None) /\
      ou_open out = (if op_close o then [] else ou_drawn out) /\
      (forall (name ty : string) (w : figure),
       In (name, ty, w) (ou_saved out) <->
       op_save o = true /\ In ty (op_types o) /\ (exists k : nat, nth_error saved_as k = Some name /\ nth_error (ou_drawn out) k = Some w)).
Proof. exact (@outcome_is). Qed.
Theorem C127_reference :
  forall (b : bounds) (gt : list odom) (g : twist_track),
    twist_reference b gt = Ok g ->
    exists ref : list odom,
      reference b gt ref /\
      tt_t g = map stamp_of ref /\
      tt_lin g = map od_lin ref /\
      tt_ang g = map od_ang ref /\
      tt_speeds g = map (fun m : odom => vnorm (od_lin m)) ref /\ tt_rates g = map (fun m : odom => vnorm (od_ang m)) ref.
Proof. exact (@reference_columns). Qed.
Theorem C127_colours :
  NoDup default_colours /\ Datatypes.length default_colours = 17%nat.
Proof. exact (@colours_differ). Qed.
Theorem C127_no_titles :
  forall (o : plot_opts) (names : list string) (d : pose_report) (figs : list figure) (w : figure) (a : axes),
    plot_pose o names d = Ok figs -> In w figs -> In a (fg_axes w) -> ax_title a = "".
Proof. exact (@no_titles). Qed.
Theorem C127_titles_refuted :
  ~
    (forall (o : plot_opts) (names : list string) (d : pose_report) (figs : list figure),
     plot_pose o names d = Ok figs -> exists (w : figure) (a : axes), In w figs /\ In a (fg_axes w) /\ ax_title a = "Position").
Proof. exact (@titled_refuted). Qed.
Theorem C127_unit_refuted :
  exists (f : R) (l : list R), f * PI = 180 /\ angles_in "deg" l = times f l /\ angles_in "degrees" l <> times f l.
Proof. exact (@unit_taken_refuted). Qed.
Theorem C127_angular_labels_refuted :
  ~
    (forall (o : plot_opts) (names : list string) (g : twist_track) (es : list twist_entry) (figs : list figure),
     plot_twist o names g es = Ok figs ->
     exists w : figure,
       nth_error figs 1 = Some w /\
       (forall row : nat,
        (row < 4)%nat ->
        exists (legend : list string) (curves : list curve),
          shows w row 1 (caption ["AE"; "RE"] ["\omega_x"; "\omega_y"; "\omega_z"] "Angular Speed" (" " ^^ op_angle o ^^ " /s") row 1) legend
            curves)).
Proof. exact (@angular_labels_refuted). Qed.
Theorem C127_many_estimates_refuted :
  ~
    (forall (gt : list odom) (odoms : list (list odom)) (names : list string) (d : pose_report),
     compute_pose_data mix_turn quat_of axis_of axis_of_quat None false false params0 gt odoms = Ok d ->
     Datatypes.length names = Datatypes.length odoms ->
     exists out : outcome, plot_and_save mix_turn quat_of axis_of axis_of_quat default_opts None false false params0 names gt odoms = Ok out).
Proof. exact (@many_estimates_refuted). Qed.
Theorem C127_cloud_fields :
  forall fields : list string, (exists figs : list figure, plot_pointcloud_frame fields = Ok figs) <-> squarish (Datatypes.length fields).
Proof. exact (@fields_placed). Qed.
Theorem C127_cloud_fields_refuted :
  ~ (forall fields : list string, exists figs : list figure, plot_pointcloud_frame fields = Ok figs).
Proof. exact (@fields_placed_refuted). Qed.
Theorem C127_cloud_ticks :
  forall n : nat, (0 < n)%nat -> ticks_kept n = [] <-> (n < 5)%nat.
Proof. exact (@ticks_when). Qed.

Print Assumptions C127_poses.
Print Assumptions C127_velocities.
Print Assumptions C127_trajectories.
Print Assumptions C127_saves.
Print Assumptions C127_outcome.
Print Assumptions C127_reference.
Print Assumptions C127_colours.
Print Assumptions C127_no_titles.
Print Assumptions C127_titles_refuted.
Print Assumptions C127_unit_refuted.
Print Assumptions C127_angular_labels_refuted.
Print Assumptions C127_many_estimates_refuted.
Print Assumptions C127_cloud_fields.
Print Assumptions C127_cloud_fields_refuted.
Print Assumptions C127_cloud_ticks.
