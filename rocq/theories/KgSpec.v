(* What the figures of the tracker's statistics are meant to show. *)
From Coq Require Import String ZArith List Bool Reals.
From Verif Require Import Base Interp Geo EgModel MsModel RoModel BfModel EvModel EvData FgModel FgSpec KgModel.
Import ListNotations.
Open Scope R_scope.

(* share of the matches of the message before that are still tracked; none for the first message and after a message without matches *)
Definition share_kept (msgs : list stat_msg) (j : nat) : option R :=
  match j with
  | O => None
  | S i => match nth_error msgs i, nth_error msgs j with
           | Some a, Some b => match sm_total a with O => None | n => Some (INR (sm_tracked b) / INR n) end
           | _, _ => None
           end
  end.
(* the cells of the first two windows: label and the column of a list of messages *)
Definition core_cells (nan : R) (frames : bool) : list (string * (list stat_msg -> list R)) :=
  [("max match id", map (fun m => IZR (sm_max_id m))); ("total match count", map (fun m => INR (sm_total m)));
   ("tracked match count", map (fun m => INR (sm_tracked m))); ("new match count", map (fun m => INR (sm_new m)));
   ("frame number", map (fun m => if frames then IZR (sm_sec m) + IZR (sm_nsec m) / 1000000000 else IZR (sm_frame m)));
   ("track retention fraction", fun msgs => map (fun j => match share_kept msgs j with Some r => r | None => nan end) (seq 0 (List.length msgs)))]%string.
Definition extra_cells : list (string * (list stat_msg -> list R)) :=
  [("tracked kp count left", map (fun m => IZR (fst (sm_tracked_kp m)))); ("tracked kp count right", map (fun m => IZR (snd (sm_tracked_kp m))));
   ("extracted kp count left", map (fun m => IZR (fst (sm_extracted_kp m)))); ("extracted kp count right", map (fun m => IZR (snd (sm_extracted_kp m))));
   ("filtered extracted kp count left", map (fun m => IZR (fst (sm_filtered_kp m)))); ("filtered extracted kp count right", map (fun m => IZR (snd (sm_filtered_kp m))))]%string.
(* frame numbers or seconds *)
Definition across (frames : bool) (msgs : list stat_msg) : list R := map (fun m => if frames then IZR (sm_frame m) else IZR (sm_sec m) + IZR (sm_nsec m) / 1000000000) msgs.
Definition across_name (frames : bool) : string := if frames then "frame" else "t (s)".
(* three rows of two cells *)
Definition statistics_show (w : figure) (frames : bool) (titles : list string) (cells : list (string * (list stat_msg -> list R))) (names : list string) (data : list (list stat_msg)) (colours : list (Z * Z * Z)) : Prop :=
  List.length (fg_axes w) = 6%nat /\
  forall i, (1 <= i <= 6)%nat -> exists a label f, the_axes w (Cell 3 2 i) a /\ nth_error cells (i - 1) = Some (label, f) /\ nth_error titles (i - 1) = Some (ax_title a) /\ ax_x a = across_name frames /\ ax_y a = label /\ ax_legend a = names /\
    ax_curves a = map (fun mc => mkCurve Line [across frames (fst mc); f (fst mc)] (Colour (snd mc))) (combine data colours).
(* the window of track lengths: the counts over time and length, and mean, least and greatest *)
Definition lengths_show (w : figure) (frames : bool) (names : list string) (data : list (list stat_msg)) (stats : list track_stats) (colours : list (Z * Z * Z)) : Prop :=
  exists a b, fg_axes w = [a; b] /\ ax_place a = Cell 1 2 1 /\ ax_place b = Cell 1 2 2 /\ ax_x a = across_name frames /\ ax_y a = "frames tracked"%string /\ ax_z a = "feature count"%string /\
    ax_x b = across_name frames /\ ax_y b = "mean/min/max frames tracked"%string /\ ax_legend b = flat_map (fun n => [n ^^ " mean"; n ^^ " min"; n ^^ " max"]%string) names /\
    ax_curves a = map (fun x => let n := Z.to_nat (ts_longest (snd x)) in
       mkCurve Surface [flat_map (fun m => repeat (IZR (sm_sec m) + IZR (sm_nsec m) / 1000000000) n) (fst x); flat_map (fun _ => map INR (seq 1 n)) (fst x); flat_map (map INR) (ts_bins (snd x))] (Spec "interp")) (firstn (List.length colours) (combine data stats)) /\
    ax_curves b = flat_map (fun x => let '(msgs, s, c) := x in
       [mkCurve Line [across frames msgs; ts_mean s] (Colour c); mkCurve Line [across frames msgs; map IZR (ts_min s)] (Dashed c); mkCurve Line [across frames msgs; map IZR (ts_max s)] (Dashed c)]) (combine (combine data stats) colours).
(* the text: for each name the mean of the shares that are numbers and the longest track *)
Definition statistics_block (name : string) (msgs : list stat_msg) (s : track_stats) (lines : list line) : Prop :=
  exists mean, lines = [Heading (name ^^ " Summary:"); Value "Mean Track Retention" mean ""; Value "Max Track Duration" (Some (IZR (ts_longest s))) "frames"]%string /\
    let kept := flat_map (fun j => match share_kept msgs j with Some r => [r] | None => [] end) (seq 0 (List.length msgs)) in
    match kept with [] => mean = None | _ => mean = Some (fold_right Rplus 0 kept / INR (List.length kept)) end.
