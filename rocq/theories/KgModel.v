(* Figures and summary of the tracker's statistics (MATLAB): plotting/plot_statistics.m (PS), stereo_statistics_plot_and_save.m (SS), extract_statistics.m (ES).
   Drawing commands as in FgModel; the number nan stands for NaN in a column. *)
From Coq Require Import String ZArith List Bool Reals.
From Verif Require Import Base Interp Geo EgModel MsModel RoModel BfModel EvModel EvData FgModel.
Import ListNotations.
Open Scope R_scope.

(* a message StereoTrackerStatistics without the field the figures do not use; counts are not negative *)
Record stat_msg := mkSM { sm_frame : Z; sm_sec : Z; sm_nsec : Z; sm_max_id : Z; sm_tracked_kp : Z * Z; sm_tracked : nat; sm_extracted_kp : Z * Z; sm_filtered_kp : Z * Z; sm_new : nat; sm_total : nat; sm_ids : list Z }.
Record stat_entry := mkSE { se_frames : list R; se_t : list R; se_max_id : list R; se_tracked_kp : list R * list R; se_tracked : list R; se_extracted_kp : list R * list R; se_filtered_kp : list R * list R;
  se_new : list R; se_total : list R; se_retention : list (option R); se_mean : option R; se_stats : track_stats }.
(* extract_timestamps.m *)
Definition sm_stamp (m : stat_msg) : R := IZR (sm_sec m) + IZR (sm_nsec m) / 1000000000.
Definition both (f : stat_msg -> Z * Z) (l : list stat_msg) : list R * list R := (map (fun m => IZR (fst (f m))) l, map (fun m => IZR (snd (f m))) l).
(* ES 7-49 *)
Definition stat_entry_of (l : list stat_msg) : res stat_entry :=
  let r := compute_track_retention (map (fun m => (sm_tracked m, sm_total m)) l) in
  rbind (compute_frame_track_statistics (map sm_ids l)) (fun s =>
  Ok (mkSE (map (fun m => IZR (sm_frame m)) l) (map sm_stamp l) (map (fun m => IZR (sm_max_id m)) l) (both sm_tracked_kp l) (map (fun m => INR (sm_tracked m)) l) (both sm_extracted_kp l) (both sm_filtered_kp l)
           (map (fun m => INR (sm_new m)) l) (map (fun m => INR (sm_total m)) l) r (mean_retention r) s)).
(* ES 4-6 *)
Fixpoint stat_entries (data : list (list stat_msg)) : res (list stat_entry) :=
  match data with [] => Ok [] | l :: data' => rbind (stat_entry_of l) (fun e => rbind (stat_entries data') (fun es => Ok (e :: es))) end.

Section Nan.
Variable nan : R.
Definition number_or (x : option R) : R := match x with Some r => r | None => nan end.
(* PS 4-15 *)
Definition x_name (frames : bool) : string := if frames then "frame" else "t (s)".
Definition x_axis (frames : bool) (e : stat_entry) : list R := if frames then se_frames e else se_t e.
Definition panel32 (x : string) (i : nat) (t : list cmd) (y : string) : list cmd := [Subplot 3 2 i] ++ t ++ [XLabel x; YLabel y].
(* PS 17-32 *)
Definition core_frame (x : string) : list cmd :=
  [NewFigure "Statistics"; SetFigure 0; Title "Core Statistics"] ++
  panel32 x 1 [] "max match id" ++ panel32 x 2 [] "total match count" ++ panel32 x 3 [] "tracked match count" ++ panel32 x 4 [] "new match count" ++ panel32 x 5 [] "frame number" ++ panel32 x 6 [] "track retention fraction".
(* PS 34-56 *)
Definition extra_frame (x : string) : list cmd :=
  [NewFigure "Extra Statistics"; SetFigure 1; Title "Extra Statistics"] ++
  panel32 x 1 [Title "Left"] "tracked kp count left" ++ panel32 x 2 [Title "Right"] "tracked kp count right" ++ panel32 x 3 [Title "Left"] "extracted kp count left" ++ panel32 x 4 [Title "Right"] "extracted kp count right" ++
  panel32 x 5 [Title "Left"] "filtered extracted kp count left" ++ panel32 x 6 [Title "Right"] "filtered extracted kp count right".
(* PS 58-72 *)
Definition ids_frame (x : string) : list cmd :=
  [NewFigure "Match Id Statistics"; SetFigure 2; Title "Match Id Statistics"; Subplot 1 2 1; XLabel x; YLabel "frames tracked"; ZLabel "feature count"; Subplot 1 2 2; XLabel x; YLabel "mean/min/max frames tracked"].
Definition stat_curve (i : nat) (x y : list R) (c : Z * Z * Z) : list cmd := [Subplot 3 2 i; HoldOn; Draw (mkCurve Line [x; y] (Colour c))].
(* PS 139-141 *)
Definition histogram (e : stat_entry) (c : Z * Z * Z) : curve :=
  let n := Z.to_nat (ts_longest (se_stats e)) in
  mkCurve Surface [flat_map (fun t => repeat t n) (se_t e); flat_map (fun _ => map INR (seq 1 n)) (se_t e); flat_map (map INR) (ts_bins (se_stats e))] (Spec "interp").
(* PS 76-149 *)
Definition stat_curves (frames : bool) (e : stat_entry) (c : Z * Z * Z) : list cmd :=
  let x := x_axis frames e in let s := se_stats e in
  [SetFigure 0] ++ stat_curve 1 x (se_max_id e) c ++ stat_curve 2 x (se_total e) c ++ stat_curve 3 x (se_tracked e) c ++ stat_curve 4 x (se_new e) c ++
  stat_curve 5 x (if frames then se_t e else se_frames e) c ++ stat_curve 6 x (map number_or (se_retention e)) c ++
  [SetFigure 1] ++ stat_curve 1 x (fst (se_tracked_kp e)) c ++ stat_curve 2 x (snd (se_tracked_kp e)) c ++ stat_curve 3 x (fst (se_extracted_kp e)) c ++ stat_curve 4 x (snd (se_extracted_kp e)) c ++
  stat_curve 5 x (fst (se_filtered_kp e)) c ++ stat_curve 6 x (snd (se_filtered_kp e)) c ++
  [SetFigure 2; Subplot 1 2 1; HoldOn; Draw (histogram e c); Subplot 1 2 2; HoldOn; Draw (mkCurve Line [x; ts_mean s] (Colour c)); Draw (mkCurve Line [x; map IZR (ts_min s)] (Dashed c)); Draw (mkCurve Line [x; map IZR (ts_max s)] (Dashed c))].
Definition six_legends (names : list string) : list cmd := flat_map (fun i => [Subplot 3 2 i; Legend names]) (seq 1 6).
(* PS 152-172 *)
Definition stat_legends (names : list string) : list cmd :=
  [SetFigure 0] ++ six_legends names ++ [SetFigure 1] ++ six_legends names ++
  [SetFigure 2; Subplot 1 2 2; Legend (flat_map (fun n => [n ^^ " mean"; n ^^ " min"; n ^^ " max"]%string) names)].
Definition plot_statistics (frames : bool) (colours : list (Z * Z * Z)) (names : list string) (es : list stat_entry) : res (list figure) :=
  let x := x_name frames in
  rbind (with_colours (stat_curves frames) colours es) (fun l =>
  rbind (run (core_frame x ++ extra_frame x ++ ids_frame x ++ l ++ stat_legends names) screen0) (fun s => Ok (sc_figs s))).
(* SS 33-41 *)
Fixpoint stat_summaries (names : list string) (es : list stat_entry) : res (list line) :=
  match names, es with
  | [], _ => Ok []
  | n :: names', e :: es' => rbind (stat_summaries names' es') (fun l =>
      Ok ([Heading (n ^^ " Summary:"); Value "Mean Track Retention" (se_mean e) ""; Value "Max Track Duration" (Some (IZR (ts_longest (se_stats e)))) "frames"]%string ++ l))
  | _ :: _, [] => Throw
  end.
Definition stat_files : list string := ["core_statistics"; "extra_statistics"; "match_id_statistics"]%string.
(* SS *)
Definition stereo_statistics_plot_and_save (frames save close : bool) (types : list string) (colours : list (Z * Z * Z)) (names : list string) (data : list (list stat_msg)) : res outcome :=
  rbind (stat_entries data) (fun es => rbind (plot_statistics frames colours names es) (fun figs => rbind (stat_summaries names es) (fun l =>
  Ok (mkOut figs (if close then [] else figs) (if save then flat_map (fun ty => map (fun x => (fst x, ty, snd x)) (combine stat_files figs)) types else []) l (if save then Some l else None))))).
End Nan.
