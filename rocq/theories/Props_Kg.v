(* Property C129: figures and summary of the tracker's statistics. Proofs and cases in KgProofs.v, KgDrawn.v. *)
From Coq Require Import String ZArith List Bool Reals.
From Verif Require Import Base Interp Geo EgModel MsModel RoModel BfModel EvModel EvSpec EvProofs EvTrack EvData FgModel FgSpec FgProofs FgSave KgModel KgSpec KgProofs KgDrawn.
Import ListNotations.
Open Scope nat_scope.

(* C129 *)
Theorem C129_exactly :
  forall (nan : R) (frames save close : bool) (types : list string) (colours : list (Z * Z * Z)) (names : list string)
      (data : list (list stat_msg)),
    (exists out : outcome, stereo_statistics_plot_and_save nan frames save close types colours names data = Ok out) <->
    (forall msgs : list stat_msg, In msgs data -> msgs <> [] /\ (forall m : stat_msg, In m msgs -> sm_ids m <> [])) /\
    Datatypes.length data <= Datatypes.length colours /\ Datatypes.length names <= Datatypes.length data.
Proof. exact (@statistics_exactly). Qed.
Theorem C129_drawn :
  forall (nan : R) (frames save close : bool) (types : list string) (colours : list (Z * Z * Z)) (names : list string)
      (data : list (list stat_msg)) (out : outcome),
    stereo_statistics_plot_and_save nan frames save close types colours names data = Ok out ->
    exists (w1 w2 w3 : figure) (stats : list track_stats),
      ou_drawn out = [w1; w2; w3] /\
      Forall2 (fun (msgs : list stat_msg) (s : track_stats) => compute_frame_track_statistics (map sm_ids msgs) = Ok s) data stats /\
      statistics_show w1 frames [""; ""; ""; ""; ""; ""] (core_cells nan frames) names data colours /\
      statistics_show w2 frames ["Left"; "Right"; "Left"; "Right"; "Left"; "Right"] extra_cells names data colours /\
      lengths_show w3 frames names data stats colours /\
      ou_open out = (if close then [] else [w1; w2; w3]) /\
      ou_file out = (if save then Some (ou_text out) else None) /\
      (exists blocks : list (list line),
         ou_text out = concat blocks /\
         Datatypes.length blocks = Datatypes.length names /\
         (forall (i : nat) (n : string) (msgs : list stat_msg) (s : track_stats),
          nth_error names i = Some n ->
          nth_error data i = Some msgs ->
          nth_error stats i = Some s -> exists b : list line, nth_error blocks i = Some b /\ statistics_block n msgs s b)) /\
      (forall (name ty : string) (w : figure),
       In (name, ty, w) (ou_saved out) <->
       save = true /\
       In ty types /\ (name = "core_statistics" /\ w = w1 \/ name = "extra_statistics" /\ w = w2 \/ name = "match_id_statistics" /\ w = w3)).
Proof. exact (@statistics_drawn). Qed.
Theorem C129_frame_number_refuted :
  ~
    (forall (nan : R) (colours : list (Z * Z * Z)) (names : list string) (data : list (list stat_msg)) (out : outcome) (w : figure) (a : axes),
     stereo_statistics_plot_and_save nan true false false [] colours names data = Ok out ->
     In w (ou_drawn out) ->
     In a (fg_axes w) ->
     ax_y a = "frame number" ->
     forall (i : nat) (msgs : list stat_msg) (c : Z * Z * Z),
     nth_error (combine data colours) i = Some (msgs, c) ->
     exists (cv : curve) (x : list R), nth_error (ax_curves a) i = Some cv /\ cv_cols cv = [x; map (fun m : stat_msg => IZR (sm_frame m)) msgs]).
Proof. exact (@frame_number_refuted). Qed.
Theorem C129_lengths_across_refuted :
  ~
    (forall (nan : R) (colours : list (Z * Z * Z)) (names : list string) (data : list (list stat_msg)) (out : outcome) (w : figure) (a : axes),
     stereo_statistics_plot_and_save nan true false false [] colours names data = Ok out ->
     In w (ou_drawn out) ->
     In a (fg_axes w) ->
     ax_x a = "frame" ->
     forall (cv : curve) (x : list R),
     In cv (ax_curves a) ->
     nth_error (cv_cols cv) 0 = Some x ->
     forall t : R, In t x -> exists (msgs : list stat_msg) (m : stat_msg), In msgs data /\ In m msgs /\ t = IZR (sm_frame m)).
Proof. exact (@lengths_across_refuted). Qed.
Theorem C129_no_matches_refuted :
  ~
    (forall (nan : R) (frames : bool) (colours : list (Z * Z * Z)) (names : list string) (data : list (list stat_msg)),
     (forall msgs : list stat_msg, In msgs data -> msgs <> []) ->
     Datatypes.length data <= Datatypes.length colours ->
     Datatypes.length names = Datatypes.length data ->
     exists out : outcome, stereo_statistics_plot_and_save nan frames false false [] colours names data = Ok out).
Proof. exact (@no_matches_refuted). Qed.

Print Assumptions C129_exactly.
Print Assumptions C129_drawn.
Print Assumptions C129_frame_number_refuted.
Print Assumptions C129_lengths_across_refuted.
Print Assumptions C129_no_matches_refuted.
