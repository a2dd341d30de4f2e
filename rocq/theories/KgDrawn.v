(* Figures and summary of the tracker's statistics, from the messages; refutations and cases. *)
From Coq Require Import String ZArith List Bool Reals Lra Lia.
From Verif Require Import Base Interp Geo EgModel MsModel RoModel BfModel EvModel EvSpec EvProofs EvTrack EvData FgModel FgSpec FgProofs FgSave KgModel KgSpec KgProofs.
Import ListNotations.
Open Scope nat_scope.
Local Notation len := List.length.

Definition entry_with (msgs : list stat_msg) (s : track_stats) : stat_entry :=
  let r := map (share_kept msgs) (seq 0 (len msgs)) in
  mkSE (map (fun m => IZR (sm_frame m)) msgs) (map sm_stamp msgs) (map (fun m => IZR (sm_max_id m)) msgs) (both sm_tracked_kp msgs) (map (fun m => INR (sm_tracked m)) msgs) (both sm_extracted_kp msgs) (both sm_filtered_kp msgs)
    (map (fun m => INR (sm_new m)) msgs) (map (fun m => INR (sm_total m)) msgs) r (mean_retention r) s.
Definition counted (msgs : list stat_msg) (s : track_stats) : Prop := compute_frame_track_statistics (map sm_ids msgs) = Ok s.
Definition with_ids (msgs : list stat_msg) : Prop := msgs <> [] /\ forall m, In m msgs -> sm_ids m <> [].
Lemma counted_some msgs s : counted msgs s -> msgs <> []. Proof. intros H ->. discriminate. Qed.
Lemma entry_is msgs e : stat_entry_of msgs = Ok e <-> exists s, counted msgs s /\ e = entry_with msgs s.
Proof.
  unfold stat_entry_of, counted. cbv zeta. split.
  - intros H. destruct (compute_frame_track_statistics _) as [s| |] eqn:E; cbn [rbind] in H; try discriminate. exists s. split; [reflexivity|]. rewrite (retention_is msgs (counted_some msgs s E)) in H. unfold entry_with. cbv zeta. apply (f_equal (fun r => match r with Ok x => x | _ => e end)) in H. cbv beta iota in H. symmetry. exact H.
  - intros (s & E & ->). rewrite E. cbn [rbind]. rewrite (retention_is msgs (counted_some msgs s E)). reflexivity.
Qed.
Lemma entries_of data es : stat_entries data = Ok es <-> exists stats, Forall2 counted data stats /\ es = map (fun x => entry_with (fst x) (snd x)) (combine data stats).
Proof.
  revert es. induction data as [|l data IH]; intros es; cbn [stat_entries].
  - split; [intros H; injection H as <-; exists []; split; [constructor|reflexivity]|]. intros (stats & F & ->). reflexivity.
  - split.
    + intros H. destruct (stat_entry_of l) as [e| |] eqn:E; cbn [rbind] in H; try discriminate. destruct (stat_entries data) as [es'| |] eqn:E'; cbn [rbind] in H; try discriminate. apply entry_is in E. destruct E as (s & C & ->). destruct (proj1 (IH es') eq_refl) as (stats & F & ->). exists (s :: stats). split; [constructor; assumption|]. cbn [combine map fst snd]. congruence.
    + intros (stats & F & ->). inversion F as [|a s x st C F' E1 E2]; subst. rewrite (proj2 (entry_is l (entry_with l s)) (ex_intro _ s (conj C eq_refl))). cbn [rbind]. rewrite (proj2 (IH _) (ex_intro _ st (conj F' eq_refl))). reflexivity.
Qed.
Lemma counted_when msgs : (exists s, counted msgs s) <-> with_ids msgs.
Proof.
  split.
  - intros [s H]. split; [apply (counted_some msgs s H)|]. intros m Hm E. unfold counted in H. rewrite track_statistics_empty in H by (rewrite <- E; apply in_map, Hm). discriminate.
  - intros [N H]. apply track_statistics_total; [destruct msgs; [congruence|discriminate]|]. intros f Hf. apply in_map_iff in Hf. destruct Hf as (m & <- & Hm). apply H, Hm.
Qed.
Lemma frames_length frames : forall last t, track_frames last frames = Ok t -> len t = len frames.
Proof. induction frames as [|[|i ids] frames IH]; intros last t H; cbn in H; [injection H as <-; reflexivity|discriminate|]. destruct (track_frames _ frames) as [r| |] eqn:E; cbn [rbind] in H; try discriminate. injection H as <-. cbn. rewrite (IH _ _ E). reflexivity. Qed.
Lemma counted_lengths msgs s : counted msgs s -> len (ts_mean s) = len msgs /\ len (ts_min s) = len msgs /\ len (ts_max s) = len msgs /\ len (flat_map (map INR) (ts_bins s)) = len msgs * Z.to_nat (ts_longest s).
Proof.
  unfold counted. intros H. unfold compute_frame_track_statistics in H. destruct (map sm_ids msgs) as [|f0 fs] eqn:E; [discriminate|]. rewrite <- E in H. destruct (track_frames [] (map sm_ids msgs)) as [t| |] eqn:Et; cbn [rbind] in H; try discriminate. cbv zeta in H. apply (f_equal (fun r => match r with Ok x => x | _ => s end)) in H. cbv beta iota in H. subst s. cbn [ts_mean ts_min ts_max ts_bins ts_longest]. apply frames_length in Et. rewrite map_length in Et. rewrite !map_length. repeat (split; [exact Et|]).
  rewrite <- Et. generalize (Z.to_nat (zmax (map zmax t))). intros n. clear. induction t as [|f t IH]; [reflexivity|]. cbn [map flat_map]. rewrite app_length, IH, !map_length, seq_length. cbn. lia.
Qed.
Lemma flat_same {A} (g : A -> list R) n l : (forall a, len (g a) = n) -> len (flat_map g l) = len l * n.
Proof. intros H. induction l as [|a l IH]; [reflexivity|]. cbn. rewrite app_length, IH, H. lia. Qed.

Section Nan.
Variable nan : R.
Lemma stat_accepted frames msgs s c : counted msgs s -> forallb accepted (stat_curves nan frames (entry_with msgs s) c) = true.
Proof.
  intros H. destruct (counted_lengths msgs s H) as (L1 & L2 & L3 & L4). unfold stat_curves, stat_curve, entry_with, both, x_axis, histogram. cbv zeta. cbn [se_frames se_t se_max_id se_tracked_kp se_tracked se_extracted_kp se_filtered_kp se_new se_total se_retention se_stats fst snd app forallb accepted cv_cols].
  rewrite L4. rewrite !flat_same with (n := Z.to_nat (ts_longest s)) by (intros; rewrite ?repeat_length, ?map_length, ?seq_length; reflexivity). destruct frames; rewrite !map_length, ?seq_length, ?L1, ?L2, ?L3, ?Nat.eqb_refl; reflexivity.
Qed.
Lemma drawn_if frames colours names data stats : Forall2 counted data stats -> len data <= len colours -> exists figs, plot_statistics nan frames colours names (map (fun x => entry_with (fst x) (snd x)) (combine data stats)) = Ok figs.
Proof.
  intros F L. unfold plot_statistics. cbv zeta. rewrite with_colours_is. pose proof (Forall2_length _ _ _ F) as Le. assert (Lb : Nat.leb (len (map (fun x => entry_with (fst x) (snd x)) (combine data stats))) (len colours) = true) by (apply Nat.leb_le; rewrite map_length, combine_length; lia). rewrite Lb. cbn [rbind]. rewrite run_ok; [eexists; reflexivity|].
  rewrite !forallb_app. assert (A : forallb accepted (flat_map (fun ec => stat_curves nan frames (fst ec) (snd ec)) (combine (map (fun x => entry_with (fst x) (snd x)) (combine data stats)) colours)) = true).
  { apply forallb_forall. intros y Hy. apply in_flat_map in Hy. destruct Hy as ([e c] & He & Hy). apply in_combine_l in He. apply in_map_iff in He. destruct He as ([m s] & <- & He). assert (C : counted m s). { clear -F He. induction F as [|a b l k C F IH]; [destruct He|]. destruct He as [E|He]; [injection E as <- <-; exact C|apply IH, He]. } pose proof (stat_accepted frames m s c C) as X. rewrite forallb_forall in X. apply X. exact Hy. }
  rewrite A. reflexivity.
Qed.
Lemma summaries_of names es l : stat_summaries names es = Ok l -> len names <= len es.
Proof. revert es l. induction names as [|n names IH]; intros [|e es] l H; cbn in *; try discriminate; try lia. destruct (stat_summaries names es) as [k| |] eqn:E; cbn [rbind] in H; try discriminate. apply IH in E. lia. Qed.
Lemma summaries_if names es : len names <= len es -> exists l, stat_summaries names es = Ok l.
Proof. revert es. induction names as [|n names IH]; intros [|e es] H; cbn in *; try lia; [eexists; reflexivity|eexists; reflexivity|]. destruct (IH es) as [l ->]; [lia|]. cbn [rbind]. eexists. reflexivity. Qed.

Theorem statistics_exactly frames save close types colours names data :
  (exists out, stereo_statistics_plot_and_save nan frames save close types colours names data = Ok out) <-> (forall msgs, In msgs data -> msgs <> [] /\ forall m, In m msgs -> sm_ids m <> []) /\ len data <= len colours /\ len names <= len data.
Proof.
  unfold stereo_statistics_plot_and_save. split.
  - intros [out H]. destruct (stat_entries data) as [es| |] eqn:E; cbn [rbind] in H; try discriminate. apply entries_of in E. destruct E as (stats & F & ->). pose proof (Forall2_length _ _ _ F) as Le. destruct (plot_statistics _ _ _ _ _) as [figs| |] eqn:P; cbn [rbind] in H; try discriminate. destruct (stat_summaries _ _) as [l| |] eqn:S; cbn [rbind] in H; try discriminate.
    apply statistics_windows in P. destruct P as [L _]. apply summaries_of in S. rewrite map_length, combine_length in L, S. split; [|lia]. intros msgs Hm. apply counted_when. clear -F Hm. induction F as [|a b l k C F IH]; [destruct Hm|]. destruct Hm as [<-|Hm]; [exists b; exact C|apply IH, Hm].
  - intros (A & L & Ln). assert (X : exists stats, Forall2 counted data stats). { clear -A. induction data as [|m data IH]; [exists []; constructor|]. destruct (proj2 (counted_when m) (A m (or_introl eq_refl))) as [s C]. destruct IH as [stats F]; [intros x Hx; apply A; right; exact Hx|]. exists (s :: stats). constructor; assumption. }
    destruct X as [stats F]. pose proof (Forall2_length _ _ _ F) as Le. rewrite (proj2 (entries_of data _) (ex_intro _ stats (conj F eq_refl))). cbn [rbind]. destruct (drawn_if frames colours names data stats F L) as [figs ->]. cbn [rbind]. destruct (summaries_if names (map (fun x => entry_with (fst x) (snd x)) (combine data stats))) as [l ->]; [rewrite map_length, combine_length; lia|]. cbn [rbind]. eexists. reflexivity.
Qed.
Lemma curves_of (g : stat_entry * (Z * Z * Z) -> curve) (g' : list stat_msg * (Z * Z * Z) -> curve) data stats : (forall m s c, g (entry_with m s, c) = g' (m, c)) -> len data = len stats ->
  forall colours, map g (combine (map (fun x => entry_with (fst x) (snd x)) (combine data stats)) colours) = map g' (combine data colours).
Proof. intros H. revert stats. induction data as [|m data IH]; intros [|s stats] L [|c colours]; try discriminate; try reflexivity. cbn [combine map fst snd]. rewrite H, IH by (cbn in L; lia). reflexivity. Qed.
Lemma six_shown name h titles ts x labs legs cs frames cells data colours : x = across_name frames -> len ts = 6 -> (forall i, 1 <= i <= 6 -> nth_error ts (i - 1) = Some (titles i)) ->
  (forall i, 1 <= i <= 6 -> exists f, nth_error cells (i - 1) = Some (labs i, f) /\ cs i = map (fun mc => mkCurve Line [across frames (fst mc); f (fst mc)] (Colour (snd mc))) (combine data colours)) ->
  statistics_show (G6 name h titles x labs legs cs) frames ts cells legs data colours.
Proof.
  intros -> _ T C. split; [reflexivity|]. intros i Hi. destruct (C i Hi) as (f & E & Ec). exists (mkAxes (Cell 3 2 i) h (cs i) (titles i) (across_name frames) (labs i) "" legs), (labs i), f. split.
  - intros a. unfold G6. cbn [fg_axes]. rewrite in_map_iff. split.
    + intros [(j & <- & Hj) P]. cbn in P. injection P as ->. reflexivity.
    + intros ->. split; [|reflexivity]. exists i. split; [reflexivity|]. apply in_seq. lia.
  - cbn [ax_title ax_x ax_y ax_legend ax_curves]. split; [exact E|]. split; [apply T, Hi|]. repeat (split; [reflexivity|]). exact Ec.
Qed.
Theorem statistics_drawn frames save close types colours names data out : stereo_statistics_plot_and_save nan frames save close types colours names data = Ok out ->
  exists w1 w2 w3 stats, ou_drawn out = [w1; w2; w3] /\ Forall2 (fun msgs s => compute_frame_track_statistics (map sm_ids msgs) = Ok s) data stats /\
  statistics_show w1 frames [""; ""; ""; ""; ""; ""]%string (core_cells nan frames) names data colours /\ statistics_show w2 frames ["Left"; "Right"; "Left"; "Right"; "Left"; "Right"]%string extra_cells names data colours /\ lengths_show w3 frames names data stats colours /\
  ou_open out = (if close then [] else [w1; w2; w3]) /\ ou_file out = (if save then Some (ou_text out) else None) /\
  (exists blocks, ou_text out = List.concat blocks /\ len blocks = len names /\ forall i n msgs s, nth_error names i = Some n -> nth_error data i = Some msgs -> nth_error stats i = Some s -> exists b, nth_error blocks i = Some b /\ statistics_block n msgs s b) /\
  forall name ty w, In (name, ty, w) (ou_saved out) <-> save = true /\ In ty types /\ (name = "core_statistics" /\ w = w1 \/ name = "extra_statistics" /\ w = w2 \/ name = "match_id_statistics" /\ w = w3)%string.
Proof.
  intros H. unfold stereo_statistics_plot_and_save in H. destruct (stat_entries data) as [es| |] eqn:E; cbn [rbind] in H; try discriminate. apply entries_of in E. destruct E as (stats & F & ->). pose proof (Forall2_length _ _ _ F) as Le. destruct (plot_statistics _ _ _ _ _) as [figs| |] eqn:P; cbn [rbind] in H; try discriminate. destruct (stat_summaries _ _) as [l| |] eqn:S; cbn [rbind] in H; try discriminate.
  apply (f_equal (fun r => match r with Ok x => x | _ => out end)) in H. cbv beta iota in H. subst out. cbn [ou_drawn ou_open ou_file ou_text ou_saved]. apply statistics_windows in P. destruct P as [L [h ->]]. rewrite map_length, combine_length in L.
  eexists _, _, _, stats. split; [reflexivity|]. split; [exact F|]. split.
  { apply six_shown; [destruct frames; reflexivity|reflexivity|intros i Hi; destruct i as [|[|[|[|[|[|[|i]]]]]]]; try lia; reflexivity|].
    intros i Hi. destruct i as [|[|[|[|[|[|[|i]]]]]]]; try lia; (eexists; split; [reflexivity|]); (apply curves_of; [|exact Le]); intros m s c; unfold core_curve, across, x_axis; cbn; destruct frames; try reflexivity; do 4 f_equal; try rewrite map_map; reflexivity. }
  split.
  { apply six_shown; [destruct frames; reflexivity|reflexivity|intros i Hi; destruct i as [|[|[|[|[|[|[|i]]]]]]]; try lia; reflexivity|].
    intros i Hi. destruct i as [|[|[|[|[|[|[|i]]]]]]]; try lia; (eexists; split; [reflexivity|]); (apply curves_of; [|exact Le]); intros m s c; unfold extra_curve, across, x_axis; cbn; destruct frames; reflexivity. }
  split.
  { eexists _, _. split; [reflexivity|]. repeat (split; [first [reflexivity|destruct frames; reflexivity]|]). cbn [ax_curves]. split.
    - clear -Le. revert stats colours Le. induction data as [|m data IH]; intros [|s stats] [|c colours] Le; try discriminate; try reflexivity. cbn [combine map firstn len fst snd]. rewrite IH by (cbn in Le; lia). f_equal. unfold histogram. cbn [entry_with se_stats se_t]. cbv zeta. do 2 f_equal; [|f_equal]; clear; induction m as [|x m IH]; try reflexivity; cbn; rewrite IH; reflexivity.
    - clear -Le. revert stats colours Le. induction data as [|m data IH]; intros [|s stats] [|c colours] Le; try discriminate; try reflexivity. cbn [combine map flat_map fst snd]. rewrite IH by (cbn in Le; lia). f_equal. unfold length_curves, across, x_axis. cbn. destruct frames; reflexivity. }
  split; [reflexivity|]. split; [reflexivity|]. split.
  { clear -S Le F. revert data stats l S Le F. induction names as [|n names IH]; intros data stats l S Le F.
    - cbn in S. injection S as <-. exists []. split; [reflexivity|]. split; [reflexivity|]. intros [|i] n0 msgs s X; discriminate.
    - inversion F as [|m s data' stats' C F' E1 E2]; subst; [discriminate|]. cbn [combine map stat_summaries fst snd] in S. destruct (stat_summaries names _) as [k| |] eqn:Sk; cbn [rbind] in S; try discriminate. destruct (IH data' stats' k Sk ltac:(cbn in Le; lia) F') as (bs & -> & Lb & B).
      apply (f_equal (fun r => match r with Ok x => x | _ => l end)) in S. cbv beta iota in S. subst l. eexists (_ :: bs). split; [cbn [concat]; reflexivity|]. split; [cbn; rewrite Lb; reflexivity|]. intros [|i] n0 msgs s0 X1 X2 X3.
      + cbn in X1, X2, X3. injection X1 as <-. injection X2 as <-. injection X3 as <-. eexists. split; [reflexivity|]. exists (mean_retention (map (share_kept m) (seq 0 (len m)))). split; [reflexivity|]. unfold mean_retention. rewrite numbers_flat. cbv zeta. destruct (flat_map _ _) as [|x xs]; reflexivity.
      + apply (B i n0 msgs s0 X1 X2 X3). }
  intros name ty w. destruct save.
  - rewrite in_flat_map. cbn [stat_files combine map fst snd In]. split.
    + intros (t & Ht & Hx). split; [reflexivity|]. destruct Hx as [X|[X|[X|[]]]]; injection X as <- <- <-; (split; [exact Ht|]); auto.
    + intros (_ & Ht & Hx). exists ty. split; [exact Ht|]. destruct Hx as [[-> ->]|[[-> ->]|[-> ->]]]; auto.
  - split; [intros []|intros (X & _); discriminate].
Qed.
End Nan.

(* three messages of a run *)
Definition stat (f : Z) (ids : list Z) : stat_msg := mkSM f (100 + f) 0 9 (5, 4)%Z 2 (7, 6)%Z (3, 2)%Z 1 3 ids.
Definition some_run : list stat_msg := [stat 1 [1; 2; 3]; stat 2 [2; 3; 4]; stat 3 [4]]%Z.
Lemma some_run_ids msgs : In msgs [some_run; some_run] -> msgs <> [] /\ forall m, In m msgs -> sm_ids m <> [].
Proof. intros [<-|[<-|[]]]; (split; [discriminate|]); intros m [<-|[<-|[<-|[]]]]; discriminate. Qed.
Example statistics_case nan frames save close : exists out, stereo_statistics_plot_and_save nan frames save close ["png"%string] default_colours ["a"; "b"]%string [some_run; some_run] = Ok out.
Proof. apply statistics_exactly. split; [exact some_run_ids|]. cbn. lia. Qed.
Example share_case : share_kept some_run 0 = None /\ share_kept some_run 1 = Some (INR 2 / INR 3)%R.
Proof. split; reflexivity. Qed.
(* with frame numbers across, the cell called frame number shows times *)
Theorem frame_number_refuted : ~ forall nan colours names data out w a, stereo_statistics_plot_and_save nan true false false [] colours names data = Ok out -> In w (ou_drawn out) -> In a (fg_axes w) -> ax_y a = "frame number"%string ->
  forall i msgs c, nth_error (combine data colours) i = Some (msgs, c) -> exists cv x, nth_error (ax_curves a) i = Some cv /\ cv_cols cv = [x; map (fun m => IZR (sm_frame m)) msgs].
Proof.
  intros H. destruct (proj2 (statistics_exactly 0%R true false false [] default_colours ["a"; "b"]%string [some_run; some_run])) as [out E]; [split; [exact some_run_ids|cbn; lia]|].
  destruct (statistics_drawn _ _ _ _ _ _ _ _ _ E) as (w1 & w2 & w3 & stats & Dn & _ & [_ S] & _). destruct (S 5 ltac:(lia)) as (a & label & f & A & Ec & _ & _ & Y & _ & C). cbn in Ec. injection Ec as <- <-. destruct (proj2 (A a) eq_refl) as [Ia _].
  destruct (H 0%R _ _ _ _ w1 a E ltac:(rewrite Dn; left; reflexivity) Ia Y 0 some_run _ ltac:(cbn; reflexivity)) as (cv & x & N & Cc). rewrite C in N. cbn in N. injection N as <-. cbn in Cc. injection Cc as _ X _ _. lra.
Qed.
(* and the track lengths are drawn over times while the label says frame *)
Theorem lengths_across_refuted : ~ forall nan colours names data out w a, stereo_statistics_plot_and_save nan true false false [] colours names data = Ok out -> In w (ou_drawn out) -> In a (fg_axes w) -> ax_x a = "frame"%string ->
  forall cv x, In cv (ax_curves a) -> nth_error (cv_cols cv) 0 = Some x -> forall t, In t x -> exists msgs m, In msgs data /\ In m msgs /\ t = IZR (sm_frame m).
Proof.
  intros H. destruct (proj2 (statistics_exactly 0%R true false false [] default_colours ["a"; "b"]%string [some_run; some_run])) as [out E]; [split; [exact some_run_ids|cbn; lia]|].
  destruct (statistics_drawn _ _ _ _ _ _ _ _ _ E) as (w1 & w2 & w3 & stats & Dn & F & _ & _ & S & _). destruct S as (a & b & W & _ & _ & X & _ & _ & _ & _ & _ & C & _). inversion F as [|m1 s1 d1 st1 C1 F1]; subst.
  assert (L : exists n, Z.to_nat (ts_longest s1) = Datatypes.S n). { vm_compute in C1. injection C1 as <-. eexists. reflexivity. } destruct L as [n L].
  assert (Cv : exists cv x rest, In cv (ax_curves a) /\ nth_error (cv_cols cv) 0 = Some (x :: rest) /\ x = (IZR (sm_sec (stat 1 [1; 2; 3]%Z)) + IZR (sm_nsec (stat 1 [1; 2; 3]%Z)) / 1000000000)%R).
  { rewrite C. cbn [default_colours len firstn combine map fst snd]. cbv zeta. rewrite L. eexists _, _, _. split; [left; reflexivity|]. split; [cbn [cv_cols nth_error]; unfold some_run at 1; cbn [flat_map repeat app]; reflexivity|reflexivity]. }
  destruct Cv as (cv & x & rest & Hc & Hx & Ex). destruct (H 0%R _ _ _ _ w3 a E ltac:(rewrite Dn; right; right; left; reflexivity) ltac:(rewrite W; left; reflexivity) X cv _ Hc Hx x (or_introl eq_refl)) as (msgs & m & Hm & Hi & Et). assert (Msg : msgs = some_run) by (destruct Hm as [<-|[<-|[]]]; reflexivity). subst msgs. rewrite Ex in Et. clear -Et Hi. destruct Hi as [<-|[<-|[<-|[]]]]; cbn in Et; lra.
Qed.
(* one message without matches, and there is no figure of anything *)
Theorem no_matches_refuted : ~ forall nan frames colours names data, (forall msgs, In msgs data -> msgs <> []) -> len data <= len colours -> len names = len data -> exists out, stereo_statistics_plot_and_save nan frames false false [] colours names data = Ok out.
Proof.
  intros H. destruct (H 0%R true default_colours ["a"; "b"]%string [some_run; [stat 1 []]]) as [out E]; [intros m [<-|[<-|[]]]; discriminate|cbn; lia|reflexivity|].
  destruct (proj1 (statistics_exactly 0%R true false false [] default_colours _ _) (ex_intro _ out E)) as [A _]. destruct (A _ (or_intror (or_introl eq_refl))) as [_ B]. apply (B _ (or_introl eq_refl)). reflexivity.
Qed.
