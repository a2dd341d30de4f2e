(* Figures of summary statistics: what the windows show. *)
From Coq Require Import String ZArith List Bool Reals Lra Lia.
From Verif Require Import Base Interp Geo EgModel MsModel RoModel BfModel EvModel EcModel EvData FgModel FgSpec FgProofs JgModel JgProofs SgModel SgSpec.
Import ListNotations.
Open Scope nat_scope.
Local Notation len := List.length.

(* ---- the curves of a window ---- *)
Definition ready (zero : bool) (f : nat) (l : list smsg) : Prop := (zero = true -> l <> []) /\ forall m, In m l -> f < len (su_stats m).
Definition numbers (f : nat) (l : list smsg) : list sstat := map (fun m => nth f (su_stats m) no_stat) l.
Lemma nth_res_is {A} (l : list A) n d : nth_res l n = if Nat.ltb n (len l) then Ok (nth n l d) else Throw.
Proof. revert n. induction l as [|a l IH]; intros [|n]; try reflexivity. cbn [nth_res nth len]. rewrite IH. reflexivity. Qed.
Lemma su_nth_ok f l : (forall m, In m l -> f < len (su_stats m)) -> su_nth f l = Ok (numbers f l).
Proof. induction l as [|m l IH]; intros H; [reflexivity|]. cbn [su_nth]. rewrite (nth_res_is _ _ no_stat). rewrite (proj2 (Nat.ltb_lt _ _) (H m (or_introl eq_refl))). cbn [rbind]. rewrite IH by (intros x X; apply H; right; exact X). reflexivity. Qed.
Lemma su_nth_inv f l r : su_nth f l = Ok r -> forall m, In m l -> f < len (su_stats m).
Proof.
  revert r. induction l as [|a l IH]; intros r H m M; [contradiction|]. cbn [su_nth] in H. rewrite (nth_res_is _ _ no_stat) in H. destruct (Nat.ltb_spec f (len (su_stats a))); [|discriminate]. cbn [rbind] in H.
  destruct (su_nth f l) as [r'| |] eqn:E; try discriminate. destruct M as [<-|M]; [assumption|exact (IH r' eq_refl m M)].
Qed.
Definition lines (zero : bool) (f : nat) (lc : list smsg * (Z * Z * Z)) : list (nat * curve) :=
  map (fun x => (fst x, mkCurve Line [map (across zero (fst lc)) (fst lc); map (snd (snd x)) (numbers f (fst lc))] (Colour (snd lc)))) (combine (seq 1 5) su_fields).
Lemma su_curves_ok zero f l c : ready zero f l -> su_curves zero f l c = Ok (flat_map (add_cmds 3) (lines zero f (l, c))).
Proof.
  intros [Z0 H]. unfold su_curves. assert (T : su_times zero l = Ok (map (across zero l) l)).
  { unfold su_times, across. destruct zero; [|reflexivity]. destruct l as [|m l]; [contradiction (Z0 eq_refl eq_refl)|reflexivity]. }
  rewrite T. cbn [rbind]. rewrite (su_nth_ok f l H). cbn [rbind]. reflexivity.
Qed.
Lemma su_curves_inv zero f l c r : su_curves zero f l c = Ok r -> ready zero f l.
Proof.
  unfold su_curves. intros H. destruct (su_times zero l) as [t| |] eqn:T; try discriminate. cbn [rbind] in H. destruct (su_nth f l) as [s| |] eqn:S; try discriminate. split; [|exact (su_nth_inv f l s S)].
  intros -> ->. discriminate T.
Qed.
Definition work (zero : bool) (f : nat) (data : list (list smsg)) (colours : list (Z * Z * Z)) : list (nat * curve) := flat_map (lines zero f) (combine data colours).
Lemma su_all_ok zero f data : forall colours, len data <= len colours -> (forall l, In l data -> ready zero f l) -> su_all zero f data colours = Ok (flat_map (add_cmds 3) (work zero f data colours)).
Proof.
  induction data as [|l data IH]; intros [|c colours] L H; try reflexivity; [cbn in L; lia|]. cbn [su_all]. rewrite (su_curves_ok zero f l c) by (apply H; left; reflexivity). cbn [rbind]. rewrite IH; [|cbn in L; lia|intros x X; apply H; right; exact X].
  cbn [rbind]. unfold work. cbn [combine flat_map]. rewrite flat_map_app. reflexivity.
Qed.
Lemma su_all_inv zero f data : forall colours r, su_all zero f data colours = Ok r -> len data <= len colours /\ forall l, In l data -> ready zero f l.
Proof.
  induction data as [|l data IH]; intros [|c colours] r H; try discriminate; try (cbn; split; [lia|intros ? []]). cbn [su_all] in H. destruct (su_curves zero f l c) as [a| |] eqn:A; try discriminate. cbn [rbind] in H. destruct (su_all zero f data colours) as [b| |] eqn:E; try discriminate.
  destruct (IH _ _ E) as [I1 I2]. split; [cbn; lia|]. intros x [<-|X]; [exact (su_curves_inv _ _ _ _ _ A)|exact (I2 x X)].
Qed.

(* ---- one window ---- *)
Definition body (zero : bool) (f : nat) (data : list (list smsg)) (colours : list (Z * Z * Z)) : list cmd :=
  flat_map (fun x => [Subplot 2 3 (fst x); XLabel "t (s)"; YLabel (snd x)]) (combine (seq 1 5) (map fst su_fields)) ++ flat_map (add_cmds 3) (work zero f data colours).
Definition window (zero : bool) (f : nat) (label : string) (data : list (list smsg)) (colours : list (Z * Z * Z)) : figure := fxs (body zero f data colours) (started (label ^^ " Statistics") (label ^^ " Statistics")).
Lemma picked zero f i data colours : 1 <= i <= 5 -> map snd (filter (fun x => Nat.eqb (fst x) i) (work zero f data colours)) =
  map (fun lc => mkCurve Line [map (across zero (fst lc)) (fst lc); map (fun m => cell_number i (nth f (su_stats m) no_stat)) (fst lc)] (Colour (snd lc))) (combine data colours).
Proof.
  intros I. unfold work. induction (combine data colours) as [|lc r IH]; [reflexivity|]. cbn [flat_map map]. rewrite filter_app, map_app, IH.
  assert (E : map snd (filter (fun x => Nat.eqb (fst x) i) (lines zero f lc)) = [mkCurve Line [map (across zero (fst lc)) (fst lc); map (fun m => cell_number i (nth f (su_stats m) no_stat)) (fst lc)] (Colour (snd lc))]).
  { assert (C : i = 1 \/ i = 2 \/ i = 3 \/ i = 4 \/ i = 5) by lia. unfold lines, numbers, su_fields. destruct C as [->|[->|[->|[->| ->]]]]; cbn [seq combine map fst snd filter Nat.eqb cell_number]; rewrite map_map; reflexivity. }
  rewrite E. reflexivity.
Qed.
Lemma work_cells zero f data colours x : In x (work zero f data colours) -> 1 <= fst x <= 5.
Proof. intros H. apply in_flat_map in H. destruct H as (lc & _ & H). cbn in H. repeat (destruct H as [<-|H]; [cbn; lia|]). contradiction. Qed.
Lemma window_shows zero f label data colours : summary_shows (window zero f label data colours) zero f label data colours.
Proof.
  unfold window, body. rewrite fxs_app. set (nm := (label ^^ " Statistics")%string).
  destruct (frame_is nm nm 3 "t (s)" (map fst su_fields)) as (g & cur & E & P & F); [discriminate|]. change (len (map fst su_fields)) with 5 in *. rewrite E.
  destruct (curves_added nm 3 5 (work zero f data colours) (work_cells zero f data colours) g cur P) as (g' & cur' & E' & P' & F'). rewrite E'. split; [reflexivity|]. split; [unfold W; cbn [fg_axes]; rewrite map_length, seq_length; reflexivity|].
  intros i I. exists (g' i). destruct (F' i) as ((D1 & D2 & D3 & D4 & D5) & C). rewrite (F i I) in D2, D3, D5, C. split.
  - intros x. unfold W. cbn [fg_axes]. split.
    + intros [X Y]. apply in_map_iff in X. destruct X as (j & <- & _). rewrite P' in Y. injection Y as ->. reflexivity.
    + intros ->. split; [apply in_map, in_seq; lia|apply P'].
  - split; [exact D2|]. split; [rewrite D3; unfold cell_axes, cell_name; reflexivity|]. split; [exact D5|]. rewrite C, (picked zero f i data colours I). reflexivity.
Qed.
Lemma body_inner zero f data colours : forallb inner (body zero f data colours) = true.
Proof. unfold body. rewrite forallb_app. apply andb_true_iff. split; [reflexivity|]. apply inner_flat. intros a. reflexivity. Qed.
Lemma body_accepted zero f data colours : forallb accepted (body zero f data colours) = true.
Proof.
  unfold body. rewrite forallb_app. apply andb_true_iff. split; [reflexivity|]. unfold work. induction (combine data colours) as [|lc r IH]; [reflexivity|]. cbn [flat_map]. rewrite flat_map_app, forallb_app, IH, andb_true_r.
  unfold lines, numbers. cbn. rewrite !map_length, Nat.eqb_refl. reflexivity.
Qed.

(* ---- all windows ---- *)
Definition all_ready (zero : bool) (n : nat) (data : list (list smsg)) (colours : list (Z * Z * Z)) : Prop := 
  len data <= len colours /\ forall l, In l data -> (zero = true -> l <> []) /\ forall m, In m l -> n <= len (su_stats m).
Definition opened (zero : bool) (f : nat) (x : string) (data : list (list smsg)) (colours : list (Z * Z * Z)) : list cmd := [NewFigure (x ^^ " Statistics"); SetFigure f; Title (x ^^ " Statistics")] ++ body zero f data colours.
Fixpoint windows_from (zero : bool) (data : list (list smsg)) (colours : list (Z * Z * Z)) (f : nat) (labels : list string) : list figure :=
  match labels with [] => [] | x :: labels => window zero f x data colours :: windows_from zero data colours (S f) labels end.
Lemma on_nth_last {A} (g : A -> A) l a : on_nth g (len l) (l ++ [a]) = l ++ [g a]. Proof. induction l; cbn; congruence. Qed.
Lemma opened_effects zero x data colours figs cur : effects (opened zero (len figs) x data colours) (mkScreen figs cur) = mkScreen (figs ++ [window zero (len figs) x data colours]) (len figs).
Proof.
  unfold opened. rewrite effects_app. unfold effects at 2. cbn [fold_left effect sc_figs]. unfold on_figure. cbn [sc_figs sc_current]. rewrite on_nth_last. rewrite (inner_effects _ _ _ (body_inner zero (len figs) data colours)), on_nth_last. reflexivity.
Qed.
Lemma figures_ok zero data colours labels : forall figs cur, (labels <> [] -> all_ready zero (len figs + len labels) data colours) ->
  exists l k, su_figures zero data colours (len figs) labels = Ok l /\ forallb accepted l = true /\ effects l (mkScreen figs cur) = mkScreen (figs ++ windows_from zero data colours (len figs) labels) k.
Proof.
  induction labels as [|x labels IH]; intros figs cur H.
  - exists [], cur. cbn. rewrite app_nil_r. repeat split.
  - destruct (H ltac:(discriminate)) as [HC HD]. cbn [len] in HD. cbn [su_figures windows_from]. rewrite su_all_ok; [|exact HC|intros l L; destruct (HD l L) as [A A']; split; [exact A|intros m M; specialize (A' m M); lia]]. cbn [rbind].
    destruct (IH (figs ++ [window zero (len figs) x data colours]) (len figs)) as (l & k & E & A & F); [intros _; split; [exact HC|]; intros l L; destruct (HD l L) as [B B']; split; [exact B|]; intros m M; specialize (B' m M); rewrite app_length; cbn; lia|].
    rewrite app_length in E, F. cbn [len] in E, F. replace (len figs + 1) with (S (len figs)) in E, F by lia. rewrite E. cbn [rbind]. eexists. exists k. split; [reflexivity|].
    assert (O : su_frame (len figs) x ++ flat_map (add_cmds 3) (work zero (len figs) data colours) = opened zero (len figs) x data colours) by (unfold su_frame, opened, body; rewrite !app_assoc; reflexivity).
    rewrite O. split.
    + rewrite forallb_app, A, andb_true_r. unfold opened. rewrite forallb_app, body_accepted. reflexivity.
    + rewrite effects_app, opened_effects, F, <- app_assoc. reflexivity.
Qed.
Lemma figures_inv zero data colours labels : forall f l, su_figures zero data colours f labels = Ok l -> labels <> [] -> all_ready zero (f + len labels) data colours.
Proof.
  induction labels as [|x labels IH]; intros f l H N; [contradiction|]. cbn [su_figures] in H. destruct (su_all zero f data colours) as [a| |] eqn:A; try discriminate. cbn [rbind] in H. destruct (su_figures zero data colours (S f) labels) as [b| |] eqn:E; try discriminate.
  destruct (su_all_inv _ _ _ _ _ A) as [C R]. split; [exact C|]. intros d D. destruct (R d D) as [R1 R2]. split; [exact R1|]. intros m M. destruct labels as [|y labels]; [cbn; specialize (R2 m M); lia|].
  destruct (IH _ _ E ltac:(discriminate)) as [_ I]. destruct (I d D) as [_ I']. specialize (I' m M). cbn [len] in *. lia.
Qed.
Definition first_labels (data : list (list smsg)) : option (list string) := match data with (m :: _) :: _ => Some (map ss_label (su_stats m)) | _ => None end.
Lemma plot_ok zero colours data labels : first_labels data = Some labels -> (labels <> [] -> all_ready zero (len labels) data colours) -> plot_summary_statistics zero colours data = Ok (windows_from zero data colours 0 labels).
Proof.
  intros FL H. unfold plot_summary_statistics. destruct data as [|[|m l0] data0] eqn:D; try discriminate. cbn [first_labels] in FL. injection FL as <-.
  destruct (figures_ok zero ((m :: l0) :: data0) colours (map ss_label (su_stats m)) [] 0 H) as (l & k & E & A & F). cbn [len] in E. rewrite E. cbn [rbind]. unfold screen0. rewrite (run_ok _ _ A), F. reflexivity.
Qed.
(* the windows are made exactly when there is a first message and, if it has statistics, enough colours, no fewer statistics in any message, and, when times count from zero, messages in every list *)
Theorem summary_exactly zero colours data : (exists figs, plot_summary_statistics zero colours data = Ok figs) <->
  exists m l more, data = (m :: l) :: more /\ (su_stats m <> [] -> len data <= len colours /\ forall d, In d data -> (zero = true -> d <> []) /\ forall x, In x d -> len (su_stats m) <= len (su_stats x)).
Proof.
  split.
  - intros [figs H]. unfold plot_summary_statistics in H. destruct data as [|[|m l] more]; try discriminate. exists m, l, more. split; [reflexivity|]. intros N. destruct (su_figures _ _ _ _ _) as [c| |] eqn:E; try discriminate.
    apply figures_inv in E; [|destruct (su_stats m); [contradiction|discriminate]]. cbn [plus] in E. unfold all_ready in E. rewrite map_length in E. exact E.
  - intros (m & l & more & -> & H). exists (windows_from zero ((m :: l) :: more) colours 0 (map ss_label (su_stats m))). apply plot_ok; [reflexivity|]. intros N. unfold all_ready. rewrite map_length. apply H. intros E. apply N. rewrite E. reflexivity.
Qed.
Lemma windows_nth zero data colours labels : forall f i x, nth_error labels i = Some x -> nth_error (windows_from zero data colours f labels) i = Some (window zero (f + i) x data colours).
Proof. induction labels as [|y labels IH]; intros f [|i] x H; try discriminate; cbn [nth_error windows_from] in *; [injection H as <-; rewrite Nat.add_0_r; reflexivity|]. rewrite (IH (S f) i x H). replace (S f + i) with (f + S i) by lia. reflexivity. Qed.
Lemma windows_length zero data colours labels : forall f, len (windows_from zero data colours f labels) = len labels. Proof. induction labels as [|y labels IH]; intros f; [reflexivity|]. cbn [windows_from List.length]. rewrite IH. reflexivity. Qed.
(* one window for each statistic of the first message, showing that statistic of all messages *)
Theorem summary_drawn zero colours m l more figs : plot_summary_statistics zero colours ((m :: l) :: more) = Ok figs ->
  len figs = len (su_stats m) /\ forall f s, nth_error (su_stats m) f = Some s -> exists w, nth_error figs f = Some w /\ summary_shows w zero f (ss_label s) ((m :: l) :: more) colours.
Proof.
  intros H. assert (R : map ss_label (su_stats m) <> [] -> all_ready zero (len (map ss_label (su_stats m))) ((m :: l) :: more) colours).
  { intros N. destruct (proj1 (summary_exactly zero colours ((m :: l) :: more)) (ex_intro _ _ H)) as (m' & l' & more' & E & A). injection E as <- <- <-. unfold all_ready. rewrite map_length. apply A. intros E. apply N. rewrite E. reflexivity. }
  rewrite (plot_ok zero colours ((m :: l) :: more) _ eq_refl R) in H. injection H as <-. split; [rewrite windows_length, map_length; reflexivity|].
  intros f s S. eexists. split; [apply windows_nth; apply map_nth_error; exact S|apply window_shows].
Qed.
