(* Figures of the Jacobians: the windows as a whole, saving and closing. *)
From Coq Require Import String ZArith List Bool Reals Lra Lia.
From Verif Require Import Base Interp Geo EgModel MsModel RoModel BfModel EvModel EcModel EvData FgModel FgSpec FgProofs JgModel JgSpec JgProofs.
Import ListNotations.
Open Scope nat_scope.
Local Notation len := List.length.

Definition entry_of (d : nat) (m : list (list R)) : jac_entry := mkJE d m (map (map Rabs) m) (map (map (fun x => (x * x)%R)) m).
Lemma entries_are d data : of_dimension d data -> jacobian_entries data = Ok (map (entry_of d) data).
Proof.
  intros [_ H]. induction data as [|m data IH]; [reflexivity|]. cbn [jacobian_entries map]. destruct (H m (or_introl eq_refl)) as [N D]. assert (E : jacobian_entry m = Ok (entry_of d m)).
  { unfold jacobian_entry. destruct m as [|r m']; [congruence|]. rewrite (D r (or_introl eq_refl)). assert (F : forallb (fun x => Nat.eqb (len x) d) (r :: m') = true) by (apply forallb_forall; intros x Hx; apply Nat.eqb_eq, D, Hx). rewrite F. reflexivity. }
  rewrite E. cbn [rbind]. rewrite IH by (intros x Hx; apply H; right; exact Hx). reflexivity.
Qed.
Definition cv (k : nat) (ec : jac_entry * (Z * Z * Z)) (j : nat) : curve := over_index (column (match k with O => je_rows (fst ec) | 1 => je_abs (fst ec) | _ => je_sq (fst ec) end) j) (snd ec).
Definition work (d k : nat) (l : list (jac_entry * (Z * Z * Z))) : list (nat * curve) := flat_map (fun ec => map (fun j => (j, cv k ec j)) (seq 1 d)) l.
Lemma interleaved c ec js : forall w1 w2 w3, effects (flat_map (fun j => [SetFigure 0; Subplot 2 c j; HoldOn; Draw (cv 0 ec j); SetFigure 1; Subplot 2 c j; HoldOn; Draw (cv 1 ec j); SetFigure 2; Subplot 2 c j; HoldOn; Draw (cv 2 ec j)]) js) (mkScreen [w1; w2; w3] 2) =
  mkScreen [fxs (flat_map (add_cmds c) (map (fun j => (j, cv 0 ec j)) js)) w1; fxs (flat_map (add_cmds c) (map (fun j => (j, cv 1 ec j)) js)) w2; fxs (flat_map (add_cmds c) (map (fun j => (j, cv 2 ec j)) js)) w3] 2.
Proof. induction js as [|j js IH]; intros w1 w2 w3; [reflexivity|]. cbn [flat_map map]. rewrite effects_app, !fxs_app. rewrite <- IH. reflexivity. Qed.
Lemma all_curves c d l : (forall ec, In ec l -> je_dim (fst ec) = d) -> forall w1 w2 w3, effects (flat_map (fun ec => jac_curves c (fst ec) (snd ec)) l) (mkScreen [w1; w2; w3] 2) =
  mkScreen [fxs (flat_map (add_cmds c) (work d 0 l)) w1; fxs (flat_map (add_cmds c) (work d 1 l)) w2; fxs (flat_map (add_cmds c) (work d 2 l)) w3] 2.
Proof.
  induction l as [|ec l IH]; intros H w1 w2 w3; [reflexivity|]. unfold work in *. cbn [flat_map]. rewrite !flat_map_app, !effects_app, !fxs_app. rewrite <- IH by (intros x Hx; apply H; right; exact Hx). f_equal. unfold jac_curves. rewrite (H ec (or_introl eq_refl)). apply interleaved.
Qed.
Lemma pick_one {B} (g : nat -> B) i : forall n s, s <= i < s + n -> map snd (filter (fun x => Nat.eqb (fst x) i) (map (fun j => (j, g j)) (seq s n))) = [g i].
Proof.
  assert (Z0 : forall n s, i < s -> filter (fun x => Nat.eqb (fst x) i) (map (fun j => (j, g j)) (seq s n)) = []). { induction n as [|n IH]; intros s H; [reflexivity|]. cbn. destruct (Nat.eqb_spec s i); [lia|]. apply IH. lia. }
  induction n as [|n IH]; intros s H; [lia|]. cbn. destruct (Nat.eqb_spec s i) as [->|N]; [cbn; rewrite Z0 by lia; reflexivity|]. apply IH. lia.
Qed.
Lemma work_at d k l i : 1 <= i <= d -> map snd (filter (fun x => Nat.eqb (fst x) i) (work d k l)) = map (fun ec => cv k ec i) l.
Proof. intros Hi. unfold work. induction l as [|ec l IH]; [reflexivity|]. cbn [flat_map map]. rewrite filter_app, map_app, IH, pick_one by lia. reflexivity. Qed.
Lemma work_in d k l x : In x (work d k l) -> 1 <= fst x <= d.
Proof. unfold work. intros H. apply in_flat_map in H. destruct H as (ec & _ & H). apply in_map_iff in H. destruct H as (j & <- & H). apply in_seq in H. cbn. lia. Qed.

Lemma half_up_fits d : d <= 2 * half_up d.
Proof. unfold half_up. pose proof (Nat.div_mod (d + 1) 2 ltac:(lia)). pose proof (Nat.mod_upper_bound (d + 1) 2 ltac:(lia)). lia. Qed.
Lemma frames_accepted c x row : len row <= 2 * c -> forallb accepted (flat_map (fun y => [Subplot 2 c (fst y); XLabel x; YLabel (snd y)]) (combine (seq 1 (len row)) row)) = true.
Proof.
  intros H. apply forallb_forall. intros y Hy. apply in_flat_map in Hy. destruct Hy as ([i s] & Hi & Hy). apply in_combine_l in Hi. apply in_seq in Hi. destruct Hy as [<-|[<-|[<-|[]]]]; try reflexivity. cbn [accepted fst]. apply andb_true_intro. split; apply Nat.leb_le; lia.
Qed.
Lemma curves_accepted c d e col : je_dim e = d -> d <= 2 * c -> forallb accepted (jac_curves c e col) = true.
Proof.
  intros D H. unfold jac_curves. rewrite D. apply forallb_forall. intros y Hy. apply in_flat_map in Hy. destruct Hy as (j & Hj & Hy). apply in_seq in Hj. assert (S : Nat.leb 1 j && Nat.leb j (2 * c) = true) by (apply andb_true_intro; split; apply Nat.leb_le; lia). assert (K : forall l, accepted (Draw (over_index l col)) = true) by (intros l; cbn; rewrite map_length, seq_length, Nat.eqb_refl; reflexivity).
  cbn [In] in Hy. repeat match type of Hy with _ \/ _ => destruct Hy as [Hy|Hy] end; try contradiction; subst y; try reflexivity; try exact S; apply K.
Qed.
Lemma label_rows labels k n : 0 < n -> label_row labels k n = match nth_error labels k with Some row => if Nat.leb n (len row) then Ok (firstn n row) else Throw | None => Throw end.
Proof.
  intros H. unfold label_row. destruct n as [|n]; [lia|]. assert (E : nth_res labels k = match nth_error labels k with Some r => Ok r | None => Throw end). { clear. revert k. induction labels as [|r l IH]; intros [|k]; cbn; try reflexivity. apply IH. } rewrite E. destruct (nth_error labels k); reflexivity.
Qed.
Lemma column_measure d k m j c : cv k (entry_of d m, c) j = mkCurve Line [map INR (seq 1 (len m)); map (fun r => measure k (nth (j - 1) r 0%R)) m] (Colour c).
Proof.
  unfold cv, over_index, column. cbn [fst snd entry_of je_rows je_abs je_sq]. assert (Z2 : forall r, nth (j - 1) (map (fun x => (x * x)%R) r) 0%R = (nth (j - 1) r 0 * nth (j - 1) r 0)%R) by (intros r; rewrite <- (map_nth (fun x => (x * x)%R)); f_equal; ring). assert (Z1 : forall r, nth (j - 1) (map Rabs r) 0%R = Rabs (nth (j - 1) r 0%R)) by (intros r; rewrite <- (map_nth Rabs), Rabs_R0; reflexivity).
  destruct k as [|[|k]]; rewrite !map_length; [reflexivity| |]; rewrite map_map; cbn [measure]; (do 3 f_equal); apply map_ext; [exact Z1|exact Z2].
Qed.
Lemma the_axes_W name r c f n cur i : placed r c f -> 1 <= i <= n -> the_axes (W name f n cur) (Cell r c i) (f i).
Proof.
  intros P Hi x. unfold W. cbn [fg_axes]. rewrite in_map_iff. split.
  - intros [(j & <- & Hj) E]. rewrite P in E. injection E as ->. reflexivity.
  - intros ->. split; [exists i; split; [reflexivity|apply in_seq; lia]|apply P].
Qed.
Lemma columns_shown d k i data : forall colours, map (fun ec => cv k ec i) (combine (map (entry_of d) data) colours) = map (fun mc : list (list R) * (Z * Z * Z) => mkCurve Line [map INR (seq 1 (len (fst mc))); map (fun m => measure k (nth (i - 1) m 0%R)) (fst mc)] (Colour (snd mc))) (combine data colours).
Proof. induction data as [|m data IH]; intros [|c colours]; try reflexivity. cbn [map combine]. rewrite IH, column_measure. reflexivity. Qed.
Lemma on_nth_last {A} (f : A -> A) l a : on_nth f (len l) (l ++ [a]) = l ++ [f a].
Proof. induction l as [|x l IH]; [reflexivity|]. cbn. rewrite IH. reflexivity. Qed.

Section Windows.
Variables (labels : list (list string)) (colours : list (Z * Z * Z)) (names : list string) (d : nat) (data : list (list (list R))).
Hypothesis D0 : 0 < d.
Hypothesis D : of_dimension d data.
Let es := map (entry_of d) data.

Lemma drawn_parts figs : plot_jacobian labels colours names es = Ok figs ->
  len data <= len colours /\ exists r1 r2 r3, label_row labels 0 d = Ok r1 /\ label_row labels 1 d = Ok r2 /\ label_row labels 2 d = Ok r3 /\
  figs = sc_figs (effects (jac_frame 0 "Jacobian" d r1 ++ jac_frame 1 "Absolute Value Jacobian" d r2 ++ jac_frame 2 "Squared Jacobian" d r3 ++ flat_map (fun ec => jac_curves (half_up d) (fst ec) (snd ec)) (combine es colours) ++ jac_legend (half_up d) d names) screen0).
Proof.
  intros H. unfold plot_jacobian in H. assert (A : forall e, In e es -> je_dim e = d) by (intros e He; unfold es in He; apply in_map_iff in He; destruct He as (m & <- & _); reflexivity). assert (Le : len es = len data) by apply map_length. clearbody es. destruct es as [|e1 es']; [discriminate|].
  assert (DL : je_dim (last (e1 :: es') e1) = d). { apply A. rewrite (app_removelast_last e1 (l := e1 :: es')) at 2 by discriminate. apply in_or_app. right. left. reflexivity. }
  rewrite DL in H. cbv zeta in H. rewrite (A e1 (or_introl eq_refl)) in H. destruct (label_row labels 0 d) as [r1| |]; cbn [rbind] in H; try discriminate. destruct (label_row labels 1 d) as [r2| |]; cbn [rbind] in H; try discriminate. destruct (label_row labels 2 d) as [r3| |]; cbn [rbind] in H; try discriminate.
  rewrite with_colours_is in H. destruct (Nat.leb _ _) eqn:L; cbn [rbind] in H; [|discriminate]. destruct (run _ screen0) as [s| |] eqn:R; cbn [rbind] in H; try discriminate. apply run_inv in R. destruct R as [_ ->]. apply Nat.leb_le in L. split; [lia|]. exists r1, r2, r3. repeat (split; [reflexivity|]). apply (f_equal (fun r => match r with Ok x => x | _ => figs end)) in H. cbv beta iota in H. symmetry. exact H.
Qed.
Lemma drawn_when r1 r2 r3 : len data <= len colours -> label_row labels 0 d = Ok r1 -> label_row labels 1 d = Ok r2 -> label_row labels 2 d = Ok r3 -> len r1 = d -> len r2 = d -> len r3 = d -> exists figs, plot_jacobian labels colours names es = Ok figs.
Proof.
  intros L E1 E2 E3 L1 L2 L3. assert (A : forall e, In e es -> je_dim e = d) by (intros e He; unfold es in He; apply in_map_iff in He; destruct He as (m & <- & _); reflexivity). assert (Le : len es = len data) by apply map_length. assert (Ne : es <> []) by (intros X; rewrite X in Le; destruct D as [N _]; destruct data; [congruence|discriminate]). clearbody es. unfold plot_jacobian. destruct es as [|e1 es']; [congruence|].
  assert (DL : je_dim (last (e1 :: es') e1) = d). { apply A. rewrite (app_removelast_last e1 (l := e1 :: es')) at 2 by discriminate. apply in_or_app. right. left. reflexivity. }
  rewrite DL. cbv zeta. rewrite (A e1 (or_introl eq_refl)), E1, E2, E3. cbn [rbind]. rewrite with_colours_is. assert (Lb : Nat.leb (len (e1 :: es')) (len colours) = true) by (apply Nat.leb_le; lia). rewrite Lb. cbn [rbind]. rewrite run_ok; [eexists; reflexivity|].
  pose proof (half_up_fits d) as Hf. rewrite !forallb_app. unfold jac_frame. rewrite !forallb_app. assert (Fa : forall r, len r = d -> forallb accepted (flat_map (fun y => [Subplot 2 (half_up d) (fst y); XLabel "idx"; YLabel (snd y)]) (combine (seq 1 d) r)) = true) by (intros r Lr; pose proof (frames_accepted (half_up d) "idx" r ltac:(lia)) as X; rewrite Lr in X; exact X). rewrite (Fa r1 L1), (Fa r2 L2), (Fa r3 L3). cbn [forallb accepted andb]. apply andb_true_intro. split.
  - apply forallb_forall. intros y Hy. apply in_flat_map in Hy. destruct Hy as ([e c] & He & Hy). apply in_combine_l in He. pose proof (curves_accepted (half_up d) d e c (A e He) Hf) as F. rewrite forallb_forall in F. apply F. exact Hy.
  - apply forallb_forall. intros y Hy. unfold jac_legend in Hy. apply in_flat_map in Hy. destruct Hy as (j & Hj & Hy). apply in_seq in Hj. destruct Hy as [<-|[<-|[]]]; [|reflexivity]. cbn [accepted]. apply andb_true_intro. split; apply Nat.leb_le; lia.
Qed.
Lemma row_given k r : label_row labels k d = Ok r -> len r = d /\ forall i, 1 <= i <= d -> given_label labels k i = Some (nth (i - 1) r ""%string).
Proof.
  intros H. rewrite label_rows in H by exact D0. unfold given_label. destruct (nth_error labels k) as [row|]; [|discriminate]. destruct (Nat.leb _ _) eqn:L; [|discriminate]. apply Nat.leb_le in L. injection H as <-. split; [rewrite firstn_length; lia|]. intros i Hi. rewrite <- (firstn_skipn d row) at 1. rewrite nth_error_app1 by (rewrite firstn_length; lia). apply nth_error_nth'. rewrite firstn_length. lia.
Qed.
Lemma one_window name k r (legend : list string) (lg : list cmd) : label_row labels k d = Ok r -> lg = [] /\ legend = [] \/ lg = jac_legend (half_up d) d names /\ legend = names ->
  jacobian_shows (fxs lg (fxs (flat_map (add_cmds (half_up d)) (work d k (combine es colours))) (fxs (flat_map (fun y => [Subplot 2 (half_up d) (fst y); XLabel "idx"; YLabel (snd y)]) (combine (seq 1 d) r)) (started name name))))
    d k (given_label labels k) legend data colours /\
  fg_name (fxs lg (fxs (flat_map (add_cmds (half_up d)) (work d k (combine es colours))) (fxs (flat_map (fun y => [Subplot 2 (half_up d) (fst y); XLabel "idx"; YLabel (snd y)]) (combine (seq 1 d) r)) (started name name)))) = name.
Proof.
  intros Hr Hl. destruct (row_given k r Hr) as [Lr Gl]. assert (Nr : r <> []) by (intros ->; cbn in Lr; lia). destruct (frame_is name name (half_up d) "idx" r Nr) as (f & cur & E & P & F). rewrite Lr in E, F. rewrite E. clear E.
  destruct (curves_added name (half_up d) d (work d k (combine es colours)) (work_in d k _) f cur P) as (g & cur2 & E & P2 & F2). rewrite E. clear E.
  assert (X : exists h cur3, fxs lg (W name g d cur2) = W name h d cur3 /\ placed 2 (half_up d) h /\ forall i, 1 <= i <= d -> ax_x (h i) = ax_x (g i) /\ ax_y (h i) = ax_y (g i) /\ ax_curves (h i) = ax_curves (g i) /\ ax_legend (h i) = legend).
  { destruct Hl as [[-> ->]|[-> ->]].
    - exists g, cur2. split; [reflexivity|]. split; [exact P2|]. intros i Hi. destruct (F2 i) as ((_ & _ & _ & _ & Q) & _). repeat (split; [reflexivity|]). rewrite Q, F by exact Hi. reflexivity.
    - destruct (legends_added name (half_up d) d names (seq 1 d) ltac:(intros i Hi; apply in_seq in Hi; lia) g cur2 P2) as (h & cur3 & E & P3 & F3). exists h, cur3. split; [exact E|]. split; [exact P3|]. intros i Hi. destruct (F3 i) as (_ & A2 & A3 & A4 & A5). repeat (split; [assumption|]). rewrite A5. assert (Ex : existsb (Nat.eqb i) (seq 1 d) = true) by (apply existsb_exists; exists i; split; [apply in_seq; lia|apply Nat.eqb_refl]). rewrite Ex. reflexivity. }
  destruct X as (h & cur3 & -> & P3 & F3). split; [|reflexivity]. split; [unfold W; cbn; rewrite map_length, seq_length; reflexivity|]. intros i Hi. exists (h i), (nth (i - 1) r ""%string), (half_up d). destruct (F3 i Hi) as (A1 & A2 & A3 & A4). destruct (F2 i) as ((_ & B1 & B2 & _ & _) & B3). split; [apply the_axes_W; assumption|]. split; [apply half_up_fits|].
  split; [rewrite A1, B1, F by exact Hi; reflexivity|]. split; [apply Gl, Hi|]. split; [rewrite A2, B2, F by exact Hi; reflexivity|]. split; [exact A4|]. rewrite A3, B3, F by exact Hi. cbn [cell_axes ax_curves app]. rewrite work_at by exact Hi. unfold es. apply columns_shown.
Qed.
Lemma frame_effects k name r figs : len figs = k -> effects (jac_frame k name d r) (mkScreen figs (k - 1)) = mkScreen (figs ++ [fxs (flat_map (fun y => [Subplot 2 (half_up d) (fst y); XLabel "idx"; YLabel (snd y)]) (combine (seq 1 d) r)) (started name name)]) k.
Proof.
  intros Lk. unfold jac_frame. rewrite effects_app. assert (X : effects [NewFigure name; SetFigure k; Title name] (mkScreen figs (k - 1)) = mkScreen (figs ++ [started name name]) k).
  { unfold effects. cbn [fold_left effect]. cbn [sc_figs]. unfold on_figure. cbn [sc_current sc_figs]. f_equal. rewrite <- Lk, on_nth_last. reflexivity. }
  rewrite X, inner_effects by (apply inner_flat; reflexivity). f_equal. rewrite <- Lk. apply on_nth_last.
Qed.
Theorem windows_drawn figs : plot_jacobian labels colours names es = Ok figs -> exists w1 w2 w3, figs = [w1; w2; w3] /\ fg_name w1 = "Jacobian"%string /\ fg_name w2 = "Absolute Value Jacobian"%string /\ fg_name w3 = "Squared Jacobian"%string /\
  jacobian_shows w1 d 0 (given_label labels 0) [] data colours /\ jacobian_shows w2 d 1 (given_label labels 1) [] data colours /\ jacobian_shows w3 d 2 (given_label labels 2) names data colours.
Proof.
  intros H. apply drawn_parts in H. destruct H as (L & r1 & r2 & r3 & E1 & E2 & E3 & ->). rewrite !effects_app. change screen0 with (mkScreen [] (0 - 1)). rewrite (frame_effects 0) by reflexivity. change 0 with (1 - 1) at 4. cbn [app].
  rewrite (frame_effects 1 _ r2 [_]) by reflexivity. cbn [app]. change (mkScreen ?l 1) with (mkScreen l (2 - 1)). rewrite (frame_effects 2 _ r3 [_; _]) by reflexivity. cbn [app].
  rewrite (all_curves (half_up d) d) by (intros [e c] Hi; apply in_combine_l in Hi; unfold es in Hi; apply in_map_iff in Hi; destruct Hi as (m & <- & _); reflexivity). rewrite inner_effects by (apply inner_flat; reflexivity). cbn [on_nth sc_figs].
  destruct (one_window "Jacobian" 0 r1 [] [] E1 (or_introl (conj eq_refl eq_refl))) as [S1 N1]. destruct (one_window "Absolute Value Jacobian" 1 r2 [] [] E2 (or_introl (conj eq_refl eq_refl))) as [S2 N2]. destruct (one_window "Squared Jacobian" 2 r3 names _ E3 (or_intror (conj eq_refl eq_refl))) as [S3 N3].
  eexists _, _, _. split; [reflexivity|]. split; [exact N1|]. split; [exact N2|]. split; [exact N3|]. split; [exact S1|]. split; [exact S2|exact S3].
Qed.
End Windows.

Theorem jacobians_exactly save close types labels colours names d data : 0 < d -> of_dimension d data ->
  (exists out, plot_and_save_jacobians save close types labels colours names data = Ok out) <-> len data <= len colours /\ forall k i, k < 3 -> 1 <= i <= d -> given_label labels k i <> None.
Proof.
  intros D0 D. unfold plot_and_save_jacobians. rewrite (entries_are d data D). cbn [rbind]. split.
  - intros [out H]. destruct (plot_jacobian _ _ _ _) as [figs| |] eqn:E; cbn [rbind] in H; try discriminate. apply drawn_parts in E; [|exact D0]. destruct E as (L & r1 & r2 & r3 & E1 & E2 & E3 & _). split; [exact L|]. intros k i Hk Hi. destruct k as [|[|[|k]]]; [rewrite (proj2 (row_given labels d D0 0 r1 E1) i Hi)|rewrite (proj2 (row_given labels d D0 1 r2 E2) i Hi)|rewrite (proj2 (row_given labels d D0 2 r3 E3) i Hi)|lia]; discriminate.
  - intros [L G]. assert (R : forall k, k < 3 -> exists r, label_row labels k d = Ok r /\ len r = d). { intros k Hk. rewrite label_rows by exact D0. specialize (G k d Hk ltac:(lia)). unfold given_label in G. destruct (nth_error labels k) as [row|]; [|congruence]. apply nth_error_Some in G. assert (Lb : Nat.leb d (len row) = true) by (apply Nat.leb_le; lia). rewrite Lb. exists (firstn d row). split; [reflexivity|]. rewrite firstn_length. lia. }
    destruct (R 0 ltac:(lia)) as (r1 & E1 & L1). destruct (R 1 ltac:(lia)) as (r2 & E2 & L2). destruct (R 2 ltac:(lia)) as (r3 & E3 & L3). destruct (drawn_when labels colours names d data D0 D r1 r2 r3 L E1 E2 E3 L1 L2 L3) as [figs ->]. cbn [rbind]. eexists. reflexivity.
Qed.
Theorem jacobians_drawn save close types labels colours names d data out : 0 < d -> of_dimension d data -> plot_and_save_jacobians save close types labels colours names data = Ok out ->
  exists w1 w2 w3, jo_drawn out = [w1; w2; w3] /\ fg_name w1 = "Jacobian"%string /\ fg_name w2 = "Absolute Value Jacobian"%string /\ fg_name w3 = "Squared Jacobian"%string /\
  jacobian_shows w1 d 0 (given_label labels 0) [] data colours /\ jacobian_shows w2 d 1 (given_label labels 1) [] data colours /\ jacobian_shows w3 d 2 (given_label labels 2) names data colours /\
  jo_open out = (if close then [w2; w3] else [w1; w2; w3]) /\
  forall name ty w, In (name, ty, w) (jo_saved out) <-> save = true /\ In ty types /\ (name = "jacobian" /\ w = w1 \/ name = "abs_jacobian" /\ w = w2 \/ name = "squared_jacobian" /\ w = w3)%string.
Proof.
  intros D0 D H. unfold plot_and_save_jacobians in H. rewrite (entries_are d data D) in H. cbn [rbind] in H. destruct (plot_jacobian _ _ _ _) as [figs| |] eqn:E; cbn [rbind] in H; try discriminate. apply (f_equal (fun r => match r with Ok x => x | _ => out end)) in H. cbv beta iota in H. subst out. cbn [jo_drawn jo_open jo_saved].
  destruct (windows_drawn labels colours names d data D0 figs E) as (w1 & w2 & w3 & -> & N1 & N2 & N3 & S1 & S2 & S3). exists w1, w2, w3. do 7 (split; [first [reflexivity|assumption]|]). split; [destruct close; reflexivity|]. intros name ty w. destruct save.
  - rewrite in_flat_map. cbn [jac_files combine map fst snd In]. split.
    + intros (t & Ht & Hx). split; [reflexivity|]. destruct Hx as [X|[X|[X|[]]]]; injection X as <- <- <-; (split; [exact Ht|]); auto.
    + intros (_ & Ht & Hx). exists ty. split; [exact Ht|]. destruct Hx as [[-> ->]|[[-> ->]|[-> ->]]]; auto.
  - split; [intros []|intros (X & _); discriminate].
Qed.

(* the windows with a legend, the windows closed *)
Definition six_labels : list (list string) := repeat ["a"; "b"; "c"; "d"; "e"; "f"]%string 3.
Definition six_data : list (list (list R)) := [[[1; 2; 3; 4; 5; 6]; [-1; 0; 0; 0; 0; 1]]; [[0; 0; 0; 0; 0; 0]]]%R.
Lemma six_of : of_dimension 6 six_data.
Proof. split; [discriminate|]. intros m [<-|[<-|[]]]; (split; [discriminate|]); intros r Hr; repeat (destruct Hr as [<-|Hr]; [reflexivity|]); destruct Hr. Qed.
Example six_case save close : exists out, plot_and_save_jacobians save close ["png"%string] six_labels default_colours ["p"; "q"]%string six_data = Ok out.
Proof. apply (jacobians_exactly save close _ _ _ _ 6); [lia|apply six_of|]. split; [cbn; lia|]. intros k i Hk Hi. destruct k as [|[|[|k]]]; try lia; (destruct i as [|[|[|[|[|[|[|i]]]]]]]; try lia; discriminate). Qed.
Theorem jacobian_legends_refuted : ~ forall labels colours names d data out w a, 0 < d -> of_dimension d data -> plot_and_save_jacobians true true ["png"%string] labels colours names data = Ok out -> In w (jo_drawn out) -> In a (fg_axes w) -> ax_legend a = names.
Proof.
  intros H. destruct (six_case true true) as [out E]. destruct (jacobians_drawn _ _ _ _ _ _ 6 _ _ ltac:(lia) six_of E) as (w1 & w2 & w3 & W1 & _ & _ & _ & S1 & _). destruct S1 as [_ S1]. destruct (S1 1 ltac:(lia)) as (a & l & c & A & _ & _ & _ & _ & L & _).
  specialize (H _ _ _ 6 _ _ w1 a ltac:(lia) six_of E ltac:(rewrite W1; left; reflexivity) (proj1 (proj2 (A a) eq_refl))). rewrite L in H. discriminate.
Qed.
Theorem jacobian_closed_refuted : ~ forall types labels colours names d data out, 0 < d -> of_dimension d data -> plot_and_save_jacobians true true types labels colours names data = Ok out -> jo_open out = [].
Proof. intros H. destruct (six_case true true) as [out E]. destruct (jacobians_drawn _ _ _ _ _ _ 6 _ _ ltac:(lia) six_of E) as (w1 & w2 & w3 & _ & _ & _ & _ & _ & _ & _ & O & _). rewrite (H _ _ _ _ 6 _ _ ltac:(lia) six_of E) in O. discriminate. Qed.
