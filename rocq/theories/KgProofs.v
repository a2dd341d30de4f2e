(* Figures of the tracker's statistics: what the windows show. *)
From Coq Require Import String ZArith List Bool Reals Lra Lia.
From Verif Require Import Base Interp Geo EgModel MsModel RoModel BfModel EvModel EvData FgModel FgSpec FgProofs KgModel KgSpec.
Import ListNotations.
Open Scope nat_scope.
Local Notation len := List.length.

(* ---- the shares kept ---- *)
Lemma retention_is msgs : msgs <> [] -> compute_track_retention (map (fun m => (sm_tracked m, sm_total m)) msgs) = map (share_kept msgs) (seq 0 (len msgs)).
Proof.
  intros N. destruct msgs as [|m msgs]; [congruence|]. clear N. cbn [map compute_track_retention len seq share_kept]. f_equal. rewrite <- seq_shift, map_map. cbn [tl]. revert m. induction msgs as [|b msgs IH]; intros m; [reflexivity|].
  cbn [map combine len seq]. f_equal.
  - cbn. unfold fraction_of. destruct (sm_total m); reflexivity.
  - etransitivity; [exact (IH b)|]. rewrite <- seq_shift, map_map. apply map_ext. intros j. reflexivity.
Qed.
Lemma numbers_flat l (g : nat -> option R) : numbers (map g l) = flat_map (fun j => match g j with Some r => [r] | None => [] end) l.
Proof. unfold numbers. induction l as [|j l IH]; [reflexivity|]. cbn. rewrite IH. reflexivity. Qed.

(* ---- windows of six cells ---- *)
Definition G6 (name : string) (h : bool) (titles : nat -> string) (x : string) (labs : nat -> string) (legs : list string) (cs : nat -> list curve) : figure :=
  mkFigure name (map (fun i => mkAxes (Cell 3 2 i) h (cs i) (titles i) x (labs i) "" legs) (seq 1 6)) (Cell 3 2 6).
Definition G2 (h : bool) (x : string) (legs : list string) (c1 c2 : list curve) : figure :=
  mkFigure "Match Id Statistics" [mkAxes (Cell 1 2 1) h c1 "" x "frames tracked" "feature count" []; mkAxes (Cell 1 2 2) h c2 "" x "mean/min/max frames tracked" "" legs] (Cell 1 2 2).
Definition core_labels (i : nat) : string := nth (i - 1) ["max match id"; "total match count"; "tracked match count"; "new match count"; "frame number"; "track retention fraction"]%string ""%string.
Definition extra_labels (i : nat) : string := nth (i - 1) ["tracked kp count left"; "tracked kp count right"; "extracted kp count left"; "extracted kp count right"; "filtered extracted kp count left"; "filtered extracted kp count right"]%string ""%string.
Definition extra_titles (i : nat) : string := nth (i - 1) ["Left"; "Right"; "Left"; "Right"; "Left"; "Right"]%string ""%string.
Lemma frames_are x : effects (core_frame x ++ extra_frame x ++ ids_frame x) screen0 =
  mkScreen [G6 "Statistics" false (fun _ => ""%string) x core_labels [] (fun _ => []); G6 "Extra Statistics" false extra_titles x extra_labels [] (fun _ => []); G2 false x [] [] []] 2.
Proof. reflexivity. Qed.

Section Nan.
Variable nan : R.
Definition core_curve (frames : bool) (ec : stat_entry * (Z * Z * Z)) (i : nat) : curve :=
  let e := fst ec in mkCurve Line [x_axis frames e; nth (i - 1) [se_max_id e; se_total e; se_tracked e; se_new e; if frames then se_t e else se_frames e; map (number_or nan) (se_retention e)] []] (Colour (snd ec)).
Definition extra_curve (frames : bool) (ec : stat_entry * (Z * Z * Z)) (i : nat) : curve :=
  let e := fst ec in mkCurve Line [x_axis frames e; nth (i - 1) [fst (se_tracked_kp e); snd (se_tracked_kp e); fst (se_extracted_kp e); snd (se_extracted_kp e); fst (se_filtered_kp e); snd (se_filtered_kp e)] []] (Colour (snd ec)).
Definition length_curves (frames : bool) (ec : stat_entry * (Z * Z * Z)) : list curve :=
  let e := fst ec in let x := x_axis frames e in let s := se_stats e in let c := snd ec in [mkCurve Line [x; ts_mean s] (Colour c); mkCurve Line [x; map IZR (ts_min s)] (Dashed c); mkCurve Line [x; map IZR (ts_max s)] (Dashed c)].
Lemma entry_adds frames ec n1 n2 h t1 t2 x l1 l2 g1 g2 g3 c1 c2 a b : effects (stat_curves nan frames (fst ec) (snd ec)) (mkScreen [G6 n1 h t1 x l1 g1 c1; G6 n2 h t2 x l2 g2 c2; G2 h x g3 a b] 2) =
  mkScreen [G6 n1 true t1 x l1 g1 (fun i => c1 i ++ [core_curve frames ec i]); G6 n2 true t2 x l2 g2 (fun i => c2 i ++ [extra_curve frames ec i]); G2 true x g3 (a ++ [histogram (fst ec) (snd ec)]) (b ++ length_curves frames ec)] 2.
Proof. destruct h; unfold length_curves; cbv zeta; (transitivity (mkScreen [G6 n1 true t1 x l1 g1 (fun i => c1 i ++ [core_curve frames ec i]); G6 n2 true t2 x l2 g2 (fun i => c2 i ++ [extra_curve frames ec i]); G2 true x g3 (a ++ [histogram (fst ec) (snd ec)]) (((b ++ [mkCurve Line [x_axis frames (fst ec); ts_mean (se_stats (fst ec))] (Colour (snd ec))]) ++ [mkCurve Line [x_axis frames (fst ec); map IZR (ts_min (se_stats (fst ec)))] (Dashed (snd ec))]) ++ [mkCurve Line [x_axis frames (fst ec); map IZR (ts_max (se_stats (fst ec)))] (Dashed (snd ec))])] 2); [reflexivity|]); rewrite <- !app_assoc; reflexivity. Qed.
Lemma all_adds frames l : forall n1 n2 h t1 t2 x l1 l2 g1 g2 g3 c1 c2 a b, exists h', effects (flat_map (fun ec => stat_curves nan frames (fst ec) (snd ec)) l) (mkScreen [G6 n1 h t1 x l1 g1 c1; G6 n2 h t2 x l2 g2 c2; G2 h x g3 a b] 2) =
  mkScreen [G6 n1 h' t1 x l1 g1 (fun i => c1 i ++ map (fun ec => core_curve frames ec i) l); G6 n2 h' t2 x l2 g2 (fun i => c2 i ++ map (fun ec => extra_curve frames ec i) l);
            G2 h' x g3 (a ++ map (fun ec => histogram (fst ec) (snd ec)) l) (b ++ flat_map (length_curves frames) l)] 2.
Proof.
  induction l as [|ec l IH]; intros n1 n2 h t1 t2 x l1 l2 g1 g2 g3 c1 c2 a b.
  - exists h. cbn [flat_map map effects fold_left]. unfold G6. cbn [map seq]. rewrite !app_nil_r. reflexivity.
  - cbn [flat_map]. rewrite effects_app, entry_adds. destruct (IH n1 n2 true t1 t2 x l1 l2 g1 g2 g3 (fun i => c1 i ++ [core_curve frames ec i]) (fun i => c2 i ++ [extra_curve frames ec i]) (a ++ [histogram (fst ec) (snd ec)]) (b ++ length_curves frames ec)) as [h' ->]. exists h'. unfold G6. cbn [map seq]. rewrite <- !app_assoc. reflexivity.
Qed.
Definition three_each (names : list string) : list string := flat_map (fun n => [n ^^ " mean"; n ^^ " min"; n ^^ " max"]%string) names.
Lemma legends_are names n1 n2 h t1 t2 x l1 l2 g1 g2 g3 c1 c2 a b : effects (stat_legends names) (mkScreen [G6 n1 h t1 x l1 g1 c1; G6 n2 h t2 x l2 g2 c2; G2 h x g3 a b] 2) =
  mkScreen [G6 n1 h t1 x l1 names c1; G6 n2 h t2 x l2 names c2; G2 h x (three_each names) a b] 2.
Proof. reflexivity. Qed.
Lemma statistics_windows frames colours names es figs : plot_statistics nan frames colours names es = Ok figs -> len es <= len colours /\ exists h,
  figs = [G6 "Statistics" h (fun _ => ""%string) (x_name frames) core_labels names (fun i => map (fun ec => core_curve frames ec i) (combine es colours));
          G6 "Extra Statistics" h extra_titles (x_name frames) extra_labels names (fun i => map (fun ec => extra_curve frames ec i) (combine es colours));
          G2 h (x_name frames) (three_each names) (map (fun ec => histogram (fst ec) (snd ec)) (combine es colours)) (flat_map (length_curves frames) (combine es colours))].
Proof.
  unfold plot_statistics. cbv zeta. rewrite with_colours_is. destruct (Nat.leb _ _) eqn:L; cbn [rbind]; [|discriminate]. destruct (run _ screen0) as [s| |] eqn:R; cbn [rbind]; try discriminate. intros H. apply run_inv in R. destruct R as [_ ->]. apply (f_equal (fun r => match r with Ok x => x | _ => figs end)) in H. cbv beta iota in H. subst figs. split; [apply Nat.leb_le; exact L|].
  rewrite !app_assoc, effects_app, effects_app. rewrite <- app_assoc, frames_are. destruct (all_adds frames (combine es colours) "Statistics" "Extra Statistics" false (fun _ => ""%string) extra_titles (x_name frames) core_labels extra_labels [] [] [] (fun _ => []) (fun _ => []) [] []) as [h ->]. rewrite legends_are. exists h. reflexivity.
Qed.
End Nan.
