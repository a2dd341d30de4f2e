(* Figures and summary of the evaluation: when they come about, times, text and files. *)
From Coq Require Import String ZArith List Bool Reals Lra Lia.
From Verif Require Import Base Interp Geo EgModel MsModel RoModel BfModel EvModel EvSpec EvProofs EvPose EvData EvDataSpec EvDataProofs FgModel FgSpec FgProofs.
Import ListNotations.
Open Scope R_scope.
Local Notation len := List.length.

(* ---- lengths ---- *)
Lemma len1 l : len (col1 l) = len l. Proof. apply map_length. Qed.
Lemma len2 l : len (col2 l) = len l. Proof. apply map_length. Qed.
Lemma len3 l : len (col3 l) = len l. Proof. apply map_length. Qed.
Lemma len_angles a l : len (angles_in a l) = len l. Proof. unfold angles_in. destruct (String.eqb _ _); [apply map_length|reflexivity]. Qed.
Lemma len_vectors a l : len (vectors_in a l) = len l. Proof. unfold vectors_in. destruct (String.eqb _ _); [apply map_length|reflexivity]. Qed.
Lemma len_positions tk : len (positions tk) = len (tk_traj tk). Proof. apply map_length. Qed.
Lemma len_stamps tk : len (stamps tk) = len (tk_traj tk). Proof. apply map_length. Qed.
Lemma Forall2_length {A B} (P : A -> B -> Prop) l k : Forall2 P l k -> len l = len k. Proof. induction 1 as [|a b l k H F IH]; [reflexivity|]. cbn. rewrite IH. reflexivity. Qed.
Ltac lens := rewrite ?len1, ?len2, ?len3, ?len_angles, ?len_vectors, ?len_positions, ?len_stamps.

Definition track_fits (tk : track) : Prop := len (tk_distances tk) = len (tk_traj tk) /\ len (tk_rots tk) = len (tk_traj tk) /\ len (tk_angles tk) = len (tk_traj tk).
Definition errs_fit (e : errs) : Prop := len (es_1 e) = len (es_t e) /\ len (es_2 e) = len (es_t e) /\ len (es_norm1 e) = len (es_t e) /\ len (es_norm2 e) = len (es_t e).
Definition pose_fits (e : pose_entry) : Prop := track_fits (pe_track e) /\ errs_fit (pe_ape e) /\ errs_fit (pe_rpe e).
Definition twist_fits (e : twist_entry) : Prop := len (te_lin e) = len (te_t e) /\ len (te_ang e) = len (te_t e) /\ len (te_speeds e) = len (te_t e) /\ len (te_rates e) = len (te_t e) /\ errs_fit (te_ae e) /\ errs_fit (te_re e).
Definition reference_fits (g : twist_track) : Prop := len (tt_lin g) = len (tt_t g) /\ len (tt_ang g) = len (tt_t g) /\ len (tt_speeds g) = len (tt_t g) /\ len (tt_rates g) = len (tt_t g).

(* ---- commands accepted ---- *)
Lemma line_accepted t y s : len y = len t -> accepted (Draw (line_curve t y s)) = true.
Proof. intros H. cbn. rewrite H, Nat.eqb_refl. reflexivity. Qed.
Lemma rows_accepted t vs sizes s j : len vs = len t -> len sizes = len t -> accepted (Draw (rows t vs sizes s j)) = true.
Proof. intros H K. unfold rows. destruct j as [|[|[|[|j]]]]; cbn [nth]; try (apply line_accepted; lens; first [assumption|reflexivity]). destruct j; reflexivity. Qed.
Lemma frame_accepted n name title ref labs : (forall j, accepted (Draw (ref j)) = true) -> forallb accepted (frame n name title ref labs) = true.
Proof. intros H. unfold frame, refp, without_reference. cbn [app forallb]. rewrite !H. reflexivity. Qed.
Lemma adds_accepted n k : (forall i, accepted (Draw (k i)) = true) -> forallb accepted (adds n k) = true.
Proof. intros H. unfold adds, addp. cbn [app forallb]. rewrite !H. reflexivity. Qed.
Lemma cells_accepted t ta tr v va vr s sa sr st i : len v = len t -> len va = len ta -> len vr = len tr -> len s = len t -> len sa = len ta -> len sr = len tr -> accepted (Draw (cells t ta tr v va vr s sa sr st i)) = true.
Proof. intros. unfold cells, pick. remember (i - 1)%nat as j. clear Heqj. do 12 (destruct j as [|j]; [cbn [nth]; apply line_accepted; lens; first [assumption|reflexivity]|]). destruct j; reflexivity. Qed.
Lemma forallb_flat_map {A B} (P : B -> bool) (f : A -> list B) l : (forall a, In a l -> forallb P (f a) = true) -> forallb P (flat_map f l) = true.
Proof. induction l as [|a l IH]; intros H; [reflexivity|]. cbn. rewrite forallb_app, (H a (or_introl eq_refl)). apply IH. intros x Hx. apply H. right. exact Hx. Qed.
Lemma combine_in {A B} (l : list A) (k : list B) x : In x (combine l k) -> In (fst x) l.
Proof. destruct x as [a b]. apply in_combine_l. Qed.

Lemma pose_drawn_when o names d : track_fits (pr_gt d) -> Forall pose_fits (pr_entries d) -> (len (pr_entries d) <= len (op_colours o))%nat -> exists figs, plot_pose o names d = Ok figs.
Proof.
  intros (T1 & T2 & T3) F L. unfold plot_pose. rewrite with_colours_is. apply Nat.leb_le in L. rewrite L. cbn [rbind]. rewrite pose_frame1_is, pose_frame2_is, (flat_map_same _ _ _ (pose_curves_is o)). rewrite run_ok; [eexists; reflexivity|].
  rewrite !forallb_app, !frame_accepted by (intros j; apply rows_accepted; lens; first [assumption|reflexivity]). rewrite forallb_flat_map; [reflexivity|].
  intros ec Hec. apply combine_in in Hec. rewrite Forall_forall in F. destruct (F _ Hec) as ((A1 & A2 & A3) & (B1 & B2 & B3 & B4) & (C1 & C2 & C3 & C4)). rewrite forallb_app, !adds_accepted; [reflexivity| |]; intros i; apply cells_accepted; lens; first [assumption|reflexivity].
Qed.
Lemma twist_drawn_when o names g es : reference_fits g -> Forall twist_fits es -> (len es <= len (op_colours o))%nat -> exists figs, plot_twist o names g es = Ok figs.
Proof.
  intros (T1 & T2 & T3 & T4) F L. unfold plot_twist. rewrite with_colours_is. apply Nat.leb_le in L. rewrite L. cbn [rbind]. rewrite twist_frame1_is, twist_frame2_is, (flat_map_same _ _ _ (twist_curves_is o)). rewrite run_ok; [eexists; reflexivity|].
  rewrite !forallb_app, !frame_accepted by (intros j; apply rows_accepted; lens; first [assumption|reflexivity]). rewrite forallb_flat_map; [reflexivity|].
  intros ec Hec. apply combine_in in Hec. rewrite Forall_forall in F. destruct (F _ Hec) as (A1 & A2 & A3 & A4 & (B1 & B2 & B3 & B4) & (C1 & C2 & C3 & C4)). rewrite forallb_app, !adds_accepted; [reflexivity| |]; intros i; apply cells_accepted; lens; first [assumption|reflexivity].
Qed.
Lemma line3_accepted p s : accepted (line3 p s) = true.
Proof. cbn. lens. rewrite Nat.eqb_refl. reflexivity. Qed.
Lemma arrows3_accepted p v s : len v = len p -> accepted (arrows3 p v s) = true.
Proof. intros H. cbn. lens. rewrite H, !Nat.eqb_refl. reflexivity. Qed.
Lemma trajectory_drawn_when o names d g es : track_fits (pr_gt d) -> len (tt_lin g) = len (tk_traj (pr_gt d)) -> Forall2 (fun p t => track_fits (pe_track p) /\ len (te_lin t) = len (tk_traj (pe_track p))) (pr_entries d) es ->
  (len (pr_entries d) <= len names)%nat -> (len (pr_entries d) <= len (op_colours o))%nat -> exists figs, plot_trajectory o names d g es = Ok figs.
Proof.
  intros (T1 & T2 & T3) Tg F Ln Lc. pose proof (Forall2_length _ _ _ F) as Le. unfold plot_trajectory. destruct (Nat.ltb_spec (len es) (len (pr_entries d))); [lia|].
  rewrite (names_filled " orientation"%string names (len (pr_entries d)) 1 ["Reference"; "Reference" ^^ " orientation"]%string (le_n 1) eq_refl), (names_filled " velocity"%string names (len (pr_entries d)) 1 ["Reference"; "Reference" ^^ " velocity"]%string (le_n 1) eq_refl).
  change (1 - 1)%nat with 0%nat. rewrite !skipn_O. apply Nat.leb_le in Ln. rewrite Ln. cbn [rbind]. rewrite with_colours_is, combine_length, <- Le, Nat.min_id. apply Nat.leb_le in Lc. rewrite Lc. cbn [rbind]. rewrite run_ok; [eexists; reflexivity|].
  rewrite !forallb_app. apply andb_true_intro. split.
  - unfold trajectory_frame. cbn [app forallb labels3]. rewrite !line3_accepted, !arrows3_accepted by (lens; first [assumption|reflexivity]). reflexivity.
  - rewrite forallb_flat_map; [reflexivity|]. intros [[p t] c] H0. apply combine_in in H0. cbn [fst] in H0. assert (P : track_fits (pe_track p) /\ len (te_lin t) = len (tk_traj (pe_track p))). { clear -F H0. induction F as [|a b l k Hab F IH]; [destruct H0|]. destruct H0 as [E|H0]; [injection E as <- <-; exact Hab|apply IH; exact H0]. }
    destruct P as [(P1 & P2 & P3) P4]. unfold trajectory_curves. cbn [fst snd forallb]. rewrite !line3_accepted, !arrows3_accepted by (lens; first [assumption|reflexivity]). reflexivity.
Qed.

(* ---- reports have columns of one length ---- *)
Lemma loop_lengths {A B C E} (whole : A -> B) interp (conv : C -> B) (absolute : B -> B -> E) relative l : forall before rest prev o, errors_loop whole interp conv absolute relative before rest prev l = Ok o ->
  len (fst o) = len l /\ len (snd o) = match prev with None => pred (len l) | Some _ => len l end.
Proof.
  induction l as [|[t x] l IH]; intros before rest prev o H; cbn [errors_loop] in H; [injection H as <-; destruct prev; split; reflexivity|]. destruct (at_time _ _ _ _) as [g| |]; cbn [rbind] in H; try discriminate. destruct (errors_loop _ _ _ _ _ _ _ _ l) as [r| |] eqn:R; cbn [rbind] in H; try discriminate.
  injection H as <-. destruct (IH _ _ _ _ R) as [I1 I2]. cbn [fst snd len]. split; [rewrite I1; reflexivity|]. destruct prev as [[pg pv]|]; cbn [len]; rewrite I2; reflexivity.
Qed.
Lemma errors_lengths {A B C E} (whole : A -> B) interp (conv : C -> B) (absolute : B -> B -> E) relative gt l o : errors whole interp conv absolute relative gt l = Ok o ->
  eo_abs_t o = map fst (inside gt l) /\ eo_rel_t o = tl (map fst (inside gt l)) /\ len (eo_abs o) = len (eo_abs_t o) /\ len (eo_rel o) = len (eo_rel_t o).
Proof.
  unfold errors. destruct gt as [|e gt]; [discriminate|]. cbv zeta. generalize (inside (e :: gt) l). intros i. destruct (errors_loop _ _ _ _ _ _ _ _ _) as [r| |] eqn:R; cbn [rbind]; try discriminate. intros H. injection H as <-. cbn [eo_abs_t eo_rel_t eo_abs eo_rel]. destruct (loop_lengths _ _ _ _ _ _ _ _ _ _ R) as [I1 I2].
  split; [reflexivity|]. split; [reflexivity|]. rewrite I1, I2. destruct i as [|k ks]; cbn; rewrite ?map_length; split; reflexivity.
Qed.
Lemma make_errs_fit t a b : len a = len t -> len b = len t -> errs_fit (make_errs t a b).
Proof. intros. unfold errs_fit, make_errs. cbn. rewrite !map_length. tauto. Qed.
Lemma recompute_length r2q l : forall a b, len (recompute_loop r2q a b l) = len l.
Proof. induction l as [|[t p] l IH]; intros a b; [reflexivity|]. cbn. rewrite IH. reflexivity. Qed.
Lemma recompute_stamps r2q l : forall a b, map fst (recompute_loop r2q a b l) = map fst l.
Proof. induction l as [|[t p] l IH]; intros a b; [reflexivity|]. cbn. rewrite IH. reflexivity. Qed.
Lemma trajectory_stamps r2q l first l' : recompute_trajectory r2q l first = Ok l' -> map fst l' = map fst l.
Proof. unfold recompute_trajectory. destruct l as [|[t p] l]; [discriminate|]. intros H. injection H as <-. cbn. rewrite recompute_stamps. reflexivity. Qed.
Lemma align_stamps mixq r2q first fit p gt l l' : align mixq r2q first fit p gt l = Ok l' -> map fst l' = map fst l.
Proof.
  unfold align. destruct first; [|destruct fit].
  - unfold align_to_first_pose. destruct l as [|[t x] l]; [discriminate|]. destruct (at_time _ _ _ _); cbn [rbind]; try discriminate. apply trajectory_stamps.
  - unfold align_trajectory. destruct (interpolate_trajectory _ _ _ _) as [iref| |]; cbn [rbind]; try discriminate. destruct iref as [|[t first] iref]; [discriminate|]. destruct (recompute_trajectory r2q l first); cbn [rbind]; try discriminate. cbv zeta. destruct (as_R _); [|discriminate]. apply trajectory_stamps.
  - intros H. injection H as <-. reflexivity.
Qed.
Lemma make_track_fits q2a l tk : make_track q2a l = Ok tk -> track_fits tk /\ tk_traj tk = l /\ l <> [].
Proof. unfold make_track. destruct l as [|e l]; [discriminate|]. cbn. intros H. injection H as <-. unfold track_fits. cbn. rewrite !map_length. repeat split; try reflexivity. discriminate. Qed.

Lemma stamps_inside {A C D} (gt : list (R * A)) (l : list (R * C)) (k : list (R * D)) : map fst k = map fst l -> map fst (inside gt k) = map fst (inside gt l).
Proof.
  destruct gt as [|e gt]; [reflexivity|]. unfold inside. set (last_ := fst (last _ _)). revert k. induction l as [|[t x] l IH]; intros [|[u y] k] H; cbn [map] in H; try discriminate; [reflexivity|]. cbn [fst] in H. injection H as -> H. cbn [filter fst]. destruct (_ && _); cbn [map fst]; rewrite (IH k H); reflexivity.
Qed.
Lemma last_stamp {A B} (gt : list (R * A)) : forall (g : list (R * B)) e f, map fst g = map fst gt -> fst e = fst f -> fst (last g e) = fst (last gt f).
Proof.
  induction gt as [|a gt IH]; intros [|b g] e f H He; cbn [map] in H; try discriminate; [exact He|]. injection H as H1 H2. destruct gt as [|a' gt], g as [|b' g]; cbn [map] in H2; try discriminate; [exact H1|]. change (last (b :: b' :: g) e) with (last (b' :: g) e). change (last (a :: a' :: gt) f) with (last (a' :: gt) f). apply IH; assumption.
Qed.
Lemma inside_by {A B C} (gt : list (R * A)) (g : list (R * B)) (l : list (R * C)) : map fst g = map fst gt -> inside g l = inside gt l.
Proof.
  destruct gt as [|e gt], g as [|f g]; cbn [map]; intros H; try discriminate; [reflexivity|]. pose proof H as H'. injection H as H1 H2. unfold inside. assert (E : fst (last (f :: g) f) = fst (last (e :: gt) e)) by (apply last_stamp; [exact H'|exact H1]). apply filter_ext. intros x. rewrite E, H1. reflexivity.
Qed.
Lemma inside_twice {A C} (gt : list (R * A)) (l : list (R * C)) : inside gt (inside gt l) = inside gt l.
Proof. destruct gt as [|e gt]; [reflexivity|]. unfold inside. set (f := fun _ => _). induction l as [|a l IH]; [reflexivity|]. cbn [filter]. destruct (f a) eqn:E; [cbn [filter]; rewrite E, IH; reflexivity|exact IH]. Qed.
Lemma pose_entry_fits mixq r2q r2a q2a first fit p gt msgs e : pose_entry_of mixq r2q r2a q2a first fit p gt msgs = Ok e ->
  pose_fits e /\ map fst (tk_traj (pe_track e)) = map fst (inside gt (stamped od_pose msgs)) /\ es_t (pe_ape e) = map fst (tk_traj (pe_track e)) /\ tk_traj (pe_track e) <> [].
Proof.
  unfold pose_entry_of. destruct gt as [|g0 gt]; [discriminate|]. set (gg := g0 :: gt). destruct (align _ _ _ _ _ _ _) as [l| |] eqn:Al; cbn [rbind]; try discriminate. destruct (make_track q2a l) as [tk| |] eqn:Tk; cbn [rbind]; try discriminate. destruct (compute_pose_errors _ _ _) as [o| |] eqn:Er; cbn [rbind]; try discriminate.
  intros H. cbn [split_poses] in H. injection H as <-. apply align_stamps in Al. apply make_track_fits in Tk. destruct Tk as (F & T & N). apply errors_lengths in Er. destruct Er as (E1 & E2 & E3 & E4). unfold pose_fits. cbn [pe_track pe_ape pe_rpe].
  split; [split; [exact F|split; apply make_errs_fit; rewrite map_length; assumption]|]. rewrite T. split; [exact Al|]. split; [|exact N]. cbn [es_t make_errs]. rewrite E1, (stamps_inside gg _ _ Al), inside_twice. symmetry. exact Al.
Qed.

(* whether a report comes about depends on the stamps only *)
Lemma advance_stamps {A B} (l : list (R * A)) : forall (k : list (R * B)) x y t, map fst k = map fst l -> option_map fst y = option_map fst x ->
  option_map fst (fst (advance y k t)) = option_map fst (fst (advance x l t)) /\ map fst (snd (advance y k t)) = map fst (snd (advance x l t)).
Proof.
  induction l as [|a l IH]; intros [|b k] x y t H Hx; cbn [map] in H; try discriminate; cbn [advance]; [split; [exact Hx|reflexivity]|]. injection H as H1 H2. rewrite H1. destruct (rltb (fst a) t); [apply IH; [exact H2|cbn; rewrite H1; reflexivity]|]. cbn [fst snd map]. rewrite H1, H2. split; [exact Hx|reflexivity].
Qed.
Section Status.
Context {A B C E A' B' C' E' : Type} (whole : A -> B) (interp : R -> R -> A -> A -> R -> res B) (conv : C -> B) (absolute : B -> B -> E) (relative : B -> B -> B -> B -> E)
  (whole' : A' -> B') (interp' : R -> R -> A' -> A' -> R -> res B') (conv' : C' -> B') (absolute' : B' -> B' -> E') (relative' : B' -> B' -> B' -> B' -> E').
Hypothesis same : forall t1 t2 a b a' b' t, is_ok (interp t1 t2 a b t) = is_ok (interp' t1 t2 a' b' t).
Lemma at_time_status z z' t : option_map fst (fst z') = option_map fst (fst z) -> map fst (snd z') = map fst (snd z) -> is_ok (at_time whole interp z t) = is_ok (at_time whole' interp' z' t).
Proof.
  destruct z as [x [|a l]], z' as [y [|b k]]; cbn [fst snd map]; intros H1 H2; try discriminate; [reflexivity|]. injection H2 as H2 _. unfold at_time. cbn [fst snd]. rewrite H2. destruct (Req_EM_T (fst a) t); [reflexivity|]. destruct x as [u|], y as [v|]; cbn in H1; try discriminate; [|reflexivity]. injection H1 as H1. rewrite H1. apply same.
Qed.
Lemma loop_status l : forall l' before before' rest rest' prev prev', map fst l' = map fst l -> option_map fst before' = option_map fst before -> map fst rest' = map fst rest ->
  is_ok (errors_loop whole interp conv absolute relative before rest prev l) = is_ok (errors_loop whole' interp' conv' absolute' relative' before' rest' prev' l').
Proof.
  induction l as [|[t x] l IH]; intros [|[u y] l'] before before' rest rest' prev prev' H Hb Hr; cbn [map] in H; try discriminate; [reflexivity|]. cbn [fst] in H. injection H as -> H. cbn [errors_loop]. cbv zeta. destruct (advance_stamps rest rest' before before' t Hr Hb) as [S1 S2].
  pose proof (at_time_status (advance before rest t) (advance before' rest' t) t S1 S2) as St. destruct (at_time whole interp _ t) as [g| |], (at_time whole' interp' _ t) as [g'| |]; cbn [is_ok rbind] in *; try discriminate; try reflexivity.
  specialize (IH l' (fst (advance before rest t)) (fst (advance before' rest' t)) (snd (advance before rest t)) (snd (advance before' rest' t)) (Some (g, conv x)) (Some (g', conv' y)) H S1 S2).
  destruct (errors_loop whole _ _ _ _ _ _ _ l) as [r| |], (errors_loop whole' _ _ _ _ _ _ _ l') as [r'| |]; cbn [is_ok rbind] in *; try discriminate; reflexivity.
Qed.
Lemma errors_status gt l gt' l' : map fst gt' = map fst gt -> map fst l' = map fst l -> is_ok (errors whole interp conv absolute relative gt l) = is_ok (errors whole' interp' conv' absolute' relative' gt' l').
Proof.
  intros Hg Hl. unfold errors. destruct gt as [|e gt], gt' as [|e' gt']; try discriminate; [reflexivity|]. cbv zeta.
  assert (Hi : map fst (inside (e' :: gt') l') = map fst (inside (e :: gt) l)) by (rewrite (inside_by _ _ l' Hg); apply stamps_inside; exact Hl).
  pose proof (loop_status _ _ None None (e :: gt) (e' :: gt') None None Hi eq_refl Hg) as S. destruct (errors_loop whole _ _ _ _ _ _ _ _) as [r| |], (errors_loop whole' _ _ _ _ _ _ _ _) as [r'| |]; cbn [is_ok rbind] in *; try discriminate; reflexivity.
Qed.
End Status.
Lemma vector_like_pose mixq t1 t2 a b a' b' t : is_ok (interp_transform mixq t1 t2 a b t) = is_ok (interp_vector t1 t2 a' b' t).
Proof. unfold interp_transform, interp_vector, coefficient. destruct (Req_EM_T t1 t2); [destruct (Req_EM_T t t1); reflexivity|]. cbv zeta. destruct (_ || _); reflexivity. Qed.
Lemma stamped_stamps {A} (f : odom -> A) l : map fst (stamped f l) = map stamp_of l. Proof. unfold stamped. rewrite map_map. reflexivity. Qed.
Lemma part_stamps {A B C} (f : B -> C) (l : list (A * B)) : map fst (map (fun e => (fst e, f (snd e))) l) = map fst l. Proof. rewrite map_map. reflexivity. Qed.

Lemma twist_with_pose mixq r2q r2a q2a first fit p ref msgs e : pose_entry_of mixq r2q r2a q2a first fit p (stamped od_pose ref) msgs = Ok e ->
  exists t, twist_entry_of (stamped (fun m => (od_lin m, od_ang m)) ref) msgs = Ok t.
Proof.
  unfold pose_entry_of, twist_entry_of. destruct ref as [|m0 ref]; [discriminate|]. set (gp := stamped od_pose (m0 :: ref)). set (gt := stamped (fun m => (od_lin m, od_ang m)) (m0 :: ref)). change (match gp with [] => Throw | _ => ?x end) with x. change (match gt with [] => Throw | _ => ?x end) with x.
  destruct (align _ _ _ _ _ _ _) as [l| |] eqn:Al; cbn [rbind]; try discriminate. destruct (make_track q2a l) as [tk| |]; cbn [rbind]; try discriminate. destruct (compute_pose_errors _ _ _) as [o| |] eqn:Er; cbn [rbind]; try discriminate. intros _. apply align_stamps in Al. cbv zeta.
  set (k := inside gt _). assert (Sg : map fst gt = map fst gp) by (unfold gt, gp; rewrite !stamped_stamps; reflexivity).
  assert (Sk : map fst k = map fst l). { rewrite Al. unfold k. rewrite (inside_by gp gt _ Sg). apply stamps_inside. rewrite !stamped_stamps. reflexivity. }
  assert (V : forall f : vec3 * vec3 -> vec3, exists ov, compute_vector_errors (map (fun e => (fst e, f (snd e))) gt) (map (fun e => (fst e, f (snd e))) k) = Ok ov).
  { intros f. assert (St : is_ok (compute_vector_errors (map (fun e => (fst e, f (snd e))) gt) (map (fun e => (fst e, f (snd e))) k)) = true).
    { unfold compute_pose_errors in Er. unfold compute_vector_errors. erewrite <- (errors_status pose_to_matrix (interp_transform mixq) pose_to_matrix (fun g x => ldiv g x) (fun pg px g x => ldiv (ldiv pg g) (ldiv px x)) _ _ _ _ _ (vector_like_pose mixq) gp l); [rewrite Er; reflexivity| |]; rewrite part_stamps; assumption. }
    destruct (compute_vector_errors _ _) as [ov| |]; try discriminate. exists ov. reflexivity. }
  destruct (V fst) as [o1 E1], (V snd) as [o2 E2]. rewrite E1. cbn [rbind]. rewrite E2. cbn [rbind]. eexists. reflexivity.
Qed.
Lemma twist_entry_fits gt msgs e : twist_entry_of gt msgs = Ok e -> twist_fits e /\ te_t e = map fst (inside gt (stamped (fun m => (od_lin m, od_ang m)) msgs)) /\ es_t (te_ae e) = te_t e.
Proof.
  unfold twist_entry_of. destruct gt as [|g0 gt]; [discriminate|]. set (gg := g0 :: gt). cbv zeta. set (k := inside gg _). destruct (compute_vector_errors _ (map _ k)) as [ol| |] eqn:E1; cbn [rbind]; try discriminate. destruct (compute_vector_errors (map (fun e => (fst e, snd (snd e))) gg) _) as [oa| |] eqn:E2; cbn [rbind]; try discriminate.
  intros H. injection H as <-. apply errors_lengths in E1, E2. destruct E1 as (A1 & A2 & A3 & A4), E2 as (B1 & B2 & B3 & B4).
  assert (K : forall f : vec3 * vec3 -> vec3, map fst (inside (map (fun e => (fst e, f (snd e))) gg) (map (fun e => (fst e, f (snd e))) k)) = map fst k). { intros f. rewrite (inside_by gg _ _ (part_stamps f gg)), (stamps_inside gg k) by apply part_stamps. unfold k. rewrite inside_twice. reflexivity. }
  rewrite (K fst) in A1, A2. rewrite (K snd) in B1, B2. unfold twist_fits. cbn [te_lin te_ang te_speeds te_rates te_t te_ae te_re]. rewrite !map_length. split; [|split; [reflexivity|exact A1]]. repeat (split; [reflexivity|]). split; apply make_errs_fit; congruence.
Qed.

(* ---- the data of a run of plot_and_save ---- *)
Lemma track_shifted s tk : track_fits tk -> track_fits (shift_track s tk).
Proof. unfold track_fits, shift_track. cbn. rewrite map_length. tauto. Qed.
Lemma errs_shifted s e : errs_fit e -> errs_fit (shift_errs s e).
Proof. unfold errs_fit, shift_errs, shift. cbn. rewrite map_length. tauto. Qed.
Lemma track_shift_earlier s tk : track_earlier s tk (shift_track s tk).
Proof. unfold track_earlier, earlier, shift_track. cbn. rewrite !map_map. repeat split; reflexivity. Qed.
Lemma errs_shift_earlier s e : errs_earlier s e (shift_errs s e).
Proof. repeat split; reflexivity. Qed.
Lemma earlier_none l : earlier 0 l l.
Proof. unfold earlier. rewrite <- (map_id l) at 1. apply map_ext. intros x. lra. Qed.
Lemma track_same tk : track_earlier 0 tk tk. Proof. split; [apply earlier_none|repeat split; reflexivity]. Qed.
Lemma errs_same e : errs_earlier 0 e e. Proof. split; [apply earlier_none|repeat split; reflexivity]. Qed.
Definition pose_shifted (s : R) (e : pose_entry) : pose_entry := mkPE (shift_track s (pe_track e)) (shift_errs s (pe_ape e)) (shift_errs s (pe_rpe e)).
Definition twist_shifted (s : R) (e : twist_entry) : twist_entry := mkTE (shift s (te_t e)) (te_lin e) (te_ang e) (te_speeds e) (te_rates e) (shift_errs s (te_ae e)) (shift_errs s (te_re e)).
Lemma Forall2_map {A B} (P : A -> B -> Prop) (f : A -> B) l : (forall a, P a (f a)) -> Forall2 P l (map f l).
Proof. intros H. induction l; constructor; auto. Qed.
Lemma Forall2_same {A} (P : A -> A -> Prop) l : (forall a, P a a) -> Forall2 P l l.
Proof. intros H. induction l; constructor; auto. Qed.

Lemma combine_nth_error {A B} k : forall (l : list A) (m : list B) a b, nth_error (combine l m) k = Some (a, b) <-> nth_error l k = Some a /\ nth_error m k = Some b.
Proof. induction k as [|k IH]; intros [|x l] [|y m] a b; cbn; try (split; [discriminate|intros [? ?]; discriminate]); [split; [intros H; injection H as -> ->; split; reflexivity|intros [H1 H2]; congruence]|apply IH]. Qed.
(* what belongs together: poses and velocities of the same messages *)
Definition pair_fits (p : pose_entry) (t : twist_entry) : Prop :=
  pose_fits p /\ twist_fits t /\ len (te_t t) = len (tk_traj (pe_track p)) /\ len (es_t (pe_ape p)) = len (tk_traj (pe_track p)) /\ len (es_t (te_ae t)) = len (te_t t) /\ tk_traj (pe_track p) <> [].
Section Runs.
Variable mixq : quat -> quat -> R -> quat.
Variable r2q : mat3 -> quat.
Variable r2a : mat3 -> vec3 * R.
Variable q2a : quat -> vec3 * R.
Variables (o : plot_opts) (b : bounds) (first fit : bool) (p : align_params) (gt : list odom) (odoms : list (list odom)).
Lemma report_parts d : compute_pose_data mixq r2q r2a q2a b first fit p gt odoms = Ok d -> exists ref g es,
  ref <> [] /\ tk_traj (pr_gt d) = stamped od_pose ref /\ track_fits (pr_gt d) /\ twist_reference b gt = Ok g /\ compute_twist_data b gt odoms = Ok es /\ tt_t g = map stamp_of ref /\ reference_fits g /\
  len (pr_entries d) = len odoms /\ Forall2 pair_fits (pr_entries d) es.
Proof.
  unfold compute_pose_data. destruct (first && fit); [discriminate|]. destruct (filtered_is od_pose b gt) as [(_ & _ & E)|(ref & E & Rf)]; rewrite E; cbn [rbind]; [discriminate|].
  destruct (make_track _ _) as [tk| |] eqn:Tk; cbn [rbind]; try discriminate. destruct (map_res _ odoms) as [ps| |] eqn:Ps; cbn [rbind]; try discriminate. intros H. injection H as <-. cbn [pr_gt pr_entries]. apply make_track_fits in Tk. destruct Tk as (F & T & N).
  assert (Nr : ref <> []) by (intros ->; apply N; reflexivity).
  assert (Et : time_filter b (stamped (fun m => (od_lin m, od_ang m)) gt) = Ok (stamped (fun m => (od_lin m, od_ang m)) ref)).
  { destruct (filtered_is (fun m => (od_lin m, od_ang m)) b gt) as [(-> & _ & _)|(ref' & E' & Rf')]; [destruct Rf as (f & _ & ->); exfalso; apply Nr; reflexivity|]. rewrite (part_unique _ _ _ _ Rf' Rf) in E'. exact E'. }
  exists ref. unfold twist_reference, compute_twist_data. rewrite Et. cbn [rbind].
  assert (Es : exists es, map_res (twist_entry_of (stamped (fun m => (od_lin m, od_ang m)) ref)) odoms = Ok es /\ len ps = len odoms /\ Forall2 pair_fits ps es).
  { clear N E T F Et. revert ps Ps. induction odoms as [|msgs os IH]; intros ps Ps; cbn [map_res] in *; [injection Ps as <-; exists []; repeat split; constructor|].
    destruct (pose_entry_of _ _ _ _ _ _ _ _ msgs) as [e| |] eqn:Ee; cbn [rbind] in Ps; try discriminate. destruct (map_res _ os) as [ps'| |]; cbn [rbind] in Ps; try discriminate. injection Ps as <-. destruct (IH ps' eq_refl) as (es & Hes & L & F2).
    destruct (twist_with_pose _ _ _ _ _ _ _ _ _ _ Ee) as [t Ht]. rewrite Ht, Hes. cbn [rbind]. eexists. split; [reflexivity|]. split; [cbn; rewrite L; reflexivity|]. constructor; [|exact F2].
    destruct (pose_entry_fits _ _ _ _ _ _ _ _ _ _ Ee) as (P1 & P2 & P3 & P4). destruct (twist_entry_fits _ _ _ Ht) as (T1 & T2 & T3). split; [exact P1|]. split; [exact T1|].
    assert (X : te_t t = map fst (tk_traj (pe_track e))). { rewrite T2, P2, (inside_by (stamped od_pose ref)) by (rewrite !stamped_stamps; reflexivity). apply stamps_inside. rewrite !stamped_stamps. reflexivity. }
    rewrite T3, X, P3, map_length. repeat split. exact P4. }
  destruct Es as (es & Hes & L & F2). eexists. exists es. split; [exact Nr|]. split; [exact T|]. split; [exact F|]. split; [reflexivity|]. split; [exact Hes|]. cbn [tt_t]. rewrite stamped_stamps. split; [reflexivity|]. split; [|split; assumption].
  unfold reference_fits. cbn [tt_t tt_lin tt_ang tt_speeds tt_rates]. unfold stamped. rewrite !map_length. repeat split; reflexivity.
Qed.
(* the reports as shown *)
Definition shown (d0 d : pose_report) (g0 g : twist_track) (es0 es : list twist_entry) : Prop :=
  exists s, pose_earlier s d0 d /\ twist_earlier s g0 g es0 es /\
    (op_zero o = true -> nth_error (map fst (tk_traj (pr_gt d))) 0 = Some 0 /\ nth_error (tt_t g) 0 = Some 0) /\ (op_zero o = false -> s = 0).
Lemma zeroed d0 : compute_pose_data mixq r2q r2a q2a b first fit p gt odoms = Ok d0 -> exists g0 es0 d g es,
  twist_reference b gt = Ok g0 /\ compute_twist_data b gt odoms = Ok es0 /\ (if op_zero o then zero_pose d0 else Ok d0) = Ok d /\ (if op_zero o then zero_twist g0 es0 else Ok (g0, es0)) = Ok (g, es) /\ shown d0 d g0 g es0 es /\
  track_fits (pr_gt d) /\ reference_fits g /\ len (tt_t g) = len (tk_traj (pr_gt d)) /\ len (pr_entries d) = len odoms /\ Forall2 pair_fits (pr_entries d) es.
Proof.
  intros H. destruct (report_parts d0 H) as (ref & g0 & es0 & N & T & F & Hg & He & Tt & Fg & L & F2). exists g0, es0. destruct ref as [|m ref]; [congruence|].
  assert (Ls : len (tt_t g0) = len (tk_traj (pr_gt d0))) by (rewrite Tt, T; unfold stamped; rewrite !map_length; reflexivity). destruct (op_zero o) eqn:Z.
  - unfold zero_pose, zero_twist, stamps. rewrite T, Tt. cbn [stamped map fst]. cbn [map] in Tt. do 3 eexists. split; [exact Hg|]. split; [exact He|]. split; [reflexivity|]. split; [reflexivity|]. split; [|cbn [pr_gt pr_entries]; split; [apply track_shifted; exact F|]].
    + exists (stamp_of m). unfold pose_earlier, twist_earlier. cbn [pr_gt pr_entries]. split; [split; [apply track_shift_earlier|apply Forall2_map; intros e; split; [apply track_shift_earlier|split; apply errs_shift_earlier]]|].
      split; [|split; [intros _|congruence]]. { split; [repeat split; cbn [tt_t]; rewrite <- Tt; reflexivity|]. apply Forall2_map. intros e. cbn [te_t te_lin te_ang te_speeds te_rates te_ae te_re]. repeat (split; [reflexivity|]). split; apply errs_shift_earlier. }
      unfold shift_track. rewrite T. cbn. split; f_equal; lra.
    + split; [|split; [|split]].
      * destruct Fg as (G1 & G2 & G3 & G4). unfold reference_fits. cbn [tt_t tt_lin tt_ang tt_speeds tt_rates]. rewrite <- Tt. unfold shift. rewrite !map_length. tauto.
      * unfold shift_track. cbn [tt_t tk_traj]. rewrite <- Tt. unfold shift. rewrite !map_length. exact Ls.
      * rewrite map_length. exact L.
      * clear -F2. induction F2 as [|e t ps ts P F IH]; [constructor|]. cbn [map]. constructor; [|exact IH]. destruct P as ((A1 & A2 & A3) & (B1 & B2 & B3 & B4 & B5 & B6) & C & D & E & N). unfold pair_fits, pose_fits, twist_fits. cbn [pe_track pe_ape pe_rpe te_t te_lin te_ang te_speeds te_rates te_ae te_re].
        unfold shift. rewrite !map_length. split; [split; [apply track_shifted; exact A1|split; apply errs_shifted; assumption]|]. split; [repeat (split; [assumption|]); split; apply errs_shifted; assumption|]. unfold shift_track, shift_errs, shift. cbn [tk_traj es_t]. rewrite !map_length. repeat (split; [assumption|]). intros X. apply map_eq_nil in X. contradiction.
  - exists d0, g0, es0. split; [exact Hg|]. split; [exact He|]. split; [reflexivity|]. split; [reflexivity|]. split; [|repeat (split; [assumption|]); assumption].
    exists 0. split; [split; [apply track_same|apply Forall2_same; intros e; split; [apply track_same|split; apply errs_same]]|]. split; [|split; [congruence|reflexivity]]. split; [split; [apply earlier_none|repeat split; reflexivity]|]. apply Forall2_same. intros e. split; [apply earlier_none|]. repeat (split; [reflexivity|]). split; apply errs_same.
Qed.

(* ---- the summary ---- *)
Lemma last_final l x : last_res l = Ok x -> final l x.
Proof. unfold last_res. destruct l as [|a l]; [discriminate|]. intros H. injection H as <-. exists (removelast (a :: l)). apply (app_removelast_last a (l := a :: l)). discriminate. Qed.
Lemma last_some l : l <> [] -> exists x, last_res l = Ok x.
Proof. destruct l as [|a l]; [congruence|]. intros _. eexists. reflexivity. Qed.
Lemma len_some {A} (l : list A) {B} (k : list B) : len l = len k -> k <> [] -> l <> [].
Proof. intros H N ->. destruct k; [congruence|discriminate]. Qed.
Lemma summary_when n q t : pair_fits q t -> exists l, summary_of n q t = Ok l.
Proof.
  intros ((A1 & (E1 & E2 & E3 & E4) & A3) & (B1 & B2 & B3 & B4 & (D1 & D2 & D3 & D4) & B6) & C & D & E & N). unfold summary_of.
  destruct (last_some (es_norm1 (pe_ape q))) as [x ->]; [apply (len_some _ (tk_traj (pe_track q))); congruence|]. destruct (last_some (es_norm2 (pe_ape q))) as [y ->]; [apply (len_some _ (tk_traj (pe_track q))); congruence|].
  destruct (last_some (es_norm1 (te_ae t))) as [z ->]; [apply (len_some _ (tk_traj (pe_track q))); congruence|]. destruct (last_some (es_norm2 (te_ae t))) as [w ->]; [apply (len_some _ (tk_traj (pe_track q))); congruence|]. eexists. reflexivity.
Qed.
Lemma summary_block n q t l : summary_of n q t = Ok l -> block n q t l.
Proof.
  unfold summary_of. destruct (last_res (es_norm1 (pe_ape q))) as [x| |] eqn:E1; cbn [rbind]; try discriminate. destruct (last_res (es_norm2 (pe_ape q))) as [y| |] eqn:E2; cbn [rbind]; try discriminate. destruct (last_res (es_norm1 (te_ae t))) as [z| |] eqn:E3; cbn [rbind]; try discriminate. destruct (last_res (es_norm2 (te_ae t))) as [w| |] eqn:E4; cbn [rbind]; try discriminate.
  intros H. injection H as <-. exists x, y, z, w. repeat (split; [apply last_final; assumption|]). reflexivity.
Qed.
Lemma summaries_when names : forall ps ts, Forall2 pair_fits ps ts -> (exists l, summaries names ps ts = Ok l) <-> (len names <= len ps)%nat.
Proof.
  induction names as [|n names IH]; intros ps ts F; cbn [summaries].
  - split; [cbn; lia|intros _; exists []; destruct ps; reflexivity].
  - destruct F as [|q t ps ts P F]; [split; [intros [l H]; discriminate|cbn; lia]|]. destruct (summary_when n q t P) as [l ->]. cbn [rbind len]. split.
    + intros [k H]. destruct (summaries names ps ts) as [k'| |] eqn:E; cbn [rbind] in H; try discriminate. assert (X : (len names <= len ps)%nat) by (apply (IH ps ts F); exists k'; exact E). lia.
    + intros H. destruct (proj2 (IH ps ts F)) as [k ->]; [lia|]. eexists. reflexivity.
Qed.
Lemma summaries_blocks names : forall ps ts l, len names = len ps -> len ps = len ts -> summaries names ps ts = Ok l -> blocks names ps ts l.
Proof.
  induction names as [|n names IH]; intros [|q ps] [|t ts] l L1 L2 H; try discriminate; cbn [summaries] in H; [injection H as <-; constructor|]. destruct (summary_of n q t) as [k| |] eqn:E; cbn [rbind] in H; try discriminate. destruct (summaries names ps ts) as [k'| |] eqn:E'; cbn [rbind] in H; try discriminate. injection H as <-. constructor; [apply summary_block; exact E|apply IH; [injection L1; auto|injection L2; auto|exact E']].
Qed.

(* ---- the whole ---- *)
Theorem saves_exactly names : (exists out, plot_and_save mixq r2q r2a q2a o b first fit p names gt odoms = Ok out) <->
  (exists d, compute_pose_data mixq r2q r2a q2a b first fit p gt odoms = Ok d) /\ len names = len odoms /\ (len odoms <= len (op_colours o))%nat.
Proof.
  unfold plot_and_save. destruct (compute_pose_data _ _ _ _ _ _ _ _ _ _) as [d0| |] eqn:E; cbn [rbind]; [|split; [intros [x H]; discriminate|intros [[x H] _]; discriminate]..].
  destruct (zeroed d0 E) as (g0 & es0 & d & g & es & H1 & H2 & H3 & H4 & Sh & F & Fg & Lg & L & F2). rewrite H3, H1. cbn [rbind]. rewrite H2. cbn [rbind]. rewrite H4. cbn [rbind fst snd]. pose proof (Forall2_length _ _ _ F2) as Le. split.
  - intros [out H]. split; [exists d0; reflexivity|]. destruct (plot_pose o names d) as [f1| |] eqn:P1; cbn [rbind] in H; try discriminate. destruct (plot_twist o names g es) as [f2| |]; cbn [rbind] in H; try discriminate. destruct (plot_trajectory o names d g es) as [f3| |] eqn:P3; cbn [rbind] in H; try discriminate.
    apply pose_windows in P1. destruct P1 as [Lc _]. apply trajectory_windows in P3. cbv zeta in P3. destruct P3 as (Ln & _ & _ & _). destruct (summaries names (pr_entries d) es) as [l| |] eqn:Sm; cbn [rbind] in H; try discriminate.
    assert (X : (len names <= len (pr_entries d))%nat) by (apply (summaries_when names _ _ F2); exists l; exact Sm). rewrite <- L. split; [lia|exact Lc].
  - intros (_ & Ln & Lc). rewrite <- L in Ln, Lc. assert (Fp : Forall pose_fits (pr_entries d)) by (clear -F2; induction F2 as [|e t ps ts P F IH]; constructor; [apply P|exact IH]). assert (Ft : Forall twist_fits es) by (clear -F2; induction F2 as [|e t ps ts P F IH]; constructor; [apply P|exact IH]).
    destruct (pose_drawn_when o names d F Fp Lc) as [f1 ->]. cbn [rbind]. destruct (twist_drawn_when o names g es Fg Ft) as [f2 ->]; [lia|]. cbn [rbind]. destruct (trajectory_drawn_when o names d g es F) as [f3 ->].
    + destruct Fg as (G1 & _). congruence.
    + clear -F2. induction F2 as [|e t ps ts P F IH]; constructor; [|exact IH]. destruct P as ((A1 & _) & (B1 & _) & C & _). split; [exact A1|congruence].
    + lia.
    + exact Lc.
    + cbn [rbind]. destruct (proj2 (summaries_when names _ _ F2)) as [l ->]; [lia|]. cbn [rbind]. eexists. reflexivity.
Qed.
Theorem outcome_is names out : plot_and_save mixq r2q r2a q2a o b first fit p names gt odoms = Ok out -> exists d0 g0 es0 d g es f1 f2 f3 lines,
  compute_pose_data mixq r2q r2a q2a b first fit p gt odoms = Ok d0 /\ twist_reference b gt = Ok g0 /\ compute_twist_data b gt odoms = Ok es0 /\ shown d0 d g0 g es0 es /\
  plot_pose o names d = Ok f1 /\ plot_twist o names g es = Ok f2 /\ plot_trajectory o names d g es = Ok f3 /\ ou_drawn out = f1 ++ f2 ++ f3 /\
  blocks names (pr_entries d0) es0 lines /\ ou_text out = Heading "GT Summary:" :: Value "Length" (Some (tk_length (pr_gt d0))) "m" :: lines /\
  ou_file out = (if op_save o then Some (ou_text out) else None) /\ ou_open out = (if op_close o then [] else ou_drawn out) /\
  (forall name ty w, In (name, ty, w) (ou_saved out) <-> op_save o = true /\ In ty (op_types o) /\ exists k, nth_error saved_as k = Some name /\ nth_error (ou_drawn out) k = Some w).
Proof.
  intros H. pose proof (proj1 (saves_exactly names) (ex_intro _ out H)) as (_ & Ln & _). unfold plot_and_save in H. destruct (compute_pose_data _ _ _ _ _ _ _ _ _ _) as [d0| |] eqn:E; cbn [rbind] in H; try discriminate.
  destruct (zeroed d0 E) as (g0 & es0 & d & g & es & H1 & H2 & H3 & H4 & Sh & F & Fg & Lg & L & F2). rewrite H3, H1 in H. cbn [rbind] in H. rewrite H2 in H. cbn [rbind] in H. rewrite H4 in H. cbn [rbind fst snd] in H. pose proof (Forall2_length _ _ _ F2) as Le.
  destruct (plot_pose o names d) as [f1| |] eqn:P1; cbn [rbind] in H; try discriminate. destruct (plot_twist o names g es) as [f2| |] eqn:P2; cbn [rbind] in H; try discriminate. destruct (plot_trajectory o names d g es) as [f3| |] eqn:P3; cbn [rbind] in H; try discriminate.
  destruct (summaries names (pr_entries d) es) as [l| |] eqn:Sm; cbn [rbind] in H; try discriminate. cbv zeta in H. assert (Bl : blocks names (pr_entries d) es l) by (apply summaries_blocks; [congruence|exact Le|exact Sm]).
  exists d0, g0, es0, d, g, es, f1, f2, f3, l. apply (f_equal (fun r => match r with Ok x => x | _ => out end)) in H. cbv beta iota in H. subst out. cbn [ou_drawn ou_open ou_saved ou_text ou_file].
  split; [reflexivity|]. split; [exact H1|]. split; [exact H2|]. split; [exact Sh|]. split; [exact P1|]. split; [exact P2|]. split; [exact P3|]. split; [reflexivity|]. destruct Sh as (s & [Sg Sp] & [_ St] & _).
  split; [|split; [|split; [reflexivity|split; [reflexivity|]]]].
  - clear -Bl Sp St. revert names es0 es l Bl St. induction Sp as [|e e' ps ps' (A & B & C) Sp IH]; intros names es0 es l Bl St; inversion Bl; subst.
    + inversion St; subst. constructor.
    + inversion St as [|t0 t1 ts0 ts1 (T0 & T1 & T2 & T3 & T4 & T5 & T6) St']; subst. constructor; [|apply (IH _ _ ts); assumption].
      match goal with X : block _ _ _ _ |- _ => destruct X as (fp & fo & fl & fa & X1 & X2 & X3 & X4 & ->) end. destruct B as (_ & _ & _ & B1 & B2 & B3 & B4). destruct T5 as (_ & _ & _ & D1 & D2 & D3 & D4). destruct A as (_ & _ & _ & _ & _ & A1).
      exists fp, fo, fl, fa. rewrite <- B1, <- B2, <- B3, <- B4, <- D1, <- D2, <- D3, <- D4, <- A1. repeat (split; [assumption|]). reflexivity.
  - destruct Sg as (_ & _ & _ & _ & _ & ->). reflexivity.
  - intros name ty w. destruct (op_save o); [|split; [intros []|intros [X _]; discriminate]]. rewrite in_flat_map. split.
    + intros (ty' & Ht & Hi). apply in_map_iff in Hi. destruct Hi as ([n w'] & Eq & Hc). cbn [fst snd] in Eq. injection Eq as <- <- <-. split; [reflexivity|]. split; [exact Ht|]. apply In_nth_error in Hc. destruct Hc as [k Hk]. exists k. apply combine_nth_error. exact Hk.
    + intros (_ & Ht & k & K1 & K2). exists ty. split; [exact Ht|]. apply in_map_iff. exists (name, w). split; [reflexivity|]. apply (nth_error_In _ k). apply combine_nth_error. split; assumption.
Qed.
End Runs.

(* what the reference of the velocity figures is made of: the ground truth in the time window, with the lengths of its two velocities *)
Lemma reference_columns b gt g : twist_reference b gt = Ok g -> exists ref, reference b gt ref /\ tt_t g = map stamp_of ref /\ tt_lin g = map od_lin ref /\ tt_ang g = map od_ang ref /\
  tt_speeds g = map (fun m => vnorm (od_lin m)) ref /\ tt_rates g = map (fun m => vnorm (od_ang m)) ref.
Proof.
  unfold twist_reference. destruct (filtered_is (fun m => (od_lin m, od_ang m)) b gt) as [(_ & _ & E)|(ref & E & Rf)]; rewrite E; cbn [rbind]; [discriminate|].
  intros H. injection H as <-. exists ref. split; [exact Rf|]. cbn [tt_t tt_lin tt_ang tt_speeds tt_rates]. unfold stamped. rewrite !map_map. repeat split; reflexivity.
Qed.
