(* Evaluation scripts: vector errors, track statistics, track retention. *)
From Coq Require Import Reals List ZArith Lra Lia Bool.
From Verif Require Import Base Interp Geo EgModel EgProofs MsModel RoModel RoSpec RoProofs BfModel EvModel EvSpec EvProofs EvPose EvMove EvAlign.
Import ListNotations.
Open Scope R_scope.

(* ---- vectors ---- *)
Definition raw_vector (a b : vec3) (c : R) : vec3 := vadd a (vscale c (vsub b a)).
Lemma raw_vector_eq a b c : raw_vector a b c = between_points a b c.
Proof. destruct a as [[? ?] ?], b as [[? ?] ?]. unfold raw_vector, between_points, vadd, vscale, vsub, vopp. apply triple_eq; ring. Qed.
Lemma vector_is t1 t2 a b t : interp_vector t1 t2 a b t = coefficient t1 t2 t (between_points a b).
Proof. unfold interp_vector, coefficient. destruct (Req_EM_T t1 t2); [reflexivity|]. destruct (_ || _); [reflexivity|]. f_equal. apply raw_vector_eq. Qed.
Definition vae (g v : vec3) : vec3 := vsub v g.
Definition vre (pg pv g v : vec3) : vec3 := vsub (vsub g pg) (vsub v pv).
Lemma vector_errors_defined gt l : compute_vector_errors gt l <> UB.
Proof. apply (errors_defined _ between_points). exact vector_is. Qed.
Lemma vector_errors_total gt l : gt <> [] -> in_order gt -> in_order l -> exists o, compute_vector_errors gt l = Ok o.
Proof. apply (errors_total _ between_points). exact vector_is. Qed.
Lemma vector_errors_report gt l o : in_order gt -> compute_vector_errors gt l = Ok o ->
  reports (fun v => v) between_points (fun v => v) (fun g v => vsub v g) (fun pg pv g v => vsub (vsub g pg) (vsub v pv)) gt l (eo_abs o) (eo_abs_t o) (eo_rel o) (eo_rel_t o).
Proof. apply (errors_report _ between_points). exact vector_is. Qed.
(* the relative errors are what the absolute error loses from one entry to the next *)
Lemma vector_relative gt l o : in_order gt -> compute_vector_errors gt l = Ok o -> forall i a b, nth_error (eo_abs o) i = Some a -> nth_error (eo_abs o) (S i) = Some b -> nth_error (eo_rel o) i = Some (vsub a b).
Proof.
  intros O H i a b Ha Hb. destruct (vector_errors_report gt l o O H) as (f & gs & Hf & K). cbv zeta in K. destruct K as (K1 & K2 & K3 & _ & _ & K6 & K7). set (kept := filter f l) in *.
  assert (Li : (S i < length kept)%nat) by (rewrite <- K2; apply nth_error_Some; rewrite Hb; discriminate).
  destruct (nth_error kept i) as [[tx x]|] eqn:Ex; [|apply nth_error_None in Ex; lia]. destruct (nth_error kept (S i)) as [[ty y]|] eqn:Ey; [|apply nth_error_None in Ey; lia].
  destruct (nth_error gs i) as [g|] eqn:Eg; [|apply nth_error_None in Eg; lia]. destruct (nth_error gs (S i)) as [h|] eqn:Eh; [|apply nth_error_None in Eh; lia].
  rewrite (K7 i tx x g ty y h Ex Eg Ey Eh). destruct (K6 i tx x g Ex Eg) as [_ A1]. destruct (K6 (S i) ty y h Ey Eh) as [_ A2]. rewrite Ha in A1. rewrite Hb in A2. injection A1 as ->. injection A2 as ->. f_equal. destruct x as [[? ?] ?], y as [[? ?] ?], g as [[? ?] ?], h as [[? ?] ?]. unfold vsub, vadd, vopp. apply triple_eq; ring.
Qed.
(* a constant offset of the estimate shifts the absolute errors and leaves the relative ones *)
Lemma vector_offset d gt l o : compute_vector_errors gt l = Ok o -> exists o', compute_vector_errors gt (map (fun e => (fst e, vadd (snd e) d)) l) = Ok o' /\ eo_abs o' = map (fun a => vadd a d) (eo_abs o) /\ eo_abs_t o' = eo_abs_t o /\ eo_rel o' = eo_rel o /\ eo_rel_t o' = eo_rel_t o.
Proof.
  intros H. assert (L : forall m before rest prev r, errors_loop (fun v => v) interp_vector (fun v => v) vae vre before rest prev m = Ok r ->
    errors_loop (fun v => v) interp_vector (fun v => v) vae vre before rest (option_map (fun p => (fst p, vadd (snd p) d)) prev) (map (fun e => (fst e, vadd (snd e) d)) m) = Ok (map (fun a => vadd a d) (fst r), snd r)).
  { induction m as [|[t x] m IH]; intros before rest prev r Hr; cbn [errors_loop map fst snd] in *; [injection Hr as <-; reflexivity|]. cbv zeta in *. destruct (at_time (fun v => v) interp_vector (advance before rest t) t) as [g| |]; cbn [rbind] in *; try discriminate.
    destruct (errors_loop _ _ _ _ _ _ _ (Some (g, x)) m) as [r1| |] eqn:E1; cbn [rbind] in *; try discriminate. injection Hr as <-. pose proof (IH _ _ _ _ E1) as IH'. cbn [option_map fst snd] in IH'. rewrite IH'. cbn [rbind fst snd map]. f_equal. f_equal.
    - f_equal. unfold vae. destruct x as [[? ?] ?], d as [[? ?] ?], g as [[? ?] ?]. unfold vsub, vadd, vopp. apply triple_eq; ring.
    - destruct prev as [[pg pv]|]; cbn [option_map fst snd]; [|reflexivity]. f_equal. unfold vre. destruct x as [[? ?] ?], d as [[? ?] ?], g as [[? ?] ?], pg as [[? ?] ?], pv as [[? ?] ?]. unfold vsub, vadd, vopp. apply triple_eq; ring. }
  unfold compute_vector_errors, errors in *. destruct gt as [|f gt]; [discriminate|]. cbv zeta in *.
  assert (I : inside (f :: gt) (map (fun e => (fst e, vadd (snd e) d)) l) = map (fun e => (fst e, vadd (snd e) d)) (inside (f :: gt) l)). { cbn [inside]. induction l as [|e l IHl]; [reflexivity|]. cbn [map filter fst]. destruct (rleb (fst e) (fst (last (f :: gt) f)) && rleb (fst f) (fst e)) eqn:C.
    - cbn [map]. f_equal. clear H. revert IHl. cbn [inside]. intros E. clear -l. induction l as [|e' l IH]; [reflexivity|]. cbn [map filter fst]. destruct (rleb (fst e') _ && _); [cbn [map]; f_equal; exact IH|exact IH].
    - clear -l. induction l as [|e' l IH]; [reflexivity|]. cbn [map filter fst]. destruct (rleb (fst e') _ && _); [cbn [map]; f_equal; exact IH|exact IH]. }
  rewrite I. destruct (errors_loop _ _ _ _ _ None (f :: gt) None (inside (f :: gt) l)) as [r| |] eqn:El; cbn [rbind] in H; try discriminate. injection H as <-. pose proof (L _ _ _ _ _ El) as L'. cbn [option_map] in L'. unfold vae, vre in L'. rewrite L'. cbn [rbind]. eexists. split; [reflexivity|]. cbn [eo_abs eo_abs_t eo_rel eo_rel_t fst snd]. rewrite map_map. cbn [fst]. repeat split; reflexivity.
Qed.

(* ---- tracks ---- *)
Lemma find_new (f : Z -> Z) id : forall ids, find (fun e => Z.eqb (fst e) id) (combine ids (map f ids)) = if existsb (Z.eqb id) ids then Some (id, f id) else None.
Proof.
  induction ids as [|a ids IH]; [reflexivity|]. cbn [map combine find existsb fst]. rewrite (Z.eqb_sym id a). destruct (Z.eqb a id) eqn:E; [apply Z.eqb_eq in E; subst; reflexivity|exact IH].
Qed.
Lemma existsb_in id ids : existsb (Z.eqb id) ids = true <-> In id ids.
Proof. rewrite existsb_exists. split; [intros (x & Hx & E); apply Z.eqb_eq in E; subst; exact Hx|intros H; exists id; split; [exact H|apply Z.eqb_refl]]. Qed.
Definition remembered (pre : list (list Z)) (last : list (Z * Z)) : Prop := forall id, match find (fun e => Z.eqb (fst e) id) last with
  | Some e => exists k, snd e = Z.of_nat k /\ seen_for pre (length pre - 1) id k /\ pre <> []
  | None => pre = [] \/ (forall f, nth_error pre (length pre - 1) = Some f -> ~ In id f) end.
Lemma seen_app pre rest i id k : (i < length pre)%nat -> seen_for pre i id k <-> seen_for (pre ++ rest) i id k.
Proof.
  intros L. unfold seen_for. split; intros (H1 & H2 & H3); (split; [exact H1|]; split; [intros j Hj; destruct (H2 j Hj) as (f & Hf & Hi); exists f; split; [|exact Hi]|intros Hk f Hf; apply (H3 Hk)]).
  - rewrite nth_error_app1 by lia. exact Hf.
  - rewrite nth_error_app1 in Hf by lia. exact Hf.
  - rewrite nth_error_app1 in Hf by lia. exact Hf.
  - rewrite nth_error_app1 by lia. exact Hf.
Qed.
Lemma tracked_seen pre last ids id : remembered pre last -> In id ids -> exists k, tracked_for last id = Z.of_nat k /\ seen_for (pre ++ [ids]) (length pre) id k.
Proof.
  intros Rm Hi. specialize (Rm id). unfold tracked_for. assert (Here : nth_error (pre ++ [ids]) (length pre) = Some ids) by (rewrite nth_error_app2, Nat.sub_diag by lia; reflexivity). destruct (find _ last) as [e|].
  - destruct Rm as (k & Ek & (S1 & S2 & S3) & N). assert (Lp : (0 < length pre)%nat) by (destruct pre; [congruence|cbn; lia]). exists (S k). split; [lia|]. split; [lia|]. split.
    + intros j Hj. destruct (Nat.eq_dec j (length pre)) as [->|Nj]; [exists ids; split; assumption|]. destruct (S2 j ltac:(lia)) as (f & Hf & Hif). exists f. split; [rewrite nth_error_app1 by lia; exact Hf|exact Hif].
    + intros Hk f Hf. rewrite nth_error_app1 in Hf by lia. apply (S3 ltac:(lia)). replace (length pre - 1 - k)%nat with (length pre - S k)%nat by lia. exact Hf.
  - exists 1%nat. split; [reflexivity|]. split; [lia|]. split.
    + intros j Hj. replace j with (length pre) by lia. exists ids. split; assumption.
    + intros Hk f Hf. destruct Rm as [->|Rm]; [cbn in Hk; lia|]. rewrite nth_error_app1 in Hf by lia. apply Rm. exact Hf.
Qed.
Lemma remembered_step pre last ids : remembered pre last -> remembered (pre ++ [ids]) (combine ids (map (tracked_for last) ids)).
Proof.
  intros Rm id. rewrite find_new. assert (Len : (length (pre ++ [ids]) - 1)%nat = length pre) by (rewrite app_length; cbn; lia). rewrite Len. destruct (existsb (Z.eqb id) ids) eqn:E.
  - apply existsb_in in E. destruct (tracked_seen pre last ids id Rm E) as (k & Ek & Sk). exists k. split; [exact Ek|]. split; [exact Sk|]. destruct pre; discriminate.
  - right. intros f Hf. rewrite nth_error_app2, Nat.sub_diag in Hf by lia. injection Hf as <-. intros Hi. apply existsb_in in Hi. congruence.
Qed.
Lemma frames_seen : forall frames pre last t, remembered pre last -> track_frames last frames = Ok t -> length t = length frames /\
  forall i f c, nth_error frames i = Some f -> nth_error t i = Some c -> f <> [] /\ length c = length f /\ forall j id, nth_error f j = Some id -> exists k, nth_error c j = Some (Z.of_nat k) /\ seen_for (pre ++ frames) (length pre + i) id k.
Proof.
  induction frames as [|ids frames IH]; intros pre last t Rm H; cbn [track_frames] in H; [injection H as <-; split; [reflexivity|intros [|i] f c Hf; discriminate]|]. destruct ids as [|a ids']; [discriminate|]. set (ids := a :: ids') in *. cbv zeta in H.
  destruct (track_frames (combine ids (map (tracked_for last) ids)) frames) as [t'| |] eqn:Et; cbn [rbind] in H; try discriminate. injection H as <-. destruct (IH (pre ++ [ids]) _ _ (remembered_step pre last ids Rm) Et) as [I1 I2]. split; [cbn; rewrite I1; reflexivity|].
  assert (Ea : (pre ++ [ids]) ++ frames = pre ++ ids :: frames) by (rewrite <- app_assoc; reflexivity). intros [|i] f c Hf Hc; cbn in Hf, Hc.
  - injection Hf as <-. injection Hc as <-. split; [discriminate|]. split; [exact (map_length (tracked_for last) ids)|]. intros j id Hj. destruct (tracked_seen pre last ids id Rm (nth_error_In _ _ Hj)) as (k & Ek & Sk). exists k. split; [rewrite <- Ek; exact (map_nth_error (tracked_for last) j ids Hj)|]. rewrite Nat.add_0_r, <- Ea. apply seen_app; [rewrite app_length; cbn; lia|exact Sk].
  - destruct (I2 i f c Hf Hc) as (J1 & J2 & J3). split; [exact J1|]. split; [exact J2|]. intros j id Hj. destruct (J3 j id Hj) as (k & Ek & Sk). exists k. split; [exact Ek|]. rewrite Ea in Sk. replace (length pre + S i)%nat with (length (pre ++ [ids]) + i)%nat by (rewrite app_length; cbn; lia). exact Sk.
Qed.
Lemma frames_total : forall frames last, (forall f, In f frames -> f <> []) -> exists t, track_frames last frames = Ok t.
Proof.
  induction frames as [|ids frames IH]; intros last H; cbn [track_frames]; [eexists; reflexivity|]. destruct ids as [|a ids]; [exfalso; apply (H []); [left; reflexivity|reflexivity]|]. cbv zeta. destruct (IH (combine (a :: ids) (map (tracked_for last) (a :: ids))) (fun f Hf => H f (or_intror Hf))) as [t Et]. rewrite Et. cbn [rbind]. eexists. reflexivity.
Qed.
Lemma frames_empty : forall frames last, In [] frames -> track_frames last frames = Throw.
Proof. induction frames as [|ids frames IH]; intros last H; [destruct H|]. cbn [track_frames]. destruct ids as [|a ids]; [reflexivity|]. cbv zeta. destruct H as [H|H]; [discriminate|]. rewrite IH by exact H. reflexivity. Qed.
Lemma zmax_spec l : l <> [] -> In (zmax l) l /\ forall x, In x l -> (x <= zmax l)%Z.
Proof.
  intros N. destruct l as [|a l]; [congruence|]. unfold zmax. clear N. revert a. induction l as [|b l IH]; intros a; [split; [left; reflexivity|intros x [<-|[]]; cbn; lia]|]. cbn [fold_left]. destruct (IH (Z.max a b)) as [I1 I2]. split.
  - destruct I1 as [I1|I1]; [|right; right; exact I1]. destruct (Z.max_spec a b) as [[_ E]|[_ E]]; rewrite E in I1 at 1; [right; left|left]; exact I1.
  - intros x [<-|[<-|Hx]]; [transitivity (Z.max a b); [lia|apply I2; left; reflexivity]|transitivity (Z.max a b); [lia|apply I2; left; reflexivity]|apply I2; right; exact Hx].
Qed.
Lemma zmin_spec l : l <> [] -> In (zmin l) l /\ forall x, In x l -> (zmin l <= x)%Z.
Proof.
  intros N. destruct l as [|a l]; [congruence|]. unfold zmin. clear N. revert a. induction l as [|b l IH]; intros a; [split; [left; reflexivity|intros x [<-|[]]; cbn; lia]|]. cbn [fold_left]. destruct (IH (Z.min a b)) as [I1 I2]. split.
  - destruct I1 as [I1|I1]; [|right; right; exact I1]. destruct (Z.min_spec a b) as [[_ E]|[_ E]]; rewrite E in I1 at 1; [left|right; left]; exact I1.
  - intros x [<-|[<-|Hx]]; [transitivity (Z.min a b); [apply I2; left; reflexivity|lia]|transitivity (Z.min a b); [apply I2; left; reflexivity|lia]|apply I2; right; exact Hx].
Qed.
Lemma sum_bounds lo hi l : (forall x, In x l -> (lo <= x <= hi)%Z) -> (lo * Z.of_nat (length l) <= fold_right Z.add 0 l <= hi * Z.of_nat (length l))%Z.
Proof. induction l as [|a l IH]; intros H; [cbn; lia|]. cbn [length fold_right]. pose proof (H a (or_introl eq_refl)). specialize (IH (fun x Hx => H x (or_intror Hx))). nia. Qed.
Lemma zmean_between l : l <> [] -> IZR (zmin l) <= zmean l <= IZR (zmax l).
Proof.
  intros N. destruct (zmax_spec l N) as [_ M1]. destruct (zmin_spec l N) as [_ M2]. pose proof (sum_bounds (zmin l) (zmax l) l (fun x Hx => conj (M2 x Hx) (M1 x Hx))) as [S1 S2]. unfold zmean. assert (P : 0 < INR (length l)) by (apply lt_0_INR; destruct l; [congruence|cbn; lia]). apply IZR_le in S1. apply IZR_le in S2. rewrite mult_IZR in S1, S2. rewrite <- INR_IZR_INZ in S1, S2. set (n := INR (length l)) in *.
  split; apply Rmult_le_reg_r with n; try exact P; unfold Rdiv; rewrite Rmult_assoc, Rinv_l by lra; lra.
Qed.
(* the row of a frame counts its features by how long they have been tracked *)
Definition row (n : nat) (f : list Z) : list nat := map (fun d => length (filter (Z.eqb (Z.of_nat (S d))) f)) (seq 0 n).
Lemma row_nth n f d : (d < n)%nat -> nth_error (row n f) d = Some (count_occ Z.eq_dec f (Z.of_nat (S d))).
Proof.
  intros H. unfold row. rewrite nth_error_map. rewrite (nth_error_nth' (seq 0 n) 0%nat) by (rewrite seq_length; exact H). rewrite seq_nth by exact H. cbn [option_map]. f_equal. clear H. change (0 + d)%nat with d. generalize (Z.of_nat (S d)). intros z. induction f as [|a f IH]; [reflexivity|]. cbn [filter count_occ]. destruct (Z.eq_dec a z) as [->|N]; [rewrite Z.eqb_refl; cbn [length]; rewrite IH; reflexivity|]. replace (Z.eqb z a) with false by (symmetry; apply Z.eqb_neq; congruence). exact IH.
Qed.
Lemma row_sum : forall f n, (forall x, In x f -> (1 <= x <= Z.of_nat n)%Z) -> fold_right Nat.add 0%nat (row n f) = length f.
Proof.
  assert (Z0 : forall n, fold_right Nat.add 0%nat (row n []) = 0%nat). { intros n. unfold row. generalize (seq 0 n). intros s. induction s as [|d s IH]; [reflexivity|]. cbn. exact IH. }
  assert (One : forall x f s, NoDup s -> fold_right Nat.add 0%nat (map (fun d => length (filter (Z.eqb (Z.of_nat (S d))) (x :: f))) s) = (fold_right Nat.add 0%nat (map (fun d => length (filter (Z.eqb (Z.of_nat (S d))) f)) s) + (if existsb (fun d => Z.eqb (Z.of_nat (S d)) x) s then 1 else 0))%nat).
  { intros x f s. induction s as [|d s IH]; intros ND; [reflexivity|]. apply NoDup_cons_iff in ND. destruct ND as [Nd ND]. specialize (IH ND). cbn [map fold_right existsb]. rewrite IH. cbn [filter]. destruct (Z.eqb (Z.of_nat (S d)) x) eqn:E.
    - cbn [orb length]. replace (existsb (fun d0 => Z.eqb (Z.of_nat (S d0)) x) s) with false; [lia|]. symmetry. apply not_true_is_false. intros C. apply existsb_exists in C. destruct C as (d' & Hd' & E'). apply Z.eqb_eq in E. apply Z.eqb_eq in E'. assert (d = d') by lia. subst d'. contradiction.
    - cbn [orb]. lia. }
  induction f as [|x f IH]; intros n H; [apply Z0|]. unfold row in *. rewrite One by apply seq_NoDup. rewrite IH by (intros y Hy; apply H; right; exact Hy). replace (existsb _ (seq 0 n)) with true; [cbn; lia|]. symmetry. apply existsb_exists. pose proof (H x (or_introl eq_refl)). exists (Z.to_nat (x - 1)). split; [apply in_seq; lia|]. apply Z.eqb_eq. lia.
Qed.
(* all that is reported *)
Lemma track_statistics frames s : compute_frame_track_statistics frames = Ok s ->
  length (ts_tracked s) = length frames /\ length (ts_bins s) = length frames /\ (1 <= ts_longest s <= Z.of_nat (length frames))%Z /\
  (exists i c, nth_error (ts_tracked s) i = Some c /\ In (ts_longest s) c) /\
  forall i f, nth_error frames i = Some f -> exists c b mean lo hi, nth_error (ts_tracked s) i = Some c /\ nth_error (ts_bins s) i = Some b /\ nth_error (ts_mean s) i = Some mean /\ nth_error (ts_min s) i = Some lo /\ nth_error (ts_max s) i = Some hi /\
    length c = length f /\ (forall j id, nth_error f j = Some id -> exists k, nth_error c j = Some (Z.of_nat k) /\ seen_for frames i id k) /\
    (In lo c /\ In hi c /\ forall x, In x c -> (lo <= x <= hi)%Z) /\ (1 <= lo)%Z /\ (hi <= Z.of_nat (S i))%Z /\ (hi <= ts_longest s)%Z /\ mean = IZR (fold_right Z.add 0%Z c) / INR (length c) /\ IZR lo <= mean <= IZR hi /\
    length b = Z.to_nat (ts_longest s) /\ (forall d, (d < length b)%nat -> nth_error b d = Some (count_occ Z.eq_dec c (Z.of_nat (S d)))) /\ fold_right Nat.add 0%nat b = length f.
Proof.
  intros H. unfold compute_frame_track_statistics in H. destruct frames as [|f0 frames0] eqn:EF; [discriminate|]. rewrite <- EF in *. assert (NF : frames <> []) by (rewrite EF; discriminate). destruct (track_frames [] frames) as [t| |] eqn:Et; cbn [rbind] in H; try discriminate. cbv zeta in H. injection H as <-. cbn [ts_tracked ts_bins ts_longest ts_mean ts_min ts_max].
  destruct (frames_seen frames [] [] t) as [F1 F2]; [intros id; left; reflexivity|exact Et|]. cbn [app length Nat.add] in F2.
  assert (Nt : map zmax t <> []) by (destruct t; [destruct frames; [congruence|discriminate F1]|discriminate]). destruct (zmax_spec _ Nt) as [Lin Lmax]. set (longest := zmax (map zmax t)) in *.
  assert (Each : forall i c, nth_error t i = Some c -> c <> [] /\ (forall x, In x c -> (1 <= x <= Z.of_nat (S i))%Z) /\ (forall x, In x c -> (x <= longest)%Z)).
  { intros i c Hc. assert (Li : (i < length frames)%nat) by (rewrite <- F1; apply nth_error_Some; rewrite Hc; discriminate). destruct (nth_error frames i) as [f|] eqn:Ef; [|apply nth_error_None in Ef; lia]. destruct (F2 i f c Ef Hc) as (J1 & J2 & J3). assert (Nc : c <> []) by (destruct c; [destruct f; [congruence|discriminate J2]|discriminate]). split; [exact Nc|]. split.
    - intros x Hx. apply In_nth_error in Hx. destruct Hx as [j Hj]. assert (Lj : (j < length f)%nat) by (rewrite <- J2; apply nth_error_Some; rewrite Hj; discriminate). destruct (nth_error f j) as [id|] eqn:Ej; [|apply nth_error_None in Ej; lia]. destruct (J3 j id Ej) as (k & Ek & (S1 & _)). rewrite Hj in Ek. injection Ek as ->. lia.
    - intros x Hx. destruct (zmax_spec c Nc) as [_ M]. transitivity (zmax c); [apply M; exact Hx|apply Lmax; apply in_map; apply (nth_error_In _ _ Hc)]. }
  split; [exact F1|]. split; [rewrite map_length; exact F1|]. apply in_map_iff in Lin. destruct Lin as (cm & Ecm & Hcm). apply In_nth_error in Hcm. destruct Hcm as [im Him]. destruct (Each im cm Him) as (N1 & N2 & N3). destruct (zmax_spec cm N1) as [Mi _]. rewrite Ecm in Mi. assert (Lim : (im < length frames)%nat) by (rewrite <- F1; apply nth_error_Some; rewrite Him; discriminate).
  split; [pose proof (N2 _ Mi); lia|]. split; [exists im, cm; split; [exact Him|exact Mi]|]. intros i f Hf. assert (Li : (i < length t)%nat) by (rewrite F1; apply nth_error_Some; rewrite Hf; discriminate). destruct (nth_error t i) as [c|] eqn:Ec; [|apply nth_error_None in Ec; lia]. destruct (F2 i f c Hf Ec) as (J1 & J2 & J3). destruct (Each i c Ec) as (P1 & P2 & P3). destruct (zmax_spec c P1) as [X1 X2]. destruct (zmin_spec c P1) as [Y1 Y2].
  exists c, (row (Z.to_nat longest) c), (zmean c), (zmin c), (zmax c). rewrite !nth_error_map, Ec. split; [reflexivity|]. split; [reflexivity|]. split; [reflexivity|]. split; [reflexivity|]. split; [reflexivity|]. split; [exact J2|]. split; [exact J3|]. split; [split; [exact Y1|split; [exact X1|intros x Hx; split; [apply Y2; exact Hx|apply X2; exact Hx]]]|]. split; [apply (P2 _ Y1)|]. split; [apply (P2 _ X1)|]. split; [apply (P3 _ X1)|]. split; [reflexivity|]. split; [apply zmean_between; exact P1|].
  assert (Lr : length (row (Z.to_nat longest) c) = Z.to_nat longest) by (unfold row; rewrite map_length, seq_length; reflexivity). split; [exact Lr|]. split; [intros d Hd; apply row_nth; rewrite Lr in Hd; exact Hd|]. rewrite row_sum; [exact J2|]. intros x Hx. pose proof (P2 x Hx). pose proof (P3 x Hx). lia.
Qed.
Lemma track_statistics_total frames : frames <> [] -> (forall f, In f frames -> f <> []) -> exists s, compute_frame_track_statistics frames = Ok s.
Proof. intros N H. unfold compute_frame_track_statistics. destruct frames as [|f frames]; [congruence|]. destruct (frames_total (f :: frames) [] H) as [t Et]. rewrite Et. cbn [rbind]. eexists. reflexivity. Qed.
Lemma track_statistics_empty frames : In [] frames -> compute_frame_track_statistics frames = Throw.
Proof. intros H. unfold compute_frame_track_statistics. destruct frames as [|f frames]; [destruct H|]. rewrite frames_empty by exact H. reflexivity. Qed.

(* ---- retention ---- *)
Lemma retention_length counts : length (compute_track_retention counts) = Nat.max 1 (length counts).
Proof. destruct counts as [|c counts]; [reflexivity|]. cbn [compute_track_retention length]. rewrite map_length, combine_length. cbn [tl length]. lia. Qed.
Lemma retention_nth counts : nth_error (compute_track_retention counts) 0 = Some None /\
  forall i tracked1 total1 tracked2 total2, nth_error counts i = Some (tracked1, total1) -> nth_error counts (S i) = Some (tracked2, total2) -> nth_error (compute_track_retention counts) (S i) = Some (match total1 with O => None | _ => Some (INR tracked2 / INR total1) end).
Proof.
  split; [destruct counts; reflexivity|]. intros i a b c d H1 H2. destruct counts as [|x counts]; [destruct i; discriminate|]. cbn [compute_track_retention nth_error]. rewrite nth_error_map. rewrite (nth_combine (x :: counts) (tl (x :: counts)) i (a, b) (c, d) H1 H2). reflexivity.
Qed.
(* no more tracked than there were: a fraction *)
Lemma retention_bounds counts : (forall i a b c d, nth_error counts i = Some (a, b) -> nth_error counts (S i) = Some (c, d) -> (c <= b)%nat) -> forall x, In (Some x) (compute_track_retention counts) -> 0 <= x <= 1.
Proof.
  intros H x Hx. apply In_nth_error in Hx. destruct Hx as [i Hi]. destruct (retention_nth counts) as [R0 RS]. destruct i as [|i]; [rewrite R0 in Hi; discriminate|]. assert (Li : (S i < length counts)%nat). { assert (L : (S i < length (compute_track_retention counts))%nat) by (apply nth_error_Some; rewrite Hi; discriminate). rewrite retention_length in L. lia. }
  destruct (nth_error counts i) as [[a b]|] eqn:E1; [|apply nth_error_None in E1; lia]. destruct (nth_error counts (S i)) as [[c d]|] eqn:E2; [|apply nth_error_None in E2; lia]. rewrite (RS i a b c d E1 E2) in Hi. specialize (H i a b c d E1 E2). destruct b as [|b]; [discriminate|]. injection Hi as <-.
  assert (P : 0 < INR (S b)) by (apply lt_0_INR; lia). apply le_INR in H. pose proof (pos_INR c) as Pc. split; [apply Rmult_le_pos; [exact Pc|left; apply Rinv_0_lt_compat; exact P]|]. apply Rmult_le_reg_r with (INR (S b)); [exact P|]. unfold Rdiv. rewrite Rmult_assoc, Rinv_l by lra. lra.
Qed.
Lemma numbers_in l x : In x (numbers l) <-> In (Some x) l.
Proof. unfold numbers. rewrite in_flat_map. split; [intros (y & Hy & Hx); destruct y as [r|]; [destruct Hx as [<-|[]]; exact Hy|destruct Hx]|intros H; exists (Some x); split; [exact H|left; reflexivity]]. Qed.
Lemma mean_between lo hi l m : (forall x, In (Some x) l -> lo <= x <= hi) -> mean_retention l = Some m -> lo <= m <= hi.
Proof.
  intros H. unfold mean_retention. assert (Hn : forall x, In x (numbers l) -> lo <= x <= hi) by (intros x Hx; apply H, numbers_in; exact Hx). destruct (numbers l) as [|a n] eqn:En; [discriminate|]. rewrite <- En in *. intros [= <-].
  assert (S : forall k, (forall x, In x k -> lo <= x <= hi) -> lo * INR (length k) <= fold_right Rplus 0 k <= hi * INR (length k)). { induction k as [|b k IH]; intros Hk; [cbn; lra|]. cbn [fold_right]. change (length (b :: k)) with (S (length k)). rewrite S_INR. pose proof (Hk b (or_introl eq_refl)). specialize (IH (fun x Hx => Hk x (or_intror Hx))). nra. }
  specialize (S (numbers l) Hn). assert (P : 0 < INR (length (numbers l))) by (apply lt_0_INR; rewrite En; cbn; lia). set (k := INR (length (numbers l))) in *. split; apply Rmult_le_reg_r with k; try exact P; unfold Rdiv; rewrite Rmult_assoc, Rinv_l by lra; lra.
Qed.
Lemma mean_none l : mean_retention l = None <-> forall x, ~ In (Some x) l.
Proof. unfold mean_retention. destruct (numbers l) as [|a n] eqn:E; split; try discriminate; try reflexivity. - intros _ x Hx. apply numbers_in in Hx. rewrite E in Hx. exact Hx. - intros H. exfalso. apply (H a). apply numbers_in. rewrite E. left. reflexivity. Qed.
