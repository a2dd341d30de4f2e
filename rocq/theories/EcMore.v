(* Scripts about registration covariances: the errors, when the plotted points are right, the whole script. *)
From Coq Require Import Reals List ZArith Lra Lia Bool.
From Verif Require Import Base Interp Geo EgModel EgProofs MsModel RoModel BfModel EvModel EvSpec EvProofs EvPose EvMove EvInter EvSelf EcModel EcSpec EcProofs.
Import ListNotations.
Open Scope R_scope.

(* ---- a symmetric matrix is known by its quadratic form ---- *)
Lemma form_matrix a b : mT a = a -> mT b = b -> (forall x, vdot x (mapply a x) = vdot x (mapply b x)) -> a = b.
Proof.
  intros A B H. pose proof (H (1, 0, 0)) as H1. pose proof (H (0, 1, 0)) as H2. pose proof (H (0, 0, 1)) as H3. pose proof (H (1, 1, 0)) as H4. pose proof (H (1, 0, 1)) as H5. pose proof (H (0, 1, 1)) as H6. clear H.
  vsplit. vred. injection A as ? ? ? ? ? ?. injection B as ? ? ? ? ? ?. subst. tup; lra.
Qed.

Section Points.
Variable eig : mat3 -> mat3 * vec3.
(* the points are where they should be for every error only if the axes of the covariance are those of the coordinates, in their order *)
Lemma right_only_aligned C : decomposes C (eig C) -> definite C ->
  ((forall t e, normalised_error eig C t = Some e -> deviates C t (4 * vdot e e)) <-> C = diag (snd (eig C))).
Proof.
  intros De D. pose proof (normalised_size eig C) as S. specialize (fun t => S t De D). destruct De as [O E]. destruct (eig C) as [v d]. cbn [fst snd] in *. pose proof (definite_values C v d O E D) as P. destruct d as [[a b] c]. destruct P as (A & B & Cc). split.
  - intros H. set (i := diag (/ a, / b, / c)). set (Q := mmul v (mmul i (mT v))).
    assert (QC : forall x, mapply Q (mapply C x) = x). { intros x. rewrite (decomposed_apply _ _ _ _ E). unfold Q. rewrite (decomposed_apply _ v (/ a, / b, / c) _ eq_refl), orth_back by exact O. rewrite <- (orth_forth v x O) at 2. f_equal. destruct (mapply (mT v) x) as [[x1 x2] x3]. unfold times. tup; field; lra. }
    assert (EQ : Q = i).
    { apply form_matrix.
      - unfold Q. rewrite !mT_mul, mT_T, mmul_assoc. reflexivity.
      - unfold i, diag, mT. reflexivity.
      - intros x. destruct (S x) as (e & He & Se). specialize (H x e He). destruct H as (y & Hy & Hd). replace (mapply Q x) with y by (rewrite <- Hy; symmetry; apply QC). rewrite Hd. destruct x as [[x1 x2] x3]. rewrite Se. unfold i, diag, mapply, vdot. field. lra. }
    assert (CD : forall x, mapply C x = mapply (diag (a, b, c)) x). { intros x. rewrite EQ in QC. specialize (QC x). destruct (mapply C x) as [[x1 x2] x3]. rewrite <- QC. unfold i, diag, mapply, vdot. tup; field; lra. }
    pose proof (CD (1, 0, 0)) as C1. pose proof (CD (0, 1, 0)) as C2. pose proof (CD (0, 0, 1)) as C3. clear - C1 C2 C3. vsplit. unfold diag in *. vred. injection C1 as ? ? ?. injection C2 as ? ? ?. injection C3 as ? ? ?. tup; lra.
  - intros ED t e He. destruct (S t) as (e' & He' & Se). rewrite He' in He. injection He as <-. destruct t as [[x y] z]. rewrite Se. exists (x / a, y / b, z / c). rewrite ED. unfold diag, mapply, vdot. split; [tup; field; lra|field; lra].
Qed.
End Points.

Section Whole.
Variable mixq : quat -> quat -> R -> quat.
Variable r2q : mat3 -> quat.
Variable eig : mat3 -> mat3 * vec3.
Hypothesis unit_mix : stays_unit mixq.
Hypothesis ends : keeps_ends mixq.
Hypothesis reads : reads_rotation r2q.

Lemma all_snd l : all_oriented l -> Forall oriented (map snd l).
Proof. intros A. apply Forall_forall. intros p Hp. apply in_map_iff in Hp. destruct Hp as (e & <- & He). apply A. exact He. Qed.
Lemma nth_map {A B} (f : A -> B) l i x : nth_error l i = Some x -> nth_error (map f l) i = Some (f x).
Proof. intros H. rewrite nth_error_map, H. reflexivity. Qed.

Lemma errors_are ref traj e : in_order ref -> all_oriented ref -> translation_errors mixq r2q ref traj = Ok e ->
  exists gs, length gs = length traj /\ S (length e) = length traj /\
  (forall i t x g, nth_error traj i = Some (t, x) -> nth_error gs i = Some g -> value_at pose_to_matrix (pose_between mixq) ref t g) /\
  (forall i t x t' y g h, nth_error traj i = Some (t, x) -> nth_error traj (S i) = Some (t', y) -> nth_error gs i = Some g -> nth_error gs (S i) = Some h ->
    nth_error e i = Some (vsub (seen_from x y) (tr (imul (iinv g) h)))).
Proof.
  intros O A. unfold translation_errors. destruct (interpolate_trajectory mixq r2q (map fst traj) ref) as [iref| |] eqn:Ei; try discriminate. cbn [rbind].
  destruct (compute_relative_poses r2q (map snd traj)) as [ra| |] eqn:Ea; try discriminate. cbn [rbind]. destruct (compute_relative_poses r2q (map snd iref)) as [rb| |] eqn:Eb; try discriminate. cbn [rbind]. intros H. apply done in H. subst e.
  destruct (interpolate_sound mixq r2q unit_mix ends reads _ _ _ O A Ei) as [S1 S2]. assert (L : length iref = length traj) by (rewrite <- (map_length fst iref), S1, map_length; reflexivity).
  pose proof (relative_length r2q _ _ Ea) as La. pose proof (relative_length r2q _ _ Eb) as Lb. rewrite map_length in La, Lb.
  exists (map (fun z => pose_to_matrix (snd z)) iref). split; [rewrite map_length; exact L|]. split; [rewrite map_length, combine_length; lia|]. split.
  - intros i t x g Hx Hg. rewrite nth_error_map in Hg. destruct (nth_error iref i) as [[t' z]|] eqn:Hz; [|discriminate]. injection Hg as <-. assert (t' = t) as -> . { pose proof (nth_map fst iref i _ Hz) as E1. rewrite S1, (nth_map fst traj i _ Hx) in E1. cbn in E1. congruence. } destruct (S2 t z (nth_error_In _ _ Hz)) as [V _]. exact V.
  - intros i t x t' y g h Hx Hy Hg Hh. rewrite nth_error_map in Hg, Hh. destruct (nth_error iref i) as [[u z]|] eqn:Hz; [|discriminate]. destruct (nth_error iref (S i)) as [[u' z']|] eqn:Hz'; [|discriminate]. injection Hg as <-. injection Hh as <-.
    destruct (relative_position r2q _ _ i x y Ea (nth_map snd traj i _ Hx) (nth_map snd traj (S i) _ Hy)) as (p & Hp & Ep). pose proof (relative_nth r2q _ _ i z z' Eb (nth_map snd iref i _ Hz) (nth_map snd iref (S i) _ Hz')) as Hq.
    rewrite nth_error_map, (nth_combine _ _ _ _ _ Hp Hq). cbn [option_map fst snd]. rewrite Ep. reflexivity.
Qed.
Lemma errors_there ref traj : increasing ref -> (2 <= length ref)%nat -> (2 <= length traj)%nat -> in_order traj -> (forall e, In e traj -> covered ref (fst e)) ->
  exists e, translation_errors mixq r2q ref traj = Ok e /\ S (length e) = length traj.
Proof.
  intros I Lr Lt O Cv. unfold translation_errors. destruct (interpolate_total mixq r2q (map fst traj) ref I Lr) as [iref Ei].
  - destruct traj; [cbn in Lt; lia|discriminate].
  - intros i j s t Hs Ht Hij. rewrite nth_error_map in Hs, Ht. destruct (nth_error traj i) as [a|] eqn:Ha; [|discriminate]. destruct (nth_error traj j) as [b|] eqn:Hb; [|discriminate]. injection Hs as <-. injection Ht as <-. apply (O i j a b Ha Hb Hij).
  - intros t Ht. apply in_map_iff in Ht. destruct Ht as (a & <- & Ha). apply Cv. exact Ha.
  - rewrite Ei. cbn [rbind]. assert (L : length iref = length traj). { clear - Ei. unfold interpolate_trajectory in Ei. destruct traj as [|a traj]; [discriminate|]. destruct ref as [|f ref]; [discriminate|]. cbn [map] in Ei. destruct (rltb _ _ || rltb _ _); [discriminate|]. change (fst a :: map fst traj) with (map fst (a :: traj)) in Ei. rewrite <- (map_length fst (a :: traj)). revert iref Ei. generalize (@None (R * mpose)). generalize (f :: ref). induction (map fst (a :: traj)) as [|t refs IH]; intros rest before iref Ei; cbn [interpolate_loop] in Ei; [apply done in Ei; subst; reflexivity|].
      cbv zeta in Ei. destruct (fst (advance_within before rest t)) as [b|] eqn:E1; [|discriminate]. destruct (snd (advance_within before rest t)) as [|x l] eqn:E2; [discriminate|]. destruct (interp_transform mixq (fst b) (fst x) (snd b) (snd x) t) as [T| |]; try discriminate. cbn [rbind] in Ei. destruct (interpolate_loop mixq r2q (Some b) (x :: l) refs) as [r| |] eqn:E3; try discriminate. cbn [rbind] in Ei. apply done in Ei. subst iref. cbn [length]. f_equal. eapply IH. exact E3. }
    destruct (proj2 (relative_defined r2q (map snd traj))) as [ra Ea]; [rewrite map_length; exact Lt|]. destruct (proj2 (relative_defined r2q (map snd iref))) as [rb Eb]; [rewrite map_length, L; exact Lt|]. rewrite Ea, Eb. cbn [rbind]. eexists. split; [reflexivity|].
    pose proof (relative_length r2q _ _ Ea) as La. pose proof (relative_length r2q _ _ Eb) as Lb. rewrite map_length in La, Lb. rewrite map_length, combine_length. lia.
Qed.
Lemma errors_estimate_moved t q ref traj : qunit q -> all_oriented traj -> translation_errors mixq r2q ref (moved_all t q traj) = translation_errors mixq r2q ref traj.
Proof.
  intros U A. unfold translation_errors, moved_all. rewrite !map_map. cbn [fst snd]. replace (map (fun x : R * mpose => moved t q (snd x)) traj) with (map (moved t q) (map snd traj)) by (rewrite map_map; reflexivity). rewrite relative_moved; [reflexivity|exact U|apply all_snd; exact A].
Qed.
Lemma errors_self l e : increasing l -> all_oriented l -> translation_errors mixq r2q l l = Ok e -> forall x, In x e -> x = v0.
Proof.
  intros I A H x Hx. destruct (errors_are l l e (increasing_order l I) A H) as (gs & Lg & Le & V & N). apply In_nth_error in Hx. destruct Hx as [i Hi]. assert (Bi : (S i < length l)%nat) by (assert (i < length e)%nat by (apply nth_error_Some; congruence); lia).
  destruct (nth_error l i) as [[t a]|] eqn:Ea; [|apply nth_error_None in Ea; lia]. destruct (nth_error l (S i)) as [[t' b]|] eqn:Eb; [|apply nth_error_None in Eb; lia]. destruct (nth_error gs i) as [g|] eqn:Eg; [|apply nth_error_None in Eg; lia]. destruct (nth_error gs (S i)) as [h|] eqn:Eh; [|apply nth_error_None in Eh; lia].
  rewrite (N i t a t' b g h Ea Eb Eg Eh) in Hi. injection Hi as <-. rewrite (value_own mixq ends l t a g I A (nth_error_In _ _ Ea) (V i t a g Ea Eg)), (value_own mixq ends l t' b h I A (nth_error_In _ _ Eb) (V (S i) t' b h Eb Eh)). apply vadd_opp_r.
Qed.

(* ---- the script ---- *)
Lemma scatter_sound ref traj covs n f : scatter mixq r2q eig ref traj covs = Ok (n, f) ->
  exists e, translation_errors mixq r2q ref traj = Ok e /\ length e = length covs /\ length n = length covs /\ (3 <= length covs)%nat /\
  (forall i C t, nth_error covs i = Some C -> nth_error e i = Some t -> nth_error n i = Some (normalised_error eig C t)) /\
  (forall x, nth_error n (pred (length n)) = Some x -> f = if inside x then 1 else 0).
Proof.
  unfold scatter. destruct (translation_errors mixq r2q ref traj) as [e| |]; try discriminate. cbn [rbind]. destruct (Nat.eqb (length e) (length covs)) eqn:E1; [|discriminate]. apply Nat.eqb_eq in E1. destruct (Nat.leb 3 (length e)) eqn:E2; [|discriminate]. apply Nat.leb_le in E2. intros H. apply done in H. injection H as Hn Hf.
  assert (Ln : length n = length covs) by (rewrite <- Hn, map_length, combine_length, E1; lia). exists e. split; [reflexivity|]. split; [exact E1|]. split; [exact Ln|]. split; [lia|]. split.
  - intros i C t HC Ht. rewrite <- Hn, nth_error_map, (nth_combine _ _ _ _ _ HC Ht). reflexivity.
  - intros x Hx. rewrite <- Hf, Hn. rewrite (printed_last n x) by (intros Z; rewrite Z in Ln; cbn in Ln; lia). assert (Nn : n <> []) by (intros Z; rewrite Z in Ln; cbn in Ln; lia). rewrite (last_nth n x Nn) in Hx. injection Hx as ->. reflexivity.
Qed.
Lemma scatter_total ref traj covs : increasing ref -> (2 <= length ref)%nat -> (4 <= length traj)%nat -> in_order traj -> (forall e, In e traj -> covered ref (fst e)) -> S (length covs) = length traj ->
  exists n f, scatter mixq r2q eig ref traj covs = Ok (n, f).
Proof.
  intros I Lr Lt O Cv Lc. destruct (errors_there ref traj I Lr ltac:(lia) O Cv) as (e & He & Le). unfold scatter. rewrite He. cbn [rbind]. replace (Nat.eqb (length e) (length covs)) with true by (symmetry; apply Nat.eqb_eq; lia). replace (Nat.leb 3 (length e)) with true by (symmetry; apply Nat.leb_le; lia). eauto.
Qed.
Lemma scatter_mismatch ref traj covs : increasing ref -> (2 <= length ref)%nat -> (2 <= length traj)%nat -> in_order traj -> (forall e, In e traj -> covered ref (fst e)) -> S (length covs) <> length traj ->
  scatter mixq r2q eig ref traj covs = Throw.
Proof.
  intros I Lr Lt O Cv Lc. destruct (errors_there ref traj I Lr Lt O Cv) as (e & He & Le). unfold scatter. rewrite He. cbn [rbind]. replace (Nat.eqb (length e) (length covs)) with false by (symmetry; apply Nat.eqb_neq; lia). reflexivity.
Qed.
Lemma scatter_few ref traj covs : increasing ref -> (2 <= length ref)%nat -> (2 <= length traj < 4)%nat -> in_order traj -> (forall e, In e traj -> covered ref (fst e)) ->
  scatter mixq r2q eig ref traj covs = Throw.
Proof.
  intros I Lr Lt O Cv. destruct (errors_there ref traj I Lr ltac:(lia) O Cv) as (e & He & Le). unfold scatter. rewrite He. cbn [rbind]. destruct (Nat.eqb (length e) (length covs)); [|reflexivity]. replace (Nat.leb 3 (length e)) with false by (symmetry; apply Nat.leb_gt; lia). reflexivity.
Qed.
End Whole.

(* ---- Jacobians, covariances of messages ---- *)
Lemma jacobians_kept msgs o : jacobian_entry msgs = Ok o -> je_rows o = msgs /\ Forall (fun m => length m = je_dim o) msgs /\
  length (je_abs o) = length msgs /\ length (je_sq o) = length msgs /\
  forall i j m x, nth_error msgs i = Some m -> nth_error m j = Some x -> (exists a, nth_error (je_abs o) i = Some a /\ nth_error a j = Some (Rabs x)) /\ (exists s, nth_error (je_sq o) i = Some s /\ nth_error s j = Some (x * x)).
Proof.
  unfold jacobian_entry. cbv zeta. destruct (forallb _ msgs) eqn:F; [|discriminate]. intros H. apply done in H. subst o. cbn [je_rows je_dim je_abs je_sq]. split; [reflexivity|]. split.
  - apply Forall_forall. intros m Hm. rewrite forallb_forall in F. apply Nat.eqb_eq. apply F. exact Hm.
  - rewrite !map_length. split; [reflexivity|]. split; [reflexivity|]. intros i j m x Hm Hx. split; eexists; (split; [apply nth_map; exact Hm|]); rewrite nth_error_map, Hx; reflexivity.
Qed.
Lemma jacobians_there msgs : (exists o, jacobian_entry msgs = Ok o) <-> (forall a b, In a msgs -> In b msgs -> length a = length b).
Proof.
  unfold jacobian_entry. cbv zeta. split.
  - intros [o H]. destruct (forallb _ msgs) eqn:F; [|discriminate]. rewrite forallb_forall in F. intros a b Ha Hb. apply F in Ha. apply F in Hb. apply Nat.eqb_eq in Ha. apply Nat.eqb_eq in Hb. congruence.
  - intros H. replace (forallb _ msgs) with true; [eauto|]. symmetry. apply forallb_forall. intros m Hm. apply Nat.eqb_eq. destruct msgs as [|m0 msgs]; [destruct Hm|]. apply H; [exact Hm|left; reflexivity].
Qed.
(* the numbers of a message are sent row by row: entry (i, j) is number 6 i + j *)
Lemma entries_symmetric c i j : (forall i j, (i < 6)%nat -> (j < 6)%nat -> nth (6 * i + j) c 0 = nth (6 * j + i) c 0) -> (i < 6)%nat -> (j < 6)%nat -> entry c i j = nth (6 * i + j) c 0.
Proof. intros S Hi Hj. unfold entry. rewrite (S i j Hi Hj). f_equal. lia. Qed.
Lemma sigmas_are c i : (i < 6)%nat -> 0 <= nth (7 * i) c 0 -> exists s, nth_error (sigmas c) i = Some (Some s) /\ 0 <= s /\ s * s = nth (7 * i) c 0.
Proof.
  intros Hi H. unfold sigmas, diagonal_entries. exists (sqrt (nth (7 * i) c 0)). split; [|split; [apply sqrt_pos|apply sqrt_sqrt; exact H]]. rewrite map_map, nth_error_map. assert (E : nth_error (seq 0 6) i = Some i). { rewrite (nth_error_nth' _ 0%nat) by (rewrite seq_length; exact Hi). rewrite seq_nth by exact Hi. reflexivity. } rewrite E. cbn [option_map]. unfold entry. replace (i * 6 + i)%nat with (7 * i)%nat by lia. destruct (rltb (nth (7 * i) c 0) 0) eqn:F; [apply rltb_t in F; lra|reflexivity].
Qed.
