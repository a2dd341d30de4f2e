(* Scripts about registration covariances: witnesses and non-trivial cases. *)
From Coq Require Import Reals List ZArith Lra Lia Bool.
From Verif Require Import Base Interp Geo EgModel EgProofs MsModel RoModel BfModel EvModel EvSpec EvProofs EvPose EvMove EvInter EvSelf EcModel EcSpec EcProofs EcMore.
Import ListNotations.
Open Scope R_scope.

(* ascending eigenvalues, as eig gives them for a symmetric matrix; for a diagonal matrix that is not in order the vectors are exchanged *)
Definition own_axes (C : mat3) : mat3 * vec3 := let '((a, _, _), (_, b, _), (_, _, c)) := C in (mI, (a, b, c)).
Definition long_first : mat3 := diag (4, 1, 1).
Definition ascending (C : mat3) : mat3 * vec3 := (((0, 0, 1), (1, 0, 0), (0, 1, 0)), (1, 1, 4)).
Lemma ascending_long : decomposes long_first (ascending long_first).
Proof. unfold decomposes, ascending, long_first, diag, orth. cbn [fst snd]. vred. split; [split|]; tup; ring. Qed.
Lemma long_definite : definite long_first.
Proof.
  intros [[x y] z] N. unfold long_first, diag, mapply, vdot. assert (x <> 0 \/ y <> 0 \/ z <> 0) as H. { destruct (Req_dec x 0); [|left; assumption]. destruct (Req_dec y 0); [|right; left; assumption]. right. right. intros ->. apply N. subst. reflexivity. }
  pose proof (Rle_0_sqr x). pose proof (Rle_0_sqr y). pose proof (Rle_0_sqr z). unfold Rsqr in *. destruct H as [H|[H|H]]; pose proof (Rsqr_pos_lt _ H) as Hp; unfold Rsqr in Hp; lra.
Qed.
(* three metres along the axis whose deviation is two metres: one and a half deviations, plotted outside the sphere of two *)
Theorem points_refuted : exists eig C t e k2, decomposes C (eig C) /\ definite C /\ deviates C t k2 /\ k2 < 2 * 2 /\ normalised_error eig C t = Some e /\ 1 < vnorm e.
Proof.
  destruct (normalised_size ascending long_first (3, 0, 0) ascending_long long_definite) as (e & He & Se). cbn [ascending snd] in Se. exists ascending, long_first, (3, 0, 0), e, (9 / 4).
  split; [apply ascending_long|]. split; [apply long_definite|]. split; [exists (3 / 4, 0, 0); unfold long_first, diag, mapply, vdot; split; [tup; field|field]|]. split; [lra|]. split; [exact He|].
  unfold vnorm. rewrite Se. match goal with |- 1 < sqrt ?x => assert (T : sqrt 1 < sqrt x) by (apply sqrt_lt_1; lra) end. rewrite sqrt_1 in T. exact T.
Qed.
Example points_case : decomposes long_first (own_axes long_first) /\ definite long_first /\ long_first = diag (snd (own_axes long_first)) /\ exists e, normalised_error own_axes long_first (3, 0, 0) = Some e /\ deviates long_first (3, 0, 0) (4 * vdot e e).
Proof.
  assert (De : decomposes long_first (own_axes long_first)). { unfold decomposes, own_axes, long_first, diag, orth. cbn [fst snd]. vred. split; [split|]; tup; ring. }
  split; [exact De|]. split; [apply long_definite|]. split; [reflexivity|]. destruct (normalised_size own_axes long_first (3, 0, 0) De long_definite) as (e & He & _). exists e. split; [exact He|]. apply (aligned_axes own_axes); [exact De|apply long_definite|reflexivity|exact He].
Qed.
Example surface_case : surface (ellipsoid_point ascending (1, 2, 3) long_first 2) (1, 2, 3) long_first 2 /\ deviates long_first (vsub (5, 2, 3) (1, 2, 3)) (2 * 2).
Proof.
  split; [apply ellipsoid_surface; [apply ascending_long|apply long_definite|lra]|]. exists (1, 0, 0). unfold long_first, diag. vred. split; [tup; ring|ring].
Qed.

(* a robot that jumps once against a reference at rest *)
Definition at_rest : list (R * mpose) := map (fun t => (t, mkMP v0 qI)) [0; 1; 2; 3].
Definition jump : list (R * mpose) := [(0, mkMP v0 qI); (1, mkMP (3, 0, 0) qI); (2, mkMP (3, 0, 0) qI); (3, mkMP (3, 0, 0) qI)].
Lemma four {A} (P : nat -> nat -> A -> A -> Prop) a b c d : P 0%nat 1%nat a b -> P 0%nat 2%nat a c -> P 0%nat 3%nat a d -> P 1%nat 2%nat b c -> P 1%nat 3%nat b d -> P 2%nat 3%nat c d ->
  forall i j x y, nth_error [a; b; c; d] i = Some x -> nth_error [a; b; c; d] j = Some y -> (i < j)%nat -> P i j x y.
Proof.
  intros ? ? ? ? ? ? i j x y Hi Hj L. destruct i as [|[|[|[|i]]]]; destruct j as [|[|[|[|j]]]]; cbn in Hi, Hj; try lia; try (injection Hi as <-; injection Hj as <-; assumption); try (destruct i; discriminate); try (destruct j; discriminate).
Qed.
Lemma rest_increasing : increasing at_rest. Proof. intros i j a b. unfold at_rest. cbn [map]. apply (four (fun _ _ x y => fst x < fst y)); cbn; lra. Qed.
Lemma jump_increasing : increasing jump. Proof. intros i j a b. unfold jump. apply (four (fun _ _ x y => fst x < fst y)); cbn; lra. Qed.
Lemma unit_oriented x : oriented (mkMP x qI). Proof. unfold oriented, qI, qdot. cbn. lra. Qed.
Lemma rest_oriented : all_oriented at_rest. Proof. intros e He. cbn in He. repeat destruct He as [<-|He]; try apply unit_oriented. all: destruct He. Qed.
Lemma jump_covered e : In e jump -> covered at_rest (fst e).
Proof. intros He. exists (0, mkMP v0 qI), (3, mkMP v0 qI). split; [left; reflexivity|]. split; [do 3 right; left; reflexivity|]. cbn in He. repeat destruct He as [<-|He]; try (cbn; lra). all: destruct He. Qed.
Definition unit_cov : mat3 := diag (1, 1, 1).
Lemma jump_scatter : exists n f, scatter mix_turn quat_of own_axes at_rest jump [unit_cov; unit_cov; unit_cov] = Ok (n, f) /\ n = map (normalised_error own_axes unit_cov) [(3, 0, 0); v0; v0].
Proof.
  destruct mix_turn_contracts as (M1 & M2 & _). destruct (scatter_total mix_turn quat_of own_axes at_rest jump [unit_cov; unit_cov; unit_cov]) as (n & f & H); try (cbn; lia); [apply rest_increasing|apply increasing_order, jump_increasing|apply jump_covered|]. exists n, f. split; [exact H|].
  destruct (scatter_sound _ _ _ _ _ _ _ _ H) as (e & He & L1 & L2 & _ & N & _). destruct (errors_are mix_turn quat_of M1 M2 quat_of_reads _ _ _ (increasing_order _ rest_increasing) rest_oriented He) as (gs & G1 & _ & V & D).
  cbn [length jump] in G1, L1, L2. destruct gs as [|g0 [|g1 [|g2 [|g3 [|g4 gs]]]]]; try discriminate. 
  assert (G : forall t g, In (t, mkMP v0 qI) at_rest -> value_at pose_to_matrix (pose_between mix_turn) at_rest t g -> g = pose_to_matrix (mkMP v0 qI)) by (intros t g Hi Hv; apply (value_own mix_turn M2 at_rest t _ g rest_increasing rest_oriented Hi Hv)).
  assert (E : pose_to_matrix (mkMP v0 qI) = iid) by (rewrite pose_unit by (apply qunit_I); unfold to_transform; cbn [mp_pos mp_ori]; rewrite qmat_I; reflexivity). rewrite E in G.
  pose proof (G _ _ ltac:(left; reflexivity) (V 0%nat _ _ g0 eq_refl eq_refl)) as ->. pose proof (G _ _ ltac:(right; left; reflexivity) (V 1%nat _ _ g1 eq_refl eq_refl)) as ->.
  pose proof (G _ _ ltac:(do 2 right; left; reflexivity) (V 2%nat _ _ g2 eq_refl eq_refl)) as ->. pose proof (G _ _ ltac:(do 3 right; left; reflexivity) (V 3%nat _ _ g3 eq_refl eq_refl)) as ->.
  pose proof (D 0%nat _ _ _ _ _ _ eq_refl eq_refl eq_refl eq_refl) as D0. pose proof (D 1%nat _ _ _ _ _ _ eq_refl eq_refl eq_refl eq_refl) as D1. pose proof (D 2%nat _ _ _ _ _ _ eq_refl eq_refl eq_refl eq_refl) as D2.
  destruct e as [|e0 [|e1 [|e2 [|e3 e]]]]; try discriminate. cbn [nth_error] in D0, D1, D2. injection D0 as E0. injection D1 as E1. injection D2 as E2.
  assert (P3 : pose_to_matrix (mkMP (3, 0, 0) qI) = mkIso mI (3, 0, 0)) by (rewrite pose_unit by (apply qunit_I); unfold to_transform; cbn [mp_pos mp_ori]; rewrite qmat_I; reflexivity).
  unfold seen_from in E0, E1, E2. rewrite ?E, ?P3 in E0. rewrite ?E, ?P3 in E1. rewrite ?E, ?P3 in E2. cbn [mp_pos] in E0, E1, E2.
  assert (X0 : e0 = (3, 0, 0)) by (rewrite E0; unfold iapp, iinv, imul, iid; cbn [lin tr]; vred; tup; ring). assert (X1 : e1 = v0) by (rewrite E1; unfold iapp, iinv, imul, iid; cbn [lin tr]; vred; tup; ring). assert (X2 : e2 = v0) by (rewrite E2; unfold iapp, iinv, imul, iid; cbn [lin tr]; vred; tup; ring). clear E0 E1 E2 D. subst e0 e1 e2.
  pose proof (N 0%nat _ _ eq_refl eq_refl) as N0. pose proof (N 1%nat _ _ eq_refl eq_refl) as N1. pose proof (N 2%nat _ _ eq_refl eq_refl) as N2. destruct n as [|n0 [|n1 [|n2 [|n3 n]]]]; try discriminate. cbn [nth_error] in N0, N1, N2. injection N0 as ->. injection N1 as ->. injection N2 as ->. reflexivity.
Qed.
Lemma unit_definite : definite unit_cov.
Proof.
  intros [[x y] z] N. unfold unit_cov, diag, mapply, vdot. assert (x <> 0 \/ y <> 0 \/ z <> 0) as H. { destruct (Req_dec x 0); [|left; assumption]. destruct (Req_dec y 0); [|right; left; assumption]. right. right. intros ->. apply N. subst. reflexivity. }
  pose proof (Rle_0_sqr x). pose proof (Rle_0_sqr y). pose proof (Rle_0_sqr z). unfold Rsqr in *. destruct H as [H|[H|H]]; pose proof (Rsqr_pos_lt _ H) as Hp; unfold Rsqr in Hp; lra.
Qed.
Lemma unit_inside t : exists e, normalised_error own_axes unit_cov t = Some e /\ vdot e e = vdot t t / 4.
Proof.
  assert (De : decomposes unit_cov (own_axes unit_cov)). { unfold decomposes, own_axes, unit_cov, diag, orth. cbn [fst snd]. vred. split; [split|]; tup; ring. }
  destruct (normalised_size own_axes unit_cov t De unit_definite) as (e & He & Se). exists e. split; [exact He|]. cbn [own_axes unit_cov diag snd] in Se. destruct t as [[x y] z]. rewrite Se. unfold vdot. field.
Qed.
(* one of three points is outside; all are reported inside *)
Theorem fraction_refuted : exists ref traj covs n f, scatter mix_turn quat_of own_axes ref traj covs = Ok (n, f) /\ f <> share n.
Proof.
  destruct jump_scatter as (n & f & H & Hn). exists at_rest, jump, [unit_cov; unit_cov; unit_cov], n, f. split; [exact H|]. destruct (scatter_sound _ _ _ _ _ _ _ _ H) as (_ & _ & _ & _ & _ & _ & F). destruct (unit_inside (3, 0, 0)) as (e1 & H1 & S1). destruct (unit_inside v0) as (e0 & H0 & S0). cbn [map] in Hn. rewrite H1, H0 in Hn. subst n.
  assert (I1 : inside (Some e1) = false) by (apply rltb_f; unfold vnorm; rewrite S1; unfold vdot; match goal with |- 1 <= sqrt ?x => assert (T : sqrt 1 <= sqrt x) by (apply sqrt_le_1; lra) end; rewrite sqrt_1 in T; exact T). assert (I0 : inside (Some e0) = true) by (apply rltb_t; unfold vnorm; rewrite S0; unfold vdot, v0; replace ((0 * 0 + 0 * 0 + 0 * 0) / 4) with 0 by field; rewrite sqrt_0; lra).
  rewrite (F _ eq_refl), I0. unfold share. cbn [filter]. rewrite I1, I0. cbn [length INR]. lra.
Qed.
(* three poses, two motions, two covariances: the script leaves the array *)
Theorem few_refuted : exists ref traj covs e, translation_errors mix_turn quat_of ref traj = Ok e /\ length e = length covs /\ e <> [] /\ scatter mix_turn quat_of own_axes ref traj covs = Throw.
Proof.
  set (traj := firstn 3 jump). assert (O : in_order traj). { intros i j a b Hi Hj L. destruct (Nat.eq_dec i j) as [->|N]; [rewrite Hi in Hj; injection Hj as ->; lra|]. assert (G : forall k x, nth_error traj k = Some x -> nth_error jump k = Some x) by (intros k x Hk; destruct k as [|[|[|k]]]; [exact Hk|exact Hk|exact Hk|destruct k; discriminate]). left. apply (jump_increasing i j a b (G _ _ Hi) (G _ _ Hj)). lia. }
  assert (Cv : forall e, In e traj -> covered at_rest (fst e)) by (intros e He; apply jump_covered; cbn in *; tauto).
  destruct (errors_there mix_turn quat_of at_rest traj rest_increasing ltac:(cbn; lia) ltac:(cbn; lia) O Cv) as (e & He & Le). exists at_rest, traj, [unit_cov; unit_cov], e. split; [exact He|]. cbn [length traj firstn jump] in Le. split; [cbn; lia|]. split; [intros ->; discriminate|]. apply scatter_few; [apply rest_increasing|cbn; lia|cbn; lia|exact O|exact Cv].
Qed.
(* one pose has no motions and no answer *)
Theorem single_motion_refuted : exists l, l <> [] /\ Forall oriented l /\ compute_relative_poses quat_of l = Throw.
Proof. exists [mkMP v0 qI]. split; [discriminate|]. split; [constructor; [apply unit_oriented|constructor]|reflexivity]. Qed.
Example relative_case : exists r, compute_relative_poses quat_of (map snd jump) = Ok r /\ length r = 3%nat.
Proof. destruct (proj2 (relative_defined quat_of (map snd jump))) as [r H]; [cbn; lia|]. exists r. split; [exact H|]. apply relative_length in H. cbn in H. lia. Qed.
Example jacobian_case : exists o, jacobian_entry [[1; -2]; [3; 4]] = Ok o /\ je_sq o = [[1 * 1; -2 * -2]; [3 * 3; 4 * 4]].
Proof. eexists. split; [reflexivity|reflexivity]. Qed.
