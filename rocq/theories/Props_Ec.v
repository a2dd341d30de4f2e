(* Property C125: motions between poses, covariance plots. Proofs in EcProofs.v, EcMore.v; cases in EcExamples.v. *)
From Coq Require Import Reals List ZArith Bool.
From Verif Require Import Base Interp Geo EgModel EgProofs MsModel RoModel BfModel EvModel EvSpec EvProofs EvPose EvMove EvInter EvSelf EcModel EcSpec EcProofs EcMore EcExamples.
Import ListNotations.
Open Scope R_scope.

(* C125 *)
Theorem C125_motions_there :
  forall (r2q : mat3 -> quat) (l : list mpose), (exists r : list mpose, compute_relative_poses r2q l = Ok r) <-> (2 <= Datatypes.length l)%nat.
Proof. exact (@relative_defined). Qed.
Theorem C125_motions :
  forall r2q : mat3 -> quat,
    reads_rotation r2q -> forall l r : list mpose, Forall oriented l -> compute_relative_poses r2q l = Ok r -> steps l r.
Proof. exact (@relative_steps). Qed.
Theorem C125_motions_moved :
  forall (r2q : mat3 -> quat) (t : vec3) (q : quat) (l : list mpose),
    qunit q -> Forall oriented l -> compute_relative_poses r2q (map (moved t q) l) = compute_relative_poses r2q l.
Proof. exact (@relative_moved). Qed.
Theorem C125_ellipsoid :
  forall (eig : mat3 -> mat3 * vec3) (means : vec3) (C : mat3) (k : R),
    decomposes C (eig C) -> definite C -> 0 < k -> surface (ellipsoid_point eig means C k) means C k.
Proof. exact (@ellipsoid_surface). Qed.
Theorem C125_errors :
  forall (mixq : quat -> quat -> R -> quat) (r2q : mat3 -> quat),
    stays_unit mixq ->
    keeps_ends mixq ->
    reads_rotation r2q ->
    forall (ref traj : list (R * mpose)) (e : list vec3),
    in_order ref ->
    all_oriented ref ->
    translation_errors mixq r2q ref traj = Ok e ->
    exists gs : list iso,
      Datatypes.length gs = Datatypes.length traj /\
      S (Datatypes.length e) = Datatypes.length traj /\
      (forall (i : nat) (t : R) (x : mpose) (g : iso),
       nth_error traj i = Some (t, x) -> nth_error gs i = Some g -> value_at pose_to_matrix (pose_between mixq) ref t g) /\
      (forall (i : nat) (t : R) (x : mpose) (t' : R) (y : mpose) (g h : iso),
       nth_error traj i = Some (t, x) ->
       nth_error traj (S i) = Some (t', y) ->
       nth_error gs i = Some g -> nth_error gs (S i) = Some h -> nth_error e i = Some (vsub (seen_from x y) (tr (imul (iinv g) h)))).
Proof. exact (@errors_are). Qed.
Theorem C125_errors_there :
  forall (mixq : quat -> quat -> R -> quat) (r2q : mat3 -> quat) (ref traj : list (R * mpose)),
    increasing ref ->
    (2 <= Datatypes.length ref)%nat ->
    (2 <= Datatypes.length traj)%nat ->
    in_order traj ->
    (forall e : R * mpose, In e traj -> covered ref (fst e)) ->
    exists e : list vec3, translation_errors mixq r2q ref traj = Ok e /\ S (Datatypes.length e) = Datatypes.length traj.
Proof. exact (@errors_there). Qed.
Theorem C125_errors_estimate_moved :
  forall (mixq : quat -> quat -> R -> quat) (r2q : mat3 -> quat) (t : vec3) (q : quat) (ref traj : list (R * mpose)),
    qunit q -> all_oriented traj -> translation_errors mixq r2q ref (moved_all t q traj) = translation_errors mixq r2q ref traj.
Proof. exact (@errors_estimate_moved). Qed.
Theorem C125_errors_self :
  forall (mixq : quat -> quat -> R -> quat) (r2q : mat3 -> quat),
    stays_unit mixq ->
    keeps_ends mixq ->
    reads_rotation r2q ->
    forall (l : list (R * mpose)) (e : list vec3),
    increasing l -> all_oriented l -> translation_errors mixq r2q l l = Ok e -> forall x : vec3, In x e -> x = v0.
Proof. exact (@errors_self). Qed.
Theorem C125_point_size :
  forall (eig : mat3 -> mat3 * vec3) (C : mat3) (t e : vec3),
    decomposes C (eig C) -> definite C -> normalised_error eig C t = Some e -> deviates C (mapply (fst (eig C)) t) (4 * vdot e e).
Proof. exact (@size_depends). Qed.
Theorem C125_points_right_iff :
  forall (eig : mat3 -> mat3 * vec3) (C : mat3),
    decomposes C (eig C) ->
    definite C -> (forall t e : vec3, normalised_error eig C t = Some e -> deviates C t (4 * vdot e e)) <-> C = diag (snd (eig C)).
Proof. exact (@right_only_aligned). Qed.
Theorem C125_no_variance :
  forall (eig : mat3 -> mat3 * vec3) (C : mat3) (t : vec3),
    (exists i : nat, (i < 3)%nat /\ vget (snd (eig C)) i <= 0) -> normalised_error eig C t = None.
Proof. exact (@no_variance). Qed.
Theorem C125_plot :
  forall (mixq : quat -> quat -> R -> quat) (r2q : mat3 -> quat) (eig : mat3 -> mat3 * vec3) (ref traj : list (R * mpose)) 
      (covs : list mat3) (n : list (option vec3)) (f : R),
    scatter mixq r2q eig ref traj covs = Ok (n, f) ->
    exists e : list vec3,
      translation_errors mixq r2q ref traj = Ok e /\
      Datatypes.length e = Datatypes.length covs /\
      Datatypes.length n = Datatypes.length covs /\
      (3 <= Datatypes.length covs)%nat /\
      (forall (i : nat) (C : mat3) (t : vec3),
       nth_error covs i = Some C -> nth_error e i = Some t -> nth_error n i = Some (normalised_error eig C t)) /\
      (forall x : option vec3, nth_error n (Init.Nat.pred (Datatypes.length n)) = Some x -> f = (if inside x then 1 else 0)).
Proof. exact (@scatter_sound). Qed.
Theorem C125_plot_there :
  forall (mixq : quat -> quat -> R -> quat) (r2q : mat3 -> quat) (eig : mat3 -> mat3 * vec3) (ref traj : list (R * mpose)) (covs : list mat3),
    increasing ref ->
    (2 <= Datatypes.length ref)%nat ->
    (4 <= Datatypes.length traj)%nat ->
    in_order traj ->
    (forall e : R * mpose, In e traj -> covered ref (fst e)) ->
    S (Datatypes.length covs) = Datatypes.length traj -> exists (n : list (option vec3)) (f : R), scatter mixq r2q eig ref traj covs = Ok (n, f).
Proof. exact (@scatter_total). Qed.
Theorem C125_plot_mismatch :
  forall (mixq : quat -> quat -> R -> quat) (r2q : mat3 -> quat) (eig : mat3 -> mat3 * vec3) (ref traj : list (R * mpose)) (covs : list mat3),
    increasing ref ->
    (2 <= Datatypes.length ref)%nat ->
    (2 <= Datatypes.length traj)%nat ->
    in_order traj ->
    (forall e : R * mpose, In e traj -> covered ref (fst e)) ->
    S (Datatypes.length covs) <> Datatypes.length traj -> scatter mixq r2q eig ref traj covs = Throw.
Proof. exact (@scatter_mismatch). Qed.
Theorem C125_jacobians :
  forall (msgs : list (list R)) (o : jac_entry),
    jacobian_entry msgs = Ok o ->
    je_rows o = msgs /\
    Forall (fun m : list R => Datatypes.length m = je_dim o) msgs /\
    Datatypes.length (je_abs o) = Datatypes.length msgs /\
    Datatypes.length (je_sq o) = Datatypes.length msgs /\
    (forall (i j : nat) (m : list R) (x : R),
     nth_error msgs i = Some m ->
     nth_error m j = Some x ->
     (exists a : list R, nth_error (je_abs o) i = Some a /\ nth_error a j = Some (Rabs x)) /\
     (exists s : list R, nth_error (je_sq o) i = Some s /\ nth_error s j = Some (x * x))).
Proof. exact (@jacobians_kept). Qed.
Theorem C125_jacobians_there :
  forall msgs : list (list R),
    (exists o : jac_entry, jacobian_entry msgs = Ok o) <->
    (forall a b : list R, In a msgs -> In b msgs -> Datatypes.length a = Datatypes.length b).
Proof. exact (@jacobians_there). Qed.
Theorem C125_covariance_entries :
  forall (c : list R) (i j : nat),
    (forall i0 j0 : nat, (i0 < 6)%nat -> (j0 < 6)%nat -> nth (6 * i0 + j0) c 0 = nth (6 * j0 + i0) c 0) ->
    (i < 6)%nat -> (j < 6)%nat -> entry c i j = nth (6 * i + j) c 0.
Proof. exact (@entries_symmetric). Qed.
Theorem C125_sigmas :
  forall (c : list R) (i : nat),
    (i < 6)%nat -> 0 <= nth (7 * i) c 0 -> exists s : R, nth_error (sigmas c) i = Some (Some s) /\ 0 <= s /\ s * s = nth (7 * i) c 0.
Proof. exact (@sigmas_are). Qed.
Theorem C125_points_refuted :
  exists (eig : mat3 -> mat3 * vec3) (C : mat3) (t e : vec3) (k2 : R),
      decomposes C (eig C) /\ definite C /\ deviates C t k2 /\ k2 < 2 * 2 /\ normalised_error eig C t = Some e /\ 1 < vnorm e.
Proof. exact (@points_refuted). Qed.
Theorem C125_fraction_refuted :
  exists (ref traj : list (R * mpose)) (covs : list mat3) (n : list (option vec3)) (f : R),
      scatter mix_turn quat_of own_axes ref traj covs = Ok (n, f) /\ f <> share n.
Proof. exact (@fraction_refuted). Qed.
Theorem C125_few_refuted :
  exists (ref traj : list (R * mpose)) (covs : list mat3) (e : list vec3),
      translation_errors mix_turn quat_of ref traj = Ok e /\
      Datatypes.length e = Datatypes.length covs /\ e <> [] /\ scatter mix_turn quat_of own_axes ref traj covs = Throw.
Proof. exact (@few_refuted). Qed.
Theorem C125_single_refuted :
  exists l : list mpose, l <> [] /\ Forall oriented l /\ compute_relative_poses quat_of l = Throw.
Proof. exact (@single_motion_refuted). Qed.

Print Assumptions C125_motions_there.
Print Assumptions C125_motions.
Print Assumptions C125_motions_moved.
Print Assumptions C125_ellipsoid.
Print Assumptions C125_errors.
Print Assumptions C125_errors_there.
Print Assumptions C125_errors_estimate_moved.
Print Assumptions C125_errors_self.
Print Assumptions C125_point_size.
Print Assumptions C125_points_right_iff.
Print Assumptions C125_no_variance.
Print Assumptions C125_plot.
Print Assumptions C125_plot_there.
Print Assumptions C125_plot_mismatch.
Print Assumptions C125_jacobians.
Print Assumptions C125_jacobians_there.
Print Assumptions C125_covariance_entries.
Print Assumptions C125_sigmas.
Print Assumptions C125_points_refuted.
Print Assumptions C125_fraction_refuted.
Print Assumptions C125_few_refuted.
Print Assumptions C125_single_refuted.
