(* Properties C89, C90: moving clouds, distances, checks. Proofs in TfProofs.v, DiProofs.v; cases and refutations in TfExamples.v, DiExamples.v. *)
From Coq Require Import Reals List ZArith.
From Verif Require Import Base Interp Geo EgModel TfModel TfSpec TfProofs TfExamples.
From Verif Require Import PcModel PcSpec PcProofs PcOps PcGeom PcGeomProofs DiModel DiSpec DiProofs DiExamples.

(* C89 *)
Theorem C89_units_moved :
  forall (t : iso) (c out : TfModel.cloud pnu),
    rigid t -> moved_cloud u_pos (fun a b : pnu => moved_unit t a b /\ u_curv b = u_curv a) c (transform_pointcloud_unit t c out).
Proof. exact (@unit_moved). Qed.
Theorem C89_units_compose :
  forall (t s : iso) (c o1 o2 o3 : TfModel.cloud pnu),
    transform_pointcloud_unit t (transform_pointcloud_unit s c o1) o2 = transform_pointcloud_unit (imul t s) c o3.
Proof. exact (@unit_compose). Qed.
Theorem C89_units_back :
  forall (t : iso) (c o1 o2 : TfModel.cloud pnu),
    rigid t -> (forall a : pnu, In a (k_points c) -> whole_unit a) -> transform_pointcloud_unit (iinv t) (transform_pointcloud_unit t c o1) o2 = c.
Proof. exact (@unit_inverse). Qed.
Theorem C89_covariances_moved :
  forall (t : iso) (c out : TfModel.cloud pnc),
    rigid t -> moved_cloud c_pos (fun a b : pnc => moved_cov t a b /\ c_curv b = c_curv a) c (transform_pointcloud_cov t c out).
Proof. exact (@cov_moved_cloud). Qed.
Theorem C89_covariances_compose :
  forall (t s : iso) (c o1 o2 o3 : TfModel.cloud pnc),
    rigid t ->
    rigid s ->
    (forall a : pnc, In a (k_points c) -> whole_cov (c_cov a)) ->
    transform_pointcloud_cov t (transform_pointcloud_cov s c o1) o2 = transform_pointcloud_cov (imul t s) c o3.
Proof. exact (@cov_compose). Qed.
Theorem C89_covariances_back :
  forall (t : iso) (c o1 o2 : TfModel.cloud pnc),
    rigid t ->
    (forall a : pnc, In a (k_points c) -> whole (c_pos a) /\ whole (c_nrm a) /\ whole_cov (c_cov a)) ->
    transform_pointcloud_cov (iinv t) (transform_pointcloud_cov t c o1) o2 = c.
Proof. exact (@cov_inverse). Qed.
Theorem C89_normals_moved :
  forall (A : Type) (d : A) (t : iso) (c out : TfModel.cloud (pn A)),
    rigid t -> moved_cloud n_pos (fun a b : pn A => moved_normal t a b /\ n_rest b = n_rest a) c (transform_pointcloud_normal d t c out).
Proof. exact (@normal_moved). Qed.
Theorem C89_normals_compose :
  forall (A : Type) (d : A) (t s : iso) (c o1 o2 o3 : TfModel.cloud (pn A)),
    transform_pointcloud_normal d t (transform_pointcloud_normal d s c o1) o2 = transform_pointcloud_normal d (imul t s) c o3.
Proof. exact (@normal_compose). Qed.
Theorem C89_normals_back :
  forall (A : Type) (d : A) (t : iso) (c o1 o2 : TfModel.cloud (pn A)),
    rigid t ->
    (forall a : pn A, In a (k_points c) -> whole (n_pos a) /\ whole (n_nrm a)) ->
    transform_pointcloud_normal d (iinv t) (transform_pointcloud_normal d t c o1) o2 = c.
Proof. exact (@normal_back). Qed.
Theorem C89_geometry_kept :
  forall t : iso,
    rigid t ->
    (forall p q : vec3, vnorm (vsub (iapp t p) (iapp t q)) = vnorm (vsub p q)) /\
    (forall n p q : vec3, vdot (mapply (lin t) n) (vsub (iapp t p) (iapp t q)) = vdot n (vsub p q)) /\
    (forall n : vec3, vnorm (mapply (lin t) n) = vnorm n) /\
    (forall (p u : vec3) (k : R), p = vscale k u -> vsub (iapp t p) (iapp t v0) = vscale k (mapply (lin t) u)).
Proof. exact (@geometry_kept). Qed.
Theorem C89_output_ignored :
  forall (P : Type) (d : P) (pos : P -> fvec) (write : P -> P -> P) (inp out : TfModel.cloud P),
    transform_cloud d pos write true inp out = transform_in_place pos write inp.
Proof. exact (@copied). Qed.
Theorem C89_not_copied_refuted :
  exists inp out : TfModel.cloud pnu,
      k_dense inp = false /\ ~ moved_cloud u_pos (moved_unit quarter) inp (transform_cloud pnu_default u_pos (write_unit quarter) false inp out).
Proof. exact (@not_copied_refuted). Qed.

(* C90 *)
Theorem C90_distances_stored :
  forall K : codec R,
    codec_ok K ->
    forall (nearest : list vec3 -> vec3 -> fl) (seq stamp : Z) (frame : string) (src tgt : list vec3),
    (16 * Z.of_nat (Datatypes.length src) < 4294967296)%Z ->
    (compute_distances K nearest seq stamp frame src tgt = Throw <-> (exists q : vec3, In q src /\ nearest tgt q = None)) /\
    ((forall q : vec3, In q src -> nearest tgt q <> None) ->
     exists d : cloud,
       compute_distances K nearest seq stamp frame src tgt = Ok d /\
       wf d /\
       c_seq d = seq /\
       c_stamp d = stamp /\
       c_frame d = frame /\
       c_h d = 1%Z /\
       c_w d = Z.of_nat (Datatypes.length src) /\
       c_fields d = [FX; FY; FZ; FD] /\
       c_ps d = 16%Z /\
       (forall (i : nat) (q : vec3),
        nth_error src i = Some q -> exists r : R, nearest tgt q = Some r /\ row_is K (point d (Z.of_nat i)) q (sqrt r))).
Proof. exact (@distances_stored). Qed.
Theorem C90_distances_published :
  forall K : codec R,
    codec_ok K ->
    forall (nearest : list vec3 -> vec3 -> fl) (lookup : string -> string -> Z -> option iso) (seq stamp : Z) (frame : string) 
      (src : list vec3) (tframe : string) (tgt : list vec3) (t : iso),
    search_ok nearest ->
    (16 * Z.of_nat (Datatypes.length src) < 4294967296)%Z ->
    tgt <> [] ->
    lookup frame tframe stamp = Some t ->
    rigid t ->
    exists d : cloud,
      callback K nearest lookup seq stamp frame src tframe tgt = Ok d /\
      wf d /\
      c_stamp d = stamp /\
      c_frame d = frame /\
      npts d = Z.of_nat (Datatypes.length src) /\
      map f_name (c_fields d) = ["x"%string; "y"%string; "z"%string; "distance"%string] /\
      (forall (i : nat) (q : vec3),
       nth_error src i = Some q ->
       exists r : R, row_is K (point d (Z.of_nat i)) q r /\ distance_to (map (iapp t) tgt) q r /\ distance_to tgt (iapp (iinv t) q) r).
Proof. exact (@distances_published). Qed.
Theorem C90_no_transform :
  forall (K : codec R) (nearest : list vec3 -> vec3 -> fl) (lookup : string -> string -> Z -> option iso) (seq stamp : Z) 
      (frame : string) (src : list vec3) (tframe : string) (tgt : list vec3),
    lookup frame tframe stamp = None -> callback K nearest lookup seq stamp frame src tframe tgt = Throw.
Proof. exact (@no_transform_throws). Qed.
Theorem C90_empty_source :
  forall (K : codec R) (nearest : list vec3 -> vec3 -> fl) (lookup : string -> string -> Z -> option iso) (seq stamp : Z)
      (frame tframe : string) (tgt : list vec3) (t : iso),
    lookup frame tframe stamp = Some t ->
    exists d : cloud, callback K nearest lookup seq stamp frame [] tframe tgt = Ok d /\ npts d = 0%Z /\ c_data d = [].
Proof. exact (@empty_source_published). Qed.
Theorem C90_too_many_points_refuted :
  forall (K : codec R) (nearest : list vec3 -> vec3 -> fl) (seq stamp : Z) (frame : string) (src tgt : list vec3),
    Z.of_nat (Datatypes.length src) = 268435456%Z -> compute_distances K nearest seq stamp frame src tgt = UB.
Proof. exact (@too_many_points_refuted). Qed.
Theorem C90_starts_iff :
  forall m s t : option string,
    starts m s t = true <->
    (m = None \/ m = Some "POINT_TO_POINT"%string) /\ (s = None \/ s = Some "PointXYZ"%string) /\ (t = None \/ t = Some "PointXYZ"%string).
Proof. exact (@node_starts). Qed.
Theorem C90_normals_counted :
  forall (th : R) (l : list (bool * fvec)),
    check_normals th l = Datatypes.length (filter (fun nv : bool * fvec => counted th (fst nv) (snd nv)) l).
Proof. exact (@check_normals_spec). Qed.
Theorem C90_no_bad_normals_iff :
  forall (th : R) (l : list (bool * fvec)),
    check_normals th l = 0%nat <->
    (forall (n : bool) (v : fvec), In (n, v) l -> (forall x : vec3, v = fin x -> Rabs (vnorm x - 1) <= th) /\ (~ is_finite v -> n = true)).
Proof. exact (@check_normals_zero). Qed.
Theorem C90_nan_normals_refuted :
  exists l : list (bool * fvec), l <> [] /\ (forall (n : bool) (v : fvec), In (n, v) l -> ~ is_finite v) /\ check_normals 0 l = 0%nat.
Proof. exact (@nan_normals_refuted). Qed.
Theorem C90_seconds_kept :
  forall (l : list R) (i : nat) (t : R), nth_error l i = Some t -> exists s : R, nth_error (ns_to_s l) i = Some s /\ s * 1000000000 = t.
Proof. exact (@seconds_kept). Qed.
Theorem C90_seconds_rounded_down :
  forall (l : bytes) (i : nat) (t : Z),
    nth_error l i = Some t -> (0 <= t)%Z -> exists s : Z, nth_error (ns_to_s_int l) i = Some s /\ (s * 1000000000 <= t < (s + 1) * 1000000000)%Z.
Proof. exact (@seconds_whole). Qed.
Theorem C90_integer_times_refuted :
  exists l : bytes, ns_to_s_int l = [0%Z] /\ ns_to_s (map IZR l) <> [0].
Proof. exact (@integer_times_refuted). Qed.

Print Assumptions C89_units_moved.
Print Assumptions C89_units_compose.
Print Assumptions C89_units_back.
Print Assumptions C89_covariances_moved.
Print Assumptions C89_covariances_compose.
Print Assumptions C89_covariances_back.
Print Assumptions C89_normals_moved.
Print Assumptions C89_normals_compose.
Print Assumptions C89_normals_back.
Print Assumptions C89_geometry_kept.
Print Assumptions C89_output_ignored.
Print Assumptions C89_not_copied_refuted.
Print Assumptions C90_distances_stored.
Print Assumptions C90_distances_published.
Print Assumptions C90_no_transform.
Print Assumptions C90_empty_source.
Print Assumptions C90_too_many_points_refuted.
Print Assumptions C90_starts_iff.
Print Assumptions C90_normals_counted.
Print Assumptions C90_no_bad_normals_iff.
Print Assumptions C90_nan_normals_refuted.
Print Assumptions C90_seconds_kept.
Print Assumptions C90_seconds_rounded_down.
Print Assumptions C90_integer_times_refuted.
