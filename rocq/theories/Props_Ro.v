(* Properties C88: rotation vectors. Proofs in RoProofs.v; cases and refutations in RoExamples.v. *)
From Coq Require Import Reals List.
From Verif Require Import Base Mx Interp Geo EgModel EgProofs RcModel RcSpec RcProofs RcComp RoModel RoSpec RoProofs RoExamples.

(* C88 *)
Theorem C88_quaternion_stored :
  forall (p : vec3) (q : quat),
    qunit q ->
    let k := paa_of_quat p q in
    a_pos k = p /\
    paa_angle k <= PI /\
    rotation_vector (a_rot k) (qmat q) /\ paa_matrix k = qmat q /\ (paa_quat k = q \/ paa_quat k = qneg q) /\ paa_iso k = to_transform p q.
Proof. exact (@stored). Qed.
Theorem C88_isometry_stored :
  forall t : iso,
    motion t ->
    paa_iso (paa_of_iso t) = t /\
    paa_angle (paa_of_iso t) <= PI /\ rotation_vector (a_rot (paa_of_iso t)) (lin t) /\ (a_rot (paa_of_iso t) = v0 <-> lin t = mI).
Proof. exact (@stored_iso). Qed.
Theorem C88_vector_means :
  forall p r : vec3,
    let k := {| a_pos := p; a_rot := r |} in
    rotation_vector r (paa_matrix k) /\ qunit (paa_quat k) /\ qmat (paa_quat k) = paa_matrix k /\ proper (paa_matrix k).
Proof. exact (@meaning). Qed.
Theorem C88_vector_kept :
  forall p r : vec3, vnorm r < PI -> let k := {| a_pos := p; a_rot := r |} in paa_of_quat p (paa_quat k) = k.
Proof. exact (@stored_vector). Qed.
Theorem C88_components_of_motion :
  forall t : iso,
    motion t ->
    exists k : parts,
      parts_of t = Some k /\
      k_m k = lin t /\
      c_t (k_c k) = tr t /\
      rotation_vector (c_r (k_c k)) (lin t) /\
      c_a (k_c k) = vnorm (c_r (k_c k)) /\ c_a (k_c k) <= PI /\ c_sa (k_c k) = sin (c_a (k_c k)) /\ c_ca (k_c k) = cos (c_a (k_c k)).
Proof. exact (@parts_motion). Qed.
Theorem C88_components_of_vector :
  forall r t : vec3,
    vnorm r <> 0 ->
    exists k : parts,
      parts_rt r t = Some k /\
      rotation_vector r (k_m k) /\
      motion {| lin := k_m k; tr := t |} /\
      c_r (k_c k) = r /\
      c_t (k_c k) = t /\
      c_a (k_c k) = vnorm r /\
      c_sa (k_c k) = sin (vnorm r) /\ c_ca (k_c k) = cos (vnorm r) /\ (vnorm r < PI -> parts_of {| lin := k_m k; tr := t |} = Some k).
Proof. exact (@parts_vector). Qed.
Theorem C88_zero_rotation_refuted :
  exists r t : vec3, rotation_vector r mI /\ parts_rt r t = None.
Proof. exact (@zero_rotation_refuted). Qed.
Theorem C88_rates_refused :
  forall (p1 p2 : iso) (dt : R), linear_rates p1 p2 dt = Throw <-> dt <= 0.
Proof. exact (@rates_throw). Qed.
Theorem C88_rates_defined :
  forall (p1 p2 : iso) (dt : R), 0 < dt -> exists w v : vec3, linear_rates p1 p2 dt = Ok (w, v).
Proof. exact (@rates_defined). Qed.
Theorem C88_rates_reach :
  forall (p1 p2 : iso) (dt : R) (w v : vec3),
    motion p1 ->
    motion p2 ->
    linear_rates p1 p2 dt = Ok (w, v) ->
    0 < dt /\
    vnorm (vscale dt w) <= PI /\
    vscale dt v = tr (imul (iinv p1) p2) /\ (forall (p : vec3) (X : R -> vec3), travels w v p X -> iapp p1 (X dt) = iapp p2 p).
Proof. exact (@rates_spec). Qed.
Theorem C88_path_exists :
  forall w v p : vec3, exists X : R -> vec3, travels w v p X.
Proof. exact (@travels_exists). Qed.
Theorem C88_body_rates_refuted :
  exists (p1 p2 : iso) (w v : vec3),
      motion p1 /\
      motion p2 /\
      linear_rates p1 p2 1 = Ok (w, v) /\
      (exists (M : R -> mat3) (P : R -> vec3), body_rates w v M P) /\
      (forall (M : R -> mat3) (P : R -> vec3), body_rates w v M P -> P 1 <> tr (relative_transform p1 p2)).
Proof. exact (@body_rates_refuted). Qed.

Print Assumptions C88_quaternion_stored.
Print Assumptions C88_isometry_stored.
Print Assumptions C88_vector_means.
Print Assumptions C88_vector_kept.
Print Assumptions C88_components_of_motion.
Print Assumptions C88_components_of_vector.
Print Assumptions C88_zero_rotation_refuted.
Print Assumptions C88_rates_refused.
Print Assumptions C88_rates_defined.
Print Assumptions C88_rates_reach.
Print Assumptions C88_path_exists.
Print Assumptions C88_body_rates_refuted.
