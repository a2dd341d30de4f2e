(* Properties C40, C79-C83: covariance of a lidar registration. Proofs in RcProofs.v, RcEst.v, RcMain.v, RcReg.v, RcTop.v; cases and refutations in RcExamples.v, RcFlip.v. *)
From Coq Require Import Reals List String.
From Verif Require Import Base Mx Interp Geo EgModel EgProofs CfgModel CfgProofs RcModel RcSpec RcCov RcProofs RcComp RcEst RcMain RcRegModel RcRegSpec RcReg RcTop RcExamples RcFlip.

(* C40: linearised models *)
Theorem C40_point_linearised_derivatives :
  forall (r t : vec3) (c : corr),
    exists H D : mx,
      half_dx2 PointLinearised (components_rt r t) c = Some H /\
      half_dzdx PointLinearised (components_rt r t) c = Some D /\
      half_motion_hessian (point_cost turn1) r t (k_p c) (k_q c) H /\ half_cross_hessian (point_cost turn1) r t (k_p c) (k_q c) D.
Proof. exact (@point_linearised). Qed.
Theorem C40_plane_linearised_derivatives :
  forall (r t : vec3) (c : corr),
    exists H D : mx,
      half_dx2 PlaneLinearised (components_rt r t) c = Some H /\
      half_dzdx PlaneLinearised (components_rt r t) c = Some D /\
      half_motion_hessian (plane_cost turn1 (k_n c)) r t (k_p c) (k_q c) H /\ half_cross_hessian (plane_cost turn1 (k_n c)) r t (k_p c) (k_q c) D.
Proof. exact (@plane_linearised). Qed.
Theorem C40_hessian_psd :
  forall (k : icp) (f : comps) (l : list corr) (H : mx), linearised k -> hessian k f l zerom = Some H -> psd 6 H.
Proof. exact (@lin_psd). Qed.
Theorem C40_least_squares_symmetric :
  forall (inverse : mx -> option mx) (k : icp) (f : comps) (l : list corr) (v : R) (C : mx),
    inverts inverse -> good f -> lls_iid inverse k f l v = Some C -> symmetric 6 C.
Proof. exact (@lls_symmetric). Qed.
Theorem C40_least_squares_formula :
  forall (inverse : mx -> option mx) (k : icp) (r t : vec3) (l : list corr) (v : R) (C : mx),
    inverts inverse ->
    lls_iid inverse k (components_rt r t) l v = Some C ->
    exists H : mx,
      half_total_hessian k l r t H /\ eqm 6 6 (mulm 6 C H) (constant_variance v) /\ eqm 6 6 (mulm 6 H C) (constant_variance v) /\ symmetric 6 C.
Proof. exact (@lls_formula). Qed.

(* C79: nonlinear models *)
Theorem C79_point_nonlinear_derivatives :
  forall (r t : vec3) (c : corr),
    vnorm r <> 0 ->
    exists H D : mx,
      half_dx2 PointNonlinear (components_rt r t) c = Some H /\
      half_dzdx PointNonlinear (components_rt r t) c = Some D /\
      half_motion_hessian (point_cost turn) r t (k_p c) (k_q c) H /\ half_cross_hessian (point_cost turn) r t (k_p c) (k_q c) D.
Proof. exact (@point_nonlinear). Qed.
Theorem C79_plane_nonlinear_derivatives :
  forall (r t : vec3) (c : corr),
    vnorm r <> 0 ->
    exists H D : mx,
      half_dx2 PlaneNonlinear (components_rt r t) c = Some H /\
      half_dzdx PlaneNonlinear (components_rt r t) c = Some D /\
      half_motion_hessian (plane_cost turn (k_n c)) r t (k_p c) (k_q c) H /\ half_cross_hessian (plane_cost turn (k_n c)) r t (k_p c) (k_q c) D.
Proof. exact (@plane_nonlinear). Qed.
Theorem C79_sum_is_total_hessian :
  forall (k : icp) (r t : vec3) (l : list corr),
    has_angle k (components_rt r t) -> exists H : mx, hessian k (components_rt r t) l zerom = Some H /\ half_total_hessian k l r t H.
Proof. exact (@total_hessian). Qed.
Theorem C79_blocks_are_total_mixed :
  forall (k : icp) (r t : vec3) (l : list corr),
    has_angle k (components_rt r t) ->
    exists ds : list mx,
      mixed k (components_rt r t) l = Some ds /\ Datatypes.length ds = Datatypes.length l /\ half_total_cross k l r t (side_by_side ds).
Proof. exact (@total_cross). Qed.
Theorem C79_rotation_vector :
  forall m : iso,
    motion m -> exists r : vec3, components m = components_rt r (tr m) /\ vnorm r <= PI /\ (forall p : vec3, turn r p = mapply (lin m) p).
Proof. exact (@motion_vector). Qed.
Theorem C79_at_fit_positive :
  forall (inverse : mx -> option mx) (k : icp) (r t : vec3) (l : list corr) (v : R) (C : mx),
    inverts inverse ->
    nonlinear k ->
    0 < v -> (forall c : corr, In c l -> vadd (turn r (k_p c)) t = k_q c) -> lls_iid inverse k (components_rt r t) l v = Some C -> pd 6 C.
Proof. exact (@fit_pd). Qed.
Theorem C79_no_rotation_no_covariance :
  forall (inverse : mx -> option mx) (k : icp) (m : iso) (l : list corr) (v b : R),
    inverts inverse ->
    nonlinear k ->
    motion m ->
    lin m = mI ->
    censi_iid inverse k (components m) l v = None /\
    censi_range inverse k (components m) l v = None /\
    censi_bias inverse k (components m) l v b = None /\ lls_iid inverse k (components m) l v = None.
Proof. exact (@no_rotation). Qed.
Theorem C79_always_covariance_refuted :
  forall inverse : mx -> option mx,
    inverts inverse ->
    exists (l : list corr) (r t : vec3) (C : mx), ~ on_a_line l /\ lls_iid inverse PointNonlinear (components_rt r t) l 1 = Some C /\ ~ psd 6 C.
Proof. exact (@lls_nonlinear_refuted). Qed.

(* C80: when the linearised covariance exists and is positive definite *)
Theorem C80_point_definite_iff :
  forall (f : comps) (l : list corr) (H : mx), hessian PointLinearised f l zerom = Some H -> pd 6 H <-> ~ on_a_line l.
Proof. exact (@point_pd). Qed.
Theorem C80_plane_definite_iff :
  forall (f : comps) (l : list corr) (H : mx), hessian PlaneLinearised f l zerom = Some H -> pd 6 H <-> ~ slides l.
Proof. exact (@plane_pd). Qed.
Theorem C80_exists_iff_not_degenerate :
  forall (inverse : mx -> option mx) (k : icp) (f : comps) (l : list corr) (v : R),
    inverts inverse ->
    good f ->
    linearised k -> (exists C : mx, lls_iid inverse k f l v = Some C) <-> match k with
                                                                          | PointLinearised => ~ on_a_line l
                                                                          | _ => ~ slides l
                                                                          end.
Proof. exact (@lls_defined). Qed.
Theorem C80_least_squares_positive :
  forall (inverse : mx -> option mx) (k : icp) (f : comps) (l : list corr) (v : R) (C : mx),
    inverts inverse -> good f -> linearised k -> 0 < v -> lls_iid inverse k f l v = Some C -> pd 6 C.
Proof. exact (@lls_pd). Qed.
Theorem C80_censi_positive :
  forall (inverse : mx -> option mx) (k : icp) (f : comps) (l : list corr) (v : R) (C : mx),
    inverts inverse ->
    good f ->
    linearised k ->
    (forall c : corr, In c l -> k = PlaneLinearised -> vdot (k_n c) (k_n c) = 1) -> 0 < v -> censi_iid inverse k f l v = Some C -> pd 6 C.
Proof. exact (@censi_pd). Qed.
Theorem C80_censi_at_least_least_squares :
  forall (inverse : mx -> option mx) (k : icp) (f : comps) (l : list corr) (v : R) (C L : mx),
    inverts inverse ->
    good f ->
    linearised k ->
    (forall c : corr, In c l -> k = PlaneLinearised -> vdot (k_n c) (k_n c) = 1) ->
    0 <= v -> censi_iid inverse k f l v = Some C -> lls_iid inverse k f l v = Some L -> forall x : nat -> R, quad 6 L x <= quad 6 C x.
Proof. exact (@censi_above_lls). Qed.

(* C81: Censi's formula *)
Theorem C81_iid :
  forall (inverse : mx -> option mx) (k : icp) (r t : vec3) (l : list corr) (v : R) (C : mx),
    inverts inverse ->
    censi_iid inverse k (components_rt r t) l v = Some C ->
    exists H D : mx,
      half_total_hessian k l r t H /\
      half_total_cross k l r t D /\ censi_formula (scalem 2 H) (scalem 2 D) (constant_variance v) (6 * Datatypes.length l) C.
Proof. exact (@iid_formula). Qed.
Theorem C81_range :
  forall (inverse : mx -> option mx) (k : icp) (r t : vec3) (l : list corr) (v : R) (C : mx),
    inverts inverse ->
    censi_range inverse k (components_rt r t) l v = Some C ->
    exists H D : mx,
      half_total_hessian k l r t H /\
      half_total_cross k l r t D /\ censi_formula (scalem 2 H) (scalem 2 D) (independent_ranges l v) (6 * Datatypes.length l) C.
Proof. exact (@range_formula). Qed.
Theorem C81_range_covariance :
  forall (inverse : mx -> option mx) (k : icp) (r t : vec3) (l : list corr) (v : R) (C : mx),
    inverts inverse -> 0 <= v -> censi_range inverse k (components_rt r t) l v = Some C -> symmetric 6 C /\ psd 6 C.
Proof. exact (@range_covariance). Qed.
Theorem C81_bias_covariance :
  forall (inverse : mx -> option mx) (k : icp) (r t : vec3) (l : list corr) (v b : R) (C : mx),
    inverts inverse -> 0 <= v -> 0 <= b -> censi_bias inverse k (components_rt r t) l v b = Some C -> symmetric 6 C /\ psd 6 C.
Proof. exact (@bias_covariance). Qed.
Theorem C81_iid_covariance :
  forall (inverse : mx -> option mx) (k : icp) (r t : vec3) (l : list corr) (v : R) (C : mx),
    inverts inverse -> 0 <= v -> censi_iid inverse k (components_rt r t) l v = Some C -> symmetric 6 C /\ psd 6 C.
Proof. exact (@iid_covariance). Qed.
Theorem C81_bias_as_computed :
  forall (inverse : mx -> option mx) (k : icp) (r t : vec3) (l : list corr) (v b : R) (C : mx),
    inverts inverse ->
    censi_bias inverse k (components_rt r t) l v b = Some C ->
    exists H D : mx,
      half_total_hessian k l r t H /\
      half_total_cross k l r t D /\ censi_formula (scalem 2 H) (scalem 2 D) (coordinate_noise l v b) (6 * Datatypes.length l) C.
Proof. exact (@bias_formula). Qed.
Theorem C81_bias_refuted :
  forall inverse : mx -> option mx,
    inverts inverse ->
    exists (l : list corr) (C : mx),
      censi_bias inverse PointLinearised (components_rt v0 v0) l 1 1 = Some C /\
      (forall H D : mx,
       half_total_hessian PointLinearised l v0 v0 H ->
       half_total_cross PointLinearised l v0 v0 D -> ~ censi_formula (scalem 2 H) (scalem 2 D) (biased_ranges l 1 1) (6 * Datatypes.length l) C).
Proof. exact (@bias_refuted). Qed.

(* C82: from the settings *)
Theorem C82_returns :
  forall (nearest : list rpt -> vec3 -> option (nat * R)) (among : list rpt -> list nat -> vec3 -> option (nat * R)) 
      (inverse : mx -> option mx) (P : params) (cfg : reg_cfg) (unit : bool) (tf : iso) (source target : list rpt) (max : R),
    finds_nearest nearest ->
    0 <= max ->
    reg_config P = Ok cfg ->
    ((range_based (rc_point cfg) -> unit = true) ->
     exists o : option mx, covariance_from_registration nearest among inverse cfg unit tf source (whole source) target max = Ok o) /\
    (range_based (rc_point cfg) ->
     unit = false -> covariance_from_registration nearest among inverse cfg unit tf source (whole source) target max = Throw).
Proof. exact (@returns). Qed.
Theorem C82_with_pipeline :
  forall (nearest : list rpt -> vec3 -> option (nat * R)) (among : list rpt -> list nat -> vec3 -> option (nat * R)) 
      (inverse : mx -> option mx) (P : params) (ns : list (NetModel.nd op)) (unit : bool) (cfg : reg_cfg) (tf : iso) (source target : list rpt)
      (max : R),
    finds_nearest nearest ->
    0 <= max ->
    lidar_nodes P = Ok (Some (ns, unit)) ->
    reg_config P = Ok cfg ->
    exists o : option mx, covariance_from_registration nearest among inverse cfg unit tf source (whole source) target max = Ok o.
Proof. exact (@pipeline_returns). Qed.
Theorem C82_asked_for :
  forall (nearest : list rpt -> vec3 -> option (nat * R)) (among : list rpt -> list nat -> vec3 -> option (nat * R)) 
      (inverse : mx -> option mx) (P : params) (cfg : reg_cfg) (unit : bool) (tf : iso) (source target : list rpt) (max : R) 
      (C : mx),
    finds_nearest nearest ->
    inverts inverse ->
    motion tf ->
    0 <= max ->
    reg_config P = Ok cfg ->
    covariance_from_registration nearest among inverse cfg unit tf source (whole source) target max = Ok (Some C) ->
    exists (l : list (nat * nat)) (cs : list corr) (r : vec3),
      all_matched (iapp tf) source target max l /\
      Forall2 (of_pair source target) l cs /\ vnorm r <= PI /\ (forall p : vec3, turn r p = mapply (lin tf) p) /\ asked_for P cs r (tr tf) C.
Proof. exact (@asked). Qed.
Theorem C82_valid :
  forall (nearest : list rpt -> vec3 -> option (nat * R)) (among : list rpt -> list nat -> vec3 -> option (nat * R)) 
      (inverse : mx -> option mx) (P : params) (cfg : reg_cfg) (unit : bool) (tf : iso) (source target : list rpt) (max : R) 
      (C : mx),
    finds_nearest nearest ->
    inverts inverse ->
    motion tf ->
    0 <= max ->
    reg_config P = Ok cfg ->
    covariance_from_registration nearest among inverse cfg unit tf source (whole source) target max = Ok (Some C) ->
    symmetric 6 C /\ (~ method_is P "LLS" \/ (exists k : icp, linearised k /\ model_is P k) -> psd 6 C).
Proof. exact (@valid). Qed.
Theorem C82_exists_iff_not_degenerate :
  forall (nearest : list rpt -> vec3 -> option (nat * R)) (among : list rpt -> list nat -> vec3 -> option (nat * R)) 
      (inverse : mx -> option mx) (P : params) (cfg : reg_cfg) (unit : bool) (k : icp) (tf : iso) (source target : list rpt) 
      (max : R) (cs : list corr) (o : option mx),
    finds_nearest nearest ->
    inverts inverse ->
    motion tf ->
    0 <= max ->
    reg_config P = Ok cfg ->
    ~ method_is P "CONSTANT" ->
    linearised k ->
    model_is P k ->
    correspondences nearest among tf source (whole source) target max = Ok cs ->
    covariance_from_registration nearest among inverse cfg unit tf source (whole source) target max = Ok o ->
    (exists C : mx, o = Some C) <-> ~ degenerate k cs.
Proof. exact (@defined). Qed.
Theorem C82_positive :
  forall (nearest : list rpt -> vec3 -> option (nat * R)) (among : list rpt -> list nat -> vec3 -> option (nat * R)) 
      (inverse : mx -> option mx) (P : params) (cfg : reg_cfg) (unit : bool) (k : icp) (tf : iso) (source target : list rpt) 
      (max : R) (C : mx) (v : R),
    finds_nearest nearest ->
    inverts inverse ->
    motion tf ->
    0 <= max ->
    reg_config P = Ok cfg ->
    ~ method_is P "CONSTANT" ->
    linearised k ->
    model_is P k ->
    uniform_noise P v ->
    v <> 0 ->
    (k = PlaneLinearised -> forall t : rpt, In t target -> vdot (p_n t) (p_n t) = 1) ->
    covariance_from_registration nearest among inverse cfg unit tf source (whole source) target max = Ok (Some C) -> pd 6 C.
Proof. exact (@positive). Qed.
Theorem C82_constant_positive :
  forall (nearest : list rpt -> vec3 -> option (nat * R)) (among : list rpt -> list nat -> vec3 -> option (nat * R)) 
      (inverse : mx -> option mx) (P : params) (cfg : reg_cfg) (unit : bool) (tf : iso) (source target : list rpt) (max : R),
    finds_nearest nearest ->
    0 <= max ->
    reg_config P = Ok cfg ->
    method_is P "CONSTANT" ->
    exists C : mx,
      covariance_from_registration nearest among inverse cfg unit tf source (whole source) target max = Ok (Some C) /\
      (pd 6 C <->
       noise P "registration_covariance/constant/rotation" {| QArith_base.Qnum := 174533; QArith_base.Qden := 10000000 |} <> 0 /\
       noise P "registration_covariance/constant/translation" {| QArith_base.Qnum := 1; QArith_base.Qden := 100 |} <> 0).
Proof. exact (@constant_positive). Qed.

(* C83: pairs of points *)
Theorem C83_matched :
  forall (nearest : list rpt -> vec3 -> option (nat * R)) (among : list rpt -> list nat -> vec3 -> option (nat * R)) 
      (restricted : bool) (tf : iso) (source target : list rpt) (max : R),
    finds_nearest nearest ->
    0 <= max ->
    exists l : list (nat * nat),
      registration_pairs nearest among false restricted tf source (whole source) target max = Ok l /\ all_matched (iapp tf) source target max l.
Proof. exact (@pairs_matched). Qed.
Theorem C83_points_read :
  forall (nearest : list rpt -> vec3 -> option (nat * R)) (among : list rpt -> list nat -> vec3 -> option (nat * R)) 
      (tf : iso) (source target : list rpt) (max : R),
    finds_nearest nearest ->
    0 <= max ->
    exists (l : list (nat * nat)) (cs : list corr),
      correspondences nearest among tf source (whole source) target max = Ok cs /\
      all_matched (iapp tf) source target max l /\ Forall2 (of_pair source target) l cs.
Proof. exact (@correspondences_matched). Qed.
Theorem C83_from_target :
  forall (nearest : list rpt -> vec3 -> option (nat * R)) (among : list rpt -> list nat -> vec3 -> option (nat * R)) 
      (tf : iso) (source : list rpt) (indices : list nat) (target : list rpt) (max : R),
    finds_nearest_among among ->
    motion tf ->
    0 <= max ->
    (forall k : nat, In k indices -> (k < Datatypes.length source)%nat) ->
    exists l : list (nat * nat),
      registration_pairs nearest among true true tf source indices target max = Ok l /\ all_matched_back (iapp tf) source indices target max l.
Proof. exact (@reciprocal_pairs). Qed.
Theorem C83_selection_refuted :
  exists (source : list rpt) (indices : list nat) (target : list rpt) (l : list (nat * nat)) (c : corr),
      NoDup indices /\
      (forall k : nat, In k indices -> (k < Datatypes.length source)%nat) /\
      registration_pairs search search_in false false iid source indices target 1 = Ok l /\
      correspondences search search_in iid source indices target 1 = Ok [c] /\ 1 < distance (k_q c) (iapp iid (k_p c)).
Proof. exact (@subset_refuted). Qed.
Theorem C83_mutual_refuted :
  exists (source target : list rpt) (l : list (nat * nat)) (i j : nat) (s t t' : rpt),
      registration_pairs search search_in true true iid source (whole source) target 5 = Ok l /\
      In (i, j) l /\
      nth_error source i = Some s /\
      nth_error target j = Some t /\ In t' target /\ distance (p_x t') (iapp iid (p_x s)) < distance (p_x t) (iapp iid (p_x s)).
Proof. exact (@not_mutual_refuted). Qed.

Print Assumptions C40_point_linearised_derivatives.
Print Assumptions C40_plane_linearised_derivatives.
Print Assumptions C40_hessian_psd.
Print Assumptions C40_least_squares_symmetric.
Print Assumptions C40_least_squares_formula.
Print Assumptions C79_point_nonlinear_derivatives.
Print Assumptions C79_plane_nonlinear_derivatives.
Print Assumptions C79_sum_is_total_hessian.
Print Assumptions C79_blocks_are_total_mixed.
Print Assumptions C79_rotation_vector.
Print Assumptions C79_at_fit_positive.
Print Assumptions C79_no_rotation_no_covariance.
Print Assumptions C79_always_covariance_refuted.
Print Assumptions C80_point_definite_iff.
Print Assumptions C80_plane_definite_iff.
Print Assumptions C80_exists_iff_not_degenerate.
Print Assumptions C80_least_squares_positive.
Print Assumptions C80_censi_positive.
Print Assumptions C80_censi_at_least_least_squares.
Print Assumptions C81_iid.
Print Assumptions C81_range.
Print Assumptions C81_range_covariance.
Print Assumptions C81_bias_covariance.
Print Assumptions C81_iid_covariance.
Print Assumptions C81_bias_as_computed.
Print Assumptions C81_bias_refuted.
Print Assumptions C82_returns.
Print Assumptions C82_with_pipeline.
Print Assumptions C82_asked_for.
Print Assumptions C82_valid.
Print Assumptions C82_exists_iff_not_degenerate.
Print Assumptions C82_positive.
Print Assumptions C82_constant_positive.
Print Assumptions C83_matched.
Print Assumptions C83_points_read.
Print Assumptions C83_from_target.
Print Assumptions C83_selection_refuted.
Print Assumptions C83_mutual_refuted.
