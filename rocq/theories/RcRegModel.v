(* Which pairs of points the covariance is computed from, and which estimator the settings select:
   pointcloud_tools/include/pointcloud_tools/impl/registration_utilities.hpp (RU),
   serpent/include/serpent/front_end/lidar/registration-inl.hpp (RG), registration_covariance-inl.hpp (RC). *)
From Coq Require Import Reals Qreals QArith.
From Verif Require Import Base Mx Interp Geo EgModel CfgModel RcGen RcModel.
Import ListNotations.
Open Scope R_scope.

(* a point with its normal and the unit vector of its ray; registration_covariance.hpp: PointNormalUnit *)
Record rpt := mkRpt { p_x : vec3; p_n : vec3; p_u : vec3 }.

Section Pairs.
  (* pcl::search::Search::nearestKSearch(point, 1, ...): index and squared distance of the one neighbour found *)
  Variable nearest : list rpt -> vec3 -> option (nat * R).
  (* the search tree of the source, restricted to the indices of the registration *)
  Variable nearest_among : list rpt -> list nat -> vec3 -> option (nat * R).

  (* RU 32-46, the loop of the default branch.  registration[i] is the point at indices[i], not bounds checked; the pair holds i. *)
  Fixpoint forward_pairs (tf : iso) (source : list rpt) (indices : list nat) (target : list rpt) (max_sq : R) (i : nat) : res (list (nat * nat)) :=
    match indices with
    | [] => Ok []
    | k :: indices =>
        match nth_error source k with
        | None => UB
        | Some s =>
            rbind (forward_pairs tf source indices target max_sq (S i)) (fun l =>
            match nearest target (iapp tf (p_x s)) with
            | Some (j, d) => if Rle_dec d max_sq then Ok ((i, j) :: l) else Ok l
            | None => Ok l
            end)
        end
    end.
  (* RU 18-31, the loop of the branch called reciprocal: from every target point to the source *)
  Fixpoint backward_pairs (tf : iso) (source : list rpt) (indices : list nat) (target : list rpt) (max_sq : R) (i : nat) : list (nat * nat) :=
    match target with
    | [] => []
    | t :: target =>
        let l := backward_pairs tf source indices target max_sq (S i) in
        match nearest_among source indices (iapp (iinv tf) (p_x t)) with
        | Some (j, d) => if Rle_dec d max_sq then (j, i) :: l else l
        | None => l
        end
    end.
  (* RU 11-48; `restricted`: the search tree of the source holds the same index vector as the registration *)
  Definition registration_pairs (reciprocal restricted : bool) (tf : iso) (source : list rpt) (indices : list nat) (target : list rpt) (max_distance : R) : res (list (nat * nat)) :=
    if reciprocal then (if restricted then Ok (backward_pairs tf source indices target (max_distance * max_distance) 0) else Throw)
    else forward_pairs tf source indices target (max_distance * max_distance) 0.

  (* RC 24-32: the two points of a pair, by at() *)
  Definition fetch (source target : list rpt) (ij : nat * nat) : res corr :=
    match nth_error source (fst ij), nth_error target (snd ij) with
    | Some s, Some t => Ok (mkCorr (p_x s) (p_x t) (p_n t) (p_u s) (p_u t))
    | _, _ => Throw
    end.
  Fixpoint fetch_all (source target : list rpt) (l : list (nat * nat)) : res (list corr) :=
    match l with [] => Ok [] | ij :: l => rbind (fetch source target ij) (fun c => rbind (fetch_all source target l) (fun cs => Ok (c :: cs))) end.
  (* RC 12-19 *)
  Definition correspondences (tf : iso) (source : list rpt) (indices : list nat) (target : list rpt) (max_distance : R) : res (list corr) :=
    rbind (registration_pairs false false tf source indices target max_distance) (fetch_all source target).

  Variable inverse : mx -> option mx.
  (* RG 17-33, 98-126: the model of the setting *)
  Definition icp_of (m : cov_model) : icp :=
    match m with P2P_LIN => PointLinearised | P2P_NONLIN => PointNonlinear | P2PL_LIN => PlaneLinearised | P2PL_NONLIN => PlaneNonlinear end.
  (* RG 93-97: block diagonal *)
  Definition constant_covariance (rot trans : Q) : mx := fun i j => if Nat.eqb i j then (if (i <? 3)%nat then Q2R rot else Q2R trans) else 0.
  (* RG 35-73.  `unit`: the points of this instantiation carry unit vectors (RC 39-47, 101-111: without them the range estimators throw).
     A variance that the configuration did not set, or a function pointer that is null: undefined behaviour.
     Inner None: the computation divides by zero or inverts a singular matrix, the result holds no numbers.  Logging left out. *)
  Definition covariance_from_registration (cfg : reg_cfg) (unit : bool) (tf : iso) (source : list rpt) (indices : list nat) (target : list rpt) (max_distance : R) : res (option mx) :=
    let pairs := correspondences tf source indices target max_distance in
    match rc_method cfg with
    | CM_CONSTANT => match rc_const cfg with Some (r, t) => Ok (Some (constant_covariance r t)) | None => UB end
    | m =>
        match rc_model cfg, rc_point cfg with
        | Some md, Some pm =>
            let k := icp_of md in let f := components tf in
            match pm with
            | PM_CONSTANT | PM_VOXEL_SIZE =>
                match rc_pvar cfg with
                | Some v => rbind pairs (fun l => Ok (match m with CM_LLS => lls_iid inverse k f l (Q2R v) | _ => censi_iid inverse k f l (Q2R v) end))
                | None => UB
                end
            | PM_RANGE =>
                match m, rc_rvar cfg with
                | CM_CENSI, Some v => if unit then rbind pairs (fun l => Ok (censi_range inverse k f l (Q2R v))) else Throw
                | _, _ => UB
                end
            | PM_RANGE_BIAS =>
                match m, rc_rvar cfg, rc_bvar cfg with
                | CM_CENSI, Some v, Some b => if unit then rbind pairs (fun l => Ok (censi_bias inverse k f l (Q2R v) (Q2R b))) else Throw
                | _, _, _ => UB
                end
            end
        | _, _ => UB
        end
    end.
End Pairs.
