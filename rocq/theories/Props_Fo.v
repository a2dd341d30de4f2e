(* Properties C97-C101: what the front end's messages say. Proofs in FoLive.v, FoProofs.v; cases and refutations in FoExamples.v. *)
From Coq Require Import ZArith Reals List String.
From Verif Require Import Base Mx Interp Geo EgModel EgProofs CvModel MsModel MsPose MsProofs NvModel NvSpec BfModel BfSpec BfLaws BfExamples PcGeom PcGeomProofs FoModel FoSpec FoLive FoProofs FoExamples.
From Verif Require CfgModel.
Import ListNotations.

(* C97 *)
Theorem C97_live_state :
  forall (look : string -> string -> Z -> res iso) (b : frames) (map_frame : string) (pim : Type) (pim_new : cmat -> cmat -> bias -> res pim)
      (add : pim -> vec3 -> vec3 -> R -> pim) (predict : pim -> nav -> bias -> nav) (overwrite : option (cmat * cmat)) 
      (l : list event) (s : live pim) (out : list msg),
    in_order (imus l) ->
    lrun look b map_frame pim pim_new add predict overwrite (live0 pim) l = Ok (s, out) ->
    match latest l with
    | Some (o, bi) =>
        lv_state s = world_state o /\
        lv_bias s = bi /\ (exists p0 : pim, lv_pim s = Some p0 /\ integrates pim pim_new add (map (received overwrite) (imus l)) o bi p0)
    | None => lv_pim s = None
    end.
Proof. exact (@live_state). Qed.
Theorem C97_live_message :
  forall (look : string -> string -> Z -> res iso) (b : frames) (map_frame : string) (pim : Type) (pim_new : cmat -> cmat -> bias -> res pim)
      (add : pim -> vec3 -> vec3 -> R -> pim) (predict : pim -> nav -> bias -> nav) (overwrite : option (cmat * cmat)) 
      (l : list event) (m : rimu) (s : live pim) (out : list msg) (o : odo) (bi : bias),
    in_order (imus (l ++ [EImu m])) ->
    latest l = Some (o, bi) ->
    lrun look b map_frame pim pim_new add predict overwrite (live0 pim) (l ++ [EImu m]) = Ok (s, out) ->
    exists (s1 : live pim) (o1 : list msg) (p : pim) (t : iso) (child : string) (msg0 : odoout),
      lrun look b map_frame pim pim_new add predict overwrite (live0 pim) l = Ok (s1, o1) /\
      out = o1 ++ [MRate msg0] /\
      integrates pim pim_new add (map (received overwrite) (imus (l ++ [EImu m]))) o bi p /\
      body_to_frame look b "imu" 0 = Ok t /\
      body_frame_id b = Ok child /\
      (let st := predict p (world_state o) bi in
       oo_time msg0 = ri_time m /\
       oo_frame msg0 = map_frame /\
       oo_child msg0 = child /\
       mpc_pose (oo_pose msg0) = {| mp_pos := n_pos st; mp_ori := quat_of (n_rot st) |} /\
       mtc_lin (oo_twist msg0) = n_vel st /\
       mtc_ang (oo_twist msg0) = mapply (lin t) (vadd (ri_w m) (b_gyr bi)) /\
       no_uncertainty (mpc_cov (oo_pose msg0)) /\ no_uncertainty (mtc_cov (oo_twist msg0))).
Proof. exact (@live_message). Qed.
Theorem C97_nothing_before :
  forall (look : string -> string -> Z -> res iso) (b : frames) (map_frame : string) (pim : Type) (pim_new : cmat -> cmat -> bias -> res pim)
      (add : pim -> vec3 -> vec3 -> R -> pim) (predict : pim -> nav -> bias -> nav) (overwrite : option (cmat * cmat)) 
      (l : list event) (m : rimu) (s : live pim) (out : list msg),
    in_order (imus (l ++ [EImu m])) ->
    latest l = None ->
    lrun look b map_frame pim pim_new add predict overwrite (live0 pim) (l ++ [EImu m]) = Ok (s, out) ->
    forall (s1 : live pim) (o1 : list msg), lrun look b map_frame pim pim_new add predict overwrite (live0 pim) l = Ok (s1, o1) -> out = o1.
Proof. exact (@live_before). Qed.
Theorem C97_order_irrelevant :
  forall (look : string -> string -> Z -> res iso) (b : frames) (map_frame : string) (pim : Type) (pim_new : cmat -> cmat -> bias -> res pim)
      (add : pim -> vec3 -> vec3 -> R -> pim) (predict : pim -> nav -> bias -> nav) (overwrite : option (cmat * cmat)) 
      (l l' : list event) (s s' : live pim) (out out' : list msg) (o : odo) (bi : bias),
    in_order (imus l) ->
    imus l = imus l' ->
    latest l = Some (o, bi) ->
    latest l' = Some (o, bi) ->
    lrun look b map_frame pim pim_new add predict overwrite (live0 pim) l = Ok (s, out) ->
    lrun look b map_frame pim pim_new add predict overwrite (live0 pim) l' = Ok (s', out') ->
    lv_pim s = lv_pim s' /\ lv_state s = lv_state s' /\ lv_bias s = lv_bias s'.
Proof. exact (@live_order_irrelevant). Qed.
Theorem C97_noise :
  forall (look : string -> string -> Z -> res iso) (b : frames) (map_frame : string) (pim : Type) (pim_new : cmat -> cmat -> bias -> res pim)
      (add : pim -> vec3 -> vec3 -> R -> pim) (predict : pim -> nav -> bias -> nav) (overwrite : option (cmat * cmat)) 
      (l : list event) (s : live pim) (out : list msg) (o : odo) (bi : bias),
    in_order (imus l) ->
    lrun look b map_frame pim pim_new add predict overwrite (live0 pim) l = Ok (s, out) ->
    latest l = Some (o, bi) ->
    exists (acc gyr : cmat) (p0 : pim),
      match overwrite with
      | Some (a, g) => acc = a /\ gyr = g
      | None => exists m : rimu, closest (od_time o) (imus l) m /\ acc = ri_acov m /\ gyr = ri_wcov m
      end /\ pim_new acc gyr bi = Ok p0 /\ lv_pim s = Some (feed add p0 (timed (od_time o) (later (od_time o) (imus l)))).
Proof. exact (@live_noise). Qed.

(* C98 *)
Theorem C98_rate_iff :
  forall (look look0 : string -> string -> Z -> res iso) (cfg : xv) (b : frames),
    load look0 cfg = Ok b ->
    tf_motions look0 ->
    forall (map_frame : string) (pim : Type) (pim_new : cmat -> cmat -> bias -> res pim) (add : pim -> vec3 -> vec3 -> R -> pim)
      (predict : pim -> nav -> bias -> nav) (overwrite : option (cmat * cmat)) (l : list event) (m : rimu) (s : live pim) 
      (out : list msg) (o : odo) (bi : bias) (T : iso) (rate : vec3),
    in_order (imus (l ++ [EImu m])) ->
    latest l = Some (o, bi) ->
    lrun look b map_frame pim pim_new add predict overwrite (live0 pim) (l ++ [EImu m]) = Ok (s, out) ->
    placed look0 cfg "imu" T ->
    reads (ri_w m) rate (b_gyr bi) ->
    exists (o1 : list msg) (msg0 : odoout),
      out = o1 ++ [MRate msg0] /\ oo_time msg0 = ri_time m /\ (mtc_ang (oo_twist msg0) = mapply (lin T) rate <-> b_gyr bi = v0).
Proof. exact (@live_rate_iff). Qed.
Theorem C98_rate_refuted :
  exists
      (cfg : xv) (b : frames) (T : iso) (l : list event) (m : rimu) (s : live toy) (out : list msg) (o : odo) (bi : bias) 
    (rate : vec3) (o1 : list msg) (msg0 : odoout),
      load no_tf cfg = Ok b /\
      placed no_tf cfg "imu" T /\
      in_order (imus (l ++ [EImu m])) /\
      latest l = Some (o, bi) /\
      fe_live b (live0 toy) (l ++ [EImu m]) = Ok (s, out) /\
      reads (ri_w m) rate (b_gyr bi) /\ rate = v0 /\ out = o1 ++ [MRate msg0] /\ mtc_ang (oo_twist msg0) <> mapply (lin T) rate.
Proof. exact (@live_rate_refuted). Qed.
Theorem C98_velocity_iff :
  forall (look : string -> string -> Z -> res iso) (b : frames) (map_frame : string) (pim : Type) (pim_new : cmat -> cmat -> bias -> res pim)
      (add : pim -> vec3 -> vec3 -> R -> pim) (predict : pim -> nav -> bias -> nav) (overwrite : option (cmat * cmat)) 
      (l : list event) (m : rimu) (s : live pim) (out : list msg) (o : odo) (bi : bias),
    in_order (imus (l ++ [EImu m])) ->
    latest l = Some (o, bi) ->
    lrun look b map_frame pim pim_new add predict overwrite (live0 pim) (l ++ [EImu m]) = Ok (s, out) ->
    exists (o1 : list msg) (msg0 : odoout) (p : pim),
      out = o1 ++ [MRate msg0] /\
      integrates pim pim_new add (map (received overwrite) (imus (l ++ [EImu m]))) o bi p /\
      (let st := predict p (world_state o) bi in
       proper (n_rot st) ->
       mapply (lin (motion_of (mpc_pose (oo_pose msg0)))) (mtc_lin (oo_twist msg0)) = n_vel st <-> mapply (n_rot st) (n_vel st) = n_vel st).
Proof. exact (@live_velocity_iff). Qed.
Theorem C98_velocity_refuted :
  exists
      (cfg : xv) (b : frames) (l : list event) (m : rimu) (s : live toy) (out : list msg) (o : odo) (bi : bias) (o1 : list msg) 
    (msg0 : odoout) (v : vec3),
      load no_tf cfg = Ok b /\
      in_order (imus (l ++ [EImu m])) /\
      latest l = Some (o, bi) /\
      fe_live b (live0 toy) (l ++ [EImu m]) = Ok (s, out) /\
      out = o1 ++ [MRate msg0] /\
      v = rt_lin (od_twist o) /\
      (forall p : toy,
       toy_predict p (world_state o) bi = {| n_rot := n_rot (world_state o); n_pos := n_pos (toy_predict p (world_state o) bi); n_vel := v |}) /\
      mapply (lin (motion_of (mpc_pose (oo_pose msg0)))) (mtc_lin (oo_twist msg0)) <> v.
Proof. exact (@live_velocity_refuted). Qed.

(* C99 *)
Theorem C99_base_link_sent :
  forall (look look0 : string -> string -> Z -> res iso) (cfg : xv) (b : frames),
    load look0 cfg = Ok b ->
    tf_motions look0 ->
    forall (o : odo) (T : iso),
    placed look0 cfg "base_link" T ->
    qunit (rp_ori (od_pose o)) ->
    exists (id : string) (tf : tfout) (p : poseout),
      named cfg "base_link" id /\
      base_link_messages look b o = Ok [MTf tf; MPose p] /\
      tf_time tf = od_time o /\
      tf_parent tf = od_frame o /\
      tf_child tf = id /\
      motion_of (tf_pose tf) = on_body (odo_iso o) T /\
      po_time p = od_time o /\
      po_frame p = od_frame o /\
      mpc_pose (po_pose p) = {| mp_pos := rp_pos (od_pose o); mp_ori := rp_ori (od_pose o) |} /\
      ros_cov (mpc_cov (po_pose p)) (rp_cov (od_pose o)).
Proof. exact (@base_link_sent). Qed.
Theorem C99_pose_iff :
  forall (look look0 : string -> string -> Z -> res iso) (cfg : xv) (b : frames),
    load look0 cfg = Ok b ->
    tf_motions look0 ->
    forall (o : odo) (T : iso) (p : poseout) (tf : tfout),
    placed look0 cfg "base_link" T ->
    qunit (rp_ori (od_pose o)) ->
    base_link_messages look b o = Ok [MTf tf; MPose p] -> motion_of (mpc_pose (po_pose p)) = on_body (odo_iso o) T <-> T = iid.
Proof. exact (@base_link_pose_iff). Qed.
Theorem C99_pose_refuted :
  exists (cfg : xv) (b : frames) (T : iso) (o : odo) (tf : tfout) (p : poseout),
      load no_tf cfg = Ok b /\
      placed no_tf cfg "base_link" T /\
      qunit (rp_ori (od_pose o)) /\
      base_link_messages no_tf b o = Ok [MTf tf; MPose p] /\
      motion_of (tf_pose tf) = on_body (odo_iso o) T /\ motion_of (mpc_pose (po_pose p)) <> motion_of (tf_pose tf).
Proof. exact (@base_link_pose_refuted). Qed.
Theorem C99_never_throws :
  forall (look : string -> string -> Z -> res iso) (b : frames) (o : odo),
    (forall (a c : string) (t : Z), look a c t <> UB) -> exists l : list msg, base_link_messages look b o = Ok l.
Proof. exact (@base_link_never_throws). Qed.

(* C100 *)
Theorem C100_orientation :
  forall (look look0 : string -> string -> Z -> res iso) (cfg : xv) (b : frames),
    load look0 cfg = Ok b ->
    tf_motions look0 ->
    forall (P : CfgModel.params) (T : iso) (ori : quat),
    placed look0 cfg "imu" T ->
    qunit ori ->
    exists q : quat,
      body_frame_orientation look b P ori = Ok q /\
      qunit q /\
      (forall v : vec3,
       mapply (qmat q) v =
       (if CfgModel.p_str P "imu/reference_frame" "NED" =? "NED" then ned_to_nwu else fun w : vec3 => w)
         (mapply (qmat ori) (mapply (lin (iinv T)) v))).
Proof. exact (@first_orientation). Qed.
Theorem C100_no_orientation :
  forall (look : string -> string -> Z -> res iso) (b : frames) (P : CfgModel.params), body_frame_orientation look b P (0, 0, 0, 0) = Ok qI.
Proof. exact (@first_orientation_none). Qed.
Theorem C100_first_state :
  forall (look look0 : string -> string -> Z -> res iso) (cfg : xv) (b : frames),
    load look0 cfg = Ok b ->
    tf_motions look0 ->
    forall (map_frame : string) (P : CfgModel.params) (T : iso) (time : Z) (m : imu) (child : string),
    placed look0 cfg "imu" T ->
    qunit (i_ori m) \/ i_ori m = (0, 0, 0, 0) ->
    body_named cfg child ->
    exists (p : pose) (t : twist),
      first_state look b map_frame P time m = Ok (time, map_frame, child, p, t) /\
      p_pos p =
      (real_param P "pose/position/x" {| QArith_base.Qnum := 0; QArith_base.Qden := 1 |},
       real_param P "pose/position/y" {| QArith_base.Qnum := 0; QArith_base.Qden := 1 |},
       real_param P "pose/position/z" {| QArith_base.Qnum := 0; QArith_base.Qden := 1 |}) /\
      body_frame_orientation look b P (i_ori m) = Ok (p_ori p) /\
      t_lin t =
      (real_param P "velocity/linear/x" {| QArith_base.Qnum := 0; QArith_base.Qden := 1 |},
       real_param P "velocity/linear/y" {| QArith_base.Qnum := 0; QArith_base.Qden := 1 |},
       real_param P "velocity/linear/z" {| QArith_base.Qnum := 0; QArith_base.Qden := 1 |}) /\
      t_ang t = i_w m /\
      (exists a c : mat3,
         p_cov p = blocks a m0 m0 c /\
         diagonal (real_param P "prior_noise/rotation" {| QArith_base.Qnum := 1; QArith_base.Qden := 1000 |}) a /\
         diagonal (real_param P "prior_noise/position" {| QArith_base.Qnum := 1; QArith_base.Qden := 1000 |}) c) /\
      (exists c : mat3,
         t_cov t = blocks (i_wcov m) m0 m0 c /\
         diagonal (real_param P "prior_noise/linear_velocity" {| QArith_base.Qnum := 1; QArith_base.Qden := 1000 |}) c).
Proof. exact (@first_state_sent). Qed.
Theorem C100_rate_refuted :
  exists (cfg : xv) (b : frames) (T : iso) (m : imu) (p : pose) (t : twist) (tm : Z) (f c : string),
      load no_tf cfg = Ok b /\
      placed no_tf cfg "imu" T /\
      qunit (i_ori m) /\ first_state no_tf b "map" defaults 0 m = Ok (tm, f, c, p, t) /\ t_ang t <> mapply (lin T) (i_w m).
Proof. exact (@first_rate_refuted). Qed.

(* C101 *)
Theorem C101_guess :
  forall (look look0 : string -> string -> Z -> res iso) (cfg : xv) (b : frames),
    load look0 cfg = Ok b ->
    tf_motions look0 ->
    forall (T : iso) (before after : nav),
    placed look0 cfg "lidar" T ->
    proper_nav before -> guess_transform look b before after = Ok (moved (on_body (nav_iso before) T) (on_body (nav_iso after) T)).
Proof. exact (@guess_right). Qed.
Theorem C101_skew_iff :
  forall (look look0 : string -> string -> Z -> res iso) (cfg : xv) (b : frames),
    load look0 cfg = Ok b ->
    tf_motions look0 ->
    forall (T : iso) (s e : nav),
    placed look0 cfg "lidar" T ->
    proper_nav s ->
    exists k : iso,
      skew_transform look b true true s e = Ok k /\
      (k = moved (on_body (nav_iso s) T) (on_body (nav_iso e) T) <->
       (let r := moved (nav_iso s) (nav_iso e) in imul (imul T T) r = imul r (imul T T))).
Proof. exact (@skew_iff). Qed.
Theorem C101_skew_straight :
  forall (look look0 : string -> string -> Z -> res iso) (cfg : xv) (b : frames),
    load look0 cfg = Ok b ->
    tf_motions look0 ->
    forall (T : iso) (s e : nav),
    placed look0 cfg "lidar" T ->
    proper_nav s ->
    lin T = mI -> n_rot e = n_rot s -> skew_transform look b true true s e = Ok (moved (on_body (nav_iso s) T) (on_body (nav_iso e) T)).
Proof. exact (@skew_straight). Qed.
Theorem C101_skew_switches :
  forall (look look0 : string -> string -> Z -> res iso) (cfg : xv) (b : frames),
    load look0 cfg = Ok b ->
    tf_motions look0 ->
    forall (T : iso) (s e : nav),
    placed look0 cfg "lidar" T ->
    exists k k1 k2 k3 : iso,
      skew_transform look b true true s e = Ok k /\
      skew_transform look b false true s e = Ok k1 /\
      lin k1 = lin k /\
      tr k1 = v0 /\
      skew_transform look b true false s e = Ok k2 /\ lin k2 = mI /\ tr k2 = tr k /\ skew_transform look b false false s e = Ok k3 /\ k3 = iid.
Proof. exact (@skew_switches). Qed.
Theorem C101_skew_refuted :
  exists (cfg : xv) (b : frames) (T : iso) (s e : nav) (k : iso) (q : vec3),
      load no_tf cfg = Ok b /\
      placed no_tf cfg "lidar" T /\
      proper_nav s /\
      proper_nav e /\
      skew_transform no_tf b true true s e = Ok k /\
      k <> moved (on_body (nav_iso s) T) (on_body (nav_iso e) T) /\
      (forall eps : R, 0 < eps -> deskewed eps k 1 0 (iapp (iinv (on_body (nav_iso s) T)) q) <> iapp (iinv (on_body (nav_iso e) T)) q).
Proof. exact (@skew_refuted). Qed.
Theorem C101_still_point :
  forall (eps : R) (k L0 : iso) (y x : R) (q : vec3),
    0 < eps ->
    motion L0 ->
    proper (lin k) ->
    exact_rotation eps (quat_of (lin k)) ->
    let at_ := fun z : R => imul L0 (pose_at eps (tr k) (quat_of (lin k)) z) in
    at_ 0 = L0 /\ at_ 1 = imul L0 k /\ deskewed eps k y x (iapp (iinv (at_ x)) q) = iapp (iinv (at_ y)) q.
Proof. exact (@still_point). Qed.

Print Assumptions C97_live_state.
Print Assumptions C97_live_message.
Print Assumptions C97_nothing_before.
Print Assumptions C97_order_irrelevant.
Print Assumptions C97_noise.
Print Assumptions C98_rate_iff.
Print Assumptions C98_rate_refuted.
Print Assumptions C98_velocity_iff.
Print Assumptions C98_velocity_refuted.
Print Assumptions C99_base_link_sent.
Print Assumptions C99_pose_iff.
Print Assumptions C99_pose_refuted.
Print Assumptions C99_never_throws.
Print Assumptions C100_orientation.
Print Assumptions C100_no_orientation.
Print Assumptions C100_first_state.
Print Assumptions C100_rate_refuted.
Print Assumptions C101_guess.
Print Assumptions C101_skew_iff.
Print Assumptions C101_skew_straight.
Print Assumptions C101_skew_switches.
Print Assumptions C101_skew_refuted.
Print Assumptions C101_still_point.
