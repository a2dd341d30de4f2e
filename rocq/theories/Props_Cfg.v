(* Properties C39, C53, C67, C68 (configuration and wiring of the lidar pipeline). Proofs in Net*.v, CfgKeys.v, CfgProofs.v, CfgMore.v; cases in CfgExamples.v. *)
From Verif Require Import Base NetModel NetSpec NetMore CfgModel CfgSpec CfgKeys CfgProofs CfgMore CfgRead CfgSel CfgExamples.
From Coq Require Import QArith.
Open Scope string_scope.
Open Scope list_scope.

(* C39 *)
Theorem C39_filters_in_order :
  forall (Pt : Type) (inside : Q * Q * Q -> Q * Q * Q -> Q * Q * Q -> Q * Q * Q -> Pt -> bool) (range : Pt -> option Q)
      (voxel : Q -> Q -> list Pt -> list Pt) (sor : Z -> Q -> list Pt -> list Pt) (sample : Z -> Z -> list Pt -> list Pt)
      (unit normals : cloud Pt -> cloud Pt) (cap : nat) (P : params) (ns : list (nd op)) (u : bool) (l : list kind),
    lidar_nodes P = Ok (Some (ns, u)) ->
    enabled_in P filters l ->
    forall (ls : list (lab (cloud Pt))) (s : net (cloud Pt) op),
    feeds (cloud Pt) t_in ls ->
    exec (cloud Pt) op (apply_op Pt inside range voxel sor sample unit normals) cap ls (init (cloud Pt) op ns) = Some (Ok s) ->
    map (fun n : nd op => kind_of (n_op op n)) ns = l ++ (if u then [KUnit] else []) ++ [KNormal] /\
    (exists sel : list (cloud Pt),
       subseq sel (ins (cloud Pt) ls) /\
       Forall2 (fun m r : cloud Pt => through (cloud Pt) op (apply_op Pt inside range voxel sor sample unit normals) (map (n_op op) ns) m = Ok r)
         sel (on (cloud Pt) t_out (log (cloud Pt) op s))).
Proof. exact (@pipe_order). Qed.
Theorem C39_none_lost :
  forall (Pt : Type) (inside : Q * Q * Q -> Q * Q * Q -> Q * Q * Q -> Q * Q * Q -> Pt -> bool) (range : Pt -> option Q)
      (voxel : Q -> Q -> list Pt -> list Pt) (sor : Z -> Q -> list Pt -> list Pt) (sample : Z -> Z -> list Pt -> list Pt)
      (unit normals : cloud Pt -> cloud Pt) (cap : nat) (P : params) (ns : list (nd op)) (u : bool) (l : list kind),
    lidar_nodes P = Ok (Some (ns, u)) ->
    enabled_in P filters l ->
    forall (ls : list (lab (cloud Pt))) (s : net (cloud Pt) op),
    feeds (cloud Pt) t_in ls ->
    at_most_in_flight (cloud Pt) op (apply_op Pt inside range voxel sor sample unit normals) cap t_in t_out (init (cloud Pt) op ns) ls ->
    exec (cloud Pt) op (apply_op Pt inside range voxel sor sample unit normals) cap ls (init (cloud Pt) op ns) = Some (Ok s) ->
    idle (cloud Pt) op (apply_op Pt inside range voxel sor sample unit normals) cap s ->
    Forall2 (fun m r : cloud Pt => through (cloud Pt) op (apply_op Pt inside range voxel sor sample unit normals) (map (n_op op) ns) m = Ok r)
      (ins (cloud Pt) ls) (on (cloud Pt) t_out (log (cloud Pt) op s)).
Proof. exact (@pipe_complete). Qed.
Theorem C39_never_fails :
  forall (Pt : Type) (inside : Q * Q * Q -> Q * Q * Q -> Q * Q * Q -> Q * Q * Q -> Pt -> bool) (range : Pt -> option Q)
      (voxel : Q -> Q -> list Pt -> list Pt) (sor : Z -> Q -> list Pt -> list Pt) (sample : Z -> Z -> list Pt -> list Pt)
      (unit normals : cloud Pt -> cloud Pt) (cap : nat) (P : params) (ns : list (nd op)) (u : bool) (l : list kind),
    lidar_nodes P = Ok (Some (ns, u)) ->
    enabled_in P filters l ->
    forall (ls : list (lab (cloud Pt))) (r : res (net (cloud Pt) op)),
    feeds (cloud Pt) t_in ls ->
    (forall m : cloud Pt, In m (ins (cloud Pt) ls) -> has_range Pt m = true) ->
    exec (cloud Pt) op (apply_op Pt inside range voxel sor sample unit normals) cap ls (init (cloud Pt) op ns) = Some r ->
    exists s : net (cloud Pt) op, r = Ok s.
Proof. exact (@pipe_never_fails). Qed.
Theorem C39_drains :
  forall (Pt : Type) (inside : Q * Q * Q -> Q * Q * Q -> Q * Q * Q -> Q * Q * Q -> Pt -> bool) (range : Pt -> option Q)
      (voxel : Q -> Q -> list Pt -> list Pt) (sor : Z -> Q -> list Pt -> list Pt) (sample : Z -> Z -> list Pt -> list Pt)
      (unit normals : cloud Pt -> cloud Pt) (cap : nat) (P : params) (ns : list (nd op)) (u : bool) (l : list kind),
    lidar_nodes P = Ok (Some (ns, u)) ->
    enabled_in P filters l ->
    forall (ls : list (lab (cloud Pt))) (s : net (cloud Pt) op),
    feeds (cloud Pt) t_in ls ->
    (forall m : cloud Pt, In m (ins (cloud Pt) ls) -> has_range Pt m = true) ->
    exec (cloud Pt) op (apply_op Pt inside range voxel sor sample unit normals) cap ls (init (cloud Pt) op ns) = Some (Ok s) ->
    exists (ls' : list (lab (cloud Pt))) (s' : net (cloud Pt) op),
      Forall (internal (cloud Pt)) ls' /\
      exec (cloud Pt) op (apply_op Pt inside range voxel sor sample unit normals) cap (ls ++ ls') (init (cloud Pt) op ns) = Some (Ok s') /\
      idle (cloud Pt) op (apply_op Pt inside range voxel sor sample unit normals) cap s'.
Proof. exact (@pipe_drains). Qed.
Theorem C39_wiring :
  forall (P : params) (ns : list (nd op)) (unit : bool) (l : list kind),
    lidar_nodes P = Ok (Some (ns, unit)) ->
    enabled_in P filters l ->
    linked op t_in ns t_out /\
    NoDup (topics op t_in ns) /\
    map (fun n : nd op => kind_of (n_op op n)) ns = l ++ (if unit then [KUnit] else []) ++ [KNormal] /\
    (unit = true <->
     In (p_str P "registration_covariance/method" "CENSI") ["CENSI"; "LLS"] /\
     In (p_str P "registration_covariance/point_covariance/method" "RANGE") ["RANGE"; "RANGE_BIAS"]).
Proof. exact (@lidar_chain). Qed.
Theorem C39_filter_class :
  forall (Pt : Type) (inside : Q * Q * Q -> Q * Q * Q -> Q * Q * Q -> Q * Q * Q -> Pt -> bool) (range : Pt -> option Q)
      (voxel : Q -> Q -> list Pt -> list Pt) (sor : Z -> Q -> list Pt -> list Pt) (sample : Z -> Z -> list Pt -> list Pt)
      (unit normals : cloud Pt -> cloud Pt) (cap : nat) (P : params) (input : string) (ns : list (nd op)) (l : list kind)
      (ls : list (lab (cloud Pt))) (s : net (cloud Pt) op),
    filter_ctor P input = Ok ns ->
    enabled_in P filters l ->
    l <> [] ->
    ~ In (resolve input) filter_topics ->
    feeds (cloud Pt) (resolve input) ls ->
    exec (cloud Pt) op (apply_op Pt inside range voxel sor sample unit normals) cap ls (init (cloud Pt) op ns) = Some (Ok s) ->
    exists sel : list (cloud Pt),
      subseq sel (ins (cloud Pt) ls) /\
      Forall2 (fun m r : cloud Pt => through (cloud Pt) op (apply_op Pt inside range voxel sor sample unit normals) (map (n_op op) ns) m = Ok r)
        sel (on (cloud Pt) "/serpent/filter/filtered_pointcloud" (log (cloud Pt) op s)).
Proof. exact (@class_order). Qed.
Theorem C39_refusals :
  forall (P : params) (input : string),
    (exists ns : list (nd op), filter_ctor P input = Ok ns) \/
    filter_ctor P input = Throw /\
    on_ P "random_sample_filter/enabled" false /\
    ((p_int P "random_sample_filter/sample_size" 3000 < 0)%Z \/ (p_int P "random_sample_filter/random_seed" 0 < 0)%Z).
Proof. exact (@filter_throws). Qed.
Theorem C39_class_silent :
  forall (Pt : Type) (inside : Q * Q * Q -> Q * Q * Q -> Q * Q * Q -> Q * Q * Q -> Pt -> bool) (range : Pt -> option Q)
      (voxel : Q -> Q -> list Pt -> list Pt) (sor : Z -> Q -> list Pt -> list Pt) (sample : Z -> Z -> list Pt -> list Pt)
      (unit normals : cloud Pt -> cloud Pt) (cap : nat) (P : params) (input : string) (ns : list (nd op)) (ls : list (lab (cloud Pt)))
      (s : net (cloud Pt) op),
    filter_ctor P input = Ok ns ->
    enabled_in P filters [] ->
    resolve input <> "/serpent/filter/filtered_pointcloud" ->
    feeds (cloud Pt) (resolve input) ls ->
    exec (cloud Pt) op (apply_op Pt inside range voxel sor sample unit normals) cap ls (init (cloud Pt) op ns) = Some (Ok s) ->
    on (cloud Pt) "/serpent/filter/filtered_pointcloud" (log (cloud Pt) op s) = [].
Proof. exact (@class_silent). Qed.
Theorem C39_no_range_refuted :
  exists ls : list (lab (cloud Q)),
      feeds (cloud Q) t_in ls /\
      ins (cloud Q) ls = [{| has_range := false; pts := [1] |}] /\ exec (cloud Q) op ex_f 100 ls (init (cloud Q) op default_nodes) = Some Throw.
Proof. exact (@no_range_refuted). Qed.

(* C53 *)
Theorem C53_covariance_names :
  reads_names to_cov_method cov_methods /\ reads_names to_cov_model cov_models /\ reads_names to_point_method point_methods.
Proof. exact (@names_cov). Qed.
Theorem C53_registration_names :
  reads_names to_reg_method reg_methods /\ reads_names to_voxel_mode voxel_modes /\ reads_names to_neighbour neighbours.
Proof. exact (@names_reg). Qed.
Theorem C53_stereo_names :
  reads_names to_orb_score orb_scores /\
    reads_names to_norm_type norm_types /\
    reads_names to_term_criteria term_types /\ reads_names to_fast_type fast_types /\ reads_names to_match_filter match_filters.
Proof. exact (@names_stereo). Qed.
Theorem C53_other_names :
  reads_names to_sensor_type sensor_types /\ reads_names to_extraction extractions /\ reads_names to_reweight reweights.
Proof. exact (@names_other). Qed.
Theorem C53_every_value_named :
  all_named cov_methods /\
    all_named cov_models /\
    all_named point_methods /\
    all_named reg_methods /\
    all_named voxel_modes /\
    all_named neighbours /\
    all_named orb_scores /\
    all_named norm_types /\
    all_named fast_types /\ all_named match_filters /\ all_named sensor_types /\ all_named extractions /\ all_named reweights.
Proof. exact (@named). Qed.
Theorem C53_printed_names :
  (forall m : cov_method, to_cov_method (cov_method_str m) = Ok m) /\
    (forall m : cov_model, to_cov_model (cov_model_str m) = Ok m) /\ (forall m : point_method, to_point_method (point_method_str m) = Ok m).
Proof. exact (@printed_names). Qed.
Theorem C53_unit_vectors :
  forall (c p : string) (b : bool), requires_unit_s c p = Ok b -> b = true <-> In c ["CENSI"; "LLS"] /\ In p ["RANGE"; "RANGE_BIAS"].
Proof. exact (@unit_spec). Qed.
Theorem C53_point_type_agrees :
  forall (P : params) (ns : list (nd op)) (unit : bool) (c : reg_cfg),
    lidar_nodes P = Ok (Some (ns, unit)) -> reg_config P = Ok c -> unit = true <-> range_based (rc_point c).
Proof. exact (@unit_agrees). Qed.
Theorem C53_registration_starts_iff :
  forall P : params,
    let m := p_str P "registration_covariance/method" "CENSI" in
    let md := p_str P "registration_covariance/model" "POINT_TO_PLANE_LINEARISED" in
    let pm := p_str P "registration_covariance/point_covariance/method" "RANGE" in
    (exists c : reg_cfg, reg_config P = Ok c) <->
    m = "CONSTANT" \/
    In m ["CENSI"; "LLS"] /\
    In md (map fst cov_models) /\
    (pm = "CONSTANT" \/
     pm = "VOXEL_SIZE" /\ on_ P "voxel_grid_filter/enabled" true \/
     m = "CENSI" /\
     In pm ["RANGE"; "RANGE_BIAS"] /\
     0 < p_num P "registration_covariance/point_covariance/range_noise" 0.05 /\
     (pm = "RANGE_BIAS" -> 0 < p_num P "registration_covariance/point_covariance/range_bias_noise" 0.02)).
Proof. exact (@reg_config_total). Qed.
Theorem C53_robust_known :
  forall P : params, In (p_str P "stereo_factors/robust/type" "huber") robust_names -> robust_model P <> Ok None.
Proof. exact (@robust_known). Qed.
Theorem C53_robust_unknown :
  forall P : params, ~ In (p_str P "stereo_factors/robust/type" "huber") robust_names -> robust_model P = Ok None.
Proof. exact (@robust_unknown). Qed.
Theorem C53_robust_estimator :
  forall (P : params) (r : robust), robust_model P = Ok (Some r) -> robust_says P r.
Proof. exact (@robust_reads). Qed.
Theorem C53_robust_refused_iff :
  forall P : params,
    robust_model P = Throw <->
    (exists (name : string) (e : estimator * string * Q),
       is_str P "stereo_factors/robust/type" "huber" name /\
       In (name, e) estimators /\ no_option P ("stereo_factors/robust/" ++ name ++ "/reweight_scheme") "BLOCK" reweights).
Proof. exact (@robust_refused). Qed.
Theorem C53_robust_refuted :
  exists P : string -> option pval, P "stereo_factors/robust/type" = Some (VStr "Huber") /\ robust_model P = Ok None.
Proof. exact (@robust_null_refuted). Qed.
Theorem C53_unused_name_refuted :
  exists (P : params) (c : reg_cfg), reg_config P = Ok c /\ rc_method c = CM_CONSTANT /\ lidar_nodes P = Throw.
Proof. exact (@unused_name_refuted). Qed.
Theorem C53_lls_default_refuted :
  exists P : string -> option pval,
      P "registration_covariance/method" = Some (VStr "LLS") /\
      (forall k : string, k <> "registration_covariance/method" -> P k = None) /\ reg_config P = Throw.
Proof. exact (@lls_default_refuted). Qed.

(* C67 *)
Theorem C67_ignored_exactly :
  forall k : string, In k documented -> ignored k <-> In k dead_keys.
Proof. exact (@ignored_exactly). Qed.
Theorem C67_settings_reach_filters :
  forall (P : params) (input : string) (ns : list (nd op)) (n : nd op), filter_ctor P input = Ok ns -> In n ns -> as_documented P (n_op op n).
Proof. exact (@settings_reach). Qed.
Theorem C67_integers :
  forall (P : params) (k : string) (d z : Z),
    p_int P k d = z <-> (exists v : pval, P k = Some v /\ number v z) \/ z = d /\ (forall (v : pval) (y : Z), P k = Some v -> ~ number v y).
Proof. exact (@integer_read). Qed.
Theorem C67_registration_covariance :
  forall (P : params) (c : reg_cfg), reg_config P = Ok c -> reg_says P c.
Proof. exact (@reg_reads). Qed.
Theorem C67_matchers :
  forall (P : params) (a : matcher) (o : option matcher),
    matchers P = Ok (a, o) ->
    matcher_says P "s2s/" a /\ (forall b : matcher, o = Some b -> matcher_says P "s2m/" b) /\ (o <> None <-> on_ P "s2m/enabled" true).
Proof. exact (@matchers_read). Qed.
Theorem C67_matchers_refused_iff :
  forall P : params, matchers P = Throw <-> matcher_refused P "s2s/" \/ on_ P "s2m/enabled" true /\ matcher_refused P "s2m/".
Proof. exact (@matchers_refused). Qed.
Theorem C67_stereo :
  forall (P : params) (c : stereo_cfg), stereo_config P = Ok c -> stereo_says P c.
Proof. exact (@stereo_reads). Qed.
Theorem C67_window :
  forall (P : params) (f : flow), flow_config P = Ok f -> window P (fst (window_of f)) (snd (window_of f)).
Proof. exact (@window_read). Qed.
Theorem C67_window_short :
  forall (P : string -> option pval) (l : list pval) (zs : list Z),
    P window_key = Some (VList l) -> Forall2 element l zs -> (Datatypes.length l < 2)%nat -> flow_config P = Throw.
Proof. exact (@window_short). Qed.
Theorem C67_documented_keys_refuted :
  ~ (forall k : string, In k documented -> exists (P : params) (v : pval), configure (pset P k v) <> configure P).
Proof. exact (@documented_keys_refuted). Qed.
Theorem C67_documented_flow_refuted :
  exists P : string -> option pval,
      P "stereo_tracking/sparse_optical_flow/pyrlk/min_eig_threshold" = Some (VDouble 0.0001) /\
      (exists c : flow, flow_config P = Ok c /\ fl_eig c = 0 /\ fl_level c = 3%Z).
Proof. exact (@documented_flow_refuted). Qed.

(* C68 *)
Theorem C68_keeps_the_inside :
  forall (Pt : Type) (inside : Q * Q * Q -> Q * Q * Q -> Q * Q * Q -> Q * Q * Q -> Pt -> bool) (range : Pt -> option Q)
      (voxel : Q -> Q -> list Pt -> list Pt) (sor : Z -> Q -> list Pt -> list Pt) (sample : Z -> Z -> list Pt -> list Pt)
      (unit normals : cloud Pt -> cloud Pt) (P : params) (input : string) (ns : list (nd op)) (n : nd op) (mn mx tr rot : Q * Q * Q) 
      (neg : bool) (c c' : cloud Pt),
    filter_ctor P input = Ok ns ->
    In n ns ->
    n_op op n = OBody mn mx tr rot neg ->
    apply_op Pt inside range voxel sor sample unit normals (n_op op n) c = Ok c' ->
    forall p : Pt, In p (pts Pt c') <-> In p (pts Pt c) /\ inside mn mx tr rot p = true.
Proof. exact (@body_keeps_inside). Qed.
Theorem C68_body_filter_refuted :
  exists (P : params) (input : string) (ns : list (nd op)) (o : op) (c c' : cloud Q),
      filter_ctor P input = Ok ns /\
      In o (map (n_op op) ns) /\
      kind_of o = KBody /\
      ex_f o c = Ok c' /\
      pts Q c = [-1 # 2; 5] /\
      pts Q c' = [-1 # 2] /\ match o with
                             | OBody mn mx tr rot _ => map (ex_inside mn mx tr rot) (pts Q c) = [true; false]
                             | _ => False
                             end.
Proof. exact (@body_filter_refuted). Qed.

Print Assumptions C39_filters_in_order.
Print Assumptions C39_none_lost.
Print Assumptions C39_never_fails.
Print Assumptions C39_drains.
Print Assumptions C39_wiring.
Print Assumptions C39_filter_class.
Print Assumptions C39_refusals.
Print Assumptions C39_class_silent.
Print Assumptions C39_no_range_refuted.
Print Assumptions C53_covariance_names.
Print Assumptions C53_registration_names.
Print Assumptions C53_stereo_names.
Print Assumptions C53_other_names.
Print Assumptions C53_every_value_named.
Print Assumptions C53_printed_names.
Print Assumptions C53_unit_vectors.
Print Assumptions C53_point_type_agrees.
Print Assumptions C53_registration_starts_iff.
Print Assumptions C53_robust_known.
Print Assumptions C53_robust_unknown.
Print Assumptions C53_robust_estimator.
Print Assumptions C53_robust_refused_iff.
Print Assumptions C53_robust_refuted.
Print Assumptions C53_unused_name_refuted.
Print Assumptions C53_lls_default_refuted.
Print Assumptions C67_ignored_exactly.
Print Assumptions C67_settings_reach_filters.
Print Assumptions C67_integers.
Print Assumptions C67_registration_covariance.
Print Assumptions C67_matchers.
Print Assumptions C67_matchers_refused_iff.
Print Assumptions C67_stereo.
Print Assumptions C67_window.
Print Assumptions C67_window_short.
Print Assumptions C67_documented_keys_refuted.
Print Assumptions C67_documented_flow_refuted.
Print Assumptions C68_keeps_the_inside.
Print Assumptions C68_body_filter_refuted.
