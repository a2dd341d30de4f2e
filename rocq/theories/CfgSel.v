(* Every setting of the registration, of its covariance and of the stereo front end is the value of its own key. *)
From Coq Require Import QArith String List.
From Verif Require Import Base NetModel NetSpec CfgModel CfgSpec CfgProofs CfgRead.
Import ListNotations.
Open Scope Z_scope.
Open Scope string_scope.
Open Scope list_scope.

(* ---------------------------------------------------------------- what a key says *)
Definition is_int (P : params) (k : string) (d z : Z) : Prop :=
  (exists v, P k = Some v /\ number v z) \/ (z = d /\ forall v y, P k = Some v -> ~ number v y).
Definition is_str (P : params) (k d s : string) : Prop :=
  P k = Some (VStr s) \/ (s = d /\ forall s', P k <> Some (VStr s')).
Definition is_flag (P : params) (k : string) (d b : bool) : Prop := b = true <-> on_ P k d.
(* a key without a default: no number, no limit *)
Definition is_limit (P : params) (k : string) (o : option Q) : Prop :=
  match o with Some q => forall d, is_num P k d q | None => forall z q, P k <> Some (VInt z) /\ P k <> Some (VDouble q) end.
(* the option the key names *)
Definition is_option {A} (P : params) (k d : string) (names : list (string * A)) (a : A) : Prop :=
  exists s, is_str P k d s /\ In (s, a) names.
(* the key names none of the options *)
Definition no_option {A} (P : params) (k d : string) (names : list (string * A)) : Prop :=
  exists s, is_str P k d s /\ ~ In s (map fst names).

Lemma int_ok P k d : is_int P k d (p_int P k d).
Proof. apply integer_read. reflexivity. Qed.
Lemma str_ok P k d : is_str P k d (p_str P k d).
Proof. unfold is_str, p_str. destruct (P k) as [[]|]; try (right; split; [reflexivity|intros s' X; discriminate X]). left. reflexivity. Qed.
Lemma str_is P k d s : is_str P k d s -> p_str P k d = s.
Proof. unfold is_str, p_str. intros [->|[-> H]]; [reflexivity|]. destruct (P k) as [[| | |s'|]|]; try reflexivity. destruct (H s' eq_refl). Qed.
Lemma flag_ok P k d : is_flag P k d (p_bool P k d).
Proof. unfold is_flag. rewrite on_bool. reflexivity. Qed.
Lemma limit_ok P k : is_limit P k (p_optnum P k).
Proof. unfold is_limit, p_optnum, is_num. destruct (P k) as [[]|]; try (intros; split; discriminate); reflexivity. Qed.
Lemma option_ok {A} P k d (parse : string -> res A) names a : reads_names parse names -> parse (p_str P k d) = Ok a -> is_option P k d names a.
Proof. intros [H _] E. exists (p_str P k d). split; [apply str_ok|apply H; exact E]. Qed.
Lemma option_read {A} P k d (parse : string -> res A) names : reads_names parse names ->
  (exists a, parse (p_str P k d) = Ok a) \/ (parse (p_str P k d) = Throw /\ no_option P k d names).
Proof.
  intros [H N]. destruct (in_dec string_dec (p_str P k d) (map fst names)) as [i|n].
  - left. apply in_map_iff in i. destruct i as [[s a] [E i]]. cbn in E. exists a. apply H. rewrite <- E. exact i.
  - right. split; [apply N; exact n|]. exists (p_str P k d). split; [apply str_ok|exact n].
Qed.

Ltac row := repeat first [left; reflexivity | right].
(* ---------------------------------------------------------------- robust estimator of the stereo factors *)
(* name, estimator, key of its parameter, default *)
Definition estimators : list (string * (estimator * string * Q)) :=
  [("cauchy", (Cauchy, "stereo_factors/robust/cauchy/k", 1#10)); ("dcs", (DCS, "stereo_factors/robust/dcs/c", 1#1));
   ("fair", (Fair, "stereo_factors/robust/fair/c", 13998#10000)); ("geman_mcclure", (GemanMcClure, "stereo_factors/robust/geman_mcclure/c", 1#1));
   ("huber", (Huber, "stereo_factors/robust/huber/k", 1345#1000)); ("l2_with_dead_zone", (L2WithDeadZone, "stereo_factors/robust/l2_with_dead_zone/k", 1#1));
   ("tukey", (Tukey, "stereo_factors/robust/tukey/c", 46851#10000)); ("welsch", (Welsch, "stereo_factors/robust/welsch/c", 29846#10000))].
Definition robust_says (P : params) (r : robust) : Prop :=
  (is_str P "stereo_factors/robust/type" "huber" "null" /\ r = Robust NullEst None None) \/
  (exists name key d c w, is_str P "stereo_factors/robust/type" "huber" name /\ In (name, (rb_est r, key, d)) estimators /\
     rb_par r = Some c /\ is_num P key d c /\
     rb_scheme r = Some w /\ is_option P ("stereo_factors/robust/" ++ name ++ "/reweight_scheme")%string "BLOCK" reweights w).
Theorem robust_reads P r : robust_model P = Ok (Some r) -> robust_says P r.
Proof.
  unfold robust_model. cbv zeta. pose proof (str_ok P "stereo_factors/robust/type" "huber") as S.
  destruct names_other as (_ & _ & NW).
  repeat match goal with |- context [String.eqb ?s ?n] => destruct (String.eqb_spec s n) as [E|_];
    [rewrite E in S; unfold one_par; cbv zeta;
     try (destruct (to_reweight _) as [w| |] eqn:W; cbn [rbind]; [|discriminate|discriminate]);
     intros [= <-]; first [left; split; [exact S|reflexivity] | right;
     do 5 eexists; split; [exact S|]; split; [cbn; row|]; split; [reflexivity|]; split; [apply p_num_num|]; split; [reflexivity|];
     exact (option_ok _ _ _ _ _ _ NW W)]|] end.
  discriminate.
Qed.
(* refused exactly for an unknown reweighting scheme of the estimator chosen *)
Theorem robust_refused P : robust_model P = Throw <->
  exists name e, is_str P "stereo_factors/robust/type" "huber" name /\ In (name, e) estimators /\
    no_option P ("stereo_factors/robust/" ++ name ++ "/reweight_scheme")%string "BLOCK" reweights.
Proof.
  destruct names_other as (_ & _ & NW). split.
  - unfold robust_model. cbv zeta. pose proof (str_ok P "stereo_factors/robust/type" "huber") as S.
    repeat match goal with |- context [String.eqb ?s ?n] => destruct (String.eqb_spec s n) as [E|_];
    [rewrite E in S; unfold one_par; cbv zeta; first [discriminate |
     match goal with |- context [to_reweight (p_str P ?k ?d)] => destruct (option_read P k d _ _ NW) as [[w W]|[W N]] end; rewrite W; cbn [rbind]; [discriminate|];
     intros _; do 2 eexists; split; [exact S|]; split; [cbn; row|]; exact N]|] end.
    discriminate.
  - intros (name & e & S & I & s & S' & N). apply str_is in S. apply str_is in S'. unfold robust_model. cbv zeta. rewrite S.
    cbn in I. repeat destruct I as [I|I]; try contradiction; injection I as <- <-; cbn [String.eqb Ascii.eqb Bool.eqb]; unfold one_par; cbv zeta; rewrite S';
    rewrite (proj2 NW _ N); reflexivity.
Qed.

(* ---------------------------------------------------------------- covariance of the registration *)
Definition squared (P : params) (k : string) (d : Q) (o : option Q) : Prop := exists q, is_num P k d q /\ o = Some (q * q)%Q.
Definition reg_says (P : params) (c : reg_cfg) : Prop :=
  is_option P "registration_covariance/method" "CENSI" cov_methods (rc_method c) /\
  match rc_method c with
  | CM_CONSTANT => exists r t, rc_const c = Some (r, t) /\ squared P "registration_covariance/constant/rotation" (174533#10000000) (Some r) /\
                               squared P "registration_covariance/constant/translation" (1#100) (Some t)
  | _ => exists md pm, rc_model c = Some md /\ rc_point c = Some pm /\
           is_option P "registration_covariance/model" "POINT_TO_PLANE_LINEARISED" cov_models md /\
           is_option P "registration_covariance/point_covariance/method" "RANGE" point_methods pm /\
           match pm with
           | PM_CONSTANT => squared P "registration_covariance/point_covariance/constant" (5#100) (rc_pvar c)
           | PM_VOXEL_SIZE => squared P "voxel_grid_filter/leaf_size" (1#10) (rc_pvar c)
           | PM_RANGE => squared P "registration_covariance/point_covariance/range_noise" (5#100) (rc_rvar c)
           | PM_RANGE_BIAS => squared P "registration_covariance/point_covariance/range_noise" (5#100) (rc_rvar c) /\
                              squared P "registration_covariance/point_covariance/range_bias_noise" (2#100) (rc_bvar c)
           end
  end.
Lemma squared_ok P k d : squared P k d (Some (sq (p_num P k d))).
Proof. exists (p_num P k d). split; [apply p_num_num|reflexivity]. Qed.
Theorem reg_reads P c : reg_config P = Ok c -> reg_says P c.
Proof.
  destruct names_cov as (NM & NO & NP). unfold reg_config.
  destruct (to_cov_method _) as [m| |] eqn:M; cbn [rbind]; try discriminate. apply (option_ok _ _ _ _ _ _ NM) in M.
  destruct m.
  1: { intros [= <-]. split; [exact M|]. cbn. do 2 eexists. split; [reflexivity|]. split; apply squared_ok. }
  all: destruct (to_cov_model _) as [md| |] eqn:O; cbn [rbind]; try discriminate; apply (option_ok _ _ _ _ _ _ NO) in O;
       destruct (to_point_method _) as [pm| |] eqn:T; cbn [rbind]; try discriminate; apply (option_ok _ _ _ _ _ _ NP) in T;
       destruct pm; cbv zeta; repeat match goal with |- (if ?b then _ else _) = _ -> _ => destruct b end; try discriminate; intros [= <-];
       (split; [exact M|]); cbn; do 2 eexists; (split; [reflexivity|]); (split; [reflexivity|]); (split; [exact O|]); (split; [exact T|]); try split; apply squared_ok.
Qed.

(* ---------------------------------------------------------------- registration methods; pre is "s2s/" or "s2m/" *)
Definition base_says (P : params) (pre : string) (iter : Z) (b : base_cfg) : Prop :=
  is_int P (pre ++ "base/maximum_iterations")%string iter (bc_iter b) /\
  is_int P (pre ++ "base/ransac_iterations")%string 0 (bc_ransac b) /\
  is_num P (pre ++ "base/ransac_outlier_rejection_threshold")%string (5#100) (bc_rthr b) /\
  is_limit P (pre ++ "base/max_correspondence_distance")%string (bc_dist b) /\
  is_num P (pre ++ "base/transformation_epsilon")%string 0 (bc_teps b) /\
  is_num P (pre ++ "base/transformation_rotation_epsilon")%string 0 (bc_reps b) /\
  is_num P (pre ++ "base/euclidean_fitness_epsilon")%string 0 (bc_feps b).
Definition lsq_says (P : params) (pre : string) (l : lsq_cfg) : Prop :=
  base_says P pre 10 (lc_base l) /\ is_num P (pre ++ "lsq/rotation_epsilon")%string (2#1000) (lc_rot l) /\
  is_num P (pre ++ "lsq/initial_lambda_factor")%string (1#1000000000) (lc_lambda l) /\ is_flag P (pre ++ "lsq/debug_print")%string false (lc_debug l).
Definition gicp_says (P : params) (pre : string) (l : lsq_cfg) (random : Z) (m : reg_method) : Prop :=
  lsq_says P pre l /\ is_int P (pre ++ "fast_gicp/correspondence_randomness")%string 20 random /\
  is_option P (pre ++ "fast_gicp/regularization_method")%string "PLANE" reg_methods m.
Definition method_name (m : matcher) : string :=
  match m with Icp _ _ => "icp" | Gicp _ _ _ _ _ => "gicp" | FastGicp _ _ _ _ => "fast_gicp" | FastGicpSt _ _ _ _ => "fast_gicp_st"
  | FastVgicp _ _ _ _ _ _ _ => "fast_vgicp" | Ndt _ _ _ _ => "ndt" end.
Definition matcher_says (P : params) (pre : string) (m : matcher) : Prop :=
  is_str P (pre ++ "method")%string "fast_gicp" (method_name m) /\
  match m with
  | Icp b rec => base_says P pre 10 b /\ is_flag P (pre ++ "icp/use_reciprocal_correspondences")%string false rec
  | Gicp b rec rot random iter =>
      base_says P pre 10 b /\ is_flag P (pre ++ "icp/use_reciprocal_correspondences")%string false rec /\
      is_num P (pre ++ "gicp/rotation_epsilon")%string (2#1000) rot /\ is_int P (pre ++ "gicp/correspondence_randomness")%string 20 random /\
      is_int P (pre ++ "gicp/maximum_optimizer_iterations")%string 20 iter
  | FastGicp l threads random rm => gicp_says P pre l random rm /\ is_int P (pre ++ "fast_gicp/num_threads")%string 4 threads
  | FastGicpSt l threads random rm => gicp_says P pre l random rm /\ threads = 1
  | FastVgicp l threads random rm r vm ns =>
      gicp_says P pre l random rm /\ is_int P (pre ++ "fast_gicp/num_threads")%string 4 threads /\
      is_num P (pre ++ "fast_vgicp/resolution")%string 1 r /\
      is_option P (pre ++ "fast_vgicp/voxel_accumulation_mode")%string "ADDITIVE" voxel_modes vm /\
      is_option P (pre ++ "fast_vgicp/neighbor_search_method")%string "DIRECT1" neighbours ns
  | Ndt b r step outlier => base_says P pre 35 b /\ is_num P (pre ++ "ndt/resolution")%string 1 r /\
      is_num P (pre ++ "ndt/step_size")%string (1#10) step /\ is_num P (pre ++ "ndt/outlier_ratio")%string (55#100) outlier
  end.
Ltac key_of := first [apply int_ok | apply p_num_num | apply flag_ok | apply limit_ok | apply str_ok].
Lemma base_ok P pre : base_says P pre 10 (base_config P pre).
Proof. unfold base_says, base_config. cbn [bc_iter bc_ransac bc_rthr bc_dist bc_teps bc_reps bc_feps]. repeat split; key_of. Qed.
Lemma lsq_ok P pre : lsq_says P pre (lsq_config P pre).
Proof. unfold lsq_says, lsq_config. cbn [lc_base lc_rot lc_lambda lc_debug]. split; [apply base_ok|]. split; [key_of|]. split; key_of. Qed.
Lemma matcher_reads P pre m : matcher_config P pre = Ok m -> matcher_says P pre m.
Proof.
  destruct names_reg as (NR & NV & NN). unfold matcher_config. cbv zeta. pose proof (str_ok P (pre ++ "method")%string "fast_gicp") as S.
  repeat match goal with |- context [String.eqb ?s ?n] => destruct (String.eqb_spec s n) as [E|_]; [rewrite E in S|] end.
  - intros [= <-]. split; [exact S|]. split; [apply base_ok|key_of].
  - intros [= <-]. split; [exact S|]. split; [apply base_ok|]. split; [key_of|]. split; [key_of|]. split; key_of.
  - destruct (to_reg_method _) as [x| |] eqn:X; cbn [rbind]; try discriminate. intros [= <-]. apply (option_ok _ _ _ _ _ _ NR) in X.
    split; [exact S|]. split; [|key_of]. split; [apply lsq_ok|]. split; [key_of|exact X].
  - destruct (to_reg_method _) as [x| |] eqn:X; cbn [rbind]; try discriminate. intros [= <-]. apply (option_ok _ _ _ _ _ _ NR) in X.
    split; [exact S|]. split; [|reflexivity]. split; [apply lsq_ok|]. split; [key_of|exact X].
  - destruct (to_reg_method _) as [x| |] eqn:X; cbn [rbind]; try discriminate.
    destruct (to_voxel_mode _) as [vm| |] eqn:V; cbn [rbind]; try discriminate.
    destruct (to_neighbour _) as [ns| |] eqn:N; cbn [rbind]; try discriminate. intros [= <-].
    apply (option_ok _ _ _ _ _ _ NR) in X. apply (option_ok _ _ _ _ _ _ NV) in V. apply (option_ok _ _ _ _ _ _ NN) in N.
    split; [exact S|]. split; [split; [apply lsq_ok|]; split; [key_of|exact X]|]. split; [key_of|]. split; [key_of|]. split; assumption.
  - intros [= <-]. split; [exact S|]. split; [|split; [key_of|]; split; key_of].
    unfold base_says. cbn [bc_iter bc_ransac bc_rthr bc_dist bc_teps bc_reps bc_feps base_config]. repeat split; key_of.
  - discriminate.
Qed.
(* the two matchers are configured from their own keys; the second exists exactly if it is switched on *)
Theorem matchers_read P a o : matchers P = Ok (a, o) ->
  matcher_says P "s2s/" a /\ (forall b, o = Some b -> matcher_says P "s2m/" b) /\ (o <> None <-> on_ P "s2m/enabled" true).
Proof.
  unfold matchers. rewrite on_bool. destruct (matcher_config P "s2s/") as [x| |] eqn:X; cbn [rbind]; try discriminate. apply matcher_reads in X.
  destruct (p_bool P "s2m/enabled" true).
  - destruct (matcher_config P "s2m/") as [y| |] eqn:Y; cbn [rbind]; try discriminate. apply matcher_reads in Y. intros [= <- <-].
    split; [exact X|]. split; [intros b [= <-]; exact Y|]. split; [reflexivity|discriminate].
  - intros [= <- <-]. split; [exact X|]. split; [discriminate|]. split; [intros []; reflexivity|discriminate].
Qed.
(* when a matcher is refused: an unknown method, or an unknown name of an option the method has *)
Definition method_names : list string := ["icp"; "gicp"; "fast_gicp"; "fast_gicp_st"; "fast_vgicp"; "ndt"].
Definition matcher_refused (P : params) (pre : string) : Prop :=
  exists m, is_str P (pre ++ "method")%string "fast_gicp" m /\
    (~ In m method_names \/
     (In m ["fast_gicp"; "fast_gicp_st"; "fast_vgicp"] /\ no_option P (pre ++ "fast_gicp/regularization_method")%string "PLANE" reg_methods) \/
     (m = "fast_vgicp" /\ (no_option P (pre ++ "fast_vgicp/voxel_accumulation_mode")%string "ADDITIVE" voxel_modes \/
                           no_option P (pre ++ "fast_vgicp/neighbor_search_method")%string "DIRECT1" neighbours))).
Lemma no_option_throw {A} P k d (parse : string -> res A) names : reads_names parse names -> no_option P k d names -> parse (p_str P k d) = Throw.
Proof. intros [_ N] (s & S & X). apply str_is in S. rewrite S. apply N. exact X. Qed.
Lemma matcher_starts P pre : (exists m, matcher_config P pre = Ok m) \/ (matcher_config P pre = Throw /\ matcher_refused P pre).
Proof.
  destruct names_reg as (NR & NV & NN). unfold matcher_config, matcher_refused. cbv zeta. pose proof (str_ok P (pre ++ "method")%string "fast_gicp") as S.
  destruct (option_read P (pre ++ "fast_gicp/regularization_method")%string "PLANE" _ _ NR) as [[x X]|[X X']];
  destruct (option_read P (pre ++ "fast_vgicp/voxel_accumulation_mode")%string "ADDITIVE" _ _ NV) as [[v V]|[V V']];
  destruct (option_read P (pre ++ "fast_vgicp/neighbor_search_method")%string "DIRECT1" _ _ NN) as [[n N]|[N N']];
  rewrite X, V, N; cbn [rbind];
  repeat match goal with |- context [String.eqb ?s ?n] => destruct (String.eqb_spec s n) as [E|?]; [rewrite E in S|] end;
  try (left; eexists; reflexivity); right; (split; [reflexivity|]); eexists; (split; [exact S|]);
  first [right; left; split; [cbn; tauto|assumption] | right; right; split; [reflexivity|]; first [left; assumption|right; assumption]
        | left; cbn; intros Y; repeat destruct Y as [Y|Y]; try contradiction; congruence].
Qed.
Lemma matcher_throws P pre : matcher_config P pre = Throw <-> matcher_refused P pre.
Proof.
  split; [intros H; destruct (matcher_starts P pre) as [[m M]|[_ R]]; [congruence|exact R]|].
  destruct names_reg as (NR & NV & NN). intros (m & S & H). apply str_is in S. unfold matcher_config. cbv zeta. rewrite S.
  destruct H as [H|[[I H]|[-> H]]].
  - unfold method_names in H. cbn in H. repeat match goal with |- context [String.eqb ?s ?n] => destruct (String.eqb_spec s n) as [E|?]; [exfalso; apply H; rewrite E; tauto|] end. reflexivity.
  - rewrite (no_option_throw _ _ _ _ _ NR H). cbn in I. destruct I as [<-|[<-|[<-|[]]]]; reflexivity.
  - cbn [String.eqb Ascii.eqb Bool.eqb].
    destruct (option_read P (pre ++ "fast_gicp/regularization_method")%string "PLANE" _ _ NR) as [[x X]|[X _]]; rewrite X; cbn [rbind]; [|reflexivity].
    destruct H as [H|H]; [rewrite (no_option_throw _ _ _ _ _ NV H); reflexivity|].
    destruct (option_read P (pre ++ "fast_vgicp/voxel_accumulation_mode")%string "ADDITIVE" _ _ NV) as [[v V]|[V _]]; rewrite V; cbn [rbind]; [|reflexivity].
    rewrite (no_option_throw _ _ _ _ _ NN H). reflexivity.
Qed.
Theorem matchers_refused P : matchers P = Throw <-> matcher_refused P "s2s/" \/ (on_ P "s2m/enabled" true /\ matcher_refused P "s2m/").
Proof.
  unfold matchers. rewrite on_bool. rewrite <- !matcher_throws. destruct (matcher_starts P "s2s/") as [[m M]|[M _]]; rewrite M; cbn [rbind].
  - destruct (p_bool P "s2m/enabled" true).
    + destruct (matcher_starts P "s2m/") as [[n N]|[N _]]; rewrite N; cbn [rbind]; split; try discriminate; auto; intros [H|[_ H]]; discriminate H.
    + split; [discriminate|]. intros [H|[H _]]; discriminate H.
  - split; auto.
Qed.

(* ---------------------------------------------------------------- stereo front end *)
Definition costs : list (string * cost) := [("SAD", SAD); ("SSD", SSD); ("ZMSAD", ZMSAD); ("LSSAD", LSSAD); ("NNCC", NNCC)].
Definition det_says (P : params) (x : detector) : Prop :=
  match x with
  | DFast thr nonmax ty => is_str P "stereo_tracking/detector/type" "ORB" "FAST" /\ is_int P "stereo_tracking/detector/fast/threshold" 10 thr /\
      is_flag P "stereo_tracking/detector/fast/nonmax_suppression" true nonmax /\ is_option P "stereo_tracking/detector/fast/type" "TYPE_9_16" fast_types ty
  | DGftt n q md block harris k => is_str P "stereo_tracking/detector/type" "ORB" "GFTT" /\ is_int P "stereo_tracking/detector/gftt/max_corners" 1000 n /\
      is_num P "stereo_tracking/detector/gftt/quality_level" (1#100) q /\ is_num P "stereo_tracking/detector/gftt/min_distance" 1 md /\
      is_int P "stereo_tracking/detector/gftt/block_size" 3 block /\ is_flag P "stereo_tracking/detector/gftt/use_harris_detector" false harris /\
      is_num P "stereo_tracking/detector/gftt/k" (4#100) k
  | DOrb n scale levels edge first wta sc patch fast => is_str P "stereo_tracking/detector/type" "ORB" "ORB" /\
      is_int P "stereo_tracking/detector/orb/num_features" 500 n /\ is_num P "stereo_tracking/detector/orb/scale_factor" (12#10) scale /\
      is_int P "stereo_tracking/detector/orb/num_levels" 8 levels /\ is_int P "stereo_tracking/detector/orb/edge_threshold" 31 edge /\
      is_int P "stereo_tracking/detector/orb/first_level" 0 first /\ is_int P "stereo_tracking/detector/orb/wta_k" 2 wta /\
      is_option P "stereo_tracking/detector/orb/score_type" "HARRIS_SCORE" orb_scores sc /\
      is_int P "stereo_tracking/detector/orb/patch_size" 31 patch /\ is_int P "stereo_tracking/detector/orb/fast_threshold" 20 fast
  (* the contrast threshold is left out: its documented key is not read (dead_keys) *)
  | DSift n layers _ edge sigma => is_str P "stereo_tracking/detector/type" "ORB" "SIFT" /\ is_int P "stereo_tracking/detector/sift/num_features" 10 n /\
      is_int P "stereo_tracking/detector/sift/num_octave_layers" 3 layers /\ is_num P "stereo_tracking/detector/sift/edge_threshold" 10 edge /\
      is_num P "stereo_tracking/detector/sift/sigma" (16#10) sigma
  end.
Definition mask_says (P : params) (r : Z * Z * Z * Z) : Prop :=
  let '(x, y, w, h) := r in
  (on_ P "stereo_mask/enabled" false -> is_int P "stereo_mask/top_left_x" 0 x /\ is_int P "stereo_mask/top_left_y" 0 y /\
                                        is_int P "stereo_mask/width" 0 w /\ is_int P "stereo_mask/height" 0 h) /\
  (~ on_ P "stereo_mask/enabled" false -> x = 0 /\ y = 0 /\ w = 0 /\ h = 0).
(* the optical flow is left out except for its type: its documented keys are not read (dead_keys); its window is in CfgRead *)
Definition stereo_says (P : params) (c : stereo_cfg) : Prop :=
  det_says P (sc_det c) /\ is_str P "stereo_tracking/sparse_optical_flow/type" "PyrLK" "PyrLK" /\
  is_num P "stereo_tracking/stereo_match_filter/vertical_pixel_threshold" 1 (sc_filter c) /\
  is_int P "stereo_tracking/stereo_keypoint_matcher/window_size/width" 3 (sc_w c) /\
  is_int P "stereo_tracking/stereo_keypoint_matcher/window_size/height" 3 (sc_h c) /\
  is_option P "stereo_tracking/stereo_keypoint_matcher/cost_function" "SAD" costs (sc_cost c) /\
  is_num P "stereo_tracking/stereo_keypoint_matcher/vertical_pixel_threshold" 1 (sc_vert c) /\
  is_option P "stereo_tracking/stereo_keypoint_matcher/matching_filter" "RATIO_TEST" match_filters (sc_mf c) /\
  is_num P "stereo_tracking/stereo_keypoint_matcher/ratio" (1#2) (sc_ratio c) /\
  is_num P "stereo_tracking/stereo_keypoint_matcher/cost_threshold" 1 (sc_thresh c) /\
  mask_says P (sc_roi c) /\ is_num P "stereo_tracking/new_feature_dist_threshold" 5 (sc_newdist c).
Lemma det_reads P x : det_config P = Ok x -> det_says P x.
Proof.
  destruct names_stereo as (NO & _ & _ & NF & _). unfold det_config. cbv zeta. pose proof (str_ok P "stereo_tracking/detector/type" "ORB") as S.
  repeat match goal with |- context [String.eqb ?s ?n] => destruct (String.eqb_spec s n) as [E|_]; [rewrite E in S|] end.
  - destruct (to_fast_type _) as [t| |] eqn:T; cbn [rbind]; try discriminate. intros [= <-]. apply (option_ok _ _ _ _ _ _ NF) in T.
    split; [exact S|]. split; [key_of|]. split; [key_of|exact T].
  - intros [= <-]. split; [exact S|]. repeat (split; [key_of|]). key_of.
  - destruct (to_orb_score _) as [t| |] eqn:T; cbn [rbind]; try discriminate. intros [= <-]. apply (option_ok _ _ _ _ _ _ NO) in T.
    split; [exact S|]. do 6 (split; [key_of|]). split; [exact T|]. split; key_of.
  - intros [= <-]. split; [exact S|]. repeat (split; [key_of|]). key_of.
  - discriminate.
Qed.
Lemma names_cost P c : cost_config P = Ok c -> is_option P "stereo_tracking/stereo_keypoint_matcher/cost_function" "SAD" costs c.
Proof.
  unfold cost_config. cbv zeta. pose proof (str_ok P "stereo_tracking/stereo_keypoint_matcher/cost_function" "SAD") as S.
  repeat match goal with |- context [String.eqb ?s ?n] => destruct (String.eqb_spec s n) as [E|_]; [rewrite E in S; intros [= <-]; eexists; split; [exact S|cbn; tauto]|] end. discriminate.
Qed.
Theorem stereo_reads P c : stereo_config P = Ok c -> stereo_says P c.
Proof.
  destruct names_stereo as (_ & _ & _ & _ & NM). unfold stereo_config.
  destruct (det_config P) as [x| |] eqn:X; cbn [rbind]; try discriminate. apply det_reads in X.
  destruct (flow_config P) as [f| |] eqn:F; cbn [rbind]; try discriminate.
  assert (T : is_str P "stereo_tracking/sparse_optical_flow/type" "PyrLK" "PyrLK").
  { unfold flow_config in F. cbv zeta in F. destruct (String.eqb_spec (p_str P "stereo_tracking/sparse_optical_flow/type" "PyrLK") "PyrLK") as [E|_]; [|discriminate F].
    pose proof (str_ok P "stereo_tracking/sparse_optical_flow/type" "PyrLK") as S. rewrite E in S. exact S. }
  destruct (to_match_filter _) as [m| |] eqn:M; cbn [rbind]; try discriminate. apply (option_ok _ _ _ _ _ _ NM) in M.
  destruct (cost_config P) as [k| |] eqn:K; cbn [rbind]; try discriminate. apply names_cost in K.
  intros [= <-]. unfold stereo_says. cbn [sc_det sc_filter sc_flow sc_w sc_h sc_cost sc_vert sc_mf sc_ratio sc_thresh sc_roi sc_newdist].
  split; [exact X|]. split; [exact T|]. do 3 (split; [key_of|]). split; [exact K|]. split; [key_of|]. split; [exact M|]. do 2 (split; [key_of|]). split; [|key_of].
  pose proof (flag_ok P "stereo_mask/enabled" false) as G. unfold is_flag in G. unfold mask_says. destruct (p_bool P "stereo_mask/enabled" false).
  - split; [intros _; repeat (split; [key_of|]); key_of|]. intros N. destruct N. apply G. reflexivity.
  - split; [intros Y; apply G in Y; discriminate Y|]. auto.
Qed.

(* ---------------------------------------------------------------- cases *)
Definition srv (l : list (string * pval)) : params := fun k => match find (fun e => String.eqb (fst e) k) l with Some e => Some (snd e) | None => None end.
Example ex_robust : robust_model (srv [("stereo_factors/robust/type", VStr "tukey"); ("stereo_factors/robust/tukey/c", VInt 4)])
  = Ok (Some (Robust Tukey (Some (inject_Z 4)) (Some RW_BLOCK))).
Proof. vm_compute. reflexivity. Qed.
Example ex_robust_refused : robust_model (srv [("stereo_factors/robust/huber/reweight_scheme", VStr "block")]) = Throw.
Proof. vm_compute. reflexivity. Qed.
Example ex_reg : exists c, reg_config (srv [("registration_covariance/point_covariance/method", VStr "RANGE_BIAS")]) = Ok c /\
  rc_method c = CM_CENSI /\ (exists r, rc_rvar c = Some r /\ r == 25#10000)%Q /\ (exists r, rc_bvar c = Some r /\ r == 4#10000)%Q.
Proof. eexists. split; [vm_compute; reflexivity|]. split; [reflexivity|]. split; eexists; (split; [vm_compute; reflexivity|]); reflexivity. Qed.
Example ex_matchers : exists a b, matchers (srv [("s2s/method", VStr "icp"); ("s2m/method", VStr "ndt"); ("s2m/ndt/step_size", VDouble (2#10)); ("s2s/base/max_correspondence_distance", VInt 2)]) = Ok (Icp a false, Some (Ndt b 1 (2#10) (55#100)))
  /\ bc_dist a = Some (inject_Z 2) /\ bc_dist b = None /\ bc_iter a = 10 /\ bc_iter b = 35.
Proof. do 2 eexists. split; [vm_compute; reflexivity|]. repeat split. Qed.
Example ex_matchers_refused : matchers (srv [("s2m/method", VStr "fast_vgicp"); ("s2m/fast_vgicp/neighbor_search_method", VStr "DIRECT2")]) = Throw /\
  exists a, matchers (srv [("s2m/enabled", VBool false); ("s2m/method", VStr "none")]) = Ok (a, None).
Proof. split; [vm_compute; reflexivity|]. eexists. vm_compute. reflexivity. Qed.
Example ex_stereo : exists c, stereo_config (srv [("stereo_tracking/detector/type", VStr "FAST"); ("stereo_mask/enabled", VBool true); ("stereo_mask/width", VInt 640)]) = Ok c /\
  sc_det c = DFast 10 true TYPE_9_16 /\ sc_roi c = (0, 0, 640, 0) /\ sc_cost c = SAD.
Proof. eexists. split; [vm_compute; reflexivity|]. repeat split. Qed.
