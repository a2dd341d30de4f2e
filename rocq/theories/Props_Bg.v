(* Property C132: reading of recorded data for the evaluation. Proofs in BgProofs.v; cases and refutations in BgExamples.v. *)
From Coq Require Import String List Bool Arith.
From Verif Require Import Base BgModel BgSpec BgProofs BgExamples.
Import ListNotations.
Open Scope nat_scope.

(* C132 *)
Theorem C132_raw :
  forall (M : Type) (store : string -> option (list (brec M))) (paths topics : list string) (ty : string) (out : list (list M)),
    raw_data store (srow paths) (srow topics) ty = Ok out <->
    Datatypes.length out = Datatypes.length paths /\
    (forall (k : nat) (l : list M),
     nth_error out k = Some l -> exists p t : string, nth_error paths k = Some p /\ nth_error topics k = Some t /\ recorded store p t ty l).
Proof. exact (@raw_reads). Qed.
Theorem C132_raw_exactly :
  forall (M : Type) (store : string -> option (list (brec M))) (paths topics : list string) (ty : string),
    (exists out : list (list M), raw_data store (srow paths) (srow topics) ty = Ok out) <->
    (forall (k : nat) (p : string),
     nth_error paths k = Some p -> exists (t : string) (l : list M), nth_error topics k = Some t /\ recorded store p t ty l).
Proof. exact (@raw_exactly). Qed.
Theorem C132_odometry :
  forall (M : Type) (store : string -> option (list (brec M))) (names : sarr) (gd gf gtop : string) (dirs files topics : list string) 
      (n : sarr) (g : list M) (out : list (list M)),
    odom_read store names gd gf gtop (srow dirs) (srow files) (srow topics) = Ok (n, g, out) <->
    n = names /\
    recorded store (gd ++ gf) gtop "nav_msgs/Odometry" g /\
    (exists paths : list string,
       pair_up dirs files paths /\
       Datatypes.length out = Datatypes.length paths /\
       (forall (k : nat) (l : list M),
        nth_error out k = Some l ->
        exists p t : string, nth_error paths k = Some p /\ nth_error topics k = Some t /\ recorded store p t "nav_msgs/Odometry" l)).
Proof. exact (@odom_reads). Qed.
Theorem C132_jacobians :
  forall (M : Type) (store : string -> option (list (brec M))) (names : sarr) (dirs files : list string) (topic : string) 
      (n : sarr) (out : list (list M)),
    jacobian_read store names (srow dirs) (srow files) topic = Ok (n, out) <->
    n = names /\
    (exists paths : list string,
       pair_up dirs files paths /\
       Datatypes.length out = Datatypes.length paths /\
       (forall (k : nat) (l : list M),
        nth_error out k = Some l -> exists p : string, nth_error paths k = Some p /\ recorded store p topic "std_msgs/Float64MultiArray" l)).
Proof. exact (@jacobian_reads). Qed.
Theorem C132_statistics :
  forall (M : Type) (store : string -> option (list (brec M))) (names : sarr) (dirs files topics : list string) (n : sarr) (out : list (list M)),
    stereo_read store names (srow dirs) (srow files) (srow topics) = Ok (n, out) <->
    n = names /\
    (exists paths : list string,
       pair_up dirs files paths /\
       Datatypes.length out = Datatypes.length paths /\
       (forall (k : nat) (l : list M),
        nth_error out k = Some l ->
        exists p t : string, nth_error paths k = Some p /\ nth_error topics k = Some t /\ recorded store p t "serpent/StereoTrackerStatistics" l)).
Proof. exact (@stereo_reads). Qed.
Theorem C132_few_topics :
  forall (M : Type) (store : string -> option (list (brec M))) (paths topics : list string) (ty : string),
    Datatypes.length topics < Datatypes.length paths -> ~ (exists out : list (list M), raw_data store (srow paths) (srow topics) ty = Ok out).
Proof. exact (@few_topics). Qed.
Theorem C132_registration :
  forall (M : Type) (store : string -> option (list (brec M))) (F : Type) (figure_of : list M -> res F) (names paths topics : list string),
    (forall (k : nat) (p : string),
     nth_error paths k = Some p ->
     exists (t : string) (l : list M) (f : F) (n : string),
       nth_error topics k = Some t /\
       recorded store p t "geometry_msgs/PoseWithCovarianceStamped" l /\ figure_of l = Ok f /\ nth_error names k = Some n) ->
    exists s : list (string * F),
      registration store figure_of (srow names) (srow paths) (srow topics) = (s, false) /\
      Datatypes.length s = Datatypes.length paths /\
      (forall (k : nat) (p : string),
       nth_error paths k = Some p ->
       exists (t : string) (l : list M) (f : F) (n : string),
         nth_error topics k = Some t /\
         recorded store p t "geometry_msgs/PoseWithCovarianceStamped" l /\
         figure_of l = Ok f /\ nth_error names k = Some n /\ nth_error s k = Some (("registration_covariance_" ++ n)%string, f)).
Proof. exact (@registration_all). Qed.
Theorem C132_registration_none :
  forall (M : Type) (store : string -> option (list (brec M))) (F : Type) (figure_of : list M -> res F) (names : sarr)
      (paths topics : list string) (k : nat) (p : string),
    nth_error paths k = Some p ->
    (forall (t : string) (l : list M), nth_error topics k = Some t -> ~ recorded store p t "geometry_msgs/PoseWithCovarianceStamped" l) ->
    registration store figure_of names (srow paths) (srow topics) = ([], true).
Proof. exact (@registration_none). Qed.
Theorem C132_placeholder_refuted :
  ~
    (forall (store : string -> option (list (brec nat))) (names paths topics : list string) (k : nat) (p t : string) (l : list nat) (n : string),
     nth_error paths k = Some p ->
     nth_error topics k = Some t ->
     recorded store p t pose_type l ->
     nth_error names k = Some n ->
     In (("registration_covariance_" ++ n)%string, l)
       (fst (registration store (fun l0 : list nat => Ok l0) (srow names) (srow paths) (srow topics)))).
Proof. exact (@placeholder_refuted). Qed.
Theorem C132_main_registration :
  forall (F : Type) (store : string -> option (list (brec nat))) (figure_of : list nat -> res F) (names : sarr) (p : string)
      (paths : list string),
    (forall (q : string) (b : list (brec nat)) (r : brec nat), store q = Some b -> In r b -> br_topic r <> ""%string) ->
    registration store figure_of names (srow (p :: paths)) (srow (""%string :: ""%string :: repeat "/serpent/registration/transform"%string 10)) =
    ([], true).
Proof. exact (@main_topics). Qed.
Theorem C132_main_statistics :
  forall (store : string -> option (list (brec nat))) (paths : list string) (ty : string),
    Datatypes.length paths = 11 ->
    ~
    (exists out : list (list nat),
       raw_data store (srow paths) (srow (""%string :: repeat "/serpent/stereo/track_points_with_distances/statistics"%string 5)) ty = Ok out).
Proof. exact (@main_statistics). Qed.
Theorem C132_names_refuted :
  ~
    (forall (store : string -> option (list (brec nat))) (names : list string) (gd gf gtop : string) (dirs files topics : list string) 
       (n : sarr) (g : list nat) (out : list (list nat)),
     odom_read store (srow names) gd gf gtop (srow dirs) (srow files) (srow topics) = Ok (n, g, out) ->
     Datatypes.length out = Datatypes.length names).
Proof. exact (@names_refuted). Qed.
Theorem C132_mixed_refuted :
  ~
    (forall (dirs files : list string) (a : sarr) (k : nat) (d f p : string),
     Datatypes.length dirs = Datatypes.length files ->
     splus (srow dirs) (scol files) = Ok a -> nth_error dirs k = Some d -> nth_error files k = Some f -> sindex a k = Ok p -> p = (d ++ f)%string).
Proof. exact (@mixed_refuted). Qed.
Theorem C132_one_topic_refuted :
  ~
    (forall (store : string -> option (list (brec nat))) (paths : list string) (t ty : string),
     (forall p : string, In p paths -> exists l : list nat, recorded store p t ty l) ->
     exists out : list (list nat), raw_data store (srow paths) (srow [t]) ty = Ok out).
Proof. exact (@one_topic_refuted). Qed.

Print Assumptions C132_raw.
Print Assumptions C132_raw_exactly.
Print Assumptions C132_odometry.
Print Assumptions C132_jacobians.
Print Assumptions C132_statistics.
Print Assumptions C132_few_topics.
Print Assumptions C132_registration.
Print Assumptions C132_registration_none.
Print Assumptions C132_placeholder_refuted.
Print Assumptions C132_main_registration.
Print Assumptions C132_main_statistics.
Print Assumptions C132_names_refuted.
Print Assumptions C132_mixed_refuted.
Print Assumptions C132_one_topic_refuted.
