(* The three platforms, and the long pictures of the snowboard. *)
From Coq Require Import ZArith QArith List Bool String Lia Permutation Reals Lra.
From Verif Require Import Base NetModel CfgModel CfgSpec WrModel WrSpec WrProofs WrTheorems LnModel LnSpec LnProofs LnMore.
From Verif Require BfModel Geo CamModel CamSpec MsnData MsnModel MsnSpec MsnMore.
Import ListNotations.
Open Scope string_scope.
Open Scope list_scope.

Definition cameras : list string := ["snowboard_front"; "snowboard_left"; "snowboard_up"; "snowboard_right"].
Definition kit0_module : module := Module "split_image_kit0"
  [Port "/snowboard_front/right/image_raw" Image; Port "/snowboard_front/right/camera_info" CameraInfo; Port "/snowboard_front/left/image_raw" Image; Port "/snowboard_front/left/camera_info" CameraInfo;
   Port "/snowboard_left/right/image_raw" Image; Port "/snowboard_left/right/camera_info" CameraInfo; Port "/snowboard_left/left/image_raw" Image; Port "/snowboard_left/left/camera_info" CameraInfo]
  [Port "/kit0/image" Image] [] None.
Definition kit1_module : module := Module "split_image_kit1"
  [Port "/snowboard_up/left/image_raw" Image; Port "/snowboard_up/left/camera_info" CameraInfo; Port "/snowboard_up/right/image_raw" Image; Port "/snowboard_up/right/camera_info" CameraInfo;
   Port "/snowboard_right/left/image_raw" Image; Port "/snowboard_right/left/camera_info" CameraInfo; Port "/snowboard_right/right/image_raw" Image; Port "/snowboard_right/right/camera_info" CameraInfo]
  [Port "/kit1/image" Image] [] None.
Lemma kit0_is : split_group "kit0" kit0 = Ok kit0_module. Proof. reflexivity. Qed.
Lemma kit1_is : split_group "kit1" kit1 = Ok kit1_module. Proof. reflexivity. Qed.

(* the node between: first to left, second to right, for every name of a camera *)
Lemma undistort_is b cam : undistort b cam = Module ("undistort_" +++ cam)
  [Port ("/" +++ cam +++ "/left/rect/image") Image; Port ("/" +++ cam +++ "/right/rect/image") Image; Port ("/" +++ cam +++ "/left/rect/camera_info") CameraInfo; Port ("/" +++ cam +++ "/right/rect/camera_info") CameraInfo]
  ([Port ("/" +++ cam +++ "/left/image_raw") Image; Port ("/" +++ cam +++ "/right/image_raw") Image]
   ++ when (negb b) [Port ("/" +++ cam +++ "/left/camera_info") CameraInfo; Port ("/" +++ cam +++ "/right/camera_info") CameraInfo]) [] None.
Proof. destruct b, cam; reflexivity. Qed.

Definition own_b (t : string) : bool := String.prefix "/" t && negb (String.prefix "/serpent/" t).
Lemma own_dec t : own_b t = true <-> own t. Proof. unfold own_b, own. rewrite andb_true_iff, negb_true_iff. reflexivity. Qed.
Ltac owns := apply own_dec; vm_compute; reflexivity.
Lemma snowboard_own cam : In cam cameras -> own_topics (snowboard_sensors cam).
Proof. intros H. cbn in H. destruct H as [<-|[<-|[<-|[<-|[]]]]]; repeat split. Qed.
Lemma bag_own P p : snowboard_bag P p -> own (topic p). Proof. intros []; split; reflexivity. Qed.

Section Start.
Variable look : string -> string -> Z -> res Geo.iso.
Variable estimator_ok : robust -> bool.
Variable P : params.
Variable cfg : BfModel.xv.

Definition port_b (p q : port) : bool := String.eqb (topic p) (topic q).
Fixpoint distinct_b (l : list string) : bool := match l with [] => true | x :: r => negb (existsb (String.eqb x) r) && distinct_b r end.
Lemma distinct_spec l : distinct_b l = true -> NoDup l.
Proof.
  induction l as [|x l IH]; [constructor|]. intros H. apply andb_true_iff in H. destruct H as [H1 H2]. constructor; [|apply IH; exact H2].
  intros I. apply negb_true_iff in H1. assert (E : existsb (String.eqb x) l = true) by (apply existsb_exists; exists x; split; [exact I | apply String.eqb_refl]). congruence.
Qed.

(* every subscription of the whole platform has its source, whichever of the four cameras is meant *)
Theorem snowboard_cameras node cam b ms : In cam cameras -> launch_single look estimator_ok P cfg node (snowboard_sensors cam) = Ok ms ->
  exists s0 s1, split_group "kit0" kit0 = Ok s0 /\ split_group "kit1" kit1 = Ok s1 /\ fed_from (snowboard_bag P) ([s0; s1; undistort b cam] ++ ms).
Proof.
  intros C H. exists kit0_module, kit1_module. split; [exact kit0_is|]. split; [exact kit1_is|].
  apply (helpers_fed look estimator_ok P cfg node (snowboard_sensors cam)); [apply snowboard_own; exact C | exact H | ..].
  - intros p Hp. apply pubs_in in Hp. rewrite undistort_is in Hp. cbn in C, Hp.
    destruct C as [<-|[<-|[<-|[<-|[]]]]]; repeat (destruct Hp as [<-|Hp]; [owns|]); destruct Hp.
  - apply bag_own.
  - intros p q Hp Hq. apply pubs_in in Hp. rewrite undistort_is in Hp. cbn in C, Hp.
    destruct C as [<-|[<-|[<-|[<-|[]]]]]; destruct Hq; repeat (destruct Hp as [<-|Hp]; [cbn; discriminate|]); destruct Hp.
  - intros p q Hp Hq. apply pubs_in in Hp, Hq. revert Hp Hq. apply nodup_map_inj with (f := topic). rewrite undistort_is.
    apply distinct_spec. cbn in C. destruct C as [<-|[<-|[<-|[<-|[]]]]]; vm_compute; reflexivity.
  - intros s Hs. apply subs_in in Hs. rewrite undistort_is in Hs.
    destruct Hs as [<-|[<-|Hs]]; [left; constructor | left; constructor |]. right. apply pubs_in. rewrite undistort_is. cbn in C. destruct b; cbn in Hs;
    destruct C as [<-|[<-|[<-|[<-|[]]]]]; repeat (destruct Hs as [<-|Hs]; [vm_compute; tauto|]); destruct Hs.
  - intros s Hs. destruct Hs; [left; constructor | left; constructor | right | right | right | right | left; constructor; assumption];
    apply pubs_in; rewrite undistort_is; cbn; tauto.
Qed.
Theorem snowboard_fed node cam ms : snowboard look estimator_ok P cfg node cam = Ok ms -> fed_from (snowboard_bag P) ms.
Proof.
  intros H. unfold snowboard in H. destruct (existsb (String.eqb cam) calibrated) eqn:C; [|discriminate]. cbn in C. rewrite orb_false_r in C. apply String.eqb_eq in C.
  rewrite kit0_is, kit1_is in H. cbn [rbind] in H. apply bind_ok in H. destruct H as (ms1 & E & H). injection H as <-.
  destruct (snowboard_cameras node cam true ms1) as (s0 & s1 & E0 & E1 & F); [rewrite C; cbn; tauto | exact E|]. rewrite kit0_is in E0. rewrite kit1_is in E1. injection E0 as <-. injection E1 as <-. exact F.
Qed.
Theorem snowboard_starts node cam : (exists ms, snowboard look estimator_ok P cfg node cam = Ok ms) <-> cam = "snowboard_left" /\ exists ms, single look estimator_ok P cfg = Ok ms.
Proof.
  unfold snowboard, calibrated. cbn [existsb]. rewrite orb_false_r. split.
  - intros (ms & H). destruct (String.eqb cam "snowboard_left") eqn:E; [|discriminate]. apply String.eqb_eq in E. split; [exact E|].
    rewrite kit0_is, kit1_is in H. cbn [rbind] in H. apply bind_ok in H. destruct H as (m & H & _). apply launched in H. destruct H as (m0 & H & _). eauto.
  - intros (-> & ms & H). rewrite String.eqb_refl, kit0_is, kit1_is. cbn [rbind]. unfold launch_single. rewrite H. cbn [rbind]. eexists; reflexivity.
Qed.
(* three of the four cameras that are split off have no calibration file to be undistorted with *)
Theorem snowboard_other_refuted : exists cam, In cam cameras /\ forall node, snowboard look estimator_ok P cfg node cam = Throw.
Proof. exists "snowboard_front". split; [cbn; tauto | reflexivity]. Qed.

(* ue4: the infos come from two helpers, each from the picture it belongs to *)
Lemma info_is node i o : own i -> own o -> info_publisher node i o = Module (node) [Port (remap node [("~input/image", i); ("~output/camera_info", o)] ("/" +++ node +++ "/output/camera_info")) CameraInfo]
   [Port (remap node [("~input/image", i); ("~output/camera_info", o)] ("/" +++ node +++ "/input/image")) Image] [] None.
Proof. reflexivity. Qed.
Lemma info_left i o : own i -> own o -> info_publisher "publish_left_camera_info" i o = Module "publish_left_camera_info" [Port o CameraInfo] [Port i Image] [] None.
Proof.
  intros Hi Ho. change (info_publisher "publish_left_camera_info" i o) with (Module "publish_left_camera_info" [Port (named "publish_left_camera_info" o) CameraInfo] [Port (named "publish_left_camera_info" i) Image] [] None).
  rewrite !named_own by assumption. reflexivity.
Qed.
Lemma info_right i o : own i -> own o -> info_publisher "publish_right_camera_info" i o = Module "publish_right_camera_info" [Port o CameraInfo] [Port i Image] [] None.
Proof.
  intros Hi Ho. change (info_publisher "publish_right_camera_info" i o) with (Module "publish_right_camera_info" [Port (named "publish_right_camera_info" o) CameraInfo] [Port (named "publish_right_camera_info" i) Image] [] None).
  rewrite !named_own by assumption. reflexivity.
Qed.
Theorem ue4_fed node c ms : apart c -> ue4 look estimator_ok P cfg node c = Ok ms -> fed_from (ue4_bag P c) ms.
Proof.
  intros (N & O1 & O2 & O3 & O4) H. unfold ue4 in H. apply bind_ok in H. destruct H as (ms1 & E & H). injection H as <-. rewrite info_left, info_right by assumption.
  change (fed_from (ue4_bag P c) ([Module "publish_left_camera_info" [Port (c_linfo c) CameraInfo] [Port (c_left c) Image] [] None;
    Module "publish_right_camera_info" [Port (c_rinfo c) CameraInfo] [Port (c_right c) Image] [] None] ++ ms1)).
  repeat rewrite NoDup_cons_iff in N. cbn [In] in N.
  apply (helpers_fed look estimator_ok P cfg node (ue4_sensors c)); [repeat split; try reflexivity; try apply O1; try apply O2; try apply O3; try apply O4 | exact E | ..].
  - intros p Hp. apply pubs_in in Hp. cbn in Hp. destruct Hp as [<-|[<-|[]]]; assumption.
  - intros p Hp. destruct Hp; cbn [topic]; try assumption; owns.
  - intros p q Hp Hq E'. apply pubs_in in Hp. cbn in Hp. destruct Hq; destruct Hp as [<-|[<-|[]]]; cbn [topic] in E'; intuition congruence.
  - intros p q Hp Hq E'. apply pubs_in in Hp, Hq. cbn in Hp, Hq. destruct Hp as [<-|[<-|[]]], Hq as [<-|[<-|[]]]; cbn [topic] in E'; try reflexivity; intuition congruence.
  - intros s Hs. apply subs_in in Hs. cbn in Hs. left. destruct Hs as [<-|[<-|[]]]; constructor.
  - intros s Hs. destruct Hs; [left; constructor | left; constructor | left; constructor | left; constructor | right | right | left; constructor; assumption];
    apply pubs_in; cbn; tauto.
Qed.
Theorem simulator_fed node cam ms : own_topics (simulator_sensors cam) -> simulator look estimator_ok P cfg node cam = Ok ms -> fed_from (given P (simulator_sensors cam)) ms.
Proof. intros O H. apply (launch_fed look estimator_ok P cfg node (simulator_sensors cam) O ms H). Qed.
(* left is left and right is right, all the way from the recording to the front end *)
Theorem snowboard_sides node cam ms : snowboard look estimator_ok P cfg node cam = Ok ms ->
  exists s0 s1 u sys ms0, ms = [s0; s1; u] ++ sys /\ split_group "kit0" kit0 = Ok s0 /\ split_group "kit1" kit1 = Ok s1 /\ single look estimator_ok P cfg = Ok ms0 /\
    m_subs s0 = [Port "/kit0/image" Image] /\ m_subs s1 = [Port "/kit1/image" Image] /\
    m_subs u = [Port "/snowboard_left/left/image_raw" Image; Port "/snowboard_left/right/image_raw" Image] /\
    m_pubs u = [Port "/snowboard_left/left/rect/image" Image; Port "/snowboard_left/right/rect/image" Image;
                Port "/snowboard_left/left/rect/camera_info" CameraInfo; Port "/snowboard_left/right/rect/camera_info" CameraInfo] /\
    Forall2 (same_module (Sensors "/vectornav/imu" "/os_cloud_node/points" "/snowboard_left/left/rect/image" "/snowboard_left/right/rect/image"
                                  "/snowboard_left/left/rect/camera_info" "/snowboard_left/right/rect/camera_info" "/barometer")) ms0 sys.
Proof.
  intros H. assert (C : cam = "snowboard_left" /\ exists m, single look estimator_ok P cfg = Ok m) by (apply (snowboard_starts node cam); exists ms; exact H). destruct C as (-> & ms0 & H0).
  unfold snowboard in H. cbn [existsb calibrated] in H. rewrite String.eqb_refl in H. cbn [orb] in H. rewrite kit0_is, kit1_is in H. cbn [rbind] in H. apply bind_ok in H. destruct H as (sys & E & H). injection H as <-.
  exists kit0_module, kit1_module, (undistort true "snowboard_left"), sys, ms0. repeat (split; [first [reflexivity | exact H0 | exact kit0_is | exact kit1_is]|]).
  destruct (launch_modules look estimator_ok P cfg node (snowboard_sensors "snowboard_left") (snowboard_own "snowboard_left" (or_intror (or_introl eq_refl))) ms0 H0) as (sys' & E' & F).
  rewrite E in E'. injection E' as <-. exact F.
Qed.
Theorem ue4_sides node c ms : own (c_left c) -> own (c_right c) -> own (c_linfo c) -> own (c_rinfo c) -> ue4 look estimator_ok P cfg node c = Ok ms ->
  exists l r sys ms0, ms = [l; r] ++ sys /\ single look estimator_ok P cfg = Ok ms0 /\
    m_subs l = [Port (c_left c) Image] /\ m_pubs l = [Port (c_linfo c) CameraInfo] /\ m_subs r = [Port (c_right c) Image] /\ m_pubs r = [Port (c_rinfo c) CameraInfo] /\
    Forall2 (same_module (Sensors "/imu" "/lidar/points" (c_left c) (c_right c) (c_linfo c) (c_rinfo c) "/barometer")) ms0 sys.
Proof.
  intros O1 O2 O3 O4 H. unfold ue4 in H. apply bind_ok in H. destruct H as (sys & E & H). injection H as <-. rewrite info_left, info_right by assumption.
  pose proof E as E'. apply launched in E'. destruct E' as (ms0 & H0 & _).
  assert (O : own_topics (ue4_sensors c)) by (repeat split; try reflexivity; try apply O1; try apply O2; try apply O3; try apply O4).
  eexists _, _, sys, ms0. split; [reflexivity|]. split; [exact H0|]. repeat (split; [reflexivity|]).
  destruct (launch_modules look estimator_ok P cfg node (ue4_sensors c) O ms0 H0) as (sys' & E' & F). rewrite E in E'. injection E' as <-. exact F.
Qed.
Theorem simulator_sides node cam ms0 : own_topics (simulator_sensors cam) -> single look estimator_ok P cfg = Ok ms0 ->
  exists ms, simulator look estimator_ok P cfg node cam = Ok ms /\
    Forall2 (same_module (Sensors "/imu" "/points" ("/" +++ cam +++ "/left/image_raw") ("/" +++ cam +++ "/right/image_raw")
                                  ("/" +++ cam +++ "/left/camera_info") ("/" +++ cam +++ "/right/camera_info") "/barometer")) ms0 ms.
Proof. intros O H. exact (launch_modules look estimator_ok P cfg node (simulator_sensors cam) O ms0 H). Qed.
End Start.

(* ---------------------------------------------------------------- the long pictures *)
Import CamModel.
Section Long.
Open Scope Z_scope.
Definition plain_info : info := mkInfo (mkHeader 0 "") 800 1280 "plumb_bob" [0; 0; 0; 0; 0]%R ((1, 0, 640), (0, 1, 400), (0, 0, 1))%R Geo.m0 (((1, 0, 640), (0, 1, 400), (0, 0, 1))%R, Geo.v0).
Lemma parse_plain t f it u : parse_image (sub_image t f it u []) = Ok (mkSplit t it f (mkRect u 0 1280 800) plain_info []).
Proof. reflexivity. Qed.
Lemma parse_turned t f it u : parse_image (sub_image t f it u [("rotate_cw", BfModel.XInt 180)]) = Ok (mkSplit t it f (mkRect u 0 1280 800) plain_info [Rotate (Some ROTATE_180)]).
Proof. reflexivity. Qed.
Context {A : Type}.
Variable msg : message A.
Notation pic := (m_pic msg).
Definition large : Prop := 5120 <= cols pic /\ 800 <= rows pic.

Lemma crop_quarter u : large -> 0 <= u <= 3840 -> crop pic (mkRect u 0 1280 800) = Ok (mkPic 1280 800 (fun c r => px pic (u + c) (0 + r))).
Proof.
  intros [H1 H2] H. unfold crop, inside. cbn [rc_u rc_v rc_w rc_h].
  replace (0 <=? u) with true by (symmetry; apply Z.leb_le; lia). replace (u + 1280 <=? cols pic) with true by (symmetry; apply Z.leb_le; lia).
  replace (0 + 800 <=? rows pic) with true by (symmetry; apply Z.leb_le; lia). reflexivity.
Qed.
Lemma one_plain t f it u : large -> 0 <= u <= 3840 -> split_one msg (mkSplit t it f (mkRect u 0 1280 800) plain_info []) =
  Ok (mkMsg (mkHeader (h_stamp (m_head msg)) f) (m_encoding msg) (mkPic 1280 800 (fun c r => px pic (u + c) (0 + r))), with_header plain_info (mkHeader (h_stamp (m_head msg)) f)).
Proof. intros L H. unfold split_one. cbn [s_region s_ops s_info s_frame]. rewrite crop_quarter by assumption. reflexivity. Qed.
Definition turned_info h : info := mkInfo h 800 1280 "plumb_bob" [0; 0; 0; 0; 0]%R ((1, 0, IZR 1280 - 640), (0, 1, IZR 800 - 400), (0, 0, 1))%R Geo.m0 (((1, 0, 640), (0, 1, 400), (0, 0, 1))%R, Geo.v0).
Lemma turned_K h : i_K (turned_info h) = ((1, 0, 640), (0, 1, 400), (0, 0, 1))%R.
Proof. unfold turned_info. cbn [i_K]. replace (IZR 1280 - 640)%R with 640%R by lra. replace (IZR 800 - 400)%R with 400%R by lra. reflexivity. Qed.
Lemma one_turned t f it u : large -> 0 <= u <= 3840 -> split_one msg (mkSplit t it f (mkRect u 0 1280 800) plain_info [Rotate (Some ROTATE_180)]) =
  Ok (mkMsg (mkHeader (h_stamp (m_head msg)) f) (m_encoding msg) (mkPic 1280 800 (fun c r => px pic (u + (1280 - 1 - c)) (0 + (800 - 1 - r)))), turned_info (mkHeader (h_stamp (m_head msg)) f)).
Proof. intros L H. unfold split_one. cbn [s_region s_ops s_info s_frame]. rewrite crop_quarter by assumption. reflexivity. Qed.

Definition published (x : string * message A * string * info) : list (output A) := let '(t, m, ti, i) := x in [PubImage t m; PubInfo ti i].
Theorem long_picture g cs : parse_configuration (images_of g) = Ok cs -> large ->
  exists out l, split msg cs = (out, Ok tt) /\ Permutation out (flat_map published l) /\
    Forall2 (fun '(k, (cam, side)) '(t, m, ti, i) => sent g msg k cam side t m ti i) (combine [0; 1; 2; 3] (seen g)) l.
Proof.
  intros H L. destruct g; cbn [images_of] in H; unfold parse_configuration, kit0, kit1 in H; cbn [all_ok] in H.
  - rewrite !parse_turned in H. cbn [rbind] in H. injection H as <-.
    cbn [split]. rewrite !one_turned by (try exact L; lia). cbn [s_topic s_info_topic].
    match goal with |- context [(PubImage ?t0 ?m0 :: PubInfo ?u0 ?i0 :: PubImage ?t1 ?m1 :: PubInfo ?u1 ?i1 :: PubImage ?t2 ?m2 :: PubInfo ?u2 ?i2 :: PubImage ?t3 ?m3 :: PubInfo ?u3 ?i3 :: [], _)] =>
      eexists; exists [(t3, m3, u3, i3); (t2, m2, u2, i2); (t1, m1, u1, i1); (t0, m0, u0, i0)] end.
    split; [reflexivity|]. split.
    + cbn [flat_map published app].
      match goal with |- Permutation [?a; ?b; ?c; ?d; ?e; ?f; ?g; ?h] _ =>
        change (Permutation (([a; b] ++ [c; d]) ++ ([e; f] ++ [g; h])) (([g; h] ++ [e; f]) ++ ([c; d] ++ [a; b]))) end.
      etransitivity; [apply Permutation_app_comm|]. apply Permutation_app; apply Permutation_app_comm.
    + cbn [combine seen]. repeat (apply Forall2_cons; [split; [reflexivity | reflexivity | reflexivity | reflexivity | reflexivity | split; reflexivity | split; reflexivity | apply turned_K | intros c r Hc Hr; cbn [m_pic px upright]; f_equal; lia]|]); constructor.
  - rewrite !parse_plain in H. cbn [rbind] in H. injection H as <-.
    cbn [split]. rewrite !one_plain by (try exact L; lia). cbn [s_topic s_info_topic].
    match goal with |- context [(PubImage ?t0 ?m0 :: PubInfo ?u0 ?i0 :: PubImage ?t1 ?m1 :: PubInfo ?u1 ?i1 :: PubImage ?t2 ?m2 :: PubInfo ?u2 ?i2 :: PubImage ?t3 ?m3 :: PubInfo ?u3 ?i3 :: [], _)] =>
      eexists; exists [(t0, m0, u0, i0); (t1, m1, u1, i1); (t2, m2, u2, i2); (t3, m3, u3, i3)] end.
    split; [reflexivity|]. split; [apply Permutation_refl|].
    cbn [combine seen]. repeat (apply Forall2_cons; [split; [reflexivity | reflexivity | reflexivity | reflexivity | reflexivity | split; reflexivity | split; reflexivity | reflexivity | intros c r Hc Hr; cbn [m_pic px upright]; f_equal; lia]|]); constructor.
Qed.
(* a picture that is too small stops the node *)
Theorem small_picture g cs : parse_configuration (images_of g) = Ok cs -> ~ large -> snd (split msg cs) = Throw.
Proof.
  intros H L. assert (K : forall l, In l [0; 1280; 2560; 3840] -> True) by auto. clear K.
  assert (Z : forall u, inside pic (mkRect u 0 1280 800) = true -> u + 1280 <= cols pic /\ 800 <= rows pic).
  { intros u E. unfold inside in E. cbn [rc_u rc_v rc_w rc_h] in E. rewrite !andb_true_iff, !Z.leb_le in E. lia. }
  assert (T : forall x y z w, crop pic (mkRect x y z w) = Throw \/ exists p, crop pic (mkRect x y z w) = Ok p) by (intros; unfold crop; destruct inside; eauto).
  assert (F : crop pic (mkRect 3840 0 1280 800) = Throw).
  { unfold crop. destruct (inside pic (mkRect 3840 0 1280 800)) eqn:E; [|reflexivity]. apply Z in E. exfalso. apply L. unfold large. lia. }
  destruct g; cbn [images_of] in H; unfold parse_configuration, kit0, kit1 in H; cbn [all_ok] in H; [rewrite !parse_turned in H | rewrite !parse_plain in H]; cbn [rbind] in H; injection H as <-;
  cbn [split]; unfold split_one; cbn [s_region s_ops s_info s_frame s_topic s_info_topic]; rewrite F;
  destruct (T 0 0 1280 800) as [->|[p0 ->]]; cbn [rbind]; try reflexivity;
  destruct (T 1280 0 1280 800) as [->|[p1 ->]]; cbn; try reflexivity;
  destruct (T 2560 0 1280 800) as [->|[p2 ->]]; cbn; reflexivity.
Qed.
End Long.

(* ue4: the distance between the eyes, read off every info sent, is that between the two cameras of the platform; the right
   projection takes a point seen from the left camera to where the right camera sees it *)
Section Eyes.
Open Scope R_scope.
Lemma run_P {A} (i : info) (l : list (message A)) i' : In i' (publish_info_run i l) -> i_P i' = i_P i /\ i_K i' = i_K i.
Proof.
  revert i. induction l as [|m l IH]; intros i; [intros []|]. cbn [publish_info_run]. intros [<-|H]; [split; reflexivity|]. apply IH in H. exact H.
Qed.
Theorem ue4_eyes {A} look m n sv (l r : list (message A)) li ri : In m (MsnModel.pl_missions MsnModel.ue4) -> MsnSpec.used MsnModel.ue4 sv ->
  In li (publish_info_run ue4_left_info l) -> In ri (publish_info_run ue4_right_info r) ->
  exists b, BfModel.load look (MsnModel.sv_frames (MsnModel.launch MsnModel.ue4 m n sv)) = Ok b /\
    BfModel.frame_to_frame look b "left_cam" "right_cam" 0 = Ok (Geo.mkIso Geo.mI (baseline_of ri, 0, 0)) /\ 0 < baseline_of ri /\
    forall x y z, z <> 0 -> project4 (i_P li) (x, y, z) = CamSpec.project (i_K li) (x, y, z) /\
      project4 (i_P ri) (x, y, z) = CamSpec.project (i_K ri) (x - baseline_of ri, y, z).
Proof.
  intros Hm U Hl Hr. apply run_P in Hl, Hr. destruct Hl as [L1 L2], Hr as [R1 R2].
  destruct (MsnMore.ue4_left_camera_refuted look m n sv Hm U) as (b & B1 & B2 & _). exists b. split; [exact B1|].
  assert (E : baseline_of ri = 1 / 10) by (unfold baseline_of; rewrite R1; cbn; field).
  rewrite E. split; [exact B2|]. split; [lra|]. intros x y z Hz. rewrite L1, L2, R1, R2. unfold ue4_right_info, ue4_left_info, publish_info_init. cbn.
  unfold project4, CamSpec.project, Geo.mapply, Geo.vdot, Geo.vadd. cbn. split; f_equal; field; lra.
Qed.
End Eyes.
