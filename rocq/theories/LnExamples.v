(* The hypotheses of the theorems on the launch files are met; what happens without them. *)
From Coq Require Import ZArith QArith List Bool String Lia Permutation Reals.
From Verif Require Import Base NetModel CfgModel CfgSpec WrModel WrSpec WrProofs WrTheorems LnModel LnSpec LnProofs LnMore LnPlat.
From Verif Require BfModel BfExamples Geo CamModel WrExamples MsnModel MsnSpec MsnMore.
Import ListNotations.
Open Scope string_scope.
Open Scope list_scope.

(* the defaults of serpent.launch 3-9 *)
Definition defaults : sensors := Sensors "/imu" "/pointcloud" "/stereo/left/image" "/stereo/right/image" "/stereo/left/camera_info" "/stereo/right/camera_info" "/barometer".
Example defaults_own : own_topics defaults. Proof. repeat split. Qed.
Notation look := BfExamples.no_tf.
Notation est := WrExamples.any_estimator.
Notation P0 := WrExamples.shipped.
Notation robot := WrExamples.robot.
Example default_launch : exists ms, launch_single look est P0 robot "serpent" defaults = Ok ms /\ fed_from (given P0 defaults) ms /\
  reads ms (Port "/imu" Imu) /\ reads ms (Port "/stereo/left/image" Image) /\ reads ms (Port "/barometer" FluidPressure) /\ ~ reads ms (Port "/serpent/input/imu" Imu).
Proof.
  destruct WrExamples.shipped_starts as (ms0 & H). destruct (launch_modules look est P0 robot "serpent" defaults defaults_own ms0 H) as (ms & E & _). exists ms.
  destruct WrExamples.shipped_switches as (_ & S & B & _).
  split; [exact E|]. split; [apply (launch_fed _ _ _ _ _ _ defaults_own _ E)|].
  split; [apply (launch_reads _ _ _ _ _ _ defaults_own _ _ E); apply (g_imu P0 defaults)|].
  split; [apply (launch_reads _ _ _ _ _ _ defaults_own _ _ E); apply (g_left P0 defaults); exact S|].
  split; [apply (launch_reads _ _ _ _ _ _ defaults_own _ _ E); apply (g_baro P0 defaults); exact B|].
  intros Hr. destruct (launch_fed _ _ _ _ _ _ defaults_own _ E _ Hr) as [[G _]|(A & _)].
  - inversion G.
  - rewrite (launch_publishes look est P0 robot "serpent" defaults ms ms0 _ E H) in A. apply (single_pub_inner look est P0 robot ms0 _ H) in A. destruct A as [_ A]. apply A. left. reflexivity.
Qed.
Example default_split : exists ms f b, launch_single look est P0 robot "serpent" defaults = Ok ms /\ launch_front look P0 robot "serpent_frontend" defaults = Ok f /\
  launch_back look est P0 robot "serpent_backend" = Ok b /\ Permutation ms (f ++ b).
Proof.
  destruct WrExamples.shipped_starts as (ms0 & H). destruct (launch_modules look est P0 robot "serpent" defaults defaults_own ms0 H) as (ms & E & _).
  destruct (proj1 (launch_split_starts look est P0 robot "serpent" "serpent_frontend" "serpent_backend" defaults) (ex_intro _ ms E)) as [[f F] [b B]].
  exists ms, f, b. repeat (split; [assumption|]). exact (launch_split look est P0 robot _ _ _ _ _ _ _ E F B defaults_own).
Qed.
Example snowboard_left_runs : exists ms, snowboard look est P0 robot "serpent" "snowboard_left" = Ok ms /\ fed_from (snowboard_bag P0) ms.
Proof.
  destruct (proj2 (snowboard_starts look est P0 robot "serpent" "snowboard_left") (conj eq_refl WrExamples.shipped_starts)) as (ms & E). exists ms. split; [exact E|]. apply (snowboard_fed _ _ _ _ _ _ _ E).
Qed.
Example ue4_apart : apart ue4_default.
Proof. split; [apply distinct_spec; vm_compute; reflexivity | repeat split]. Qed.
Example simulator_own : own_topics (simulator_sensors "camera_front"). Proof. repeat split. Qed.
(* a topic among the system's own names is not accepted: the system would listen to itself *)
Definition loop : sensors := Sensors "/imu" "/serpent/frontend/deskewed_pointcloud" "/l" "/r" "/li" "/ri" "/b".
Example loop_not_own : ~ own_topics loop. Proof. intros (_ & (_ & H) & _). discriminate H. Qed.
Example loop_not_fed : forall ms, launch_single look est P0 robot "serpent" loop = Ok ms -> ~ fed_from (given P0 loop) ms.
Proof.
  intros ms H F. apply launched in H. destruct H as (ms0 & H & ->).
  assert (R0 : reads ms0 (Port "/serpent/input/pointcloud" PointCloud2)) by (apply (inputs_read look est P0 robot ms0 _ H); constructor).
  assert (R1 : reads (map (renamed "serpent" (serpent_remaps loop)) ms0) (Port "/serpent/frontend/deskewed_pointcloud" PointCloud2)).
  { apply launched_read. exists (Port "/serpent/input/pointcloud" PointCloud2). split; [exact R0 | reflexivity]. }
  assert (P1 : publishes (map (renamed "serpent" (serpent_remaps loop)) ms0) (Port "/serpent/frontend/deskewed_pointcloud" PointCloud2)).
  { rewrite launched_pub by exact H. apply single_mods in H. destruct H as (l & _ & ->). exists (fe_mod P0). split; [cbn; tauto | left; reflexivity]. }
  destruct (F _ R1) as [[_ N]|(_ & _ & N)]; [exact (N _ P1 eq_refl) | exact (N _ (g_cloud P0 loop) eq_refl)].
Qed.
(* a long picture whose pixels name their place *)
Definition long : CamModel.message (Z * Z) := CamModel.mkMsg (CamModel.mkHeader 7 "kit") "mono8" (CamModel.mkPic 5120 800 (fun c r => (c, r))).
Example long_large : large long. Proof. split; cbn; lia. Qed.
Example long_kits : (exists cs, CamModel.parse_configuration kit0 = Ok cs) /\ (exists cs, CamModel.parse_configuration kit1 = Ok cs).
Proof. split; eexists; reflexivity. Qed.
(* the first pixel sent as the left camera of the left pair comes from the last corner of the long picture *)
Example long_corner : upright KIT0 (CamModel.m_pic long) 0 0 = (5119%Z, 799%Z). Proof. reflexivity. Qed.
(* the platform of theorem ue4_eyes exists *)
Example ue4_used : MsnSpec.used MsnModel.ue4 MsnMore.empty /\ MsnModel.pl_missions MsnModel.ue4 <> [] /\
  CamModel.publish_info_run ue4_right_info [long; long] <> [].
Proof. split; [apply MsnSpec.Fresh; reflexivity | split; discriminate]. Qed.
