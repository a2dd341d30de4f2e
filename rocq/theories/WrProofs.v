From Coq Require Import ZArith QArith List Bool String Lia Permutation.
From Verif Require Import Base NetModel NetSpec CfgModel CfgSpec CfgProofs WrModel WrSpec.
From Verif Require StModel BfModel Geo.
Import ListNotations.
Open Scope Z_scope.
Open Scope string_scope.
Open Scope list_scope.

(* ---------------------------------------------------------------- results *)
Lemma demand_ok b u : demand b = Ok u -> b = true.
Proof. destruct b; [reflexivity|discriminate]. Qed.
Lemma demand_can b : can (demand b) <-> b = true.
Proof. split; [intros [u H]; exact (demand_ok b u H) | intros ->; exists tt; reflexivity]. Qed.
Lemma bind_ok {A B} (r : res A) (f : A -> res B) b : rbind r f = Ok b <-> exists a, r = Ok a /\ f a = Ok b.
Proof. split; [destruct r; cbn; try discriminate; intros H; eauto | intros (a & -> & H); exact H]. Qed.
Lemma bind_can {A B} (r : res A) (f : A -> res B) : can (rbind r f) <-> exists a, r = Ok a /\ can (f a).
Proof. unfold can. split; [intros [b H]; apply bind_ok in H; destruct H as (a & E & H); eauto | intros (a & -> & b & H); exists b; exact H]. Qed.
Lemma ok_can {A} (a : A) : can (Ok a). Proof. eexists; reflexivity. Qed.
Ltac binds H :=
  repeat match type of H with
  | rbind _ _ = Ok _ => let a := fresh "a" in let E := fresh "E" in apply bind_ok in H; destruct H as (a & E & H); cbv zeta in H
  | can (rbind _ _) => let a := fresh "a" in let E := fresh "E" in apply bind_can in H; destruct H as (a & E & H); cbv zeta in H
  end.

(* ---------------------------------------------------------------- sublists *)
Inductive sub {A} : list A -> list A -> Prop :=
| sub_nil : sub [] []
| sub_take x l l' : sub l l' -> sub (x :: l) (x :: l')
| sub_skip x l l' : sub l l' -> sub l (x :: l').
Lemma sub_refl {A} (l : list A) : sub l l. Proof. induction l; constructor; assumption. Qed.
Lemma sub_none {A} (l : list A) : sub [] l. Proof. induction l; constructor; assumption. Qed.
Lemma sub_app {A} (a a' b b' : list A) : sub a a' -> sub b b' -> sub (a ++ b) (a' ++ b').
Proof. intros H K. induction H; cbn; [exact K | constructor; assumption | constructor; assumption]. Qed.
Lemma sub_when {A} b (l l' : list A) : sub l l' -> sub (when b l) l'.
Proof. destruct b; [auto | intros _; apply sub_none]. Qed.
Lemma sub_in {A} (l l' : list A) x : sub l l' -> In x l -> In x l'.
Proof. intros H. induction H; cbn; intuition. Qed.
Lemma sub_map {A B} (f : A -> B) l l' : sub l l' -> sub (map f l) (map f l').
Proof. intros H. induction H; cbn; constructor; assumption. Qed.
Lemma sub_nodup {A} (l l' : list A) : sub l l' -> NoDup l' -> NoDup l.
Proof.
  intros H. induction H; intros N; [exact N | |].
  - apply NoDup_cons_iff in N. destruct N as [Nx N]. constructor; [intros I; exact (Nx (sub_in _ _ _ H I)) | auto].
  - apply NoDup_cons_iff in N. apply IHsub. apply N.
Qed.

(* ---------------------------------------------------------------- the lidar pipeline *)
Definition lidar_topics : list string :=
  filter_topics ++ ["/serpent/add_unit_vectors/pointcloud"; "/serpent/normal_estimation/pointcloud"].
Lemma filter_pubs P i fs : filter_ctor P i = Ok fs -> sub (map (n_pub op) fs) filter_topics.
Proof.
  unfold filter_ctor. cbv zeta. destruct (en_voxel P), (en_body P), (en_range P), (en_sor P), (en_rand P); cbn [orb app];
    repeat (match goal with |- context [if (?a <? ?b)%Z then _ else _] => destruct (a <? b)%Z end; try discriminate); intros [= <-];
    cbn [map n_pub mk app]; repeat (apply sub_nil || (apply sub_take; idtac) || apply sub_skip).
Qed.
Lemma lidar_shape P ns u : lidar_nodes P = Ok (Some (ns, u)) ->
  reg_on P = true /\ sub (map (n_pub op) ns) lidar_topics /\ linked op t_in ns t_out /\
  requires_unit_s (p_str P "registration_covariance/method" "CENSI") (p_str P "registration_covariance/point_covariance/method" "RANGE") = Ok u.
Proof.
  intros H. pose proof (lidar_chain P ns u _ H (enabled_filters P)) as (L & _). unfold lidar_nodes in H. cbv zeta in H. unfold reg_on.
  destruct (p_bool P "optimisation/factors/registration" true); [|discriminate H]. split; [reflexivity|].
  apply bind_ok in H. destruct H as (unit & Eu & H). apply bind_ok in H. destruct H as (fs & Ef & H). apply bind_ok in H. destruct H as (nn & En & H).
  assert (Hn : map (n_pub op) nn = ["/serpent/normal_estimation/pointcloud"])
    by (unfold normal_ctor in En; cbv zeta in En; repeat destruct (String.eqb _ _) in En; try discriminate En; injection En as <-; reflexivity).
  assert (Hf : sub (map (n_pub op) fs) filter_topics)
    by (match type of Ef with context [if ?b then _ else _] => destruct b end; [exact (filter_pubs _ _ _ Ef) | injection Ef as <-; apply sub_none]).
  injection H as <- <-. split; [|split; [exact L | exact Eu]]. rewrite !map_app, Hn. apply sub_app; [exact Hf|].
  destruct unit; cbn [map n_pub mk app]; [apply sub_refl | apply sub_skip; apply sub_refl].
Qed.
Lemma lidar_none P : lidar_nodes P = Ok None <-> reg_on P = false.
Proof.
  unfold lidar_nodes, reg_on. destruct (p_bool P "optimisation/factors/registration" true); [|split; reflexivity].
  split; [|discriminate]. cbv zeta. intros H. binds H. discriminate H.
Qed.
(* every stage reads what the stage before it, or the front end, publishes *)
Lemma linked_reads t ns t' n : linked op t ns t' -> In n ns -> n_sub op n = t \/ In (n_sub op n) (map (n_pub op) ns).
Proof.
  revert t. induction ns as [|m ns IH]; intros t H I; [contradiction|]. destruct H as [E H]. destruct I as [->|I]; [left; exact E|].
  right. cbn. destruct (IH _ H I) as [->|I']; auto.
Qed.
Lemma linked_last t ns t' : linked op t ns t' -> t = t' \/ In t' (map (n_pub op) ns).
Proof. revert t. induction ns as [|m ns IH]; intros t H; [left; exact H|]. destruct H as [E H]. right. cbn. destruct (IH _ H) as [E'|I]; auto. Qed.

(* ---------------------------------------------------------------- the modules *)
Section Start.
Variable look : string -> string -> Z -> res Geo.iso.
Variable estimator_ok : robust -> bool.
Variable P : params.
Variable cfg : BfModel.xv.
Notation reg := (reg_on P). Notation st := (stereo_on P). Notation ba := (baro_on P).

Definition fe_mod : module := Module "Frontend"
    ([at_ "frontend/deskewed_pointcloud" PointCloud2; at_ "frontend/imu_s2s" ImuArray; at_ "frontend/initial_odometry" Odometry;
      at_ "output/odometry" Odometry; at_ "output/pose" PoseCov]
     ++ when st [at_ "stereo/left/image" Image; at_ "stereo/right/image" Image;
                        at_ "stereo/left/camera_info" CameraInfo; at_ "stereo/right/camera_info" CameraInfo]
     ++ when ba [at_ "frontend/barometer" FluidPressure])
    ([at_ "input/imu" Imu; at_ "optimisation/imu_biases" ImuBiases; at_ "optimisation/odometry" Odometry;
      at_ "formatter/formatted_pointcloud" PointCloud2]
     ++ when st [at_ "input/stereo/left/image" Image; at_ "input/stereo/right/image" Image;
                        at_ "input/stereo/left/camera_info" CameraInfo; at_ "input/stereo/right/camera_info" CameraInfo]
     ++ when ba [at_ "input/barometer" FluidPressure])
    [] None.
Definition op_mod : module := Module "Optimisation"
    ([at_ "optimisation/imu_biases" ImuBiases; at_ "optimisation/imu_transform" TransformStamped; at_ "optimisation/odometry" Odometry;
      at_ "output/path" Path; at_ "optimisation/path_changes" Path]
     ++ when (p_bool P "debug/optimisation/publish_stereo_points" false) [at_ "debug/stereo_points" PointCloud2])
    ([at_ "frontend/imu_s2s" ImuArray; at_ "frontend/initial_odometry" Odometry]
     ++ when reg [at_ "registration/transform" PoseCov]
     ++ when st [at_ "stereo/features" StereoFeatures]
     ++ when ba [at_ "frontend/barometer" FluidPressure])
    [] None.
Definition pf_mod : module := Module "PointcloudFormatter" [at_ "formatter/formatted_pointcloud" PointCloud2] [at_ "input/pointcloud" PointCloud2] [] None.
Definition mp_mod (u : bool) : module := Module "Mapping" [at_ "mapping/local_map" PointCloud2; at_ "output/global_map" PointCloud2; at_ "output/pose_graph" PoseGraph]
    [at_ "normal_estimation/pointcloud" PointCloud2; at_ "optimisation/path_changes" Path]
    [resolve "publish_map"; resolve "publish_pose_graph"] (Some u).
Definition rg_mod (u : bool) : module := Module "Registration"
    ([at_ "registration/transform" PoseCov]
     ++ when (p_bool P "debug/registration/publish_clouds" false) [at_ "debug/previous_pointcloud" PointCloud2; at_ "debug/current_pointcloud" PointCloud2; at_ "debug/imu_guess_pointcloud" PointCloud2;
                     at_ "debug/s2s_transformed_pointcloud" PointCloud2; at_ "debug/s2m_transformed_pointcloud" PointCloud2]
     ++ when (p_bool P "debug/registration/publish_clouds" false && p_bool P "debug/registration/publish_clouds_alt" false)
             [at_ "debug/s2s_transformed_pointcloud_alt" PointCloud2; at_ "debug/s2m_transformed_pointcloud_alt" PointCloud2])
    [at_ "normal_estimation/pointcloud" PointCloud2; at_ "optimisation/imu_transform" TransformStamped; at_ "mapping/local_map" PointCloud2]
    [] (Some u).
Definition sf_mod : module := Module "StereoFactorFinder"
    ([at_ "stereo/features" StereoFeatures]
     ++ when (p_bool P "debug/stereo/publish_stats" false) [at_ "stereo/statistics" StereoStatistics]
     ++ when (p_bool P "debug/stereo/publish_intermediate_results" false)
             [at_ "stereo/left/extracted_keypoints/image" Image; at_ "stereo/right/extracted_keypoints/image" Image;
              at_ "stereo/left/sof_matches/image" Image; at_ "stereo/right/sof_matches/image" Image;
              at_ "stereo/stereo_filtered_matches/image" Image; at_ "stereo/new_matches/image" Image; at_ "stereo/tracked_matches/image" Image]
     ++ when (p_bool P "debug/stereo/publish_points" false) [at_ "stereo/track_points" PointCloud2])
    [at_ "stereo/left/image" Image; at_ "stereo/right/image" Image; at_ "stereo/left/camera_info" CameraInfo; at_ "stereo/right/camera_info" CameraInfo]
    [] None.
Definition tf_mod : module := Module "BodyFramesTf" [] [] [resolve "lookup_transform"] None.

Lemma frontend_mod m : frontend look P cfg = Ok m -> m = fe_mod. Proof. unfold frontend. intros H. binds H. injection H as <-. reflexivity. Qed.
Lemma optimisation_mod m : optimisation look estimator_ok P cfg = Ok m -> m = op_mod. Proof. unfold optimisation. intros H. binds H. injection H as <-. reflexivity. Qed.
Lemma formatter_mod m : formatter look P cfg = Ok m -> m = pf_mod. Proof. unfold formatter. intros H. binds H. injection H as <-. reflexivity. Qed.
Lemma mapping_mod u m : mapping look P cfg u = Ok m -> m = mp_mod u. Proof. unfold mapping. intros H. binds H. injection H as <-. reflexivity. Qed.
Lemma registration_mod u m : registration look P cfg u = Ok m -> m = rg_mod u. Proof. unfold registration. intros H. binds H. injection H as <-. reflexivity. Qed.
Lemma stereo_mod m : stereo_finder P = Ok m -> m = sf_mod. Proof. unfold stereo_finder. intros H. binds H. injection H as <-. reflexivity. Qed.
Lemma frames_tf_mod m : frames_tf look cfg = Ok m -> m = tf_mod. Proof. unfold frames_tf. intros H. binds H. injection H as <-. reflexivity. Qed.

(* the modules of a running system *)
Definition lidar_mods (l : option (list (nd op) * bool)) : list module :=
  match l with Some (ns, u) => map (stage u) ns ++ [mp_mod u; rg_mod u] | None => [] end.
Lemma single_mods ms : single look estimator_ok P cfg = Ok ms ->
  exists l, lidar_nodes P = Ok l /\ ms = [tf_mod; fe_mod; op_mod; pf_mod] ++ lidar_mods l ++ when st [sf_mod].
Proof.
  unfold single. intros H. apply bind_ok in H. destruct H as (tf & E1 & H). apply bind_ok in H. destruct H as (fe & E2 & H). apply bind_ok in H. destruct H as (o & E3 & H).
  apply bind_ok in H. destruct H as (pf & E4 & H). apply bind_ok in H. destruct H as (l & E5 & H). apply bind_ok in H. destruct H as (rg & E6 & H). apply bind_ok in H. destruct H as (s & E7 & H).
  apply bind_ok in H. destruct H as (u & E8 & H). injection H as <-.
  apply frames_tf_mod in E1. apply frontend_mod in E2. apply optimisation_mod in E3. apply formatter_mod in E4. subst tf fe o pf. exists l. split; [exact E5|].
  assert (Es : s = when st [sf_mod]) by (destruct st; [apply bind_ok in E7; destruct E7 as (x & E7 & Ex); apply stereo_mod in E7; subst x; injection Ex as <-; reflexivity | injection E7 as <-; reflexivity]).
  assert (Er : rg = lidar_mods l).
  { destruct l as [[ns v]|]; [|injection E6 as <-; reflexivity]. apply bind_ok in E6. destruct E6 as (mp & F1 & E6). apply bind_ok in E6. destruct E6 as (r & F2 & E6).
    apply mapping_mod in F1. apply registration_mod in F2. subst mp r. injection E6 as <-. reflexivity. }
  subst. reflexivity.
Qed.

(* ---------------------------------------------------------------- names *)
Definition all_topics : list string :=
  ["/serpent/frontend/deskewed_pointcloud"; "/serpent/frontend/imu_s2s"; "/serpent/frontend/initial_odometry"; "/serpent/output/odometry"; "/serpent/output/pose";
   "/serpent/stereo/left/image"; "/serpent/stereo/right/image"; "/serpent/stereo/left/camera_info"; "/serpent/stereo/right/camera_info"; "/serpent/frontend/barometer";
   "/serpent/optimisation/imu_biases"; "/serpent/optimisation/imu_transform"; "/serpent/optimisation/odometry"; "/serpent/output/path"; "/serpent/optimisation/path_changes"; "/serpent/debug/stereo_points";
   "/serpent/formatter/formatted_pointcloud"] ++ (lidar_topics ++
  ["/serpent/mapping/local_map"; "/serpent/output/global_map"; "/serpent/output/pose_graph";
   "/serpent/registration/transform"; "/serpent/debug/previous_pointcloud"; "/serpent/debug/current_pointcloud"; "/serpent/debug/imu_guess_pointcloud";
   "/serpent/debug/s2s_transformed_pointcloud"; "/serpent/debug/s2m_transformed_pointcloud"; "/serpent/debug/s2s_transformed_pointcloud_alt"; "/serpent/debug/s2m_transformed_pointcloud_alt"]) ++
  ["/serpent/stereo/features"; "/serpent/stereo/statistics"; "/serpent/stereo/left/extracted_keypoints/image"; "/serpent/stereo/right/extracted_keypoints/image";
   "/serpent/stereo/left/sof_matches/image"; "/serpent/stereo/right/sof_matches/image"; "/serpent/stereo/stereo_filtered_matches/image"; "/serpent/stereo/new_matches/image";
   "/serpent/stereo/tracked_matches/image"; "/serpent/stereo/track_points"].
Lemma all_distinct : NoDup all_topics.
Proof.
  assert (G : forall l : list string, (fix nd l := match l with [] => true | x :: r => negb (existsb (String.eqb x) r) && nd r end) l = true -> NoDup l).
  { induction l as [|x l IH]; [constructor|]. intros H. apply andb_true_iff in H. destruct H as [H1 H2]. constructor; [|apply IH; exact H2].
    intros I. apply negb_true_iff in H1. assert (E : existsb (String.eqb x) l = true) by (apply existsb_exists; exists x; split; [exact I | apply String.eqb_refl]). congruence. }
  apply G. vm_compute. reflexivity.
Qed.
Ltac subs := repeat (apply sub_nil || (apply sub_take) || apply sub_skip).
Lemma map_when {A B} (f : A -> B) b l : map f (when b l) = when b (map f l). Proof. destruct b; reflexivity. Qed.
Lemma stage_pubs u ns : map topic (flat_map m_pubs (map (stage u) ns)) = map (n_pub op) ns.
Proof. induction ns as [|n ns IH]; [reflexivity|]. cbn. rewrite IH. reflexivity. Qed.
Lemma lidar_pubs l : lidar_nodes P = Ok l -> sub (map topic (flat_map m_pubs (lidar_mods l))) (lidar_topics ++
  ["/serpent/mapping/local_map"; "/serpent/output/global_map"; "/serpent/output/pose_graph";
   "/serpent/registration/transform"; "/serpent/debug/previous_pointcloud"; "/serpent/debug/current_pointcloud"; "/serpent/debug/imu_guess_pointcloud";
   "/serpent/debug/s2s_transformed_pointcloud"; "/serpent/debug/s2m_transformed_pointcloud"; "/serpent/debug/s2s_transformed_pointcloud_alt"; "/serpent/debug/s2m_transformed_pointcloud_alt"]).
Proof.
  destruct l as [[ns u]|]; intros H; [|apply sub_none]. apply lidar_shape in H. destruct H as (_ & H & _). cbn [lidar_mods]. rewrite flat_map_app, map_app, stage_pubs.
  apply sub_app; [exact H|]. unfold mp_mod, rg_mod. cbn [flat_map m_pubs app map topic at_]. do 4 apply sub_take. rewrite !app_nil_r.
  destruct (p_bool P "debug/registration/publish_clouds" false), (p_bool P "debug/registration/publish_clouds_alt" false); cbn [andb when app map topic at_]; subs.
Qed.
Lemma single_topics ms : single look estimator_ok P cfg = Ok ms -> sub (map topic (flat_map m_pubs ms)) all_topics.
Proof.
  intros H. apply single_mods in H. destruct H as (l & Hl & ->). rewrite !flat_map_app, !map_app. unfold all_topics. apply sub_app; [|apply sub_app; [apply lidar_pubs; exact Hl|]].
  - unfold tf_mod, fe_mod, op_mod, pf_mod. cbn [flat_map m_pubs app map topic at_]. do 5 apply sub_take.
    destruct (stereo_on P), (baro_on P), (p_bool P "debug/optimisation/publish_stereo_points" false); cbn [when app map topic at_]; subs.
  - destruct (stereo_on P); [|apply sub_none]. unfold sf_mod. cbn [when flat_map m_pubs app map topic at_]. rewrite app_nil_r. apply sub_take.
    destruct (p_bool P "debug/stereo/publish_stats" false), (p_bool P "debug/stereo/publish_intermediate_results" false), (p_bool P "debug/stereo/publish_points" false); cbn [when app map topic at_]; subs.
Qed.
Theorem single_one_publisher ms : single look estimator_ok P cfg = Ok ms -> one_publisher ms.
Proof. intros H. exact (sub_nodup _ _ (single_topics ms H) all_distinct). Qed.

Lemma pubs_in (ms : list module) p : publishes ms p <-> In p (flat_map m_pubs ms).
Proof. unfold publishes. rewrite in_flat_map. reflexivity. Qed.
Lemma subs_in (ms : list module) p : reads ms p <-> In p (flat_map m_subs ms).
Proof. unfold reads. rewrite in_flat_map. reflexivity. Qed.
Lemma nodup_map_inj {A B} (f : A -> B) l a b : NoDup (map f l) -> In a l -> In b l -> f a = f b -> a = b.
Proof.
  induction l as [|x l IH]; cbn; [contradiction|]. intros N Ia Ib E. apply NoDup_cons_iff in N. destruct N as [Nx N].
  destruct Ia as [->|Ia], Ib as [->|Ib]; auto; exfalso; apply Nx; [rewrite E|rewrite <- E]; apply in_map; assumption.
Qed.
(* no name of an input is used inside *)
Lemma input_outside p : input P p -> ~ In (topic p) all_topics.
Proof.
  intros H I. apply (in_map (fun t => String.eqb t (topic p))) in I. rewrite String.eqb_refl in I.
  destruct H; vm_compute in I; repeat (destruct I as [I|I]; [discriminate I|]); exact I.
Qed.
Lemma st_on : st = true <-> with_stereo P. Proof. unfold with_stereo. rewrite on_bool. reflexivity. Qed.
Lemma ba_on : ba = true <-> with_barometer P. Proof. unfold with_barometer. rewrite on_bool. reflexivity. Qed.
Lemma rg_on : reg = true <-> with_registration P. Proof. unfold with_registration. rewrite on_bool. reflexivity. Qed.

(* ---------------------------------------------------------------- every subscription *)
Lemma in_when {A} b (l : list A) x : In x (when b l) <-> b = true /\ In x l. Proof. destruct b; cbn; intuition discriminate. Qed.
Lemma lidar_reads l s : lidar_nodes P = Ok l -> In s (flat_map m_subs (lidar_mods l)) ->
  s = at_ "frontend/deskewed_pointcloud" PointCloud2 \/ s = at_ "optimisation/path_changes" Path \/ s = at_ "optimisation/imu_transform" TransformStamped \/
  In s (flat_map m_pubs (lidar_mods l)).
Proof.
  destruct l as [[ns u]|]; intros H I; [|contradiction]. apply lidar_shape in H. destruct H as (_ & _ & L & _). cbn [lidar_mods] in *.
  assert (St : forall t, In t (map (n_pub op) ns) -> In (Port t PointCloud2) (flat_map m_pubs (map (stage u) ns ++ [mp_mod u; rg_mod u]))).
  { intros t It. rewrite flat_map_app. apply in_or_app. left. apply in_map_iff in It. destruct It as (n & <- & In_). apply in_flat_map. exists (stage u n). split; [apply in_map; exact In_ | left; reflexivity]. }
  assert (Nm : In (at_ "normal_estimation/pointcloud" PointCloud2) (flat_map m_pubs (map (stage u) ns ++ [mp_mod u; rg_mod u]))).
  { apply (St t_out). destruct (linked_last _ _ _ L) as [E|I']; [discriminate E | exact I']. }
  rewrite flat_map_app in I. apply in_app_or in I. destruct I as [I|I].
  - apply in_flat_map in I. destruct I as (m & Im & Is). apply in_map_iff in Im. destruct Im as (n & <- & In_). destruct Is as [<-|[]].
    destruct (linked_reads _ _ _ _ L In_) as [E|I']; [left; rewrite E; reflexivity | right; right; right; apply St; exact I'].
  - cbn [flat_map mp_mod rg_mod m_subs app] in I. destruct I as [<-|[<-|[<-|[<-|[<-|[]]]]]]; auto.
    right. right. right. rewrite flat_map_app. apply in_or_app. right. cbn. auto.
Qed.
Lemma single_source ms s : single look estimator_ok P cfg = Ok ms -> reads ms s -> input P s \/ publishes ms s.
Proof.
  intros H I. apply single_mods in H. destruct H as (l & Hl & ->). rewrite pubs_in. rewrite subs_in in I. rewrite !flat_map_app in I |- *.
  set (core := flat_map m_pubs [tf_mod; fe_mod; op_mod; pf_mod]).
  assert (Co : forall p, In p core -> In p (core ++ flat_map m_pubs (lidar_mods l) ++ flat_map m_pubs (when (stereo_on P) [sf_mod]))) by (intros p Ip; apply in_or_app; left; exact Ip).
  assert (Fe : forall p, In p (m_pubs fe_mod) -> In p core) by (intros p Ip; unfold core; cbn [flat_map tf_mod m_pubs app] in *; apply in_or_app; left; exact Ip).
  assert (Op : forall p, In p (m_pubs op_mod) -> In p core) by (intros p Ip; unfold core; cbn [flat_map tf_mod m_pubs app] in *; apply in_or_app; right; apply in_or_app; left; exact Ip).
  assert (Pf : forall p, In p (m_pubs pf_mod) -> In p core) by (intros p Ip; unfold core; cbn [flat_map tf_mod m_pubs app] in *; apply in_or_app; right; apply in_or_app; right; apply in_or_app; left; exact Ip).
  apply in_app_or in I. destruct I as [I|I]; [|apply in_app_or in I; destruct I as [I|I]].
  - cbn [flat_map tf_mod fe_mod op_mod pf_mod m_subs] in I. rewrite !in_app_iff, !in_when in I. cbn [In] in I.
    repeat match goal with H : _ \/ _ |- _ => destruct H as [H|H] | H : _ /\ _ |- _ => destruct H as [? H] | H : False |- _ => contradiction end; subst s;
      try (left; constructor; apply st_on || apply ba_on; assumption); try (left; constructor).
    all: try (right; apply Co; apply Op; cbn; tauto). all: try (right; apply Co; apply Pf; cbn; tauto).
    all: try (right; apply Co; apply Fe; cbn [m_pubs fe_mod]; rewrite !in_app_iff, !in_when; cbn [In]; tauto).
    + right. apply in_or_app. right. apply in_or_app. left. destruct l as [[ns u]|]; [|apply lidar_none in Hl; congruence]. cbn [lidar_mods]. rewrite flat_map_app. apply in_or_app. right. cbn. auto.
    + right. apply in_or_app. right. apply in_or_app. right. apply in_flat_map. exists sf_mod. split; [apply in_when; split; [assumption | left; reflexivity] | left; reflexivity].
  - right. destruct (lidar_reads l s Hl I) as [->|[->|[->|I']]].
    + apply Co, Fe. left. reflexivity.
    + apply Co, Op. cbn. tauto.
    + apply Co, Op. cbn. tauto.
    + apply in_or_app. right. apply in_or_app. left. exact I'.
  - right. apply in_flat_map in I. destruct I as (m & Im & Is). apply in_when in Im. destruct Im as (Es & [<-|[]]). apply Co, Fe. cbn [m_pubs fe_mod]. rewrite !in_app_iff, !in_when.
    cbn [sf_mod m_subs] in Is. right. left. split; [exact Es|]. cbn [In] in Is |- *. exact Is.
Qed.
Theorem single_fed ms : single look estimator_ok P cfg = Ok ms -> fed P ms.
Proof.
  intros H s I. pose proof (single_topics ms H) as T. pose proof (single_one_publisher ms H) as N.
  assert (Out : forall p, publishes ms p -> In (topic p) all_topics) by (intros p Ip; apply (sub_in _ _ _ T); apply in_map; apply pubs_in; exact Ip).
  destruct (single_source ms s H I) as [Hi|Hp].
  - left. split; [exact Hi|]. intros p Ip E. apply (input_outside s Hi). rewrite <- E. apply Out. exact Ip.
  - right. split; [exact Hp|]. split.
    + intros p Ip E. apply pubs_in in Ip, Hp. exact (nodup_map_inj topic _ p s N Ip Hp E).
    + intros p Ip E. apply (input_outside p Ip). rewrite E. apply Out. exact Hp.
Qed.
End Start.
