(* The launch files connect what they should. *)
From Coq Require Import ZArith QArith List Bool String Lia Permutation.
From Verif Require Import Base NetModel CfgModel CfgSpec WrModel WrSpec WrProofs WrTheorems LnModel LnSpec.
From Verif Require BfModel Geo CamModel.
Import ListNotations.
Open Scope string_scope.
Open Scope list_scope.

(* ---------------------------------------------------------------- names *)
Lemma named_own node t : own t -> named node t = t. Proof. intros [H _]. unfold named. rewrite H. reflexivity. Qed.
Definition inputs : list string :=
  ["/serpent/input/imu"; "/serpent/input/pointcloud"; "/serpent/input/stereo/left/image"; "/serpent/input/stereo/right/image";
   "/serpent/input/stereo/left/camera_info"; "/serpent/input/stereo/right/camera_info"; "/serpent/input/barometer"].
Lemma front_remaps_same a : frontend_remaps a = serpent_remaps a. Proof. reflexivity. Qed.
Lemma remap_stays node a t : ~ In t inputs -> remap node (serpent_remaps a) t = t.
Proof.
  intros H. unfold remap, serpent_remaps. cbn [find fst].
  repeat match goal with |- context [String.eqb ?x t] => let n := fresh in destruct (String.eqb x t) eqn:n;
    [exfalso; apply H; apply String.eqb_eq in n; rewrite <- n; vm_compute; tauto|] end. reflexivity.
Qed.
Lemma input_prefix t : In t inputs -> String.prefix "/serpent/input/" t = true.
Proof. intros H. cbn in H. repeat (destruct H as [<-|H]; [vm_compute; reflexivity|]). destruct H. Qed.
Lemma not_input t : String.prefix "/serpent/input/" t = false -> ~ In t inputs. Proof. intros H I. apply input_prefix in I. congruence. Qed.
Lemma remap_inputs node a : own_topics a ->
  remap node (serpent_remaps a) "/serpent/input/imu" = a_imu a /\ remap node (serpent_remaps a) "/serpent/input/pointcloud" = a_cloud a /\
  remap node (serpent_remaps a) "/serpent/input/stereo/left/image" = a_left a /\ remap node (serpent_remaps a) "/serpent/input/stereo/right/image" = a_right a /\
  remap node (serpent_remaps a) "/serpent/input/stereo/left/camera_info" = a_linfo a /\ remap node (serpent_remaps a) "/serpent/input/stereo/right/camera_info" = a_rinfo a /\
  remap node (serpent_remaps a) "/serpent/input/barometer" = a_baro a.
Proof.
  intros (O1 & O2 & O3 & O4 & O5 & O6 & O7). repeat split.
  - change (named node (a_imu a) = a_imu a). apply named_own; assumption.
  - change (named node (a_cloud a) = a_cloud a). apply named_own; assumption.
  - change (named node (a_left a) = a_left a). apply named_own; assumption.
  - change (named node (a_right a) = a_right a). apply named_own; assumption.
  - change (named node (a_linfo a) = a_linfo a). apply named_own; assumption.
  - change (named node (a_rinfo a) = a_rinfo a). apply named_own; assumption.
  - change (named node (a_baro a) = a_baro a). apply named_own; assumption.
Qed.
Lemma moved_renamed node a p : own_topics a -> String.prefix "/serpent/input/" (topic p) = false \/ In (topic p) inputs -> moved a p (port_renamed node (serpent_remaps a) p).
Proof.
  intros O [H|H].
  - unfold port_renamed. rewrite remap_stays by (apply not_input; exact H). destruct p as [t k]. apply mv_stay. exact H.
  - destruct (remap_inputs node a O) as (E1 & E2 & E3 & E4 & E5 & E6 & E7). destruct p as [t k]. cbn [topic] in H. unfold port_renamed. cbn [topic kind]. cbn in H.
    destruct H as [<-|[<-|[<-|[<-|[<-|[<-|[<-|[]]]]]]]]; [rewrite E1 | rewrite E2 | rewrite E3 | rewrite E4 | rewrite E5 | rewrite E6 | rewrite E7]; constructor.
Qed.
Lemma port_stays node a p : ~ In (topic p) inputs -> port_renamed node (serpent_remaps a) p = p.
Proof. intros H. unfold port_renamed. rewrite remap_stays by exact H. destruct p; reflexivity. Qed.

(* every name the system publishes under begins with /serpent/ and is no input *)
Definition inner (t : string) : bool := String.prefix "/serpent/" t && negb (existsb (String.eqb t) inputs).
Lemma inner_spec t : inner t = true <-> String.prefix "/serpent/" t = true /\ ~ In t inputs.
Proof.
  unfold inner. rewrite andb_true_iff, negb_true_iff. split; intros [H K]; (split; [exact H|]).
  - intros I. assert (existsb (String.eqb t) inputs = true) by (apply existsb_exists; exists t; split; [exact I | apply String.eqb_refl]). congruence.
  - destruct (existsb (String.eqb t) inputs) eqn:E; [|reflexivity]. apply existsb_exists in E. destruct E as (x & I & E). apply String.eqb_eq in E. subst. contradiction.
Qed.
Lemma all_inner : forallb inner all_topics = true. Proof. vm_compute. reflexivity. Qed.

Section Start.
Variable look : string -> string -> Z -> res Geo.iso.
Variable estimator_ok : robust -> bool.
Variable P : params.
Variable cfg : BfModel.xv.
Notation single := (single look estimator_ok P cfg).

Lemma single_pub_inner ms p : single = Ok ms -> publishes ms p -> String.prefix "/serpent/" (topic p) = true /\ ~ In (topic p) inputs.
Proof.
  intros H Hp. apply inner_spec. pose proof all_inner as A. rewrite forallb_forall in A. apply A.
  apply (sub_in _ _ _ (single_topics look estimator_ok P cfg ms H)). apply in_map. apply pubs_in. exact Hp.
Qed.
Lemma input_in p : input P p -> In (topic p) inputs. Proof. intros []; cbn; tauto. Qed.
Lemma single_sub ms s : single = Ok ms -> reads ms s -> In (topic s) inputs \/ ~ In (topic s) inputs /\ publishes ms s.
Proof.
  intros H Hr. destruct (single_source look estimator_ok P cfg ms s H Hr) as [I|I]; [left; apply input_in; exact I|]. right. split; [|exact I]. apply (single_pub_inner ms s H I).
Qed.
Section Launch.
Variable node : string.
Variable a : sensors.
Hypothesis Own : own_topics a.
Notation f := (port_renamed node (serpent_remaps a)).

Lemma launched ms : launch_single look estimator_ok P cfg node a = Ok ms <-> exists ms0, single = Ok ms0 /\ ms = map (renamed node (serpent_remaps a)) ms0.
Proof.
  unfold launch_single. rewrite bind_ok. split.
  - intros (ms0 & E & H). exists ms0. split; [exact E|]. injection H as <-. reflexivity.
  - intros (ms0 & E & ->). exists ms0. split; [exact E | reflexivity].
Qed.
Lemma launched_pub ms0 p : single = Ok ms0 -> publishes (map (renamed node (serpent_remaps a)) ms0) p <-> publishes ms0 p.
Proof.
  intros H. split.
  - intros (m & Hm & Hp). apply in_map_iff in Hm. destruct Hm as (m0 & <- & Hm). cbn [renamed m_pubs] in Hp. apply in_map_iff in Hp. destruct Hp as (p0 & <- & Hp).
    assert (X : publishes ms0 p0) by (exists m0; auto). rewrite port_stays by (apply (single_pub_inner ms0 p0 H X)). exact X.
  - intros X. destruct X as (m & Hm & Hp). exists (renamed node (serpent_remaps a) m). split; [apply in_map; exact Hm|]. cbn [renamed m_pubs]. apply in_map_iff. exists p. split; [|exact Hp].
    apply port_stays. apply (single_pub_inner ms0 p H). exists m. auto.
Qed.
Lemma launched_read ms0 s : reads (map (renamed node (serpent_remaps a)) ms0) s <-> exists s0, reads ms0 s0 /\ s = f s0.
Proof.
  split.
  - intros (m & Hm & Hs). apply in_map_iff in Hm. destruct Hm as (m0 & <- & Hm). cbn [renamed m_subs] in Hs. apply in_map_iff in Hs. destruct Hs as (s0 & <- & Hs). exists s0. split; [exists m0; auto | reflexivity].
  - intros (s0 & (m & Hm & Hs) & ->). exists (renamed node (serpent_remaps a) m). split; [apply in_map; exact Hm|]. cbn [renamed m_subs]. apply in_map. exact Hs.
Qed.
Lemma input_given s0 : input P s0 -> given P a (f s0).
Proof.
  destruct (remap_inputs node a Own) as (E1 & E2 & E3 & E4 & E5 & E6 & E7). unfold port_renamed.
  intros I; destruct I; cbn [topic kind]; [rewrite E1 | rewrite E2 | rewrite E3 | rewrite E4 | rewrite E5 | rewrite E6 | rewrite E7]; constructor; assumption.
Qed.
Lemma given_input p : given P a p -> exists s0, input P s0 /\ p = f s0.
Proof.
  destruct (remap_inputs node a Own) as (E1 & E2 & E3 & E4 & E5 & E6 & E7). unfold port_renamed.
  intros I; destruct I.
  - exists (Port "/serpent/input/imu" Imu). cbn [topic kind]. rewrite E1. split; [constructor | reflexivity].
  - exists (Port "/serpent/input/pointcloud" PointCloud2). cbn [topic kind]. rewrite E2. split; [constructor | reflexivity].
  - exists (Port "/serpent/input/stereo/left/image" Image). cbn [topic kind]. rewrite E3. split; [constructor; assumption | reflexivity].
  - exists (Port "/serpent/input/stereo/right/image" Image). cbn [topic kind]. rewrite E4. split; [constructor; assumption | reflexivity].
  - exists (Port "/serpent/input/stereo/left/camera_info" CameraInfo). cbn [topic kind]. rewrite E5. split; [constructor; assumption | reflexivity].
  - exists (Port "/serpent/input/stereo/right/camera_info" CameraInfo). cbn [topic kind]. rewrite E6. split; [constructor; assumption | reflexivity].
  - exists (Port "/serpent/input/barometer" FluidPressure). cbn [topic kind]. rewrite E7. split; [constructor; assumption | reflexivity].
Qed.
Lemma given_own p : given P a p -> own (topic p).
Proof. destruct Own as (O1 & O2 & O3 & O4 & O5 & O6 & O7). intros []; assumption. Qed.

(* each module is the one of the program without launch file, the inputs renamed *)
Theorem launch_modules ms0 : single = Ok ms0 -> exists ms, launch_single look estimator_ok P cfg node a = Ok ms /\ Forall2 (same_module a) ms0 ms.
Proof.
  intros H. exists (map (renamed node (serpent_remaps a)) ms0). split; [apply launched; exists ms0; auto|].
  assert (G : forall l, (forall m, In m l -> In m ms0) -> Forall2 (same_module a) l (map (renamed node (serpent_remaps a)) l)).
  { induction l as [|m l IH]; intros L; [constructor|]. cbn [map]. constructor; [|apply IH; intros; apply L; right; assumption].
    assert (Hm : In m ms0) by (apply L; left; reflexivity). constructor; try reflexivity.
    - cbn [renamed m_pubs]. rewrite <- (map_id (m_pubs m)) at 2. apply map_ext_in. intros p Hp. apply port_stays. apply (single_pub_inner ms0 p H). exists m. auto.
    - cbn [renamed m_subs]. assert (K : forall q, In q (m_subs m) -> String.prefix "/serpent/input/" (topic q) = false \/ In (topic q) inputs).
      { intros q Hq. destruct (single_sub ms0 q H) as [I|[N I]]; [exists m; auto | right; exact I |]. left.
        pose proof (sub_in _ _ _ (single_topics look estimator_ok P cfg ms0 H) (in_map topic _ _ (proj1 (pubs_in ms0 q) I))) as A.
        assert (B : forallb (fun t => negb (String.prefix "/serpent/input/" t)) all_topics = true) by (vm_compute; reflexivity). rewrite forallb_forall in B. apply B in A. apply negb_true_iff in A. exact A. }
      induction (m_subs m) as [|q l' IH']; [constructor|]. cbn [map]. constructor; [apply moved_renamed; [exact Own | apply K; left; reflexivity] | apply IH'; intros; apply K; right; assumption].
    - cbn [renamed m_srvs]. rewrite <- (map_id (m_srvs m)) at 2. apply map_ext_in. intros t Ht. apply remap_stays.
      apply single_mods in H. destruct H as (l' & _ & E). rewrite E in Hm. clear - Hm Ht.
      apply in_app_or in Hm. destruct Hm as [Hm|Hm].
      + cbn in Hm. destruct Hm as [<-|[<-|[<-|[<-|[]]]]]; cbn in Ht; try tauto. destruct Ht as [<-|[]]. vm_compute. intuition discriminate.
      + apply in_app_or in Hm. destruct Hm as [Hm|Hm].
        * destruct l' as [[ns u]|]; [|destruct Hm]. cbn [lidar_mods] in Hm. apply in_app_or in Hm. destruct Hm as [Hm|Hm].
          -- apply in_map_iff in Hm. destruct Hm as (n & <- & _). destruct Ht.
          -- cbn in Hm. destruct Hm as [<-|[<-|[]]]; cbn in Ht; [|tauto]. destruct Ht as [<-|[<-|[]]]; vm_compute; intuition discriminate.
        * destruct (stereo_on P); [|destruct Hm]. cbn in Hm. destruct Hm as [<-|[]]. destruct Ht. }
  apply G. auto.
Qed.
Theorem launch_fed ms : launch_single look estimator_ok P cfg node a = Ok ms -> fed_from (given P a) ms.
Proof.
  intros H. apply launched in H. destruct H as (ms0 & H & ->). intros s Hs. apply launched_read in Hs. destruct Hs as (s0 & Hs & ->).
  destruct (single_source look estimator_ok P cfg ms0 s0 H Hs) as [I|I].
  - left. pose proof (input_given s0 I) as G. split; [exact G|]. intros p Hp E. rewrite launched_pub in Hp by exact H. apply single_pub_inner in Hp; [|exact H]. apply given_own in G. destruct G as [_ G]. rewrite <- E in G. destruct Hp. congruence.
  - right. pose proof (single_pub_inner ms0 s0 H I) as [Q N]. rewrite port_stays by exact N. split; [apply (proj2 (launched_pub _ _ H)); exact I|]. split.
    + intros p Hp E. rewrite launched_pub in Hp by exact H. destruct (single_fed look estimator_ok P cfg ms0 H s0 Hs) as [[C _]|(_ & C & _)]; [exfalso; apply N; apply input_in; exact C | apply C; assumption].
    + intros p Hp E. apply given_own in Hp. destruct Hp as [_ G]. rewrite E in G. congruence.
Qed.
Theorem launch_reads ms p : launch_single look estimator_ok P cfg node a = Ok ms -> given P a p -> reads ms p.
Proof.
  intros H G. apply launched in H. destruct H as (ms0 & H & ->). destruct (given_input p G) as (s0 & I & ->). apply launched_read. exists s0. split; [|reflexivity]. apply (inputs_read look estimator_ok P cfg ms0 s0 H I).
Qed.
Theorem launch_publishes ms ms0 p : launch_single look estimator_ok P cfg node a = Ok ms -> single = Ok ms0 -> publishes ms p <-> publishes ms0 p.
Proof.
  intros H H0. apply launched in H. destruct H as (ms1 & H & ->). rewrite H0 in H. injection H as <-. apply launched_pub. exact H0.
Qed.
Theorem launch_outputs ms p : launch_single look estimator_ok P cfg node a = Ok ms -> output P p -> publishes ms p.
Proof. intros H O. apply launched in H. destruct H as (ms0 & H & ->). apply (proj2 (launched_pub _ _ H)). apply (outputs_published look estimator_ok P cfg ms0 p H O). Qed.
Lemma launch_pubs ms0 : single = Ok ms0 -> flat_map m_pubs (map (renamed node (serpent_remaps a)) ms0) = flat_map m_pubs ms0.
Proof.
  intros H. assert (G : forall l, (forall m, In m l -> In m ms0) -> flat_map m_pubs (map (renamed node (serpent_remaps a)) l) = flat_map m_pubs l).
  { induction l as [|m l IH]; intros L; [reflexivity|]. cbn [map flat_map]. rewrite IH by (intros; apply L; right; assumption). f_equal. cbn [renamed m_pubs].
    rewrite <- (map_id (m_pubs m)) at 2. apply map_ext_in. intros p Hp. apply port_stays. apply (single_pub_inner ms0 p H). exists m. split; [apply L; left; reflexivity | exact Hp]. }
  apply G. auto.
Qed.
Theorem launch_one_publisher ms : launch_single look estimator_ok P cfg node a = Ok ms -> one_publisher ms.
Proof. intros H. apply launched in H. destruct H as (ms0 & H & ->). unfold one_publisher. rewrite launch_pubs by exact H. apply (single_one_publisher look estimator_ok P cfg ms0 H). Qed.
End Launch.
End Start.
