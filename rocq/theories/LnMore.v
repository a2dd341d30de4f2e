(* Two processes, the tracker alone, the three platforms, the long pictures of the snowboard. *)
From Coq Require Import ZArith QArith List Bool String Lia Permutation Reals Lra.
From Verif Require Import Base NetModel CfgModel CfgSpec WrModel WrSpec WrProofs WrTheorems LnModel LnSpec LnProofs.
From Verif Require BfModel Geo CamModel.
Import ListNotations.
Open Scope string_scope.
Open Scope list_scope.

Lemma port_none node p : port_renamed node [] p = p. Proof. destruct p; reflexivity. Qed.
Lemma renamed_none node m : renamed node [] m = m.
Proof.
  destruct m as [n ps ss vs u]. unfold renamed. cbn. rewrite (map_ext _ (fun p => p) (port_none node)), map_id. rewrite (map_ext _ (fun p => p) (port_none node)), map_id.
  rewrite (map_ext (remap node []) (fun p => p)) by reflexivity. rewrite map_id. reflexivity.
Qed.
Lemma renamed_stays node a m : (forall p, In p (m_pubs m) \/ In p (m_subs m) -> ~ In (topic p) inputs) -> (forall t, In t (m_srvs m) -> ~ In t inputs) ->
  renamed node (serpent_remaps a) m = m.
Proof.
  destruct m as [n ps ss vs u]. cbn [m_pubs m_subs m_srvs]. intros H K. unfold renamed. cbn. f_equal.
  - rewrite <- (map_id ps) at 2. apply map_ext_in. intros p Hp. apply port_stays. apply H. auto.
  - rewrite <- (map_id ss) at 2. apply map_ext_in. intros p Hp. apply port_stays. apply H. auto.
  - rewrite <- (map_id vs) at 2. apply map_ext_in. intros t Ht. apply remap_stays. apply K. exact Ht.
Qed.

Definition clean (m : module) : bool :=
  forallb (fun t => negb (existsb (String.eqb t) inputs)) (map topic (m_pubs m) ++ map topic (m_subs m) ++ m_srvs m).
Lemma clean_stays node a m : clean m = true -> renamed node (serpent_remaps a) m = m.
Proof.
  intros H. unfold clean in H. rewrite forallb_forall in H.
  assert (G : forall t, In t (map topic (m_pubs m) ++ map topic (m_subs m) ++ m_srvs m) -> ~ In t inputs).
  { intros t Ht I. apply H in Ht. apply negb_true_iff in Ht. assert (existsb (String.eqb t) inputs = true) by (apply existsb_exists; exists t; split; [exact I | apply String.eqb_refl]). congruence. }
  apply renamed_stays.
  - intros p [Hp|Hp]; apply G; rewrite !in_app_iff; [left | right; left]; apply in_map; exact Hp.
  - intros t Ht. apply G. rewrite !in_app_iff. auto.
Qed.

Section Start.
Variable look : string -> string -> Z -> res Geo.iso.
Variable estimator_ok : robust -> bool.
Variable P : params.
Variable cfg : BfModel.xv.
Notation single := (single look estimator_ok P cfg).

Lemma back_clean b : backend_node look estimator_ok P cfg = Ok b -> forall m, In m b -> clean m = true.
Proof.
  intros H m Hm. apply back_mods in H. destruct H as (l & _ & E). rewrite E in Hm. clear E.
  repeat match goal with
  | H : In _ (_ ++ _) |- _ => apply in_app_or in H; destruct H as [H|H]
  | H : In _ (_ :: _) |- _ => destruct H as [<-|H]
  | H : In _ [] |- _ => destruct H
  | H : In _ (when ?b _) |- _ => destruct b; cbn [when] in H
  | H : In _ (match ?l with _ => _ end) |- _ => destruct l
  end; unfold clean, tf_mod, op_mod, mp_mod, rg_mod, sf_mod; cbn [m_pubs m_subs m_srvs];
  repeat match goal with |- context [when ?b _] => destruct b; cbn [when] end; try (vm_compute; reflexivity).
Qed.
(* the two processes hold the modules of the one *)
Theorem launch_split node node1 node2 a ms f b : launch_single look estimator_ok P cfg node a = Ok ms -> launch_front look P cfg node1 a = Ok f -> launch_back look estimator_ok P cfg node2 = Ok b ->
  own_topics a -> Permutation ms (f ++ b).
Proof.
  intros H Hf Hb O. apply launched in H. destruct H as (ms0 & H & ->).
  unfold launch_front in Hf. apply bind_ok in Hf. destruct Hf as (f0 & Ef & Hf). injection Hf as <-.
  unfold launch_back in Hb. apply bind_ok in Hb. destruct Hb as (b0 & Eb & Hb). injection Hb as <-.
  rewrite (map_ext _ (fun m => m) (renamed_none node2)), map_id.
  pose proof (split_same look estimator_ok P cfg ms0 f0 b0 H Ef Eb) as Q.
  apply (Permutation_map (renamed node (serpent_remaps a))) in Q. rewrite map_app in Q. change (frontend_remaps a) with (serpent_remaps a).
  assert (E : map (renamed node (serpent_remaps a)) b0 = b0).
  { rewrite <- (map_id b0) at 2. apply map_ext_in. intros m Hm. apply clean_stays. apply (back_clean b0 Eb m Hm). }
  rewrite E in Q.
  assert (F : forall t, remap node (serpent_remaps a) t = remap node1 (serpent_remaps a) t).
  { intros t. destruct (in_dec string_dec t inputs) as [I|I]; [|rewrite !remap_stays by exact I; reflexivity].
    destruct (remap_inputs node a O) as (A1 & A2 & A3 & A4 & A5 & A6 & A7). destruct (remap_inputs node1 a O) as (B1 & B2 & B3 & B4 & B5 & B6 & B7).
    cbn in I. destruct I as [<-|[<-|[<-|[<-|[<-|[<-|[<-|[]]]]]]]]; congruence. }
  assert (F' : forall m, renamed node (serpent_remaps a) m = renamed node1 (serpent_remaps a) m).
  { intros m. unfold renamed. f_equal; try (apply map_ext; intros p; unfold port_renamed; rewrite F; reflexivity). }
  rewrite <- (map_ext _ _ F' f0). exact Q.
Qed.
Theorem launch_split_starts node node1 node2 a :
  (exists ms, launch_single look estimator_ok P cfg node a = Ok ms) <-> (exists f, launch_front look P cfg node1 a = Ok f) /\ (exists b, launch_back look estimator_ok P cfg node2 = Ok b).
Proof.
  assert (G : (exists ms, launch_single look estimator_ok P cfg node a = Ok ms) <-> exists ms, single = Ok ms).
  { split; [intros (ms & H); apply launched in H; destruct H as (m & H & _); eauto | intros (ms & H); eexists; apply launched; eauto]. }
  rewrite G, (split_starts look estimator_ok P cfg). unfold launch_front, launch_back. split.
  - intros [[x Hx] [y Hy]]. rewrite Hx, Hy. cbn [rbind]. eauto.
  - intros [[x Hx] [y Hy]]. apply bind_ok in Hx, Hy. destruct Hx as (x' & Hx & _), Hy as (y' & Hy & _). eauto.
Qed.
(* the tracker alone: its four pictures and infos are the given topics, left to left and right to right, the rest stays *)
Theorem launch_stereo_alone node a ms : own_topics a -> launch_stereo look P cfg node a = Ok ms ->
  exists tf s, ms = [tf; s] /\ m_subs tf = [] /\ m_pubs tf = [] /\
  m_subs s = [Port (a_left a) Image; Port (a_right a) Image; Port (a_linfo a) CameraInfo; Port (a_rinfo a) CameraInfo] /\
  (forall p, In p (m_pubs s) -> String.prefix "/serpent/" (topic p) = true) /\ In (Port "/serpent/stereo/features" StereoFeatures) (m_pubs s).
Proof.
  intros (O1 & O2 & O3 & O4 & O5 & O6 & O7) H. unfold launch_stereo in H. apply bind_ok in H. destruct H as (ms0 & E & H). injection H as <-.
  unfold stereo_node in E. apply bind_ok in E. destruct E as (tf & E1 & E). apply bind_ok in E. destruct E as (s & E2 & E). apply bind_ok in E. destruct E as (t & E3 & E). injection E as <-.
  apply frames_tf_mod in E1. apply stereo_mod in E2. subst tf s.
  exists (renamed node (stereo_remaps a) tf_mod), (renamed node (stereo_remaps a) (sf_mod P)). repeat (split; [reflexivity|]). split.
  - change (m_subs (renamed node (stereo_remaps a) (sf_mod P))) with
      [Port (named node (a_left a)) Image; Port (named node (a_right a)) Image; Port (named node (a_linfo a)) CameraInfo; Port (named node (a_rinfo a)) CameraInfo].
    rewrite !named_own by assumption. reflexivity.
  - cbn [renamed m_pubs]. split.
    + intros p Hp. apply in_map_iff in Hp. destruct Hp as (p0 & <- & Hp). cbn [sf_mod m_pubs] in Hp. revert p0 Hp.
      assert (G : forall l, forallb (fun t => String.prefix "/serpent/" t && negb (existsb (fun e => String.eqb (named node (fst e)) t) (stereo_remaps a))) (map topic l) = true ->
        forall p0, In p0 l -> String.prefix "/serpent/" (topic (port_renamed node (stereo_remaps a) p0)) = true).
      { intros l Hl p0 Hp. rewrite forallb_forall in Hl. specialize (Hl (topic p0) (in_map topic _ _ Hp)). apply andb_true_iff in Hl. destruct Hl as [A B]. apply negb_true_iff in B.
        unfold port_renamed, remap. cbn [topic]. destruct (find _ (stereo_remaps a)) eqn:F; [|exact A]. apply find_some in F. destruct F as [I F].
        exfalso. assert (existsb (fun e => String.eqb (named node (fst e)) (topic p0)) (stereo_remaps a) = true) by (apply existsb_exists; eauto). congruence. }
      apply G. destruct (p_bool P "debug/stereo/publish_stats" false), (p_bool P "debug/stereo/publish_intermediate_results" false), (p_bool P "debug/stereo/publish_points" false); vm_compute; reflexivity.
    + apply in_map_iff. exists (Port "/serpent/stereo/features" StereoFeatures). split; [vm_compute; reflexivity | left; reflexivity].
Qed.

(* ---------------------------------------------------------------- platforms *)
(* helper nodes in front of the system *)
Lemma app_pub (x y : list module) p : publishes (x ++ y) p <-> publishes x p \/ publishes y p.
Proof. unfold publishes. split; [intros (m & Hm & Hp); apply in_app_or in Hm; destruct Hm; eauto | intros [(m & Hm & Hp)|(m & Hm & Hp)]; exists m; rewrite in_app_iff; auto]. Qed.
Lemma app_read (x y : list module) p : reads (x ++ y) p <-> reads x p \/ reads y p.
Proof. unfold reads. split; [intros (m & Hm & Hp); apply in_app_or in Hm; destruct Hm; eauto | intros [(m & Hm & Hp)|(m & Hm & Hp)]; exists m; rewrite in_app_iff; auto]. Qed.
Lemma single_system_names node a ms p : launch_single look estimator_ok P cfg node a = Ok ms -> publishes ms p -> String.prefix "/serpent/" (topic p) = true.
Proof. intros H Hp. apply launched in H. destruct H as (ms0 & H & ->). rewrite launched_pub in Hp by exact H. apply (single_pub_inner look estimator_ok P cfg ms0 p H Hp). Qed.

(* helpers whose topics lie outside the names of the system, read only what the bag has or what they publish themselves *)
Lemma helpers_fed node a ms (hs : list module) (ext : port -> Prop) : own_topics a -> launch_single look estimator_ok P cfg node a = Ok ms ->
  (forall p, publishes hs p -> own (topic p)) -> (forall p, ext p -> own (topic p)) ->
  (forall p q, publishes hs p -> ext q -> topic p <> topic q) ->
  (forall p q, publishes hs p -> publishes hs q -> topic p = topic q -> p = q) ->
  (forall s, reads hs s -> ext s \/ publishes hs s) -> (forall s, given P a s -> ext s \/ publishes hs s) ->
  fed_from ext (hs ++ ms).
Proof.
  intros O H Hown Eown Apart Uniq Hr Hg s Hs.
  assert (K : ext s \/ publishes hs s -> ext s /\ (forall p, publishes (hs ++ ms) p -> topic p <> topic s) \/
    publishes (hs ++ ms) s /\ (forall p, publishes (hs ++ ms) p -> topic p = topic s -> p = s) /\ (forall p, ext p -> topic p <> topic s)).
  { intros [E|E].
    - left. split; [exact E|]. intros p Hp T. apply app_pub in Hp. destruct Hp as [Hp|Hp]; [apply (Apart p s Hp E T)|].
      pose proof (single_system_names node a ms p H Hp) as A. destruct (Eown s E) as [_ B]. rewrite T in A. congruence.
    - right. split; [apply app_pub; left; exact E|]. split; [|intros p Hp T; apply (Apart s p E Hp); symmetry; exact T].
      intros p Hp T. apply app_pub in Hp. destruct Hp as [Hp|Hp]; [apply Uniq; assumption|].
      pose proof (single_system_names node a ms p H Hp) as A. destruct (Hown s E) as [_ B]. rewrite T in A. congruence. }
  apply app_read in Hs. destruct Hs as [Hs|Hs]; [apply K; apply Hr; exact Hs|].
  destruct (launch_fed look estimator_ok P cfg node a O ms H s Hs) as [[G _]|(A & B & _)]; [apply K; apply Hg; exact G|].
  right. pose proof (single_system_names node a ms s H A) as N. split; [apply app_pub; right; exact A|]. split.
  - intros p Hp T. apply app_pub in Hp. destruct Hp as [Hp|Hp]; [|apply B; assumption]. destruct (Hown p Hp) as [_ C]. rewrite T in C. congruence.
  - intros p Hp T. destruct (Eown p Hp) as [_ C]. rewrite T in C. congruence.
Qed.
End Start.
