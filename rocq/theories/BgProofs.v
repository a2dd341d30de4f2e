(* Proofs about the reading of bags *)
From Coq Require Import String List Bool Arith Lia.
From Verif Require Import Base BgModel BgSpec.
Import ListNotations.
Open Scope nat_scope.

Lemma select_picks {M} t ty (b : list (brec M)) : picks t ty b (select_read t ty b).
Proof.
  unfold select_read. induction b as [|r b IH]; cbn; [constructor|]. destruct (String.eqb_spec (br_topic r) t) as [E|E]; cbn [andb]; [|apply picks_skip; tauto].
  destruct (String.eqb_spec (br_type r) ty) as [E'|E']; [cbn; apply picks_take; assumption|apply picks_skip; tauto].
Qed.
Lemma picks_unique {M} t ty (b : list (brec M)) l : picks t ty b l -> forall l', picks t ty b l' -> l = l'.
Proof. induction 1 as [|r b l E E' _ IH|r b l E _ IH]; intros l' H'; inversion H'; subst; try tauto; try (f_equal; apply IH; assumption); try (apply IH; assumption). Qed.

Lemma srow_index l k s : sindex (srow l) k = Ok s <-> nth_error l k = Some s.
Proof.
  unfold sindex, snumel, slinear, srow. cbn [sa_nr sa_nc sa_at]. rewrite Nat.mul_1_l, Nat.div_1_r. destruct (Nat.ltb_spec k (List.length l)) as [L|L].
  - rewrite (nth_error_nth' l ""%string L). split; intros H; injection H as <-; reflexivity.
  - split; [discriminate|]. intros H. apply nth_error_None in L. congruence.
Qed.
Lemma srow_length l : slength (srow l) = List.length l.
Proof. unfold slength, srow. cbn [sa_nr sa_nc]. destruct l; [reflexivity|]. cbn [List.length]. cbn [Nat.eqb orb]. lia. Qed.
Lemma sindex_not_ub a k : sindex a k <> UB.
Proof. unfold sindex. destruct (_ <? _); discriminate. Qed.

Section Store.
Context {M : Type}.
Variable store : string -> option (list (brec M)).
Lemma read_bag_is path t ty l : read_bag store path t ty = Ok l <-> recorded store path t ty l.
Proof.
  unfold read_bag, recorded. split.
  - destruct (store path) as [b|]; [|discriminate]. intros H. exists b. split; [reflexivity|]. pose proof (select_picks t ty b) as P. destruct (select_read t ty b) as [|m r]; [discriminate|]. injection H as <-. split; [exact P|discriminate].
  - intros (b & -> & P & N). rewrite (picks_unique _ _ _ _ (select_picks t ty b) _ P). destruct l; [tauto|reflexivity].
Qed.
Lemma read_from_is paths topic ty n : forall k out, read_from store paths topic ty k n = Ok out <->
  List.length out = n /\ forall i l, nth_error out i = Some l -> exists p t, sindex paths (k + i) = Ok p /\ topic (k + i) = Ok t /\ recorded store p t ty l.
Proof.
  induction n as [|n IH]; intros k out; cbn [read_from].
  - split; [intros H; injection H as <-; split; [reflexivity|]; intros [|i] l X; discriminate|]. intros [L _]. destruct out; [reflexivity|discriminate].
  - split.
    + destruct (sindex paths k) as [p| |] eqn:P; cbn [rbind]; try discriminate. destruct (topic k) as [t| |] eqn:T; cbn [rbind]; try discriminate. destruct (read_bag store p t ty) as [l| |] eqn:B; cbn [rbind]; try discriminate.
      destruct (read_from store paths topic ty (S k) n) as [r| |] eqn:R; cbn [rbind]; try discriminate. intros H. injection H as <-. apply IH in R. destruct R as [L R]. split; [cbn; congruence|].
      intros [|i] x X; cbn in X.
      * injection X as <-. rewrite Nat.add_0_r. exists p, t. apply read_bag_is in B. tauto.
      * specialize (R i x X). replace (k + S i) with (S k + i) by lia. exact R.
    + intros [L H]. destruct out as [|l out]; [discriminate|]. destruct (H 0 l eq_refl) as (p & t & P & T & B). rewrite Nat.add_0_r in *. rewrite P, T. cbn [rbind]. apply read_bag_is in B. rewrite B. cbn [rbind].
      assert (R : read_from store paths topic ty (S k) n = Ok out) by (apply IH; split; [cbn in L; congruence|]; intros i x X; specialize (H (S i) x X); replace (S k + i) with (k + S i) by lia; exact H).
      rewrite R. reflexivity.
Qed.

(* RD: one list for each file, with the messages of the topic of the same position *)
Lemma raw_reads paths topics ty out : raw_data store (srow paths) (srow topics) ty = Ok out <->
  List.length out = List.length paths /\
  forall k l, nth_error out k = Some l -> exists p t, nth_error paths k = Some p /\ nth_error topics k = Some t /\ recorded store p t ty l.
Proof.
  unfold raw_data. rewrite read_from_is, srow_length. cbn [Nat.add]. split; intros [L H]; (split; [exact L|]); intros k l X; destruct (H k l X) as (p & t & P & T & R); exists p, t;
  (split; [apply srow_index; exact P|split; [apply srow_index; exact T|exact R]]).
Qed.
Lemma build_lists {A B} (P : nat -> A -> B -> Prop) (l : list A) : (forall k a, nth_error l k = Some a -> exists b, P k a b) ->
  exists out, List.length out = List.length l /\ forall k b, nth_error out k = Some b -> exists a, nth_error l k = Some a /\ P k a b.
Proof.
  revert P. induction l as [|a l IH]; intros P H; [exists []; split; [reflexivity|]; intros [|k] b X; discriminate|].
  destruct (H 0 a eq_refl) as [b Hb]. destruct (IH (fun k => P (S k)) (fun k x X => H (S k) x X)) as (out & L & Ho). exists (b :: out). split; [cbn; congruence|].
  intros [|k] x X; cbn in X; [injection X as <-; exists a; split; [reflexivity|exact Hb]|]. apply Ho in X. exact X.
Qed.
(* and exactly when every file has a topic and messages on it *)
Lemma raw_exactly paths topics ty : (exists out, raw_data store (srow paths) (srow topics) ty = Ok out) <->
  forall k p, nth_error paths k = Some p -> exists t l, nth_error topics k = Some t /\ recorded store p t ty l.
Proof.
  split.
  - intros [out H] k p Hp. apply raw_reads in H. destruct H as [L H]. destruct (nth_error out k) as [l|] eqn:E; [|apply nth_error_None in E; assert (k < List.length paths) by (apply nth_error_Some; congruence); lia].
    destruct (H k l E) as (p' & t & P & T & R). exists t, l. split; [exact T|]. congruence.
  - intros H. destruct (build_lists (fun k p l => exists t, nth_error topics k = Some t /\ recorded store p t ty l) paths) as (out & L & Ho).
    + intros k p Hp. destruct (H k p Hp) as (t & l & T & R). exists l, t. tauto.
    + exists out. apply raw_reads. split; [exact L|]. intros k l X. destruct (Ho k l X) as (p & Hp & t & T & R). exists p, t. tauto.
Qed.
Lemma few_topics paths topics ty : List.length topics < List.length paths -> ~ exists out, raw_data store (srow paths) (srow topics) ty = Ok out.
Proof.
  intros L H. rewrite raw_exactly in H. destruct (nth_error paths (List.length topics)) as [p|] eqn:E; [|apply nth_error_None in E; lia].
  destruct (H _ _ E) as (t & _ & T & _). assert (List.length topics < List.length topics) by (apply nth_error_Some; congruence). lia.
Qed.

(* rows of directories and file names *)
Lemma splus_rows dirs files : (exists paths, pair_up dirs files paths) <-> exists a, splus (srow dirs) (srow files) = Ok a.
Proof.
  unfold splus, srow, joint. cbn [sa_nr sa_nc Nat.eqb rbind]. split.
  - intros (paths & [(d & -> & _)|[(f & -> & _)|(L & _)]]); cbn [List.length].
    + destruct (1 =? List.length files) eqn:E; cbn [rbind]; eexists; reflexivity.
    + destruct (List.length dirs =? 1) eqn:E; cbn [rbind]; eexists; reflexivity.
    + rewrite L, Nat.eqb_refl. eexists. reflexivity.
  - intros [a H]. destruct (Nat.eqb_spec (List.length dirs) (List.length files)) as [E|E]; [eexists; right; right; split; [exact E|reflexivity]|].
    destruct (Nat.eqb_spec (List.length dirs) 1) as [E1|E1]; [destruct dirs as [|d [|]]; try discriminate; eexists; left; exists d; split; reflexivity|].
    destruct (Nat.eqb_spec (List.length files) 1) as [E2|E2]; [destruct files as [|f [|]]; try discriminate; eexists; right; left; exists f; split; reflexivity|]. discriminate.
Qed.
Lemma nth_map {A B} (f : A -> B) l k d e : k < List.length l -> nth k (map f l) e = f (nth k l d).
Proof. intros H. rewrite (nth_indep _ e (f d)) by (rewrite map_length; exact H). apply map_nth. Qed.
Lemma splus_paths dirs files paths a : pair_up dirs files paths -> splus (srow dirs) (srow files) = Ok a ->
  slength a = List.length paths /\ forall k p, sindex a k = Ok p <-> nth_error paths k = Some p.
Proof.
  intros Pu H. assert (A : sa_nr a = 1 /\ sa_nc a = List.length paths /\ forall k, k < List.length paths -> sa_at a 0 k = nth k paths ""%string).
  { unfold splus, srow, joint in H. cbn [sa_nr sa_nc Nat.eqb rbind sa_at] in H. destruct Pu as [(d & -> & ->)|[(f & -> & ->)|(L & ->)]]; cbn [List.length] in H.
    - destruct (Nat.eqb_spec 1 (List.length files)) as [E|E]; cbn [rbind Nat.eqb] in H; injection H as <-; cbn [sa_nr sa_nc sa_at]; rewrite map_length; (split; [reflexivity|split; [congruence|]]); intros k Hk; rewrite (nth_map _ _ _ ""%string) by exact Hk; unfold stretch.
      + rewrite <- E. assert (k = 0) by lia. subst k. reflexivity.
      + destruct (Nat.eqb_spec (List.length files) 1) as [E'|_]; [congruence|]. reflexivity.
    - destruct (Nat.eqb_spec (List.length dirs) 1) as [E|E]; cbn [rbind Nat.eqb] in H; injection H as <-; cbn [sa_nr sa_nc sa_at]; rewrite map_length; (split; [reflexivity|split; [congruence|]]); intros k Hk; rewrite (nth_map _ _ _ ""%string) by exact Hk; unfold stretch.
      + rewrite E in *. assert (k = 0) by lia. subst k. reflexivity.
      + destruct (Nat.eqb_spec (List.length dirs) 1) as [E'|_]; [congruence|]. reflexivity.
    - rewrite L, Nat.eqb_refl in H. cbn [rbind] in H. injection H as <-. cbn [sa_nr sa_nc sa_at]. rewrite map_length, combine_length, L, Nat.min_id. split; [reflexivity|split; [reflexivity|]]. intros k Hk.
      rewrite (nth_map _ _ _ (""%string, ""%string)) by (rewrite combine_length; lia). rewrite combine_nth by exact L. cbn [fst snd]. unfold stretch. destruct (Nat.eqb_spec (List.length files) 1) as [E|E]; [assert (k = 0) by lia; subst k|]; reflexivity. }
  destruct A as (A1 & A2 & A3). split.
  - unfold slength. rewrite A1, A2. destruct (List.length paths); [reflexivity|]. cbn [Nat.eqb orb]. lia.
  - intros k p. unfold sindex, snumel, slinear. rewrite A1, A2, Nat.mul_1_l, Nat.div_1_r. rewrite Nat.mod_1_r. destruct (Nat.ltb_spec k (List.length paths)) as [Lk|Lk].
    + rewrite (A3 k Lk), (nth_error_nth' paths ""%string Lk). split; intros X; injection X as <-; reflexivity.
    + split; [discriminate|]. intros X. apply nth_error_None in Lk. congruence.
Qed.

(* OD *)
Lemma odom_reads names gd gf gtop dirs files topics n g out : odom_read store names gd gf gtop (srow dirs) (srow files) (srow topics) = Ok (n, g, out) <->
  n = names /\ recorded store (gd ++ gf)%string gtop "nav_msgs/Odometry"%string g /\ exists paths, pair_up dirs files paths /\ List.length out = List.length paths /\
  forall k l, nth_error out k = Some l -> exists p t, nth_error paths k = Some p /\ nth_error topics k = Some t /\ recorded store p t "nav_msgs/Odometry"%string l.
Proof.
  unfold odom_read. split.
  - destruct (splus (srow dirs) (srow files)) as [a| |] eqn:S; cbn [rbind]; try discriminate. destruct (read_bag _ _ _ _) as [g'| |] eqn:G; cbn [rbind]; try discriminate. destruct (read_from _ _ _ _ _ _) as [o| |] eqn:O; cbn [rbind]; try discriminate.
    intros H. injection H as <- <- <-. split; [reflexivity|]. split; [apply read_bag_is; exact G|]. destruct (proj2 (splus_rows dirs files) (ex_intro _ a S)) as [paths Pu]. exists paths. split; [exact Pu|].
    destruct (splus_paths _ _ _ _ Pu S) as [L I]. apply read_from_is in O. destruct O as [Lo O]. split; [congruence|]. intros k l X. destruct (O k l X) as (p & t & P & T & R). exists p, t. split; [apply I; exact P|]. split; [apply srow_index; exact T|exact R].
  - intros (-> & G & paths & Pu & L & H). destruct (proj1 (splus_rows dirs files) (ex_intro _ paths Pu)) as [a S]. rewrite S. cbn [rbind]. apply read_bag_is in G. rewrite G. cbn [rbind]. destruct (splus_paths _ _ _ _ Pu S) as [La I].
    assert (R : read_from store a (sindex (srow topics)) "nav_msgs/Odometry" 0 (slength a) = Ok out).
    { apply read_from_is. split; [congruence|]. intros k l X. destruct (H k l X) as (p & t & P & T & R). exists p, t. split; [apply I; exact P|]. split; [apply srow_index; exact T|exact R]. }
    rewrite R. reflexivity.
Qed.
(* JD *)
Lemma jacobian_reads names dirs files topic n out : jacobian_read store names (srow dirs) (srow files) topic = Ok (n, out) <->
  n = names /\ exists paths, pair_up dirs files paths /\ List.length out = List.length paths /\
  forall k l, nth_error out k = Some l -> exists p, nth_error paths k = Some p /\ recorded store p topic "std_msgs/Float64MultiArray"%string l.
Proof.
  unfold jacobian_read. split.
  - destruct (splus (srow dirs) (srow files)) as [a| |] eqn:S; cbn [rbind]; try discriminate. destruct (read_from _ _ _ _ _ _) as [o| |] eqn:O; cbn [rbind]; try discriminate.
    intros H. injection H as <- <-. split; [reflexivity|]. destruct (proj2 (splus_rows dirs files) (ex_intro _ a S)) as [paths Pu]. exists paths. split; [exact Pu|].
    destruct (splus_paths _ _ _ _ Pu S) as [L I]. apply read_from_is in O. destruct O as [Lo O]. split; [congruence|]. intros k l X. destruct (O k l X) as (p & t & P & T & R). injection T as <-. exists p. split; [apply I; exact P|exact R].
  - intros (-> & paths & Pu & L & H). destruct (proj1 (splus_rows dirs files) (ex_intro _ paths Pu)) as [a S]. rewrite S. cbn [rbind]. destruct (splus_paths _ _ _ _ Pu S) as [La I].
    assert (R : read_from store a (fun _ => Ok topic) "std_msgs/Float64MultiArray" 0 (slength a) = Ok out).
    { apply read_from_is. split; [congruence|]. intros k l X. destruct (H k l X) as (p & P & R). exists p, topic. split; [apply I; exact P|]. split; [reflexivity|exact R]. }
    rewrite R. reflexivity.
Qed.
(* SD *)
Lemma stereo_reads names dirs files topics n out : stereo_read store names (srow dirs) (srow files) (srow topics) = Ok (n, out) <->
  n = names /\ exists paths, pair_up dirs files paths /\ List.length out = List.length paths /\
  forall k l, nth_error out k = Some l -> exists p t, nth_error paths k = Some p /\ nth_error topics k = Some t /\ recorded store p t "serpent/StereoTrackerStatistics"%string l.
Proof.
  unfold stereo_read. split.
  - destruct (splus (srow dirs) (srow files)) as [a| |] eqn:S; cbn [rbind]; try discriminate. destruct (read_from _ _ _ _ _ _) as [o| |] eqn:O; cbn [rbind]; try discriminate.
    intros H. injection H as <- <-. split; [reflexivity|]. destruct (proj2 (splus_rows dirs files) (ex_intro _ a S)) as [paths Pu]. exists paths. split; [exact Pu|].
    destruct (splus_paths _ _ _ _ Pu S) as [L I]. apply read_from_is in O. destruct O as [Lo O]. split; [congruence|]. intros k l X. destruct (O k l X) as (p & t & P & T & R). exists p, t. split; [apply I; exact P|]. split; [apply srow_index; exact T|exact R].
  - intros (-> & paths & Pu & L & H). destruct (proj1 (splus_rows dirs files) (ex_intro _ paths Pu)) as [a S]. rewrite S. cbn [rbind]. destruct (splus_paths _ _ _ _ Pu S) as [La I].
    assert (R : read_from store a (sindex (srow topics)) "serpent/StereoTrackerStatistics" 0 (slength a) = Ok out).
    { apply read_from_is. split; [congruence|]. intros k l X. destruct (H k l X) as (p & t & P & T & R). exists p, t. split; [apply I; exact P|]. split; [apply srow_index; exact T|exact R]. }
    rewrite R. reflexivity.
Qed.

(* main.m: figures of the registration *)
Context {F : Type}.
Variable figure_of : list M -> res F.
Lemma save_all names data : forall k, (forall i l, nth_error data i = Some l -> exists f n, figure_of l = Ok f /\ nth_error names (k + i) = Some n) ->
  exists s, save_from figure_of (srow names) k data = (s, true) /\ List.length s = List.length data /\
  forall i l, nth_error data i = Some l -> exists f n, figure_of l = Ok f /\ nth_error names (k + i) = Some n /\ nth_error s i = Some (("registration_covariance_" ++ n)%string, f).
Proof.
  induction data as [|l data IH]; intros k H; cbn [save_from].
  - exists []. split; [reflexivity|]. split; [reflexivity|]. intros [|i] l X; discriminate.
  - destruct (H 0 l eq_refl) as (f & n & Ff & N). rewrite Nat.add_0_r in N. rewrite Ff, (proj2 (srow_index names k n) N).
    destruct (IH (S k)) as (s & Es & L & Hs). { intros i x X. replace (S k + i) with (k + S i) by lia. exact (H (S i) x X). }
    rewrite Es. eexists. split; [reflexivity|]. split; [cbn; congruence|]. intros [|i] x X; cbn in X.
    + injection X as <-. exists f, n. rewrite Nat.add_0_r. repeat split; assumption.
    + replace (k + S i) with (S k + i) by lia. exact (Hs i x X).
Qed.
(* every file has messages, every list a figure, every estimate a name: one figure for each under its name, no warning *)
Lemma registration_all names paths topics :
  (forall k p, nth_error paths k = Some p -> exists t l f n, nth_error topics k = Some t /\ recorded store p t "geometry_msgs/PoseWithCovarianceStamped"%string l /\ figure_of l = Ok f /\ nth_error names k = Some n) ->
  exists s, registration store figure_of (srow names) (srow paths) (srow topics) = (s, false) /\ List.length s = List.length paths /\
  forall k p, nth_error paths k = Some p -> exists t l f n, nth_error topics k = Some t /\ recorded store p t "geometry_msgs/PoseWithCovarianceStamped"%string l /\ figure_of l = Ok f /\ nth_error names k = Some n /\ nth_error s k = Some (("registration_covariance_" ++ n)%string, f).
Proof.
  intros H. destruct (proj2 (raw_exactly paths topics "geometry_msgs/PoseWithCovarianceStamped"%string)) as [data D]. { intros k p Hp. destruct (H k p Hp) as (t & l & _ & _ & T & R & _). exists t, l. tauto. }
  unfold registration. rewrite D. apply raw_reads in D. destruct D as [L D].
  assert (U : forall p t l l', recorded store p t "geometry_msgs/PoseWithCovarianceStamped"%string l -> recorded store p t "geometry_msgs/PoseWithCovarianceStamped"%string l' -> l = l') by (intros p t l l' A B; apply read_bag_is in A, B; congruence).
  destruct (save_all names data 0) as (s & Es & Ls & Hs).
  { intros i l X. destruct (D i l X) as (p & t & P & T & R). destruct (H i p P) as (t' & l' & f & n & T' & R' & Ff & N). assert (t' = t) by congruence. subst t'. rewrite (U _ _ _ _ R R'). exists f, n. tauto. }
  rewrite Es. exists s. split; [reflexivity|]. split; [congruence|]. intros k p Hp. destruct (nth_error data k) as [l|] eqn:E; [|apply nth_error_None in E; assert (k < List.length paths) by (apply nth_error_Some; congruence); lia].
  destruct (D k l E) as (p' & t & P & T & R). destruct (Hs k l E) as (f & n & Ff & N & S). cbn [Nat.add] in N. exists t, l, f, n. replace p with p' by congruence. tauto.
Qed.
(* one file without messages: no figure for any *)
Lemma registration_none names paths topics k p : nth_error paths k = Some p -> (forall t l, nth_error topics k = Some t -> ~ recorded store p t "geometry_msgs/PoseWithCovarianceStamped"%string l) ->
  registration store figure_of names (srow paths) (srow topics) = ([], true).
Proof.
  intros Hp H. unfold registration. destruct (raw_data store (srow paths) (srow topics) "geometry_msgs/PoseWithCovarianceStamped"%string) as [data| |] eqn:E; [|reflexivity|reflexivity].
  exfalso. destruct (proj1 (raw_exactly paths topics "geometry_msgs/PoseWithCovarianceStamped"%string) (ex_intro _ data E) k p Hp) as (t & l & T & R). exact (H t l T R).
Qed.
End Store.
