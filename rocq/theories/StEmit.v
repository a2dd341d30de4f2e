(* What the tracker emits: C28 (survivors), C29, C30, statistics, the back end's contract. *)
From Verif Require Import Base StModel StSpec StFilter StTrack StMatch StRun.
From Coq Require Import Lqa.

(* states the tracker can be in *)
Definition reach (c : tcfg) (st : tst) : Prop :=
  exists l, Forall flow_ok l /\ st = fst (track_run c tst0 l).

Lemma reach_good c st : reach c st -> exists prev, good_st st prev.
Proof.
  intros (l & F & ->).
  assert (G : forall l st prev, good_st st prev -> Forall flow_ok l -> exists prev', good_st (fst (track_run c st l)) prev').
  { clear. induction l as [|f l IH]; intros st prev G F; [exists prev; exact G|]. cbn [track_run].
    destruct (process c st f) as [st1 o] eqn:P. inversion F; subst.
    destruct (process_step c st prev f st1 o G) as (prev' & G' & _); [assumption..|].
    specialize (IH st1 prev' G' ltac:(assumption)). destruct (track_run c st1 l). exact IH. }
  exact (G l tst0 [] good_init F).
Qed.

(* ---- C29: the output is index-consistent ---- *)
Lemma to_features_eq : forall rest done,
  to_features (lrm_of (done ++ rest)) (Z.of_nat (length done)) (diag (Z.of_nat (length done)) rest) =
  Ok (map (fun t => Feat (tid t) (kpt (tl t)) (kpt (tr t))) rest).
Proof.
  induction rest as [|t rest IH]; intros done; cbn [to_features diag map]; [reflexivity|]. cbn [qi ti].
  assert (V1 : vix (kL (lrm_of (done ++ t :: rest))) (Z.of_nat (length done)) = Ok (tl t)) by (unfold lrm_of; cbn [kL]; rewrite map_app; cbn [map]; apply vix_mid; rewrite map_length; reflexivity).
  assert (V2 : vix (kR (lrm_of (done ++ t :: rest))) (Z.of_nat (length done)) = Ok (tr t)) by (unfold lrm_of; cbn [kR]; rewrite map_app; cbn [map]; apply vix_mid; rewrite map_length; reflexivity).
  assert (V3 : vix (ids (lrm_of (done ++ t :: rest))) (Z.of_nat (length done)) = Ok (tid t)) by (unfold lrm_of; cbn [ids]; rewrite map_app; cbn [map]; apply vix_mid; rewrite map_length; reflexivity).
  rewrite V1, V2, V3. cbn [rbind]. rewrite snoc_cons.
  replace (Z.of_nat (length done) + 1) with (Z.of_nat (length (done ++ [t]))) by (rewrite app_length; cbn; lia).
  rewrite IH. reflexivity.
Qed.
Lemma features_eq ts : features (lrm_of ts) = Ok (map (fun t => Feat (tid t) (kpt (tl t)) (kpt (tr t))) ts).
Proof. exact (to_features_eq ts []). Qed.

Lemma diag_nth l : forall i n, nth_error (diag i l) n = option_map (fun t => Dm (i + Z.of_nat n) (i + Z.of_nat n) (td t)) (nth_error l n).
Proof.
  induction l as [|t l IH]; intros i [|n]; cbn [diag nth_error option_map]; try reflexivity.
  - rewrite Z.add_0_r. reflexivity.
  - rewrite IH. destruct (nth_error l n); [|reflexivity]. cbn. do 2 f_equal; lia.
Qed.

Theorem index_consistent c st f st' out s : reach c st -> flow_ok f -> process c st f = (st', Ok (out, s)) ->
  length (kL out) = length (ms out) /\ length (kR out) = length (ms out) /\ length (ids out) = length (ms out) /\
  (forall n m, nth_error (ms out) n = Some m -> qi m = Z.of_nat n /\ ti m = Z.of_nat n) /\
  exists fs, features out = Ok fs /\ length fs = length (ms out) /\
    forall n x, nth_error fs n = Some x -> nth_error (ids out) n = Some (ft_id x) /\
      nth_error (map kpt (kL out)) n = Some (ft_left x) /\ nth_error (map kpt (kR out)) n = Some (ft_right x).
Proof.
  intros R F P. destruct (reach_good c st R) as [prev G].
  destruct (process_step c st prev f st' _ G F P) as (ts & _ & _ & _ & -> & _).
  unfold lrm_of at 1 2 3 4 5 6 7. cbn [kL kR ms ids]. rewrite !map_length, diag_length.
  split; [reflexivity|]. split; [reflexivity|]. split; [reflexivity|]. split.
  - intros n m. rewrite diag_nth. destruct (nth_error ts n); [|discriminate]. intros [= <-]. cbn. lia.
  - rewrite features_eq. eexists. split; [reflexivity|]. split.
    + unfold lrm_of. cbn [ms]. rewrite map_length, diag_length. reflexivity.
    + intros n x. unfold lrm_of. cbn [kL kR ids]. rewrite !map_map, !nth_error_map.
      destruct (nth_error ts n); [|discriminate]. intros [= <-]. repeat split; reflexivity.
Qed.

(* ---- where each emitted feature comes from ---- *)
Lemma survivors_in l : forall fl fr t, length fl = length l -> length fr = length l ->
  (In t (survivors l fl fr) <-> exists n t0 p q, nth_error l n = Some t0 /\ nth_error fl n = Some (p, 1) /\
     nth_error fr n = Some (q, 1) /\ t = Tr (tid t0) (Kp p (kattr (tl t0))) (Kp q (kattr (tr t0))) (td t0)).
Proof.
  induction l as [|t0 l IH]; intros fl fr t L1 L2.
  - destruct fl, fr; try discriminate. cbn [survivors]. split; [intros [] | intros (n & ? & ? & ? & H & _); destruct n; discriminate].
  - destruct fl as [|[p s] fl]; [discriminate|]. destruct fr as [|[q r] fr]; [discriminate|]. cbn [survivors].
    assert (E : In t (survivors l fl fr) <-> exists n t1 p1 q1, nth_error (t0 :: l) (S n) = Some t1 /\ nth_error ((p, s) :: fl) (S n) = Some (p1, 1) /\
       nth_error ((q, r) :: fr) (S n) = Some (q1, 1) /\ t = Tr (tid t1) (Kp p1 (kattr (tl t1))) (Kp q1 (kattr (tr t1))) (td t1)).
    { apply IH; cbn in *; lia. }
    destruct ((s =? 1) && (r =? 1)) eqn:SR.
    + apply andb_true_iff in SR. cbn [In]. rewrite E. split.
      * intros [<-|(n & X)]; [|exists (S n); exact X]. exists O, t0, p, q. cbn.
        destruct SR as [S1 R1]. apply Z.eqb_eq in S1. apply Z.eqb_eq in R1. subst. repeat split; reflexivity.
      * intros ([|n] & X); [|right; exists n; exact X]. left. destruct X as (t1 & p1 & q1 & A & B & C & D).
        cbn in A, B, C. injection A as <-. injection B as <- _. injection C as <- _. symmetry. exact D.
    + rewrite E. split; [intros (n & X); exists (S n); exact X|]. intros ([|n] & X); [|exists n; exact X].
      exfalso. destruct X as (t1 & p1 & q1 & A & B & C & D). cbn in B, C. injection B as _ ->. injection C as _ ->. discriminate.
Qed.

Lemma chosen_in thr n2 : forall n1 mi a b q, In (a, b, q) (chosen thr n1 mi n2) ->
  exists i j, nth_error n1 i = Some a /\ nth_error mi i = Some (j, Some q) /\ (q < thr)%Q /\ 0 <= j /\ nth_error n2 (Z.to_nat j) = Some b.
Proof.
  induction n1 as [|k n1 IH]; intros mi a b q H; [destruct H|].
  destruct mi as [|[j [q0|]] mi]; cbn [chosen] in H; [destruct H | |].
  - destruct (qlt q0 thr && (0 <=? j)) eqn:T.
    + apply andb_true_iff in T. destruct T as [T J]. apply qlt_spec in T.
      destruct (nth_error n2 (Z.to_nat j)) as [b0|] eqn:E.
      * destruct H as [[= <- <- <-]|H].
        -- exists O, j. cbn. repeat split; try reflexivity; [exact T | lia | exact E].
        -- destruct (IH _ _ _ _ H) as (i & j' & X). exists (S i), j'. exact X.
      * destruct (IH _ _ _ _ H) as (i & j' & X). exists (S i), j'. exact X.
    + destruct (IH _ _ _ _ H) as (i & j' & X). exists (S i), j'. exact X.
  - destruct (IH _ _ _ _ H) as (i & j' & X). exists (S i), j'. exact X.
Qed.
Lemma numbered_in l : forall n t, In t (numbered n l) -> In (tl t, tr t, td t) l /\ n <= tid t.
Proof.
  induction l as [|[[a b] q] l IH]; intros n t H; [destruct H|]. cbn [numbered] in H. destruct H as [<-|H].
  - cbn. split; [left; reflexivity | lia].
  - destruct (IH _ _ H). split; [right; assumption | lia].
Qed.

Definition in_depth (d : option sdf) (a b : kp) : Prop :=
  forall g, d = Some g -> in_range (s_fxb g) (s_min g) (s_max g) (kpt a) (kpt b).
Lemma depth_ok_spec d a b : depth_ok d a b = true <-> in_depth d a b.
Proof.
  unfold depth_ok, in_depth. destruct d as [g|]; [rewrite depth_test_spec|]; split; try reflexivity.
  - intros H g' [= <-]. exact H.
  - intros H. apply H. reflexivity.
  - intros _ g. discriminate.
Qed.

(* the n-th feature of an output *)
Definition at_n (o : lrm) (n : nat) (id : Z) (a b : kp) : Prop :=
  nth_error (ids o) n = Some id /\ nth_error (kL o) n = Some a /\ nth_error (kR o) n = Some b.
Lemma at_n_of ts n id a b : at_n (lrm_of ts) n id a b <-> exists t, nth_error ts n = Some t /\ tid t = id /\ tl t = a /\ tr t = b.
Proof.
  unfold at_n, lrm_of. cbn [ids kL kR]. rewrite !nth_error_map. destruct (nth_error ts n) as [t|]; cbn [option_map].
  - split; [intros (A & B & C); exists t; split; [reflexivity | split; [congruence | split; congruence]] |
      intros (t' & [= <-] & <- & <- & <-); repeat split; reflexivity].
  - split; [intros (A & _); discriminate | intros (t & A & _); discriminate].
Qed.

(* a feature carried over from the previous tracks: its new position is where the optical flow found the old one *)
Definition carried (c : tcfg) (st : tst) (f : frame) (id : Z) (a b : kp) : Prop :=
  exists n a0 b0, at_n (t_prev st) n id a0 b0 /\
    nth_error (f_flow f (fst (t_images st)) (f_left f) (map kpt (kL (t_prev st)))) n = Some (kpt a, 1) /\
    nth_error (f_flow f (snd (t_images st)) (f_right f) (map kpt (kR (t_prev st)))) n = Some (kpt b, 1) /\
    kattr a = kattr a0 /\ kattr b = kattr b0 /\
    epipolar (c_vert c) (kpt a) (kpt b) /\ in_depth (f_depth f) a b.

(* distance: squared distance above the threshold *)
Definition apart (sqr : Q) (a b : kp) : Prop :=
  (sqr < (px (kpt a) - px (kpt b)) * (px (kpt a) - px (kpt b)) + (py (kpt a) - py (kpt b)) * (py (kpt a) - py (kpt b)))%Q.
Lemma near_apart a b sqr : near a b sqr = false <-> apart sqr a b.
Proof.
  unfold near, apart. rewrite qle_false.
  set (x1 := px (kpt a)); set (x2 := px (kpt b)); set (y1 := py (kpt a)); set (y2 := py (kpt b)).
  assert (E : ((x2 - x1) * (x2 - x1) + (y2 - y1) * (y2 - y1) == (x1 - x2) * (x1 - x2) + (y1 - y2) * (y1 - y2))%Q) by ring.
  rewrite E. reflexivity.
Qed.
Lemma far_spec sqr refs k : far sqr refs k = true <-> forall r, In r refs -> apart sqr r k.
Proof.
  unfold far. rewrite negb_true_iff. split.
  - intros H r Hr. apply near_apart. destruct (near r k sqr) eqn:N; [|reflexivity].
    assert (existsb (fun r => near r k sqr) refs = true) by (apply existsb_exists; exists r; tauto). congruence.
  - intros H. destruct (existsb (fun r => near r k sqr) refs) eqn:E; [|reflexivity].
    apply existsb_exists in E. destruct E as (r & Hr & N). apply H in Hr. apply near_apart in Hr. congruence.
Qed.

(* keypoints followed by the optical flow in both images, before any filter *)
Definition followed (st : tst) (f : frame) (a b : kp) : Prop :=
  exists n id a0 b0, at_n (t_prev st) n id a0 b0 /\
    nth_error (f_flow f (fst (t_images st)) (f_left f) (map kpt (kL (t_prev st)))) n = Some (kpt a, 1) /\
    nth_error (f_flow f (snd (t_images st)) (f_right f) (map kpt (kR (t_prev st)))) n = Some (kpt b, 1) /\
    kattr a = kattr a0 /\ kattr b = kattr b0.

(* a new feature: detected in both images, away from the followed keypoints, matched below the cost threshold *)
Definition newborn (c : tcfg) (st : tst) (f : frame) (id : Z) (a b : kp) : Prop :=
  t_next st <= id /\ In a (f_det f (f_left f)) /\ In b (f_det f (f_right f)) /\
  (forall a' b', followed st f a' b' -> apart (c_sqr c) a' a /\ apart (c_sqr c) b' b) /\
  candidate (c_match c) (f_right f) true a b /\
  (exists q, wcost (c_match c) a (f_left f) (f_right f) true b = Ok (Some q) /\ (q < c_cost c)%Q /\
     (* no detected right keypoint that stays clear of the followed ones is a cheaper candidate *)
     forall b' w, In b' (f_det f (f_right f)) -> (forall a2 b2, followed st f a2 b2 -> apart (c_sqr c) b2 b') ->
       candidate (c_match c) (f_right f) true a b' -> wcost (c_match c) a (f_left f) (f_right f) true b' = Ok w ->
       dle (Some q) w) /\
  in_depth (f_depth f) a b.

Lemma surv_followed st prev f t : inv st prev -> flow_ok f -> In t (surv st prev f) <->
  exists n t0, nth_error prev n = Some t0 /\
    nth_error (f_flow f (fst (t_images st)) (f_left f) (map kpt (kL (t_prev st)))) n = Some (kpt (tl t), 1) /\
    nth_error (f_flow f (snd (t_images st)) (f_right f) (map kpt (kR (t_prev st)))) n = Some (kpt (tr t), 1) /\
    tid t = tid t0 /\ td t = td t0 /\ kattr (tl t) = kattr (tl t0) /\ kattr (tr t) = kattr (tr t0).
Proof.
  intros (P & _) F. rewrite P. cbn [kL kR lrm_of]. rewrite !map_map. unfold surv.
  rewrite survivors_in by (rewrite F, map_length; reflexivity). split.
  - intros (n & t0 & p & q & A & B & C & ->). exists n, t0. cbn. repeat split; try assumption; reflexivity.
  - intros (n & t0 & A & B & C & D & E & G & H). exists n, t0, (kpt (tl t)), (kpt (tr t)).
    repeat split; try assumption. destruct t as [i [pa aa] [pb ab] d]. cbn in *. subst. reflexivity.
Qed.
Lemma followed_surv st prev f a b : inv st prev -> flow_ok f -> followed st f a b <->
  exists t, In t (surv st prev f) /\ tl t = a /\ tr t = b.
Proof.
  intros I F. unfold followed. split.
  - intros (n & id & a0 & b0 & A & B & C & D & E). destruct I as [P I']. rewrite P in A. apply at_n_of in A.
    destruct A as (t0 & T & <- & <- & <-). exists (Tr (tid t0) a b (td t0)). split; [|split; reflexivity].
    apply surv_followed; [split; assumption | exact F|]. exists n, t0. cbn. repeat split; assumption.
  - intros (t & T & <- & <-). apply surv_followed in T; [|exact I | exact F]. destruct T as (n & t0 & A & B & C & D & E & G & H).
    exists n, (tid t0), (tl t0), (tr t0). split; [|repeat split; assumption].
    destruct I as [P _]. rewrite P. apply at_n_of. exists t0. repeat split; assumption.
Qed.

Theorem emitted c st f st' out s : reach c st -> flow_ok f -> process c st f = (st', Ok (out, s)) ->
  forall n id a b, at_n out n id a b -> carried c st f id a b \/ newborn c st f id a b.
Proof.
  intros R F P n id a b H. destruct (reach_good c st R) as [prev G].
  destruct (process_step c st prev f st' _ G F P) as (ts & _ & _ & _ & -> & _ & (mi & M & -> & _) & _).
  apply at_n_of in H. destruct H as (t & T & <- & <- & <-). apply nth_error_In in T. unfold result in T.
  pose proof (gs_inv _ _ G) as I. apply in_app_or in T. destruct T as [T|T].
  - left. unfold kept in T. apply filter_In in T. destruct T as [T PS]. unfold passes in PS. apply andb_true_iff in PS.
    destruct PS as [PS PD]. apply stereo_test_spec in PS. apply depth_ok_spec in PD.
    apply surv_followed in T; [|exact I | exact F]. destruct T as (k & t0 & A & B & C & D & E & X & Y).
    exists k, (tl t0), (tr t0). split; [|exact (conj B (conj C (conj X (conj Y (conj PS PD)))))].
    destruct I as [PP _]. rewrite PP. apply at_n_of. exists t0. rewrite D. repeat split; try assumption.
  - right. apply numbered_in in T. destruct T as [T L]. unfold fresh in T. apply filter_In in T. destruct T as [T PD].
    cbn [pair_ok] in PD. apply depth_ok_spec in PD. apply chosen_in in T. destruct T as (i & j & Ha & Hm & Q & J & Hb).
    unfold matched, keypoint_indices in M. apply indices_nth in M. destruct M as [ML M].
    destruct (M i (tl t) Ha) as (e & He & S). rewrite Hm in He. injection He as <-. rewrite Z.add_0_l in S.
    apply step_cases in S; [|lia]. destruct S as [S _].
    assert (IA : In (tl t) (cand_l c st prev f)) by exact (nth_error_In _ _ Ha).
    assert (IB : In (tr t) (cand_r c st prev f)) by exact (nth_error_In _ _ Hb).
    unfold cand_l in IA. unfold cand_r in IB. apply filter_In in IA. apply filter_In in IB.
    destruct IA as [IA FA], IB as [IB FB]. rewrite far_spec in FA, FB.
    destruct (index_best _ _ _ _ _ _ _ _ _ S ltac:(lia)) as (x & q & (C0 & C1 & C2) & W & [= <-] & BEST).
    rewrite Hb in C1. injection C1 as <-.
    split; [exact L|]. split; [exact IA|]. split; [exact IB|]. split.
    { intros a' b' X. apply (followed_surv st prev f a' b' I F) in X. destruct X as (t' & T' & <- & <-). split; [apply FA | apply FB]; apply in_map; exact T'. }
    split; [exact C2|]. split; [|exact PD]. exists (td t). split; [exact W|]. split; [exact Q|].
    intros b' w Ib FB' CB WB.
    assert (IC : In b' (cand_r c st prev f)).
    { unfold cand_r. apply filter_In. split; [exact Ib|]. apply far_spec. intros r Hr. apply in_map_iff in Hr.
      destruct Hr as (t' & <- & T'). apply (FB' (tl t') (tr t')). apply (followed_surv st prev f _ _ I F). exists t'. repeat split; try reflexivity. exact T'. }
    apply In_nth_error in IC. destruct IC as [k Hk].
    apply (BEST (Z.of_nat k) b' w); [|exact WB]. split; [lia|]. split; [rewrite Nat2Z.id; exact Hk | exact CB].
Qed.

(* nothing that survives the filters is dropped, and order is kept *)
Theorem carried_emitted c st f st' out s : reach c st -> flow_ok f -> process c st f = (st', Ok (out, s)) ->
  forall id a b, carried c st f id a b -> exists n, at_n out n id a b.
Proof.
  intros R F P id a b (n & a0 & b0 & A & B & C & D & E & EP & DP). destruct (reach_good c st R) as [prev G].
  destruct (process_step c st prev f st' _ G F P) as (ts & _ & _ & _ & -> & _ & (mi & M & -> & _) & _).
  pose proof (gs_inv _ _ G) as I. destruct (proj1 I). rewrite (proj1 I) in A. apply at_n_of in A.
  destruct A as (t0 & T & <- & <- & <-).
  assert (S : In (Tr (tid t0) a b (td t0)) (kept c st prev f)).
  { unfold kept. apply filter_In. split.
    - apply surv_followed; [exact I | exact F|]. exists n, t0. cbn. repeat split; assumption.
    - unfold passes. cbn. apply andb_true_iff. split; [apply stereo_test_spec; exact EP | apply depth_ok_spec; exact DP]. }
  assert (S2 : In (Tr (tid t0) a b (td t0)) (result c st prev f mi)) by (apply in_or_app; left; exact S).
  apply In_nth_error in S2. destruct S2 as [k Hk]. exists k. apply at_n_of. exists (Tr (tid t0) a b (td t0)).
  repeat split; try reflexivity. exact Hk.
Qed.

(* ---- C30 ---- *)
Theorem remove_close_exact sqr l refs : exists idx,
  selects (fun k => forall r, In r refs -> apart sqr r k) l (remove_close sqr l refs) idx.
Proof.
  exists (positions (far sqr refs) 0 l). rewrite remove_close_eq. apply filter_selects. intros k _. apply far_spec.
Qed.
Theorem new_clear_of_carried c st f st' out s : reach c st -> flow_ok f -> process c st f = (st', Ok (out, s)) ->
  forall n m i j a b a' b', at_n out n i a b -> at_n out m j a' b' -> i < t_next st -> t_next st <= j ->
  apart (c_sqr c) a a' /\ apart (c_sqr c) b b'.
Proof.
  intros R F P n m i j a b a' b' H1 H2 Li Lj.
  destruct (emitted c st f st' out s R F P n i a b H1) as [C1|(N & _)]; [|lia].
  destruct (emitted c st f st' out s R F P m j a' b' H2) as [C2|N2].
  - destruct C2 as (k & a0 & b0 & A & _). destruct (reach_good c st R) as [prev G]. exfalso.
    rewrite (proj1 (gs_inv _ _ G)) in A. apply at_n_of in A. destruct A as (t0 & T & E & _). subst j.
    pose proof (gs_next _ _ G (tid t0) (in_map tid _ _ (nth_error_In _ _ T))). lia.
  - destruct N2 as (_ & _ & _ & FL & _). apply FL. destruct C1 as (k & a0 & b0 & A & B & C & D & E & _).
    exists k, i, a0, b0. repeat split; try assumption; apply A.
Qed.

(* ---- statistics ---- *)
Theorem statistics_consistent c st f st' out s : reach c st -> flow_ok f -> process c st f = (st', Ok (out, s)) ->
  st_total s = st_tracked s + st_new s /\ st_total s = Z.of_nat (length (ids out)) /\ st_ids s = ids out /\
  st_max_id s = t_next st' - 1 /\
  st_tracked s = Z.of_nat (length (filter (fun x => x <? t_next st) (ids out))) /\
  st_new s = Z.of_nat (length (filter (fun x => t_next st <=? x) (ids out))) /\
  (st_tracked s = 0 -> st_longest s = -1) /\
  (st_tracked s <> 0 -> In (st_longest s) (ids out) /\ forall x, In x (ids out) -> st_longest s <= x).
Proof.
  intros R F P. destruct (reach_good c st R) as [prev G].
  pose proof (process_step c st prev f st' _ G F P) as PS.
  rewrite (process_eq c st prev f (gs_inv _ _ G) F) in P.
  destruct (same_size f); cbn [negb] in P; [|discriminate].
  destruct (matched c st prev f) as [mi| |] eqn:M; try discriminate. injection P as <- <- <-.
  cbn [t_next st_total st_tracked st_new st_ids st_max_id st_longest].
  destruct PS as (ts & G' & _ & _ & E & _). cbn [ids lrm_of].
  assert (TS : ts = result c st prev f mi).
  { destruct G' as [[PP _] _ _ _]. cbn [t_prev] in PP. revert PP. clear. unfold lrm_of.
    intros H. injection H as A B C D. revert ts A B C D. generalize 0. induction (result c st prev f mi) as [|x l IH]; intros z [|t ts]; cbn; intros; try discriminate; [reflexivity|].
    destruct x, t. cbn in *. injection A as -> A. injection B as -> B. injection C as -> C. injection D as -> D. f_equal. apply (IH (z + 1)); assumption. }
  assert (KF : forall x, In x (map tid (kept c st prev f)) -> x < t_next st).
  { intros x Hx. apply kept_tid in Hx. apply (gs_next _ _ G) in Hx. lia. }
  assert (IN : incr (map tid (result c st prev f mi))) by (rewrite <- TS; exact (gs_incr _ _ G')).
  unfold result in *. rewrite !map_app, numbered_tid. set (K := map tid (kept c st prev f)) in *.
  set (n := fresh c st prev f mi) in *.
  assert (FK1 : filter (fun x => x <? t_next st) K = K).
  { revert KF. clear. induction K as [|a K IH]; intros H; [reflexivity|]. cbn. pose proof (H a (or_introl eq_refl)) as Ha.
    destruct (a <? t_next st) eqn:E; [|lia]. f_equal. apply IH. intros; apply H; right; assumption. }
  assert (FK2 : filter (fun x => t_next st <=? x) K = []).
  { revert KF. clear. induction K as [|a K IH]; intros H; [reflexivity|]. cbn. pose proof (H a (or_introl eq_refl)) as Ha.
    destruct (t_next st <=? a) eqn:E; [lia|]. apply IH. intros; apply H; right; assumption. }
  assert (FN : forall k z, t_next st <= z -> filter (fun x => x <? t_next st) (count_from z k) = [] /\ filter (fun x => t_next st <=? x) (count_from z k) = count_from z k).
  { clear. induction k as [|k IH]; intros z H; [split; reflexivity|]. cbn. destruct (IH (z + 1) ltac:(lia)) as [A B].
    destruct (z <? t_next st) eqn:E1; [lia|]. destruct (t_next st <=? z) eqn:E2; [|lia]. rewrite A, B. split; reflexivity. }
  destruct (FN (length n) (t_next st) ltac:(lia)) as [FN1 FN2].
  rewrite !filter_app, FK1, FK2, FN1, FN2, app_nil_r. cbn [app].
  assert (CL : forall k z, length (count_from z k) = k) by (induction k; intros; cbn; [|rewrite IHk]; reflexivity).
  rewrite app_length, CL. unfold len. replace (length (kept c st prev f)) with (length K) by apply map_length.
  split; [reflexivity|]. split; [lia|]. split; [reflexivity|]. split; [reflexivity|]. split; [reflexivity|]. split; [reflexivity|].
  unfold K. rewrite map_length. destruct (kept c st prev f) as [|t r] eqn:KE; cbn [length map]; split; try (intros; lia).
  intros _. split; [left; reflexivity|]. intros x Hx.
  assert (IN2 : incr (tid t :: (map tid r ++ count_from (t_next st) (length n)))).
  { rewrite map_app, numbered_tid in IN. exact IN. }
  destruct Hx as [<-|Hx]; [lia|]. destruct IN2 as [IN2 _]. specialize (IN2 x Hx). lia.
Qed.

(* the frame number counts the calls with images of equal size *)
Theorem frame_number_counts c l : t_frame (fst (track_run c tst0 l)) = Z.of_nat (length (filter same_size l)) - 1.
Proof.
  assert (H : forall l st, t_frame (fst (track_run c st l)) = t_frame st + Z.of_nat (length (filter same_size l))).
  { clear. induction l as [|f l IH]; intros st; cbn [track_run filter]; [cbn; lia|].
    assert (P : t_frame (fst (process c st f)) = t_frame st + if same_size f then 1 else 0).
    { unfold process. fold (same_size f). destruct (same_size f); cbn [negb]; [|cbn; lia]. cbn zeta.
      destruct (tracked_part _ _ _ _ _) as [[[[n1 n2] h] td]| |]; [|reflexivity..].
      destruct (new_part _ _ _ _) as [nm| |]; [|reflexivity..].
      destruct (append_matches _ _ _ _) as [out| |]; reflexivity. }
    destruct (process c st f) as [st1 o]. cbn [fst] in P. specialize (IH st1). destruct (track_run c st1 l) as [st2 os]. cbn [fst] in *.
    rewrite IH, P. destruct (same_size f); cbn [length]; lia. }
  rewrite H. cbn [t_frame tst0]. lia.
Qed.

(* ---- no call is undefined ---- *)
Theorem process_defined c st f : reach c st -> flow_ok f -> cost_total (c_match c) (f_left f) (f_right f) ->
  is_ok (snd (process c st f)) = same_size f.
Proof.
  intros R F T. destruct (reach_good c st R) as [prev G]. rewrite (process_eq c st prev f (gs_inv _ _ G) F).
  destruct (same_size f) eqn:S; cbn [negb]; [|reflexivity]. unfold same_size in S. apply andb_true_iff in S.
  destruct S as [S1 S2]. apply Z.eqb_eq in S1. apply Z.eqb_eq in S2.
  destruct (indices_total (c_match c) (cand_l c st prev f) (cand_r c st prev f) _ _ true S1 S2 T) as [r E].
  unfold matched. rewrite E. reflexivity.
Qed.

(* ---- the features as the back end receives them ---- *)
Lemma mput_last {A} (k : Z) (a : A) m : (forall b, In b (map fst m) -> b < k) -> mput k a m = m ++ [(k, a)].
Proof.
  induction m as [|[k' a'] m IH]; intros H; cbn [mput app]; [reflexivity|].
  pose proof (H k' (or_introl eq_refl)) as L.
  destruct (k =? k') eqn:E1; [lia|]. destruct (k <? k') eqn:E2; [lia|].
  rewrite IH by (intros; apply H; right; assumption). reflexivity.
Qed.
Lemma mmem_fresh {A} (k : Z) (m : omap A) : (forall b, In b (map fst m) -> b < k) -> mmem k m = false.
Proof.
  unfold mmem. induction m as [|[k' a'] m IH]; intros H; cbn [mget]; [reflexivity|].
  pose proof (H k' (or_introl eq_refl)) as L. cbn in L. destruct (k =? k') eqn:E; [lia|].
  apply IH. intros; apply H; right; assumption.
Qed.
Lemma from_features_eq enc : forall l m, incr (map fst m ++ map ft_id l) ->
  from_features enc l m = Ok (m ++ map (fun f => (ft_id f, enc f)) l).
Proof.
  induction l as [|f l IH]; intros m H; cbn [from_features map].
  - rewrite app_nil_r. reflexivity.
  - assert (LT : forall b, In b (map fst m) -> b < ft_id f).
    { revert H. clear. induction (map fst m) as [|a r IHr]; intros H b Hb; [destruct Hb|]. destruct H as [H1 H2].
      destruct Hb as [<-|Hb]; [apply H1; apply in_or_app; right; left; reflexivity | apply IHr; assumption]. }
    rewrite mmem_fresh by exact LT. rewrite mput_last by exact LT. rewrite IH.
    + rewrite <- app_assoc. reflexivity.
    + rewrite map_app, <- app_assoc. exact H.
Qed.

(* the map the back end builds from the i-th output; None when the call failed or the conversion threw *)
Definition back_map (enc : feature -> Z) (os : list (res (lrm * tstats))) (i : nat) : option (omap Z) :=
  match outs os i with
  | Some o => match features o with Ok fs => match from_features enc fs [] with Ok m => Some m | _ => None end | _ => None end
  | None => None
  end.
Lemma back_map_eq c l st' os enc : Forall flow_ok l -> track_run c tst0 l = (st', os) ->
  forall i o, outs os i = Some o -> exists m, back_map enc os i = Some m /\ map fst m = ids o.
Proof.
  intros F R i o Hi. destruct (run_later c l tst0 [] st' os good_init F R i o Hi) as ((ts & -> & A & B) & _).
  unfold back_map. rewrite Hi, features_eq, from_features_eq.
  - eexists. split; [reflexivity|]. cbn [app]. rewrite !map_map. reflexivity.
  - cbn [map app]. rewrite map_map. exact A.
Qed.
Lemma incr_msorted {A} (m : omap A) : incr (map fst m) -> msorted m.
Proof.
  induction m as [|[k a] m IH]; intros H; cbn [msorted]; [exact I|]. destruct H as [H1 H2].
  split; [exact H1 | apply IH; exact H2].
Qed.
