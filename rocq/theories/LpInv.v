(* The invariant of the pipeline: every part stays within its contract. *)
From Verif Require Import Base ImuModel ImuSpec ImuProofs FeModel FeSpec FeBaro FeProofs FeImu FeLive.
From Verif Require Import RegModel RegSpec RegProofs RegMore.
From Verif Require Import GmModel GmReady BeModel BeSpec BeProofs BeAbs BeInv BeSect BeHealthy BeLive LpModel LpSpec LpProofs.
Local Open Scope Z_scope.

Section Inv.
Variable bp : Z -> Z -> Z -> Z -> Z.
Variable al_s al_m : Z -> Z -> Z -> Z.
Variable fc : fcfg.
Variable c : config.
Variable s2m : bool.
Hypothesis Hm : matching fc c.

Notation lstep := (lstep bp al_s al_m fc c s2m).
Notation rstep := (rstep Z Z al_s al_m s2m).
Notation rexec := (rexec Z Z al_s al_m s2m).

(* ---- registration ---- *)
Lemma rexec_snoc : forall ls st l, rexec (ls ++ [l]) st = match rexec ls st with Some (Ok st') => rstep l st' | r => r end.
Proof.
  induction ls as [|x ls IH]; intros st l; cbn.
  - destruct (rstep l st) as [[?| |]|]; reflexivity.
  - destruct (rstep x st) as [[?| |]|]; auto.
Qed.
Lemma reg_grows l st st' : rstep l st = Some (Ok st') -> exists x, r_pub Z Z st' = r_pub Z Z st ++ x.
Proof.
  assert (N : forall st : rst Z Z, exists x, r_pub Z Z st = r_pub Z Z st ++ x) by (intros; exists []; rewrite app_nil_r; reflexivity).
  destruct st as [ok own qc qt pv s m pb]. intros E. destruct l; cbn in E.
  - destruct s; try discriminate; injection E as <-; exact (N (Rst Z Z ok own qc qt pv _ m pb)).
  - destruct m; try discriminate; injection E as <-; exact (N (Rst Z Z ok own qc qt pv s _ pb)).
  - destruct s; try discriminate; try (injection E as <-; cbn; exists []; rewrite app_nil_r; reflexivity).
    + destruct pv; [destruct s2m|]; injection E as <-; cbn; try (exists []; rewrite app_nil_r; reflexivity). eauto.
    + destruct own; [discriminate|]. injection E as <-; cbn; exists []; rewrite app_nil_r; reflexivity.
  - destruct m; try discriminate; try (injection E as <-; cbn; exists []; rewrite app_nil_r; reflexivity).
    + destruct own; [discriminate|]. injection E as <-; cbn; exists []; rewrite app_nil_r; reflexivity.
    + destruct (ok && _); injection E as <-; cbn; exists []; rewrite app_nil_r; reflexivity.
    + destruct ok; injection E as <-; cbn; exists []; rewrite app_nil_r; reflexivity.
    + destruct qc; [discriminate|]. injection E as <-; cbn; exists []; rewrite app_nil_r; reflexivity.
    + destruct qt; [discriminate|]. injection E as <-; cbn; exists []; rewrite app_nil_r; reflexivity.
    + injection E as <-. cbn. eauto.
  - injection E as <-. cbn. exists []. rewrite app_nil_r. reflexivity.
Qed.
Lemma reg_safe ls r : rexec ls (rinit Z Z) = Some r -> exists st, r = Ok st.
Proof.
  intros H. destruct s2m; [eapply s2m_no_ub; exact H|]. destruct (dinv_exec Z Z al_s al_m ls [] _ _ (dinv_init Z Z al_s) H) as (st & E & _). eauto.
Qed.
Lemma reg_nth ls st n t : rexec ls (rinit Z Z) = Some (Ok st) -> nth_error (map fst (r_pub Z Z st)) n = Some t -> nth_error (map fst (scans Z Z ls)) (S n) = Some t.
Proof.
  intros H E. rewrite nth_error_map in E. destruct (nth_error (r_pub Z Z st) n) as [[t' x]|] eqn:E1; [|discriminate]. cbn in E. injection E as ->.
  destruct s2m.
  - destruct (s2m_nth Z Z al_s al_m ls st n t x H E1) as (p & h & g & m & _ & E2 & _). rewrite nth_error_map, E2. reflexivity.
  - destruct (s2s_only Z Z al_s al_m ls st H) as [E2 _]. rewrite E2 in E1. assert (L : (n < List.length (r_pub Z Z st))%nat).
    { apply nth_lt in E1. rewrite firstn_length in E1. lia. }
    rewrite nth_firstn in E1 by exact L. destruct (s2s_nth Z Z al_s _ _ _ _ E1) as (p & h & g & _ & E3 & _). rewrite nth_error_map, E3. reflexivity.
Qed.

(* ---- invariant ---- *)
Definition some_tau (s : loop) (P : (Z -> Z) -> Prop) : Prop := forall tau, mono tau -> agrees tau (states (l_f s)) -> P tau.

Record linv (p : past) (s : loop) (done : list rec) : Prop := {
  v_f : cinv fc (h_f p) (l_f s) done;
  v_pos : Forall (fun x => 0 < fst x) (in_clouds (h_f p));
  v_cov : forall t, In t (states (l_f s)) -> covered (in_imu (h_f p)) t;
  v_bias : match l_odo s with O => f_bias (l_f s) = 0 | S n => nth_error (states (l_f s)) n = Some (f_bias (l_f s)) end;
  v_odo : (l_odo s <= List.length (odoms (y_ev (l_b s))))%nat;
  v_paid : (1 <= paid (l_f s) done)%nat -> (1 <= l_odo s)%nat /\ (paid (l_f s) done <= S (l_odo s))%nat;
  v_b : some_tau s (fun tau => hreach bp c tau (h_b p) (l_b s));
  v_in : forall t, t <> TStereo -> map stamp (on t (h_b p)) = firstn (pget (l_in s) t) (posted s t) /\ (pget (l_in s) t <= List.length (posted s t))%nat;
  v_r : rexec (h_r p) (rinit Z Z) = Some (Ok (l_r s));
  v_scn : map fst (scans Z Z (h_r p)) = firstn (l_scn s) (cloud_stamps (l_f s)) /\ (l_scn s <= List.length (cloud_stamps (l_f s)))%nat;
  v_trn : forall t, In t (map fst (scans Z Z (h_r p))) -> In t (trans (y_ev (l_b s)));
  v_map : maps Z Z (h_r p) = firstn (l_map s) (cloud_stamps (l_f s)) /\ (l_map s <= List.length (cloud_stamps (l_f s)))%nat /\ (l_map s <= List.length (odoms (y_ev (l_b s))))%nat }.

Lemma linv_init : linv (mkPast [] [] []) (loop_init bp c) [].
Proof.
  constructor; cbn; auto.
  - apply cinv_init.
  - intros t [].
  - intros tau M A. constructor.
  - intros [| | | |] N; cbn; auto.
Qed.

Lemma state_pos p s done t : linv p s done -> In t (states (l_f s)) -> 0 < t.
Proof.
  intros V Ht. pose proof (c_t _ _ _ _ (v_f _ _ _ V)) as T. pose proof (c_s _ _ _ _ (v_f _ _ _ V)) as Sn. pose proof (v_pos _ _ _ V) as P. rewrite Forall_forall in P.
  rewrite (states_recs _ _ T) in Ht. apply in_map_iff in Ht. destruct Ht as (r & <- & Hr).
  assert (X : rec_ok r /\ In (rc r) (in_clouds (h_f p))).
  { apply in_app_or in Hr. destruct Hr as [Hr|Hr].
    - pose proof (t_recs _ _ T) as F. rewrite Forall_forall in F. pose proof (sn_done _ _ _ Sn) as G. rewrite Forall_forall in G. auto.
    - pose proof (t_phase _ _ T) as Ph. unfold current, phase_ok in *. destruct (f_pc (l_f s)); try destruct Hr; destruct Ph as (c0 & Ec & _ & Hk); rewrite Ec in Hr; destruct Hr as [<-|[]];
        (split; [exact Hk|]; cbn; apply (sn_prev _ _ _ Sn); exact Ec). }
  destruct X as [X1 X2]. apply P in X2. destruct X1 as [X1 _]. unfold from_pcl in X1. lia.
Qed.

Lemma a_tau s done : tinv (l_f s) done -> exists tau, mono tau /\ agrees tau (states (l_f s)) /\ environment c tau.
Proof.
  intros T. exists (tau_of (states (l_f s))). pose proof (tau_mono _ (states_up _ _ T)) as M. split; [exact M|]. split; [apply tau_agrees|]. destruct Hm as (_ & _ & W & G). split; auto.
Qed.

(* the odometry published so far, in terms of the states announced *)
Lemma odoms_states p s done n k t : linv p s done -> nth_error (odoms (y_ev (l_b s))) n = Some (k, t) -> k = Z.of_nat n /\ nth_error (states (l_f s)) n = Some t.
Proof.
  intros V E. pose proof (c_t _ _ _ _ (v_f _ _ _ V)) as T. destruct (a_tau s done T) as (tau & M & A & He). pose proof (v_b _ _ _ V tau M A) as H.
  destruct (back_view bp c tau He _ _ H) as (K & U & K0 & U0 & EO & ET & FI & FU & FU' & FR).
  assert (L : (n < Z.to_nat (K + 1))%nat). { apply nth_lt in E. rewrite EO, map_length in E. unfold zrange in E. rewrite map_length, seq_length in E. lia. }
  rewrite EO, nth_error_map in E. unfold zrange in E. rewrite nth_error_map in E. rewrite (nth_error_nth' _ 0%nat) in E by (rewrite seq_length; lia). rewrite seq_nth in E by lia. cbn in E. injection E as <- <-. split; [lia|].
  assert (Ls : (n < List.length (states (l_f s)))%nat).
  { destruct (states_spans _ _ T) as [S1 S2]. destruct n as [|n].
    - destruct (v_in _ _ _ V TInit ltac:(discriminate)) as [X1 X2]. assert (X : len (on TInit (h_b p)) = 1) by (apply FI; lia). pose proof (f_equal (@List.length Z) X1) as X3. rewrite map_length, firstn_length in X3. cbn [posted] in *.
      rewrite S2, firstn_length in X3. unfold len in X. lia.
    - destruct (v_in _ _ _ V TImu ltac:(discriminate)) as [X1 X2]. assert (X : K <= len (on TImu (h_b p))) by (apply FU; lia). pose proof (f_equal (@List.length Z) X1) as X3. rewrite map_length, firstn_length in X3. cbn [posted] in *.
      rewrite S1 in X3. destruct (states (l_f s)); cbn in *; unfold len in X; lia. }
  rewrite (nth_error_nth' _ 0) by exact Ls. f_equal. symmetry. replace (0 + Z.of_nat n) with (Z.of_nat n) by lia. apply A. apply nth_error_nth'. exact Ls.
Qed.

(* what the front end is told next *)
Lemma odom_calm p s done k t : linv p s done -> nth_error (odoms (y_ev (l_b s))) (l_odo s) = Some (k, t) -> calm fc (h_f p) (l_f s) (IOdom t).
Proof.
  intros V E. destruct (odoms_states _ _ _ _ _ _ V E) as [-> Es]. pose proof (c_t _ _ _ _ (v_f _ _ _ V)) as T. cbn [calm]. split; [eapply nth_error_In; exact Es|]. split.
  - intros x Hx. assert (Hs : In (from_pcl (fst x)) (cloud_stamps (l_f s))) by (unfold cloud_stamps; apply in_map_iff; exists x; auto).
    apply In_nth_error in Hs. destruct Hs as [i Ei]. destruct (clouds_states _ _ T) as (C1 & C2 & C3 & C4). pose proof (nth_lt _ _ _ Ei) as Li.
    rewrite C1, nth_firstn in Ei by exact Li. destruct (v_paid _ _ _ V ltac:(lia)) as [P1 P2].
    destruct (Nat.eq_dec i (l_odo s)) as [->|NE]; [rewrite Ei in Es; injection Es as ->; lia|]. pose proof (up_nth _ _ _ _ _ (states_up _ _ T) Ei Es ltac:(lia)). lia.
  - apply (v_cov _ _ _ V). eapply nth_error_In; exact Es.
Qed.

(* a step of the front end *)
Lemma front_step p s done i n : linv p s done -> calm fc (h_f p) (l_f s) i -> match i with ICloud u _ => 0 < u | _ => True end ->
  match i with IOdom t => n = S (l_odo s) /\ exists k, nth_error (odoms (y_ev (l_b s))) (l_odo s) = Some (k, t) | _ => n = l_odo s end ->
  exists s', with_f s (fe_step fc (l_f s) i) n = Some (Ok s') /\ linv (mkPast (h_f p ++ [i]) (h_b p) (h_r p)) s' (next_done (l_f s) i done).
Proof.
  intros V C Cu Cn. pose proof (v_f _ _ _ V) as F. destruct (step_calm fc _ _ _ i F C) as (f' & E & F'). unfold with_f. rewrite E. cbn [rbind].
  eexists. split; [reflexivity|]. pose proof (c_t _ _ _ _ F) as T. pose proof (c_t _ _ _ _ F') as T'.
  destruct (fe_grows _ _ _ _ E) as (o & Eo & No). destruct (states_grow _ _ _ _ _ T T' Eo) as [x Ex]. destruct (cloud_grow _ _ _ Eo) as [y Ey].
  assert (Po : forall t, exists z, posted (mkLoop f' (l_r s) (l_b s) (l_in s) n (l_scn s) (l_map s)) t = posted s t ++ z).
  { intros [| | | |]; cbn [posted l_f l_r]; rewrite ?Eo; unfold out_inits, out_spans, out_baros; rewrite ?flat_map_app, ?map_app; eauto; exists []; rewrite ?app_nil_r; reflexivity. }
  constructor; cbn [l_f l_b l_r l_in l_odo l_scn l_map h_f h_b h_r].
  - exact F'.
  - unfold in_clouds. rewrite flat_map_app. apply Forall_app. split; [apply V|]. cbn. rewrite app_nil_r. destruct i; constructor; auto.
  - assert (Sub : forall m, In m (in_imu (h_f p)) -> In m (in_imu (h_f p ++ [i]))) by (intros m Hmm; rewrite in_imu_snoc; apply in_or_app; auto).
    intros t Ht. unfold states in Ht. rewrite Eo in Ht. apply in_announced in Ht. destruct Ht as [Ht|Ht].
    + destruct (v_cov _ _ _ V t Ht) as (m & M1 & M2). exists m. auto.
    + destruct No as [No|(u & sw & new & -> & Ep & No & Hl)]; rewrite No in Ht; [destruct Ht|]. destruct Ht as [<-|[]]. cbn [calm] in C. rewrite Ep in C.
      pose proof (t_phase _ _ T) as Ph. unfold phase_ok in Ph. rewrite Ep in Ph. destruct Ph as ([pu psw] & Ev & _). rewrite Ev in C. destruct C as [(m & M1 & M2) C2]. destruct (f_init (l_f s)) eqn:Ei.
      * destruct (C2 eq_refl) as [_ (m' & M3 & M4)]. exists m'. auto.
      * specialize (Hl eq_refl). rewrite (i_last _ _ (c_i _ _ _ _ F)) in Hl. destruct (lst_in (in_imu (h_f p))) as [v Hv]; [intros N; rewrite N in M1; destruct M1|]. exists (lst (in_imu (h_f p)), v). split; [apply Sub; exact Hv|exact Hl].
  - rewrite (fe_bias _ _ _ _ E). pose proof (v_bias _ _ _ V) as B. destruct i; try (subst n; destruct (l_odo s); [exact B|rewrite Ex; apply nth_keep; exact B]).
    destruct Cn as (-> & k & Hk). destruct (odoms_states _ _ _ _ _ _ V Hk) as [_ X]. rewrite Ex. apply nth_keep. exact X.
  - pose proof (v_odo _ _ _ V) as O. destruct i; try (subst n; exact O). destruct Cn as (-> & k & Hk). apply nth_lt in Hk. lia.
  - assert (Ln : (l_odo s <= n)%nat) by (destruct i; try (subst n; lia); destruct Cn as (-> & _); lia).
    destruct (fe_paid _ _ _ _ _ T E) as [P|(u & sw & new & -> & Ep & Hb & P)]; rewrite P; intros L; [destruct (v_paid _ _ _ V L); lia|]. clear L.
    pose proof (v_bias _ _ _ V) as B. subst n. destruct (l_odo s) as [|q] eqn:Eq.
    + exfalso. assert (Hin : In (f_pst (l_f s)) (states (l_f s))).
      { rewrite (states_recs _ _ T). destruct done as [|r0 d0] eqn:Ed.
        - pose proof (t_start _ _ T eq_refl) as Z0. unfold current in *. rewrite Ep in *. pose proof (t_phase _ _ T) as Ph. unfold phase_ok in Ph. rewrite Ep in Ph. destruct Ph as (c0 & Ec & _). rewrite Ec in *. rewrite Z0. left. reflexivity.
        - assert (N : r0 :: d0 <> []) by discriminate. rewrite (t_pst _ _ T r0 N). rewrite map_app. apply in_or_app. left. apply in_map. destruct (exists_last N) as (d & r & Ex'). rewrite Ex', last_last. apply in_or_app. right. left. reflexivity. }
      apply (state_pos _ _ _ _ V) in Hin. lia.
    + split; [lia|]. rewrite Hb in B. unfold paid. rewrite Ep. destruct done as [|r0 d0] eqn:Ed; [cbn; lia|]. rewrite <- Ed in *.
      assert (N : done <> []) by (rewrite Ed; discriminate). assert (B2 : nth_error (states (l_f s)) (List.length done - 1) = Some (f_pst (l_f s))).
      { rewrite (states_recs _ _ T), map_app. apply nth_keep. rewrite nth_error_map, (last_nth_error _ r0 N). cbn. f_equal. symmetry. apply (t_pst _ _ T r0 N). }
      pose proof (up_inj _ _ _ _ (states_up _ _ T) B B2). destruct done; [congruence|]. cbn in *. lia.
  - intros tau M A. cbn [l_f] in A. rewrite Ex in A. apply (v_b _ _ _ V tau M). apply (agrees_app _ _ _ A).
  - intros t Nt. destruct (Po t) as [z Ez]. destruct (v_in _ _ _ V t Nt) as [V1 V2]. cbn [l_in]. rewrite Ez, app_length. split; [rewrite firstn_keep by exact V2; exact V1|lia].
  - apply V.
  - destruct (v_scn _ _ _ V) as [S1 S2]. rewrite Ey, app_length. split; [rewrite firstn_keep by exact S2; exact S1|lia].
  - apply V.
  - destruct (v_map _ _ _ V) as (S1 & S2 & S3). rewrite Ey, app_length. split; [rewrite firstn_keep by exact S2; exact S1|lia].
Qed.

(* ---- a step of registration ---- *)
Lemma posted_reg s x b i o n m t : t <> TReg -> posted (mkLoop (l_f s) x b i o n m) t = posted s t.
Proof. intros N. destruct t; try reflexivity. congruence. Qed.

Lemma reg_step p s done l r n m : linv p s done -> rstep l (l_r s) = Some r ->
  (map fst (scans Z Z (h_r p ++ [l])) = firstn n (cloud_stamps (l_f s)) /\ (n <= List.length (cloud_stamps (l_f s)))%nat) ->
  (forall t, In t (map fst (scans Z Z (h_r p ++ [l]))) -> In t (trans (y_ev (l_b s)))) ->
  (maps Z Z (h_r p ++ [l]) = firstn m (cloud_stamps (l_f s)) /\ (m <= List.length (cloud_stamps (l_f s)))%nat /\ (m <= List.length (odoms (y_ev (l_b s))))%nat) ->
  exists s', with_r s (Some r) n m = Some (Ok s') /\ linv (mkPast (h_f p) (h_b p) (h_r p ++ [l])) s' done.
Proof.
  intros V E H1 H2 H3. pose proof (v_r _ _ _ V) as R. assert (E2 : rexec (h_r p ++ [l]) (rinit Z Z) = Some r) by (rewrite rexec_snoc, R; exact E).
  destruct (reg_safe _ _ E2) as [st ->]. cbn. eexists. split; [reflexivity|]. destruct (reg_grows _ _ _ E) as [x Ex].
  constructor; cbn [l_f l_b l_r l_in l_odo l_scn l_map h_f h_b h_r]; try apply V; auto.
  intros t Nt. destruct (v_in _ _ _ V t Nt) as [V1 V2]. destruct t; try (split; [exact V1|exact V2]). cbn [posted l_r pget l_in] in *. rewrite Ex, map_app, app_length. split; [rewrite firstn_keep by exact V2; exact V1|lia].
Qed.

(* ---- a step of the back end ---- *)
Lemma ev_grows b a b' : sys_step bp c b a = Some b' -> exists l, y_ev b' = y_ev b ++ l.
Proof.
  assert (N : exists l, y_ev b = y_ev b ++ l) by (exists []; rewrite app_nil_r; reflexivity).
  destruct a as [m|t|t|t|]; cbn [sys_step]; intros E.
  - destruct (subscribed _ _); [|discriminate]. injection E as <-. exact N.
  - destruct (pget (y_ctl b) t), (pget (y_q b) t); try discriminate. destruct (worker_free c b); [|discriminate]. injection E as <-. exact N.
  - destruct (pget (y_ctl b) t), (y_mutex b); try discriminate. injection E as <-. exact N.
  - destruct (pget (y_ctl b) t) as [|?|m l|m p|]; try discriminate; injection E as <-; [exact N|]. destruct p as [o| |op k|k|e k]; cbn [micro]; try exact N; try (destruct o; exact N).
    + destruct (gm_step bp (y_g b) op) as [g0 r0]. destruct r0; exact N.
    + cbn. eauto.
  - injection E as <-. exact N.
Qed.

Lemma back_step p s done b' h i : linv p s done -> (exists a, sys_step bp c (l_b s) a = Some b') ->
  some_tau s (fun tau => hreach bp c tau h b') ->
  (forall t, t <> TStereo -> map stamp (on t h) = firstn (pget i t) (posted s t) /\ (pget i t <= List.length (posted s t))%nat) ->
  linv (mkPast (h_f p) h (h_r p)) (mkLoop (l_f s) (l_r s) b' i (l_odo s) (l_scn s) (l_map s)) done.
Proof.
  intros V [a E] H1 H2. destruct (ev_grows _ _ _ E) as [l El].
  constructor; cbn [l_f l_b l_r l_in l_odo l_scn l_map h_f h_b h_r]; try apply V; auto.
  - rewrite El, odoms_app, app_length. pose proof (v_odo _ _ _ V). lia.
  - intros t Ht. rewrite El, trans_app. apply in_or_app. left. apply (v_trn _ _ _ V t Ht).
  - rewrite El, odoms_app, app_length. destruct (v_map _ _ _ V) as (M1 & M2 & M3). conj; auto. lia.
Qed.

Lemma on_len p s done t : linv p s done -> t <> TStereo -> len (on t (h_b p)) = Z.of_nat (pget (l_in s) t).
Proof.
  intros V N. destruct (v_in _ _ _ V t N) as [X1 X2]. pose proof (f_equal (@List.length Z) X1) as X. rewrite map_length, firstn_length in X. unfold len. lia.
Qed.
Lemma tid_eqb_eq a b : tid_eqb a b = true <-> a = b. Proof. destruct a, b; cbn; split; congruence. Qed.

(* the message at the head of its topic is one the back end can take *)
Lemma send_allowed p s done m tau : linv p s done -> mono tau -> agrees tau (states (l_f s)) -> subscribed c (msg_tid m) = true -> next_on s m = true -> fine fc p s (LSend m) ->
  allowed tau (h_b p) (y_ev (l_b s)) m.
Proof.
  intros V M A Sb Nx [Nm Fm]. pose proof (c_t _ _ _ _ (v_f _ _ _ V)) as T. destruct (states_spans _ _ T) as [S1 S2].
  assert (X : forall t, msg_tid m = t -> t <> TStereo -> nth_error (posted s t) (pget (l_in s) t) = Some (stamp m)).
  { intros t <- Nt. unfold next_on in Nx. destruct m; cbn in Nt; try congruence; (destruct (nth_error (posted s _) _) eqn:E0; [|discriminate]; apply Z.eqb_eq in Nx; subst; reflexivity). }
  destruct m as [t q bq eq sp sv nz n|t q ne pr fi n|t q va ze n|t f ba q n|t q vp nz n]; cbn [msg_tid stamp] in X; cbn [subscribed msg_tid] in Sb.
  - specialize (X TInit eq_refl ltac:(discriminate)). cbn [posted] in X. rewrite S2 in X. pose proof (on_len _ _ _ TInit V ltac:(discriminate)) as L.
    destruct (pget (l_in s) TInit) as [|q'] eqn:Ei; [|destruct (states (l_f s)); [discriminate|destruct q'; discriminate]].
    cbn [numerics_ok] in Nm. split.
    + cbn [msg_ok]. split; [|exact Nm]. symmetry. apply (A 0%nat). destruct (states (l_f s)); [discriminate|exact X].
    + destruct (on TInit (h_b p)); [reflexivity|discriminate].
  - specialize (X TImu eq_refl ltac:(discriminate)). cbn [posted] in X. rewrite S1 in X. pose proof (on_len _ _ _ TImu V ltac:(discriminate)) as L.
    assert (X' : nth_error (states (l_f s)) (S (pget (l_in s) TImu)) = Some t) by (destruct (states (l_f s)); [destruct (pget (l_in s) TImu); discriminate|exact X]).
    split; [exact Nm|]. cbn [allowed]. rewrite L. split; [rewrite <- (A _ _ X'); f_equal; lia|]. split; [rewrite <- L; exact Fm|].
    destruct (clouds_states _ _ T) as (_ & C2 & C3 & _). pose proof (nth_lt _ _ _ X'). destruct (v_paid _ _ _ V) as [P1 _]; [lia|]. pose proof (v_odo _ _ _ V) as O. destruct (odoms (y_ev (l_b s))); [cbn in O; lia|discriminate].
  - specialize (X TReg eq_refl ltac:(discriminate)). cbn [posted] in X. pose proof (on_len _ _ _ TReg V ltac:(discriminate)) as L.
    apply (reg_nth _ _ _ _ (v_r _ _ _ V)) in X. split; [exact Nm|]. cbn [allowed]. split; [|apply (v_trn _ _ _ V); eapply nth_error_In; exact X].
    destruct (v_scn _ _ _ V) as [V1 V2]. rewrite V1 in X. pose proof (nth_lt _ _ _ X) as Lx. rewrite firstn_length in Lx. rewrite nth_firstn in X by lia. destruct (clouds_states _ _ T) as (C1 & _). rewrite C1, nth_firstn in X by lia. rewrite L, <- (A _ _ X). f_equal. lia.
  - split; [exact Nm|exact Fm].
  - specialize (X TBaro eq_refl ltac:(discriminate)). cbn [posted] in X. split; [exact Nm|]. cbn [allowed].
    destruct Hm as (_ & Hb & _). destruct (c_b _ _ _ _ (v_f _ _ _ V)) as (_ & Bv & _); [congruence|]. pose proof (bv_ts _ _ _ _ Bv) as Bt.
    assert (E : forall i u, nth_error (map fst (out_baros (f_out (l_f s)))) i = Some u -> nth_error (states (l_f s)) i = Some u).
    { intros i u Hu. rewrite (states_recs _ _ T), map_app. apply nth_keep. rewrite Bt. apply nth_keep. exact Hu. }
    exists (Z.of_nat (pget (l_in s) TBaro)). split; [lia|]. split; [symmetry; apply A; apply E; exact X|].
    intros m' Hm'. apply (in_map stamp) in Hm'. destruct (v_in _ _ _ V TBaro ltac:(discriminate)) as [V1 V2]. rewrite V1 in Hm'. apply In_nth_error in Hm'. destruct Hm' as [j Hj]. pose proof (nth_lt _ _ _ Hj) as Lj. rewrite firstn_length in Lj. rewrite nth_firstn in Hj by lia. cbn [posted] in Hj.
    eapply up_nth; [apply (states_up _ _ T)|apply E; exact Hj|apply E; exact X|lia].
Qed.

(* ---- all steps ---- *)
Lemma linv_step p s done a r : linv p s done -> fine fc p s a -> lstep s a = Some r -> exists s' done', r = Ok s' /\ linv (note s a p) s' done'.
Proof.
  intros V F E. destruct a as [i| | |m|g| |l|a]; cbn [lstep note] in *.
  - destruct (sensor i) eqn:Es; [|discriminate]. destruct F as [F1 F2]. destruct (front_step _ _ _ i (l_odo s) V F1 F2) as (s' & E' & V'); [destruct i; try reflexivity; discriminate|]. rewrite E' in E. injection E as <-. eauto.
  - cbn in F. destruct (front_step _ _ _ IPoll (l_odo s) V F I eq_refl) as (s' & E' & V'). rewrite E' in E. injection E as <-. eauto.
  - destruct (nth_error (odoms (y_ev (l_b s))) (l_odo s)) as [[k t]|] eqn:En; [|discriminate]. destruct (front_step _ _ _ (IOdom t) (S (l_odo s)) V (odom_calm _ _ _ _ _ V En) I) as (s' & E' & V'); [eauto|]. rewrite E' in E. injection E as <-. eauto.
  - destruct (next_on s m) eqn:Nx; [|discriminate]. destruct (sys_step bp c (l_b s) (ADeliver m)) as [b'|] eqn:Ed; [|discriminate]. cbn in E. injection E as <-. eexists _, done. split; [reflexivity|].
    assert (Sb : subscribed c (msg_tid m) = true) by (cbn in Ed; destruct (subscribed c (msg_tid m)); [reflexivity|discriminate]).
    apply back_step; eauto.
    + intros tau M A. eapply h_deliver; [apply (v_b _ _ _ V tau M A)|apply (send_allowed _ _ _ _ _ V M A Sb Nx F)|exact Ed].
    + intros t Nt. unfold on. rewrite filter_app. cbn [filter]. destruct (v_in _ _ _ V t Nt) as [V1 V2]. destruct (tid_eqb (msg_tid m) t) eqn:Et.
      * apply tid_eqb_eq in Et. subst t. rewrite pget_upd_eq, map_app. cbn [map]. unfold on in V1. rewrite V1. unfold next_on in Nx.
        assert (Hn : nth_error (posted s (msg_tid m)) (pget (l_in s) (msg_tid m)) = Some (stamp m)).
        { destruct m; cbn in Nt; try congruence; (destruct (nth_error (posted s _) _) eqn:E0; [|discriminate]; apply Z.eqb_eq in Nx; subst; reflexivity). }
        split; [symmetry; apply firstn_next; exact Hn|]. apply nth_lt in Hn. lia.
      * assert (Ne : t <> msg_tid m) by (intros ->; destruct (msg_tid m); discriminate). rewrite pget_upd_ne by exact Ne. rewrite app_nil_r. split; [exact V1|exact V2].
  - destruct (nth_error (cloud_stamps (l_f s)) (l_scn s)) as [t|] eqn:En; [|discriminate]. destruct (existsb (Z.eqb t) (trans (y_ev (l_b s)))) eqn:Ex; [|discriminate].
    apply existsb_exists in Ex. destruct Ex as (t' & Ht & Eq). apply Z.eqb_eq in Eq. subst t'.
    destruct (rstep (InS Z Z t g) (l_r s)) as [r0|] eqn:Er; [|discriminate]. destruct (v_scn _ _ _ V) as [V1 V2].
    destruct (reg_step _ _ _ _ _ (S (l_scn s)) (l_map s) V Er) as (s' & E' & V').
    + unfold scans. rewrite flat_map_app, map_app. cbn [flat_map map app fst]. unfold scans in V1. rewrite V1, (firstn_next _ _ _ En). split; [reflexivity|]. apply nth_lt in En. lia.
    + intros u Hu. unfold scans in Hu. rewrite flat_map_app, map_app in Hu. apply in_app_or in Hu. destruct Hu as [Hu|[<-|[]]]; [apply (v_trn _ _ _ V u Hu)|exact Ht].
    + unfold maps. rewrite flat_map_app. cbn. rewrite app_nil_r. apply V.
    + rewrite E' in E. injection E as <-. eauto.
  - destruct (nth_error (cloud_stamps (l_f s)) (l_map s)) as [t|] eqn:En; [|discriminate]. destruct (nth_error (odoms (y_ev (l_b s))) (l_map s)) as [o|] eqn:Eo; [|discriminate].
    destruct (rstep (InM Z Z t) (l_r s)) as [r0|] eqn:Er; [|discriminate]. destruct (v_map _ _ _ V) as (V1 & V2 & V3).
    destruct (reg_step _ _ _ _ _ (l_scn s) (S (l_map s)) V Er) as (s' & E' & V').
    + unfold scans. rewrite flat_map_app, map_app. cbn. rewrite app_nil_r. apply V.
    + unfold scans. rewrite flat_map_app, map_app. cbn. rewrite app_nil_r. apply V.
    + unfold maps. rewrite flat_map_app. cbn [flat_map map app fst]. unfold maps in V1. rewrite V1, (firstn_next _ _ _ En). apply nth_lt in En. apply nth_lt in Eo. conj; auto; lia.
    + rewrite E' in E. injection E as <-. eauto.
  - destruct (works l) eqn:W; [|discriminate]. destruct (rstep l (l_r s)) as [r0|] eqn:Er; [|discriminate].
    assert (Q1 : scans Z Z (h_r p ++ [l]) = scans Z Z (h_r p)) by (unfold scans; rewrite flat_map_app; destruct l; try discriminate; cbn; apply app_nil_r).
    assert (Q2 : maps Z Z (h_r p ++ [l]) = maps Z Z (h_r p)) by (unfold maps; rewrite flat_map_app; destruct l; try discriminate; cbn; apply app_nil_r).
    destruct (reg_step _ _ _ _ _ (l_scn s) (l_map s) V Er) as (s' & E' & V'); rewrite ?Q1, ?Q2; try apply V. rewrite E' in E. injection E as <-. eauto.
  - destruct (internalb a) eqn:Ia; [|discriminate]. destruct (sys_step bp c (l_b s) a) as [b'|] eqn:Ed; [|discriminate]. cbn in E. injection E as <-. eexists _, done. split; [reflexivity|].
    destruct p as [pf pb pr]. apply (back_step (mkPast pf pb pr) s done b' pb (l_in s)); eauto; [|apply V]. intros tau M A. eapply h_step with (a := a); [apply (v_b _ _ _ V tau M A)|destruct a; try discriminate; exact I|exact Ed].
Qed.

Lemma lreach_inv p s : lreach bp al_s al_m fc c s2m p s -> exists done, linv p s done.
Proof.
  induction 1 as [|p s a s' H IH F E]; [exists []; apply linv_init|]. destruct IH as [done V]. destruct (linv_step _ _ _ _ _ V F E) as (s1 & done' & [= <-] & V'). eauto.
Qed.
End Inv.
