(* Failure behaviour of the back end, contents of its publications, and deadlock with too few workers. *)
From Verif Require Import Base GmModel GmSpec GmInv GmProofs GmFactors GmValues GmHist GmKeys GmStereo GmIds GmReady.
From Verif Require Import BeModel BeSpec BeProofs BeEff BeAbs BeInv BeSect BeHealthy BeLive BeFair.

Section More.
Variable bp : Z -> Z -> Z -> Z -> Z.
Variable c : config.

(* ---- the mutex after a failed callback ---- *)
Lemma finish_fields s t m o : y_g (finish s t m o) = y_g s /\ y_log (finish s t m o) = y_log s /\ y_ev (finish s t m o) = y_ev s.
Proof. destruct o; auto. Qed.

(* a mutex left locked is never acquired again: graph, calls and publications are frozen *)
Lemma leaked_step s a s' t : excl bp s -> y_mutex s = Some t -> pget (y_ctl s) t = CFail true -> sys_step bp c s a = Some s' ->
  y_mutex s' = Some t /\ pget (y_ctl s') t = CFail true /\ y_g s' = y_g s /\ y_log s' = y_log s /\ y_ev s' = y_ev s.
Proof.
  intros X Hm Hc. destruct a as [m|t'|t'|t'|]; cbn.
  - destruct (subscribed c (msg_tid m)); [|discriminate]. intros [= <-]. auto.
  - destruct (tid_dec t t') as [<-|N]; [rewrite Hc; discriminate|].
    destruct (pget (y_ctl s) t'); try discriminate. destruct (pget (y_q s) t'); try discriminate. destruct (worker_free c s); [|discriminate].
    intros [= <-]. cbn [y_ctl y_mutex y_g y_log y_ev]. rewrite pget_upd_ne by exact N. auto.
  - rewrite Hm. destruct (pget (y_ctl s) t'); discriminate.
  - destruct (tid_dec t t') as [<-|N]; [rewrite Hc; discriminate|].
    destruct (pget (y_ctl s) t') eqn:E; try discriminate; exfalso.
    + assert (y_mutex s = Some t') by (apply (ex_owner _ _ X); rewrite E; exact I). congruence.
    + assert (y_mutex s = Some t') by (apply (ex_owner _ _ X); rewrite E; exact I). congruence.
  - intros [= <-]. auto.
Qed.
Lemma leaked_forever t : forall acts s s', excl bp s -> y_mutex s = Some t -> pget (y_ctl s) t = CFail true -> sys_run bp c s acts = Some s' ->
  y_mutex s' = Some t /\ y_g s' = y_g s /\ y_log s' = y_log s /\ y_ev s' = y_ev s.
Proof.
  induction acts as [|a acts IH]; intros s s' X Hm Hc E.
  - injection E as <-. auto.
  - cbn [sys_run] in E. destruct (sys_step bp c s a) as [s1|] eqn:E1; [|discriminate].
    destruct (leaked_step _ _ _ _ X Hm Hc E1) as (M1 & C1 & G1 & L1 & V1).
    destruct (IH s1 s' (step_excl _ _ _ _ _ X E1) M1 C1 E) as (M2 & G2 & L2 & V2). conj; congruence.
Qed.

(* a callback only ever handles messages of its own topic *)
Definition own (s : sys) : Prop := forall t m, In m (pend s t) -> msg_tid m = t.
Definition guarded (t : tid) : bool := match t with TInit | TReg => true | _ => false end.
(* callbacks guarded by a lock_guard never leave the mutex locked *)
Definition clean (s : sys) : Prop := forall t, guarded t = true ->
  match pget (y_ctl s) t with CFail lk => lk = false | CRun m p => raii m = true | _ => True end.

(* no path of the program returns with the mutex locked *)
Inductive noleak : prog -> Prop :=
| nl_ret o : o <> OLeak -> noleak (PRet o)
| nl_throw : noleak PThrow
| nl_call op p : noleak p -> noleak (PCall op p)
| nl_read k : (forall g, noleak (k g)) -> noleak (PRead k)
| nl_emit e p : noleak p -> noleak (PEmit e p).
Lemma noleak_rd {A} (q : igm -> res A) k : (forall a, noleak (k a)) -> noleak (rd q k).
Proof. intros H. constructor. intros g. destruct (q g); auto using noleak. Qed.
Ltac nl := repeat first
  [ match goal with |- noleak (if ?b then _ else _) => destruct b end
  | match goal with |- noleak (match ?b with Some _ => _ | None => _ end) => destruct b end
  | apply noleak_rd; intros ? | apply nl_call | apply nl_emit | apply nl_throw
  | apply nl_read; intros ? | (apply nl_ret; discriminate) | progress cbv beta ].
Lemma noleak_publish k p : noleak p -> noleak (p_publish c k p).
Proof. intros H. unfold p_publish. nl; exact H. Qed.
Lemma noleak_optimise n k p : noleak p -> noleak (p_optimise n k p).
Proof. intros H. unfold p_optimise. nl. exact H. Qed.
Lemma noleak_velocity n nm p : noleak p -> noleak (p_velocity n nm p).
Proof. intros H. unfold p_velocity. nl. exact H. Qed.
Lemma noleak_section ok m l : guarded (msg_tid m) = true -> noleak (section c ok m l).
Proof.
  destruct m; cbn; try discriminate; intros _.
  - unfold p_init, p_opt_pub. nl; apply noleak_optimise; apply noleak_publish; constructor; discriminate.
  - unfold p_reg. nl; apply noleak_optimise; try apply noleak_velocity; apply noleak_publish; constructor; discriminate.
Qed.

Record tidy (s : sys) : Prop := {
  td_own : own s;
  td_leak : forall t, guarded t = true -> match pget (y_ctl s) t with CFail lk => lk = false | CRun m p => noleak p | _ => True end }.

Lemma raii_guarded m : raii m = guarded (msg_tid m). Proof. destruct m; reflexivity. Qed.

Lemma tidy_upd s t x g log ev mu q' : tidy s ->
  (forall m, In m (ctl_msgs x ++ pget q' t) -> msg_tid m = t) -> (forall t', t' <> t -> pget q' t' = pget (y_q s) t') ->
  (guarded t = true -> match x with CFail lk => lk = false | CRun m p => noleak p | _ => True end) ->
  forall ok, tidy (mkSys g log ev mu (upd (y_ctl s) t x) q' ok).
Proof.
  intros [HO HL] Hm Hq Hx ok. constructor.
  - intros t' m Hin. unfold pend in Hin. cbn [y_ctl y_q] in Hin. destruct (tid_dec t' t) as [->|N].
    + rewrite pget_upd_eq in Hin. auto.
    + rewrite pget_upd_ne in Hin by exact N. rewrite Hq in Hin by exact N. apply HO. exact Hin.
  - intros t' Ht'. cbn [y_ctl]. destruct (tid_dec t' t) as [->|N]; [rewrite pget_upd_eq; exact (Hx Ht')|rewrite pget_upd_ne by exact N; exact (HL t' Ht')].
Qed.

Lemma tidy_step s a s' : tidy s -> sys_step bp c s a = Some s' -> tidy s'.
Proof.
  intros T. pose proof T as [HO HL]. destruct a as [m|t|t|t|]; cbn.
  - destruct (subscribed c (msg_tid m)); [|discriminate]. intros [= <-]. constructor.
    + intros t' m' Hin. unfold pend in Hin. cbn [y_ctl y_q] in Hin. destruct (tid_dec t' (msg_tid m)) as [->|N].
      * rewrite pget_upd_eq in Hin. rewrite app_assoc in Hin. apply in_app_or in Hin. destruct Hin as [Hin|[->|[]]]; [apply HO; exact Hin|reflexivity].
      * rewrite pget_upd_ne in Hin by exact N. apply HO. exact Hin.
    + exact HL.
  - destruct (pget (y_ctl s) t) eqn:Ec; try discriminate. destruct (pget (y_q s) t) as [|m q] eqn:Eq; try discriminate. destruct (worker_free c s); [|discriminate].
    intros [= <-]. apply tidy_upd; auto.
    + intros m' Hin. rewrite pget_upd_eq in Hin. apply HO. unfold pend. rewrite Ec, Eq. cbn [ctl_msgs app]. destruct (prelude_ok m); cbn in Hin; [exact Hin|right; exact Hin].
    + intros t' N. apply pget_upd_ne. exact N.
    + intros _. destruct (prelude_ok m); auto.
  - destruct (pget (y_ctl s) t) as [|m l| | |] eqn:Ec; try discriminate. destruct (y_mutex s); [discriminate|]. intros [= <-]. apply tidy_upd; auto.
    intros m' Hin. apply HO. unfold pend. rewrite Ec. exact Hin.
  - destruct (pget (y_ctl s) t) as [| |m l|m p|] eqn:Ec; try discriminate; intros [= <-].
    + assert (Hm : msg_tid m = t) by (apply HO; unfold pend; rewrite Ec; left; reflexivity).
      apply tidy_upd; auto.
      * intros m' Hin. apply HO. unfold pend. rewrite Ec. exact Hin.
      * intros Hg. apply noleak_section. rewrite Hm. exact Hg.
    + assert (Hm : msg_tid m = t) by (apply HO; unfold pend; rewrite Ec; left; reflexivity).
      assert (Hin : forall x, ctl_msgs x = [m] \/ ctl_msgs x = [] -> forall m', In m' (ctl_msgs x ++ pget (y_q s) t) -> msg_tid m' = t).
      { intros x Hx m' Hin. apply HO. unfold pend. rewrite Ec. destruct Hx as [Hx|Hx]; rewrite Hx in Hin; [exact Hin|right; exact Hin]. }
      pose proof (HL t) as HLt. rewrite Ec in HLt.
      assert (Hthrow : forall g log ev ct, ct = y_ctl s -> tidy (throws (mkSys g log ev (y_mutex s) ct (y_q s) (y_ok s)) t m)).
      { intros g log ev ct ->. unfold throws. cbn [y_g y_log y_ev y_mutex y_ctl y_q y_ok]. apply tidy_upd; auto.
        - apply Hin. right. reflexivity.
        - intros Hg. rewrite raii_guarded, Hm, Hg. reflexivity. }
      destruct p as [o| |op k|k|e k]; cbn [micro].
      * destruct o; cbn [finish]; apply tidy_upd; auto; try (apply Hin; auto; right; reflexivity).
        intros Hg. specialize (HLt Hg). inversion HLt. congruence.
      * specialize (Hthrow (y_g s) (y_log s) (y_ev s) _ eq_refl). destruct s; exact Hthrow.
      * destruct (gm_step bp (y_g s) op) as [g [a0| |]].
        -- apply tidy_upd; auto; [apply Hin; left; reflexivity|]. intros Hg. specialize (HLt Hg). inversion HLt. assumption.
        -- specialize (Hthrow g (y_log s ++ [op]) (y_ev s) _ eq_refl). unfold throws in *. cbn [y_g y_log y_ev y_mutex y_ctl y_q y_ok] in *. rewrite upd_upd. exact Hthrow.
        -- specialize (Hthrow g (y_log s ++ [op]) (y_ev s) _ eq_refl). unfold throws in *. cbn [y_g y_log y_ev y_mutex y_ctl y_q y_ok] in *. rewrite upd_upd. exact Hthrow.
      * apply tidy_upd; auto; [apply Hin; left; reflexivity|]. intros Hg. specialize (HLt Hg). inversion HLt. auto.
      * apply tidy_upd; auto; [apply Hin; left; reflexivity|]. intros Hg. specialize (HLt Hg). inversion HLt. assumption.
  - intros [= <-]. exact (Build_tidy (mkSys (y_g s) (y_log s) (y_ev s) (y_mutex s) (y_ctl s) (y_q s) false) HO HL).
Qed.
Lemma tidy_run acts : forall s s', tidy s -> sys_run bp c s acts = Some s' -> tidy s'.
Proof.
  induction acts as [|a acts IH]; intros s s' T E; [injection E as <-; exact T|].
  cbn [sys_run] in E. destruct (sys_step bp c s a) as [s1|] eqn:E1; [|discriminate]. eapply IH; [|exact E]. eapply tidy_step; eauto.
Qed.
Lemma tidy_reachable s : reachable bp c s -> tidy s.
Proof.
  intros [acts E]. eapply tidy_run; [|exact E]. constructor.
  - intros t m Hin. destruct t; destruct Hin.
  - intros t _. destruct t; exact I.
Qed.

(* who can leave the mutex locked *)
Lemma who_leaks s t : reachable bp c s -> y_mutex s = Some t -> in_section (pget (y_ctl s) t) \/ (pget (y_ctl s) t = CFail true /\ (t = TImu \/ t = TStereo \/ t = TBaro)).
Proof.
  intros R Hm. pose proof (reachable_excl _ _ _ R) as X. destruct (ex_held _ _ X t Hm) as [H|H]; [auto|right]. split; [exact H|].
  pose proof (td_leak _ (tidy_reachable _ R) t) as L. rewrite H in L. destruct t; auto; cbn in L; specialize (L eq_refl); discriminate.
Qed.

(* ---- registration covariance check, OP 277-280 ---- *)
Lemma reg_valid_throws ok l t tf ze n g log ev : exists g' log',
  prun bp (section c ok (MReg t tf true ze n) l) g log ev = (g', log', ev, RThrow) /\ crts FBetweenPose log' = crts FBetweenPose log.
Proof.
  assert (Hop : crts FBetweenPose (log ++ [OIncrement "reg"]) = crts FBetweenPose log) by (rewrite crts_app; cbn; apply app_nil_r).
  cbn [section]. unfold p_reg. cbn [prun].
  destruct (gm_step bp g (OIncrement "reg")) as [g1 [a| |]]; [|exists g1, (log ++ [OIncrement "reg"]); auto|exists g1, (log ++ [OIncrement "reg"]); auto].
  unfold rd at 1. cbn [prun]. destruct (q_key "reg" 0 g1) as [k| |]; cbn [prun]; [|exists g1, (log ++ [OIncrement "reg"]); auto|exists g1, (log ++ [OIncrement "reg"]); auto].
  unfold rd at 1. cbn [prun]. destruct (q_ts k g1) as [tk| |]; cbn [prun]; [|exists g1, (log ++ [OIncrement "reg"]); auto|exists g1, (log ++ [OIncrement "reg"]); auto].
  destruct (negb (tk =? t)); exists g1, (log ++ [OIncrement "reg"]); auto.
Qed.

(* ---- contents of the published messages ---- *)
(* the path message for key k: time stamp and pose of every key from 0 to k *)
Definition path_of (g : igm) (k : Z) (l : list (Z * Z)) : Prop :=
  len l = Z.max 0 (k + 1) /\ forall i, 0 <= i <= k -> exists t p, nth_error l (Z.to_nat i) = Some (t, p) /\ gm_timestamp i (i_gm g) = Ok t /\ gm_get SymX i (i_gm g) = Ok p.
(* what a published message has to do with the state held by the graph manager g for key k *)
Definition shows (g : igm) (k : Z) (e : event) : Prop :=
  match e with
  | EOdom k' t p v => k' = k /\ gm_timestamp k (i_gm g) = Ok t /\ gm_get SymX k (i_gm g) = Ok p /\ gm_get SymV k (i_gm g) = Ok v
  | EBias t b => gm_timestamp k (i_gm g) = Ok t /\ gm_get SymB k (i_gm g) = Ok b
  | EPath l => path_of g k l
  | EPoints l => gm_stereo_landmarks (-1) (i_gm g) = Ok l
  | ETransform _ => False
  end.
(* publications of one section: transforms, then the state of one key *)
Definition current (g : igm) (evs : list event) : Prop :=
  exists k trs pub, evs = map ETransform trs ++ pub /\ Forall (shows g k) pub.

Lemma path_loop_spec g : forall n a l, path_loop g (zrange a (a + Z.of_nat n - 1)) = Ok l ->
  List.length l = n /\ forall i, (i < n)%nat -> exists t p, nth_error l i = Some (t, p) /\ gm_timestamp (a + Z.of_nat i) (i_gm g) = Ok t /\ gm_get SymX (a + Z.of_nat i) (i_gm g) = Ok p.
Proof.
  induction n as [|n IH]; intros a l.
  - rewrite zrange_nil by lia. cbn. intros [= <-]. split; [reflexivity|intros i Hi; lia].
  - rewrite zrange_cons by lia. cbn [path_loop].
    destruct (gm_timestamp a (i_gm g)) as [t| |] eqn:E1; cbn [rbind]; try discriminate.
    destruct (gm_get SymX a (i_gm g)) as [p| |] eqn:E2; cbn [rbind]; try discriminate.
    replace (a + Z.of_nat (S n) - 1) with ((a + 1) + Z.of_nat n - 1) by lia.
    destruct (path_loop g (zrange (a + 1) (a + 1 + Z.of_nat n - 1))) as [l'| |] eqn:E3; cbn [rbind]; try discriminate.
    intros [= <-]. destruct (IH _ _ E3) as [H1 H2]. split; [cbn; lia|]. intros [|i] Hi.
    + exists t, p. replace (a + Z.of_nat 0) with a by lia. auto.
    + destruct (H2 i ltac:(lia)) as (t' & p' & H). exists t', p'. replace (a + Z.of_nat (S i)) with (a + 1 + Z.of_nat i) by lia. exact H.
Qed.
Lemma q_path_of g k l : q_path k g = Ok l -> path_of g k l.
Proof.
  unfold q_path. intros E. destruct (Z.lt_ge_cases k 0) as [L|L].
  - rewrite zrange_nil in E by lia. injection E as <-. split; [cbn; lia|intros i Hi; lia].
  - replace k with (0 + Z.of_nat (Z.to_nat (k + 1)) - 1) in E by lia. apply path_loop_spec in E. destruct E as [E1 E2].
    split; [unfold len; lia|]. intros i Hi. destruct (E2 (Z.to_nat i) ltac:(lia)) as (t & p & H). exists t, p. replace (0 + Z.of_nat (Z.to_nat i)) with i in H by lia. exact H.
Qed.

(* programs in which publishing the state is the last thing done *)
Inductive tailpub : prog -> Prop :=
| tp_call op p : tailpub p -> tailpub (PCall op p)
| tp_read k : (forall g, tailpub (k g)) -> tailpub (PRead k)
| tp_trans t p : tailpub p -> tailpub (PEmit (ETransform t) p)
| tp_throw : tailpub PThrow
| tp_ret o : tailpub (PRet o)
| tp_pub k o : tailpub (p_publish c k (PRet o)).

Lemma tailpub_rd {A} (q : igm -> res A) k : (forall a, tailpub (k a)) -> tailpub (rd q k).
Proof. intros H. constructor. intros g. destruct (q g); auto using tailpub. Qed.

Lemma publish_current k o : forall g log ev g' log' ev' r, prun bp (p_publish c k (PRet o)) g log ev = (g', log', ev', r) ->
  exists pub, ev' = ev ++ pub /\ Forall (shows g' k) pub /\
    (r <> RThrow -> exists t p v b l, pub = [EOdom k t p v; EBias t b; EPath l] ++ (if c_points c then match gm_stereo_landmarks (-1) (i_gm g') with Ok q => [EPoints q] | _ => [] end else [])).
Proof.
  intros g log ev g' log' ev' r.
  set (P := fun pub => Forall (shows g k) pub).
  set (Full := fun pub => exists t p v b l, pub = [EOdom k t p v; EBias t b; EPath l] ++ (if c_points c then match gm_stereo_landmarks (-1) (i_gm g) with Ok q => [EPoints q] | _ => [] end else [])).
  assert (Rd : forall A (q : igm -> res A) K pre, P pre -> (forall a, q g = Ok a -> forall pre', pre' = pre -> forall g' log' ev' r, prun bp (K a) g log (ev ++ pre') = (g', log', ev', r) -> g' = g /\ exists pub, ev' = ev ++ pub /\ P pub /\ (r <> RThrow -> Full pub)) ->
     forall g' log' ev' r, prun bp (rd q K) g log (ev ++ pre) = (g', log', ev', r) -> g' = g /\ exists pub, ev' = ev ++ pub /\ P pub /\ (r <> RThrow -> Full pub)).
  { intros A q K pre Hp H g1 l1 e1 r1. unfold rd. cbn [prun]. destruct (q g) as [a| |] eqn:E; [apply (H a eq_refl pre eq_refl)|cbn [prun]; intros [= <- <- <- <-]; split; [reflexivity|exists pre; conj; auto; congruence]..]. }
  intros E. enough (G : g' = g /\ exists pub, ev' = ev ++ pub /\ P pub /\ (r <> RThrow -> Full pub)).
  { destruct G as (-> & pub & H1 & H2 & H3). exists pub. auto. }
  revert E. rewrite <- (app_nil_r ev) at 1. unfold p_publish. apply Rd; [constructor|]. intros t Ht ? ->. apply Rd; [constructor|]. intros p Hp ? ->.
  assert (Main : forall g' log' ev' r, prun bp (rd (q_get SymV k) (fun v => (fun rest => if c_imu c then rd (q_cov SymV k) (fun _ => rest) else rest) (PEmit (EOdom k t p v) (rd (q_get SymB k) (fun b => PEmit (EBias t b) (rd (q_path k) (fun l => PEmit (EPath l) (if c_points c then rd (fun s => gm_stereo_landmarks (-1) (i_gm s)) (fun l => PEmit (EPoints l) (PRet o)) else PRet o)))))))) g log (ev ++ []) = (g', log', ev', r) ->
     g' = g /\ exists pub, ev' = ev ++ pub /\ P pub /\ (r <> RThrow -> Full pub)).
  { apply Rd; [constructor|]. intros v Hv ? ->.
    assert (Inner : forall g' log' ev' r, prun bp (PEmit (EOdom k t p v) (rd (q_get SymB k) (fun b => PEmit (EBias t b) (rd (q_path k) (fun l => PEmit (EPath l) (if c_points c then rd (fun s => gm_stereo_landmarks (-1) (i_gm s)) (fun l => PEmit (EPoints l) (PRet o)) else PRet o)))))) g log (ev ++ []) = (g', log', ev', r) ->
       g' = g /\ exists pub, ev' = ev ++ pub /\ P pub /\ (r <> RThrow -> Full pub)).
    { cbn [prun]. rewrite <- app_assoc. cbn [app]. assert (P1 : P [EOdom k t p v]) by (repeat constructor; auto).
      apply Rd; [exact P1|]. intros b Hb ? ->. cbn [prun]. rewrite <- app_assoc. cbn [app].
      assert (P2 : P [EOdom k t p v; EBias t b]) by (constructor; [inversion P1; assumption|repeat constructor; auto]).
      apply Rd; [exact P2|]. intros l Hl ? ->. cbn [prun]. rewrite <- app_assoc. cbn [app].
      assert (P3 : P [EOdom k t p v; EBias t b; EPath l]) by (apply (Forall_app (shows g k) [EOdom k t p v; EBias t b] [EPath l]); split; [exact P2|constructor; [apply q_path_of; exact Hl|constructor]]).
      destruct (c_points c) eqn:Ec.
      - apply Rd; [exact P3|]. intros q Hq ? ->. cbn [prun]. rewrite <- app_assoc. cbn [app]. intros g1 l1 e1 r1 [= <- <- <- <-]. split; [reflexivity|].
        exists [EOdom k t p v; EBias t b; EPath l; EPoints q]. split; [reflexivity|]. split.
        + apply (Forall_app (shows g k) [EOdom k t p v; EBias t b; EPath l] [EPoints q]). split; [exact P3|repeat constructor; exact Hq].
        + intros _. exists t, p, v, b, l. rewrite Hq. reflexivity.
      - cbn [prun]. intros g1 l1 e1 r1 [= <- <- <- <-]. split; [reflexivity|]. eexists. split; [reflexivity|]. split; [exact P3|].
        intros _. exists t, p, v, b, l. reflexivity. }
    cbv beta. destruct (c_imu c); [|exact Inner]. apply Rd; [constructor|]. intros u Hu ? ->. exact Inner. }
  cbv beta. destruct (c_stereo c); [exact Main|]. apply Rd; [constructor|]. intros u Hu ? ->. exact Main.
Qed.

Lemma tailpub_current p : tailpub p -> forall g log ev g' log' ev' r, prun bp p g log ev = (g', log', ev', r) ->
  exists evs, ev' = ev ++ evs /\ current g' evs.
Proof.
  assert (Nil : forall g, current g []) by (intros g; exists 0, [], []; split; [reflexivity|constructor]).
  induction 1 as [op p H IH|k H IH|t p H IH| |o|k o].
  - intros g log ev g' log' ev' r. cbn [prun]. destruct (gm_step bp g op) as [g1 [a| |]]; [apply IH|intros [= <- <- <- <-]; exists []; rewrite app_nil_r; auto..].
  - intros g log ev g' log' ev' r. cbn [prun]. apply IH.
  - intros g log ev g' log' ev' r E. cbn [prun] in E. apply IH in E. destruct E as (evs & -> & (k & trs & pub & -> & F)). exists (ETransform t :: map ETransform trs ++ pub).
    split; [rewrite <- app_assoc; reflexivity|]. exists k, (t :: trs), pub. auto.
  - intros g log ev g' log' ev' r [= <- <- <- <-]. exists []. rewrite app_nil_r. auto.
  - intros g log ev g' log' ev' r [= <- <- <- <-]. exists []. rewrite app_nil_r. auto.
  - intros g log ev g' log' ev' r E. apply publish_current in E. destruct E as (pub & -> & F & _). exists pub. split; [reflexivity|]. exists k, [], pub. auto.
Qed.

Ltac tp := repeat first
  [ match goal with |- tailpub (if ?b then _ else _) => destruct b end
  | match goal with |- tailpub (match ?b with Some _ => _ | None => _ end) => destruct b end
  | match goal with |- tailpub (match ?b with LFirst => _ | LNext _ _ => _ end) => destruct b end
  | match goal with |- tailpub (p_publish _ _ _) => apply tp_pub end
  | apply tailpub_rd; intros ? | apply tp_call | apply tp_trans | apply tp_throw | apply tp_ret
  | apply tp_read; intros ? | progress cbv beta | progress unfold p_opt_pub, p_optimise, p_velocity, p_add_stereo ].
Lemma tailpub_chain n : forall k p, tailpub p -> tailpub (p_chain n k p).
Proof. induction n as [|n IH]; intros k p H; cbn [p_chain]; [exact H|]. tp. apply IH. exact H. Qed.

Lemma section_tailpub ok m l : (c_imu c = true \/ msg_tid m <> TStereo) -> tailpub (section c ok m l).
Proof.
  intros H. destruct m as [tt p v bi sp sv nz n|tt me ne pr fi n|tt tf va ze n|tt f ba ca n|tt pr vp nz n]; cbn [section].
  - unfold p_init. tp.
  - unfold p_imu. tp.
  - unfold p_reg. tp.
  - destruct H as [H|H]; [|destruct H; reflexivity]. unfold p_stereo. rewrite H. cbv beta. tp.
  - unfold p_baro, p_baro_body. tp; apply tailpub_chain; tp.
Qed.

(* the messages published by a section show the state the graph manager holds when the section ends *)
Lemma published_current ok m l g log ev g' log' ev' r : (c_imu c = true \/ msg_tid m <> TStereo) ->
  prun bp (section c ok m l) g log ev = (g', log', ev', r) -> exists evs, ev' = ev ++ evs /\ current g' evs.
Proof. intros H. apply tailpub_current. apply section_tailpub. exact H. Qed.
Lemma section_shows s t s' : reachable bp c s -> (c_imu c = true \/ t <> TStereo) -> ser_step bp c s (SSection t) = Some s' ->
  exists evs, y_ev s' = y_ev s ++ evs /\ current (y_g s') evs.
Proof.
  intros R H E. cbn [ser_step] in E. destruct (pget (y_ctl s) t) as [| |m l| |] eqn:Ec; try discriminate. injection E as <-.
  assert (Ht : msg_tid m = t). { apply (td_own _ (tidy_reachable _ R)). unfold pend. rewrite Ec. left. reflexivity. }
  unfold complete. destruct (prun bp (section c (y_ok s) m l) (y_g s) (y_log s) (y_ev s)) as [[[g lg] ev] r] eqn:Ep.
  destruct (published_current (y_ok s) m l _ _ _ _ _ _ _ ltac:(rewrite Ht; exact H) Ep) as (evs & -> & C). exists evs.
  destruct r as [o|]; [destruct o|]; auto.
Qed.
End More.
