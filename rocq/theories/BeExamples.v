(* Concrete executions of the back end: the hypotheses of the theorems are met, and witnesses of the failures. *)
From Verif Require Import Base GmModel GmSpec GmInv GmProofs GmFactors GmValues GmHist GmKeys GmStereo GmIds GmReady GmExamples GmReadyEx.
From Verif Require Import BeModel BeSpec BeProofs BeEff BeAbs BeInv BeSect BeHealthy BeLive BeFair BeMore.

(* ---- a stuck system: every waiting callback polls, nothing can be dispatched ---- *)
Section Stuck.
Variable bp : Z -> Z -> Z -> Z -> Z.
Variable c : config.

Definition stuck (s : sys) : Prop :=
  y_mutex s = None /\ (forall t, sys_step bp c s (ADispatch t) = None) /\
  (forall t, match pget (y_ctl s) t with
     | CIdle => True
     | CWant m l => prun bp (section c (y_ok s) m l) (y_g s) (y_log s) (y_ev s) = (y_g s, y_log s, y_ev s, ROut (OSleep l))
     | _ => False
     end).

(* the states a stuck system goes through, sections completed *)
Record polling (s s' : sys) : Prop := {
  po_g : y_g s' = y_g s; po_log : y_log s' = y_log s; po_ev : y_ev s' = y_ev s; po_q : y_q s' = y_q s; po_ok : y_ok s' = y_ok s;
  po_ctl : forall t, pget (y_ctl s') t = pget (y_ctl s) t \/ exists m l, pget (y_ctl s) t = CWant m l /\ pget (y_ctl s') t = CHold m l }.

Lemma polling_workers s s' : polling s s' -> workers s' = workers s.
Proof.
  intros P. rewrite !workers_sum.
  assert (H : forall t, busy (pget (y_ctl s') t) = busy (pget (y_ctl s) t)).
  { intros t. destruct (po_ctl _ _ P t) as [->|(m & l & -> & ->)]; reflexivity. }
  pose proof (H TInit) as H1. pose proof (H TImu) as H2. pose proof (H TReg) as H3. pose proof (H TStereo) as H4. pose proof (H TBaro) as H5.
  cbn [pget] in *. rewrite H1, H2, H3, H4, H5. reflexivity.
Qed.

Lemma polling_step s s' a s2 : stuck s -> polling s s' -> internal a -> ser_step bp c s' (ser_of a) = Some s2 -> polling s s2.
Proof.
  intros (Sm & Sd & Sc) P Hi E. pose proof P as [P1 P2 P3 P4 P5 P6]. destruct a as [m|t|t|t|]; try contradiction; cbn [ser_of ser_step] in E.
  - exfalso. specialize (Sd t). cbn in E, Sd. unfold worker_free in *. rewrite (polling_workers _ _ P), P4 in E.
    destruct (P6 t) as [H|(m & l & H1 & H2)]; [rewrite H in E|rewrite H2 in E; discriminate].
    destruct (pget (y_ctl s) t); try discriminate. destruct (pget (y_q s) t); [discriminate|]. destruct (Nat.ltb (workers s) (c_pool c)); discriminate.
  - cbn in E. destruct (pget (y_ctl s') t) as [|m l| | |] eqn:Ec; try discriminate. destruct (y_mutex s'); [discriminate|]. injection E as <-.
    constructor; cbn [y_g y_log y_ev y_q y_ok y_ctl]; auto. intros t'. destruct (tid_dec t' t) as [->|N].
    + rewrite pget_upd_eq. right. exists m, l. split; [|reflexivity]. destruct (P6 t) as [H|(m' & l' & H1 & H2)]; congruence.
    + rewrite pget_upd_ne by exact N. apply P6.
  - destruct (pget (y_ctl s') t) as [| |m l| |] eqn:Ec; try discriminate. injection E as <-.
    assert (Hw : pget (y_ctl s) t = CWant m l).
    { destruct (P6 t) as [H|(m' & l' & H1 & H2)]; [|congruence]. specialize (Sc t). rewrite <- H, Ec in Sc. destruct Sc. }
    pose proof (Sc t) as S1. rewrite Hw in S1. unfold complete. rewrite P5, P1, P2, P3, S1. cbn [finish].
    constructor; cbn [y_g y_log y_ev y_q y_ok y_ctl]; auto. intros t'. destruct (tid_dec t' t) as [->|N].
    + rewrite pget_upd_eq. left. symmetry. exact Hw.
    + rewrite pget_upd_ne by exact N. apply P6.
Qed.

Lemma stuck_forever s : excl bp s -> stuck s -> forall acts s', Forall internal acts -> sys_run bp c s acts = Some s' -> polling s (settle bp s').
Proof.
  intros X S. assert (G : forall acts s1 s', excl bp s1 -> polling s (settle bp s1) -> Forall internal acts -> sys_run bp c s1 acts = Some s' -> polling s (settle bp s')).
  { induction acts as [|a acts IH]; intros s1 s' X1 P1 F E.
    - injection E as <-. exact P1.
    - cbn [sys_run] in E. destruct (sys_step bp c s1 a) as [s2|] eqn:E2; [|discriminate]. inversion F as [|? ? Fa Fr]. subst.
      apply (IH s2 s'); auto; [eapply step_excl; eauto|]. destruct (step_settle bp c _ _ _ X1 E2) as [[_ ->]|H]; [exact P1|].
      eapply polling_step; eauto. }
  intros acts s' F E. apply (G acts s s'); auto. destruct S as (Sm & _). rewrite (settle_none bp s Sm). constructor; auto.
Qed.
(* nothing is ever optimised again *)
Lemma stuck_log s acts s' k : excl bp s -> stuck s -> Forall internal acts -> sys_run bp c s acts = Some s' -> In k (opts (y_log s')) -> In k (opts (y_log s)).
Proof.
  intros X S F E H. pose proof (stuck_forever s X S acts s' F E) as P. destruct (settle_log bp s') as [l El]. rewrite (po_log _ _ P) in El.
  rewrite El, opts_app. apply in_or_app. auto.
Qed.
End Stuck.

(* ---- driving the system ---- *)
Definition tau0 (k : Z) : Z := k.
Definition num0 : numerics :=
  mkNum (fun _ => orc true) (fun p v b => (p + v, v)) (fun p => p + 1) (fun p0 p1 dt => (p1 - p0) / dt) 7.
Lemma num0_good : good num0.
Proof. intros k. split; [|reflexivity]. exists 3. split; [reflexivity|reflexivity]. Qed.

(* messages of a healthy front end *)
Inductive em := M0 | MU (t : Z) | MR (t : Z) | MS (t : Z) (f : omap Z) | MB (t : Z).
Definition to_msg (e : em) : msg :=
  match e with
  | M0 => MInit 0 100 10 0 true true true num0
  | MU t => MImu t (50 + t) true true true num0
  | MR t => MReg t (60 + t) false false num0
  | MS t f => MStereo t (Some f) true 4 num0
  | MB t => MBaro t (1000 - t) true true num0
  end.
Definition allowedb (hist : list msg) (ev : list event) (e : em) : bool :=
  match e with
  | M0 => match on TInit hist with [] => true | _ => false end
  | MU t => (t =? len (on TImu hist) + 1) && (len (on TImu hist) + 1 <? int_max) && match odoms ev with [] => false | _ => true end
  | MR t => (t =? len (on TReg hist) + 1) && existsb (Z.eqb t) (trans ev)
  | MS t f => msortedb f && forallb idx_ok (mkeys f) && contigb (frames hist ++ [f])
  | MB t => (0 <=? t) && forallb (fun m => stamp m <? t) (on TBaro hist)
  end.
Lemma allowedb_ok hist ev e : allowedb hist ev e = true -> allowed tau0 hist ev (to_msg e).
Proof.
  pose proof num0_good as G.
  destruct e; cbn [allowedb to_msg]; intros H; unfold allowed; cbn [msg_ok].
  - split; [conj; auto|]. destruct (on TInit hist); [reflexivity|discriminate].
  - apply andb_prop in H. destruct H as [H H3]. apply andb_prop in H. destruct H as [H1 H2].
    split; [conj; auto|]. unfold tau0. conj; try lia. destruct (odoms ev); [discriminate|congruence].
  - apply andb_prop in H. destruct H as [H1 H2]. split; [conj; auto|]. unfold tau0. split; [lia|].
    apply existsb_exists in H2. destruct H2 as (y & Hy & E). replace t with y by lia. exact Hy.
  - apply andb_prop in H. destruct H as [H H3]. apply andb_prop in H. destruct H as [H1 H2]. split.
    + conj; auto. exists f. conj; auto; [apply msortedb_ok; exact H1|]. intros id Hid. rewrite forallb_forall in H2. apply idx_ok_range. apply H2. apply mget_keys. exact Hid.
    + apply contigb_ok. exact H3.
  - apply andb_prop in H. destruct H as [H1 H2]. split; [conj; auto|]. exists t. conj; [lia|reflexivity|].
    intros m' Hm. rewrite forallb_forall in H2. specialize (H2 m' Hm). lia.
Qed.

(* scripts: deliver; dispatch; lock and run to the end of the section(s) *)
Inductive ea := D (e : em) | X (t : tid) | L (t : tid).
Section Drive.
Variable c : config.
Fixpoint finish_section (fuel : nat) (t : tid) (s : sys) : sys :=
  match fuel with
  | O => s
  | S f => match pget (y_ctl s) t with
           | CHold _ _ | CRun _ _ => match sys_step bp0 c s (AStep t) with Some s' => finish_section f t s' | None => s end
           | _ => s
           end
  end.
Definition lots : nat := 300.
Definition drive1 (st : sys * list msg) (a : ea) : option (sys * list msg) :=
  let '(s, hist) := st in
  match a with
  | D e => if allowedb hist (y_ev s) e
           then match sys_step bp0 c s (ADeliver (to_msg e)) with Some s' => Some (s', hist ++ [to_msg e]) | None => None end
           else None
  | X t => match sys_step bp0 c s (ADispatch t) with Some s' => Some (s', hist) | None => None end
  | L t => match sys_step bp0 c s (ALock t) with Some s' => Some (finish_section lots t s', hist) | None => None end
  end.
Fixpoint drive (st : sys * list msg) (l : list ea) : option (sys * list msg) :=
  match l with [] => Some st | a :: l' => match drive1 st a with Some st' => drive st' l' | None => None end end.

Lemma finish_reach fuel t : forall hist s, hreach bp0 c tau0 hist s -> hreach bp0 c tau0 hist (finish_section fuel t s).
Proof.
  induction fuel as [|f IH]; intros hist s H; [exact H|]. cbn [finish_section].
  destruct (pget (y_ctl s) t); auto; destruct (sys_step bp0 c s (AStep t)) eqn:E; auto; apply IH; eapply h_step; eauto; exact I.
Qed.
Lemma drive_reach l : forall s hist s' hist', hreach bp0 c tau0 hist s -> drive (s, hist) l = Some (s', hist') -> hreach bp0 c tau0 hist' s'.
Proof.
  induction l as [|a l IH]; intros s hist s' hist' H E; [injection E as <- <-; exact H|].
  cbn [drive] in E. destruct (drive1 (s, hist) a) as [[s1 h1]|] eqn:E1; [|discriminate]. eapply IH; [|exact E].
  destruct a as [e|t|t]; cbn [drive1] in E1.
  - destruct (allowedb hist (y_ev s) e) eqn:Ea; [|discriminate]. destruct (sys_step bp0 c s (ADeliver (to_msg e))) eqn:Es; [|discriminate].
    injection E1 as <- <-. eapply h_deliver; eauto. apply allowedb_ok. exact Ea.
  - destruct (sys_step bp0 c s (ADispatch t)) eqn:Es; [|discriminate]. injection E1 as <- <-. eapply h_step; eauto. exact I.
  - destruct (sys_step bp0 c s (ALock t)) eqn:Es; [|discriminate]. revert E1. generalize lots. intros fuel E1. injection E1 as <- <-. apply finish_reach. eapply h_step; eauto. exact I.
Qed.
Definition run (l : list ea) : option (sys * list msg) := drive (sys_init bp0 c, []) l.
Lemma run_reach l s hist : run l = Some (s, hist) -> hreach bp0 c tau0 hist s.
Proof. intros E. eapply drive_reach; [|exact E]. constructor. Qed.
End Drive.

Definition full (pool : nat) : config := mkCfg true true true true true None 5 pool.

Lemma tau0_mono : mono tau0. Proof. intros i k H. unfold tau0. lia. Qed.
Lemma full_env n : environment (full n) tau0.
Proof. split; [exact tau0_mono|]. split; reflexivity. Qed.

(* four keys with all sensors: stereo skips key 1, the barometer skips keys 0 and 2 *)
Definition script4 : list ea :=
  [ D M0; X TInit; L TInit; D (MS 0 [(7, 1); (8, 2)]); X TStereo; L TStereo;
    D (MU 1); X TImu; L TImu; D (MR 1); D (MS 2 [(7, 3); (8, 4); (9, 5)]); X TStereo; L TStereo; X TReg; L TReg;
    D (MB 1); X TBaro; L TBaro; D (MB 3); X TBaro; L TBaro;
    D (MU 2); D (MU 3); X TImu; L TImu; X TImu; L TImu; L TStereo; D (MR 2); X TReg; L TReg; L TImu; D (MR 3); X TReg; L TReg;
    D (MS 3 [(8, 6); (9, 7)]); X TStereo; L TStereo; L TBaro ].
Example script4_result :
  match run (full 4) script4 with
  | Some (s, hist) => (opts (y_log s), crts FBaro (y_log s), crts FPriorBaro (y_log s), crts FBaroBias (y_log s), map fst (odoms (y_ev s)), y_mutex s, workers s, List.length hist)
      = ([0; 1; 2; 3], [1; 3], [1], [1; 2; 3], [0; 1; 2; 3], None, O, 12%nat)
  | None => False
  end.
Proof. vm_compute. reflexivity. Qed.

(* ---- a fair infinite execution performing the script ---- *)
Inductive item := IDel (e : em) | IAct (a : act).
Definition act_of (i : item) : act := match i with IDel e => ADeliver (to_msg e) | IAct a => a end.
Definition internalb (a : act) : bool := match a with ADispatch _ | ALock _ | AStep _ => true | _ => false end.
Section Infinite.
Variable c : config.
Definition istep (st : sys * list msg) (i : item) : option (sys * list msg) :=
  let '(s, hist) := st in
  match i with
  | IDel e => if allowedb hist (y_ev s) e then match sys_step bp0 c s (ADeliver (to_msg e)) with Some s' => Some (s', hist ++ [to_msg e]) | None => None end else None
  | IAct a => if internalb a then match sys_step bp0 c s a with Some s' => Some (s', hist) | None => None end else None
  end.
Fixpoint irun (st : sys * list msg) (l : list item) : option (sys * list msg) :=
  match l with [] => Some st | i :: l' => match istep st i with Some st' => irun st' l' | None => None end end.
Fixpoint state_at (st : sys * list msg) (l : list item) (n : nat) {struct n} : sys * list msg :=
  match n, l with
  | S n', i :: l' => match istep st i with Some st' => state_at st' l' n' | None => st end
  | _, _ => st
  end.
Definition act_at (l : list item) (n : nat) : option act := match nth_error l n with Some i => Some (act_of i) | None => None end.

Lemma state_step : forall l st stf n, irun st l = Some stf ->
  match nth_error l n with Some i => istep (state_at st l n) i = Some (state_at st l (S n)) | None => state_at st l n = stf /\ state_at st l (S n) = stf end.
Proof.
  induction l as [|i l IH]; intros st stf n E.
  - injection E as ->. destruct n; cbn; auto.
  - cbn [irun] in E. destruct (istep st i) as [st1|] eqn:E1; [|discriminate].
    destruct n as [|n].
    + cbn [nth_error]. destruct l; cbn [state_at]; rewrite E1; reflexivity.
    + cbn [nth_error]. specialize (IH st1 stf n E). cbn [state_at]. rewrite E1. exact IH.
Qed.

Definition resting (s : sys) : bool :=
  match y_mutex s with None => true | _ => false end &&
  forallb (fun t => match pget (y_ctl s) t, pget (y_q s) t with CIdle, [] => true | _, _ => false end) all_tids.
Lemma resting_disabled s t : resting s = true -> ~ enabled bp0 c t s.
Proof.
  intros H (a & s' & Hm & E). apply andb_prop in H. destruct H as [_ H]. rewrite forallb_forall in H.
  assert (In t all_tids) by (destruct t; cbn; tauto). specialize (H t H0).
  destruct a as [m|t'|t'|t'|]; cbn [moves] in Hm; try contradiction; subst t'; cbn in E; destruct (pget (y_ctl s) t); try discriminate; destruct (pget (y_q s) t); discriminate.
Qed.

Lemma script_fair l s hist : irun (sys_init bp0 c, []) l = Some (s, hist) -> resting s = true ->
  let x := fun n => fst (state_at (sys_init bp0 c, []) l n) in
  let h := fun n => snd (state_at (sys_init bp0 c, []) l n) in
  execution bp0 c tau0 x (act_at l) h /\ strongly_fair bp0 c x (act_at l) /\ h (List.length l) = hist /\ x (List.length l) = s.
Proof.
  intros E R x h. split; [|split].
  - constructor; [exact (h_init bp0 c tau0)|]. intros n. unfold x, h, act_at. pose proof (state_step l _ _ n E) as Q.
    destruct (nth_error l n) as [i|].
    + destruct (state_at (sys_init bp0 c, []) l n) as [s0 h0]. destruct (state_at (sys_init bp0 c, []) l (S n)) as [s1 h1]. cbn [fst snd].
      destruct i as [e|a]; cbn [istep act_of] in *.
      * destruct (allowedb h0 (y_ev s0) e) eqn:Ea; [|discriminate]. destruct (sys_step bp0 c s0 (ADeliver (to_msg e))); [|discriminate].
        injection Q as <- <-. conj; auto. apply allowedb_ok. exact Ea.
      * destruct (internalb a) eqn:Ei; [|discriminate]. destruct (sys_step bp0 c s0 a) eqn:Es; [|discriminate]. injection Q as <- <-.
        destruct a; try discriminate; conj; auto; exact I.
    + destruct Q as [-> ->]. auto.
  - intros t n H. destruct (H (Nat.max n (List.length l)) ltac:(lia)) as (m' & Hm & [En|(j & Hj & Hb)]).
    + exfalso. revert En. unfold x. pose proof (state_step l _ _ m' E) as Q. assert (Nn : nth_error l m' = None) by (apply nth_error_None; lia).
      rewrite Nn in Q. destruct Q as [-> _]. apply resting_disabled. exact R.
    + exists j. split; [lia|exact Hb].
  - unfold x, h. pose proof (state_step l _ _ (List.length l) E) as Q. assert (Nn : nth_error l (List.length l) = None) by (apply nth_error_None; lia).
    rewrite Nn in Q. destruct Q as [-> _]. auto.
Qed.

(* scripts spelt out *)
Fixpoint section_items (fuel : nat) (t : tid) (s : sys) : list item :=
  match fuel with
  | O => []
  | S f => match pget (y_ctl s) t with
           | CHold _ _ | CRun _ _ => match sys_step bp0 c s (AStep t) with Some s' => IAct (AStep t) :: section_items f t s' | None => [] end
           | _ => []
           end
  end.
Fixpoint spell (st : sys * list msg) (l : list ea) : list item :=
  match l with
  | [] => []
  | a :: l' =>
      match drive1 c st a with
      | None => []
      | Some st' => match a with
                    | D e => [IDel e]
                    | X t => [IAct (ADispatch t)]
                    | L t => IAct (ALock t) :: match sys_step bp0 c (fst st) (ALock t) with Some s' => section_items lots t s' | None => [] end
                    end ++ spell st' l'
      end
  end.
End Infinite.

Definition items4 : list item := spell (full 4) (sys_init bp0 (full 4), []) script4.
Example items4_run : match irun (full 4) (sys_init bp0 (full 4), []) items4 with Some (s, hist) => resting s = true /\ List.length (on TImu hist) = 3%nat | None => False end.
Proof. vm_compute. auto. Qed.

(* the hypotheses of the progress theorem are met, for keys 1 to 3, by an execution in which they are not yet optimised *)
Example fair_execution : exists x acts h n, execution bp0 (full 4) tau0 x acts h /\ strongly_fair bp0 (full 4) x acts /\ environment (full 4) tau0 /\
  enough_workers (full 4) /\ supplied (full 4) tau0 (h n) 2 /\ opts (y_log (x n)) = [0; 1].
Proof.
  destruct (irun (full 4) (sys_init bp0 (full 4), []) items4) as [[s hist]|] eqn:E.
  - pose proof items4_run as Q. rewrite E in Q. destruct Q as [Q _].
    destruct (script_fair (full 4) items4 s hist E Q) as (H1 & H2 & _).
    exists (fun n => fst (state_at (full 4) (sys_init bp0 (full 4), []) items4 n)), (act_at items4), (fun n => snd (state_at (full 4) (sys_init bp0 (full 4), []) items4 n)).
    exists (List.length (spell (full 4) (sys_init bp0 (full 4), []) (firstn 30 script4))).
    split; [exact H1|]. split; [exact H2|]. split; [apply full_env|]. split; [unfold enough_workers; cbn; lia|]. split.
    + split; [vm_compute; split; discriminate|]. split; [intros _; vm_compute; discriminate|]. intros _. exists (to_msg (MS 2 [(7, 3); (8, 4); (9, 5)])). split; [|vm_compute; discriminate].
      vm_compute. tauto.
    + vm_compute. reflexivity.
  - pose proof items4_run as Q. rewrite E in Q. destruct Q.
Qed.

(* ---- too few workers ---- *)
Definition script_dead : list ea :=
  [ D M0; X TInit; L TInit; D (MU 1); X TImu; L TImu; D (MU 2); X TImu; L TImu; D (MS 5 [(7, 1)]); X TStereo; L TStereo; D (MB 2); X TBaro; L TBaro; L TBaro; D (MR 1) ].
Definition state_of (c : config) (l : list ea) : sys := match run c l with Some (s, _) => s | None => sys_init bp0 c end.
Definition hist_of (c : config) (l : list ea) : list msg := match run c l with Some (_, h) => h | None => [] end.
Lemma run_of c l : (match run c l with Some _ => true | None => false end) = true -> hreach bp0 c tau0 (hist_of c l) (state_of c l).
Proof. unfold hist_of, state_of. destruct (run c l) as [[s h]|] eqn:E; [|discriminate]. intros _. eapply run_reach. exact E. Qed.

Lemma deadlock : exists c hist s, environment c tau0 /\ c_pool c = 3%nat /\ hreach bp0 c tau0 hist s /\ supplied c tau0 hist 1 /\
  forall acts s', Forall internal acts -> sys_run bp0 c s acts = Some s' -> ~ In 1 (opts (y_log s')).
Proof.
  exists (full 3), (hist_of (full 3) script_dead), (state_of (full 3) script_dead).
  assert (R : hreach bp0 (full 3) tau0 (hist_of (full 3) script_dead) (state_of (full 3) script_dead)) by (apply run_of; vm_compute; reflexivity).
  split; [apply full_env|]. split; [reflexivity|]. split; [exact R|]. split.
  - split; [vm_compute; split; discriminate|]. split; [intros _; vm_compute; discriminate|]. intros _. exists (to_msg (MS 5 [(7, 1)])). split; [vm_compute; tauto|vm_compute; discriminate].
  - intros acts s' F E H. assert (S : stuck bp0 (full 3) (state_of (full 3) script_dead)).
    { split; [vm_compute; reflexivity|]. split.
      - intros t. destruct t; vm_compute; reflexivity.
      - intros t. destruct t; vm_compute; try exact I; reflexivity. }
    pose proof (stuck_log bp0 (full 3) _ _ _ 1 (reachable_excl _ _ _ (hreach_reach _ _ _ _ _ R)) S F E H) as Q.
    vm_compute in Q. destruct Q as [Q|[]]. discriminate.
Qed.

(* one worker and registration only *)
Definition lidar (pool : nat) : config := mkCfg true true false false false None 5 pool.
Definition script_dead1 : list ea := [ D M0; X TInit; L TInit; D (MU 1); X TImu; L TImu; D (MU 2); X TImu; L TImu; D (MR 1) ].
Lemma deadlock_lidar : exists hist s, environment (lidar 1) tau0 /\ hreach bp0 (lidar 1) tau0 hist s /\ supplied (lidar 1) tau0 hist 1 /\
  forall acts s', Forall internal acts -> sys_run bp0 (lidar 1) s acts = Some s' -> ~ In 1 (opts (y_log s')).
Proof.
  exists (hist_of (lidar 1) script_dead1), (state_of (lidar 1) script_dead1).
  assert (R : hreach bp0 (lidar 1) tau0 (hist_of (lidar 1) script_dead1) (state_of (lidar 1) script_dead1)) by (apply run_of; vm_compute; reflexivity).
  split; [split; [exact tau0_mono|split; reflexivity]|]. split; [exact R|]. split.
  - split; [vm_compute; split; discriminate|]. split; [intros _; vm_compute; discriminate|]. discriminate.
  - intros acts s' F E H. assert (S : stuck bp0 (lidar 1) (state_of (lidar 1) script_dead1)).
    { split; [vm_compute; reflexivity|]. split.
      - intros t. destruct t; vm_compute; reflexivity.
      - intros t. destruct t; vm_compute; try exact I; reflexivity. }
    pose proof (stuck_log bp0 (lidar 1) _ _ _ 1 (reachable_excl _ _ _ (hreach_reach _ _ _ _ _ R)) S F E H) as Q.
    vm_compute in Q. destruct Q as [Q|[]]. discriminate.
Qed.

(* ---- the mutex left locked ---- *)
Inductive ua := UD (m : msg) | UX (t : tid) | UL (t : tid) | UStop.
Definition udrive1 (c : config) (s : sys) (a : ua) : option sys :=
  match a with
  | UD m => sys_step bp0 c s (ADeliver m)
  | UX t => sys_step bp0 c s (ADispatch t)
  | UL t => match sys_step bp0 c s (ALock t) with Some s' => Some (finish_section c lots t s') | None => None end
  | UStop => sys_step bp0 c s AShutdown
  end.
Fixpoint udrive (c : config) (s : sys) (l : list ua) : option sys :=
  match l with [] => Some s | a :: l' => match udrive1 c s a with Some s' => udrive c s' l' | None => None end end.
Lemma ufinish c fuel t : forall s, reachable bp0 c s -> reachable bp0 c (finish_section c fuel t s).
Proof.
  induction fuel as [|f IH]; intros s H; [exact H|]. cbn [finish_section].
  destruct (pget (y_ctl s) t); auto; destruct (sys_step bp0 c s (AStep t)) eqn:E; auto; apply IH; destruct H as [acts H]; exists (acts ++ [AStep t]); rewrite sys_run_app, H; cbn [sys_run]; rewrite E; reflexivity.
Qed.
Lemma udrive_reach c l : forall s s', reachable bp0 c s -> udrive c s l = Some s' -> reachable bp0 c s'.
Proof.
  assert (One : forall s a s', reachable bp0 c s -> sys_step bp0 c s a = Some s' -> reachable bp0 c s').
  { intros s a s' [acts H] E. exists (acts ++ [a]). rewrite sys_run_app, H. cbn [sys_run]. rewrite E. reflexivity. }
  induction l as [|a l IH]; intros s s' H E; [injection E as <-; exact H|]. cbn [udrive] in E.
  destruct (udrive1 c s a) as [s1|] eqn:E1; [|discriminate]. eapply IH; [|exact E]. destruct a; cbn [udrive1] in E1; eauto.
  destruct (sys_step bp0 c s (ALock t)) as [s2|] eqn:E2; [|discriminate]. revert E1. generalize lots. intros f E1. injection E1 as <-. apply ufinish. eauto.
Qed.
Definition ustate (c : config) (l : list ua) : sys := match udrive c (sys_init bp0 c) l with Some s => s | None => sys_init bp0 c end.
Lemma ustate_reach c l : reachable bp0 c (ustate c l).
Proof.
  unfold ustate. assert (R : reachable bp0 c (sys_init bp0 c)) by (exists []; reflexivity).
  destruct (udrive c (sys_init bp0 c) l) as [s|] eqn:E; [|exact R]. eapply udrive_reach; eauto.
Qed.

(* the state s is reachable and from it on nobody ever enters the graph manager again *)
Definition locked_out (c : config) (s : sys) (t : tid) : Prop :=
  reachable bp0 c s /\ y_mutex s = Some t /\ pget (y_ctl s) t = CFail true /\
  forall acts s', sys_run bp0 c s acts = Some s' -> y_g s' = y_g s /\ y_log s' = y_log s /\ y_ev s' = y_ev s /\ y_mutex s' = Some t.
Lemma locked_out_ok c l t : y_mutex (ustate c l) = Some t -> pget (y_ctl (ustate c l)) t = CFail true -> locked_out c (ustate c l) t.
Proof.
  intros H1 H2. split; [apply ustate_reach|]. split; [exact H1|]. split; [exact H2|]. intros acts s' E.
  pose proof (leaked_forever bp0 c t acts _ s' (reachable_excl _ _ _ (ustate_reach c l)) H1 H2 E) as Q. tauto.
Qed.

(* an imu array before the initial odometry *)
Definition leak_imu : list ua := [UD (to_msg (MU 1)); UX TImu; UL TImu].
Lemma imu_before_init_leaks : exists s, locked_out (full 4) s TImu /\ y_ok s = true.
Proof. exists (ustate (full 4) leak_imu). split; [apply locked_out_ok; vm_compute; reflexivity|vm_compute; reflexivity]. Qed.
(* a barometer message without variance *)
Definition leak_baro : list ua := [UD (to_msg M0); UX TInit; UL TInit; UD (MBaro 0 5 false true num0); UX TBaro; UL TBaro].
Lemma baro_variance_leaks : exists s, locked_out (full 4) s TBaro /\ y_ok s = true.
Proof. exists (ustate (full 4) leak_baro). split; [apply locked_out_ok; vm_compute; reflexivity|vm_compute; reflexivity]. Qed.
(* shutdown while the stereo callback waits for its key: the mutex stays locked although a registration message is waiting for it *)
Definition leak_stop : list ua :=
  [UD (to_msg M0); UX TInit; UL TInit; UD (to_msg (MU 1)); UX TImu; UL TImu; UD (to_msg (MS 5 [(7, 1)])); UX TStereo; UL TStereo; UL TStereo; UD (to_msg (MR 1)); UX TReg; UStop; UL TStereo].
Lemma shutdown_leaks : exists s m, locked_out (full 4) s TStereo /\ pget (y_ctl s) TReg = CWant m LFirst.
Proof. exists (ustate (full 4) leak_stop). eexists. split; [apply locked_out_ok; vm_compute; reflexivity|vm_compute; reflexivity]. Qed.
(* the lock_guard callbacks release it: the same registration message rejected *)
Definition raii_reg : list ua := [UD (to_msg M0); UX TInit; UL TInit; UD (to_msg (MR 1)); UX TReg; UL TReg].
Example raii_releases : y_mutex (ustate (full 4) raii_reg) = None /\ pget (y_ctl (ustate (full 4) raii_reg)) TReg = CFail false.
Proof. vm_compute. auto. Qed.

(* ---- stale velocity: stereo factors without imu factors ---- *)
Definition stereo_only : config := mkCfg false false true false false None 5 4.
Definition script_vel : list ea := [ D M0; X TInit; L TInit; D (MS 0 [(7, 1); (8, 2)]); X TStereo; L TStereo; D (MU 1); X TImu; L TImu; D (MS 1 [(7, 1); (8, 2)]); X TStereo; L TStereo ].
Lemma stale_velocity : exists hist s k t p v v', environment stereo_only tau0 /\ hreach bp0 stereo_only tau0 hist s /\ y_mutex s = None /\
  In (EOdom k t p v) (y_ev s) /\ (forall k', In k' (opts (y_log s)) -> k' <= k) /\ gm_get SymX k (i_gm (y_g s)) = Ok p /\ gm_get SymV k (i_gm (y_g s)) = Ok v' /\ v <> v'.
Proof.
  exists (hist_of stereo_only script_vel), (state_of stereo_only script_vel). do 5 eexists.
  split; [split; [exact tau0_mono|split; reflexivity]|]. split; [apply run_of; vm_compute; reflexivity|]. split; [vm_compute; reflexivity|].
  split; [vm_compute; right; right; right; right; right; left; reflexivity|].
  split; [vm_compute; intros k' [<-|[<-|[]]]; discriminate|].
  split; [vm_compute; reflexivity|]. split; [vm_compute; reflexivity|]. discriminate.
Qed.
