(* Concrete executions of the pipeline. *)
From Verif Require Import Base ImuModel ImuSpec ImuProofs FeModel FeSpec FeBaro FeProofs FeImu FeLive FeExamples.
From Verif Require Import RegModel RegSpec RegProofs RegMore.
From Verif Require Import GmModel GmReady GmExamples GmReadyEx BeModel BeSpec BeProofs BeAbs BeInv BeSect BeHealthy BeLive BeExamples LpModel LpSpec LpProofs LpInv LpLive.
Local Open Scope Z_scope.

(* messages of the front end and of registration whose numbers are fine *)
Definition mk (k : tid) (t : Z) : msg :=
  match k with
  | TInit => MInit t 100 10 0 true true true num0
  | TImu => MImu t 50 true true true num0
  | TReg => MReg t 60 false false num0
  | TStereo => MStereo t (Some [(7, 1)]) true 4 num0
  | TBaro => MBaro t 1000 true true num0
  end.
Lemma mk_ok k t : numerics_ok (mk k t).
Proof.
  pose proof num0_good as G. destruct k; cbn [mk numerics_ok]; conj; auto. exists [(7, 1)]. conj; auto; [apply msortedb_ok; reflexivity|]. intros id Hid. cbn in Hid. destruct (id =? 7) eqn:E; [lia|]. destruct (7 <? id); cbn in Hid; congruence.
Qed.

(* scripts *)
Inductive ins :=
| Sen (i : fin) | Pol | Odo | Snd (k : tid) (t : Z) | Scn (g : Z) | Mp
| RS | RM                       (* the two callbacks of registration *)
| Job (t : tid)                 (* back end: dispatch, lock and run the section *)
| Again (t : tid).              (* back end: lock and run the section again *)

Section Drive.
Variable al_s al_m : Z -> Z -> Z -> Z.
Variable fc : fcfg.
Variable c : config.
Variable s2m : bool.
Notation lreach := (lreach bp0 al_s al_m fc c s2m).
Notation later := (later bp0 al_s al_m fc c s2m).

Definition fineb (p : past) (s : loop) (i : ins) : bool :=
  match i with
  | Sen f => calmb fc (h_f p) (l_f s) f && match f with ICloud u _ => 0 <? u | _ => true end
  | Pol => calmb fc (h_f p) (l_f s) IPoll
  | Snd TStereo t => contigb (frames (h_b p) ++ frames [mk TStereo t])
  | Snd TImu t => len (on TImu (h_b p)) + 1 <? int_max
  | _ => true
  end.
Definition lab_of (i : ins) : lact :=
  match i with
  | Sen f => LSensor f | Pol => LPoll | Odo => LOdom | Snd k t => LSend (mk k t) | Scn g => LScan g | Mp => LMap
  | RS => LReg (RunS Z Z) | RM => LReg (RunM Z Z) | Job t => LBack (ADispatch t) | Again t => LBack (ALock t)
  end.
Definition one (x : past * loop) (a : lact) : option (past * loop) :=
  match lstep bp0 al_s al_m fc c s2m (snd x) a with Some (Ok s') => Some (note (snd x) a (fst x), s') | _ => None end.
Fixpoint section_end (fuel : nat) (t : tid) (x : past * loop) : past * loop :=
  match fuel with
  | O => x
  | S f => match pget (y_ctl (l_b (snd x))) t with
           | CHold _ _ | CRun _ _ => match one x (LBack (AStep t)) with Some x' => section_end f t x' | None => x end
           | _ => x
           end
  end.
Definition play1 (x : past * loop) (i : ins) : option (past * loop) :=
  if fineb (fst x) (snd x) i then
    match one x (lab_of i) with
    | Some x' =>
        match i with
        | Job t => match one x' (LBack (ALock t)) with Some x2 => Some (section_end lots t x2) | None => None end
        | Again t => Some (section_end lots t x')
        | _ => Some x'
        end
    | None => None
    end
  else None.
Fixpoint play (x : past * loop) (l : list ins) : option (past * loop) :=
  match l with [] => Some x | i :: l' => match play1 x i with Some x' => play x' l' | None => None end end.

Lemma one_later p s x a x' : later p s (fst x) (snd x) -> fine fc (fst x) (snd x) a -> one x a = Some x' -> later p s (fst x') (snd x').
Proof.
  intros L F E. unfold one in E. destruct (lstep bp0 al_s al_m fc c s2m (snd x) a) as [[s'| |]|] eqn:Es; try discriminate. injection E as <-. cbn [fst snd]. eapply lt_step; eauto.
Qed.
Lemma section_later p s t : forall fuel x, later p s (fst x) (snd x) -> later p s (fst (section_end fuel t x)) (snd (section_end fuel t x)).
Proof.
  induction fuel as [|f IH]; intros x L; [exact L|]. cbn [section_end]. destruct (pget _ t); auto; destruct (one x (LBack (AStep t))) as [x'|] eqn:E; auto; apply IH; eapply one_later; eauto; exact I.
Qed.
Lemma fineb_ok p s i : fineb p s i = true -> fine fc p s (lab_of i).
Proof.
  destruct i as [f| | |k t|g| | | |t|t]; cbn [fineb lab_of fine]; auto; intros H.
  - apply andb_prop in H. destruct H as [H1 H2]. split; [apply calmb_ok; exact H1|]. destruct f; auto. lia.
  - apply calmb_ok. exact H.
  - split; [apply mk_ok|]. destruct k; cbn [mk]; auto; [lia|apply contigb_ok; exact H].
Qed.
Lemma play_later p s : forall l x x', later p s (fst x) (snd x) -> play x l = Some x' -> later p s (fst x') (snd x').
Proof.
  induction l as [|i l IH]; intros x x' L E; [injection E as <-; exact L|]. cbn [play] in E. destruct (play1 x i) as [x1|] eqn:E1; [|discriminate]. eapply IH; [|exact E].
  unfold play1 in E1. destruct (fineb (fst x) (snd x) i) eqn:Ef; [|discriminate]. apply fineb_ok in Ef. destruct (one x (lab_of i)) as [x2|] eqn:E2; [|discriminate]. pose proof (one_later _ _ _ _ _ L Ef E2) as L2.
  revert E1. generalize lots. intros n E1. destruct i; try (injection E1 as <-; exact L2).
  - destruct (one x2 (LBack (ALock t))) as [x3|] eqn:E3; [|discriminate]. injection E1 as <-. apply section_later. eapply one_later; eauto. exact I.
  - injection E1 as <-. apply section_later. exact L2.
Qed.
Lemma later_reach p s p' s' : lreach p s -> later p s p' s' -> lreach p' s'.
Proof. intros H L. induction L as [|p' s' a s2 L IH F E]; [exact H|]. econstructor; eauto. Qed.
Definition start : past * loop := (mkPast [] [] [], loop_init bp0 c).
Lemma play_reach l p s : play start l = Some (p, s) -> lreach p s.
Proof. intros E. eapply later_reach; [constructor|]. exact (play_later _ _ l start (p, s) (lt_here _ _ _ _ _ _ _ _) E). Qed.
End Drive.

Definition al0 (cur pre g : Z) : Z := cur * 7 + pre * 3 + g.
Definition al1 (cur m g : Z) : Z := cur * 11 + m * 5 + g.

(* lidar and IMU, with registration against the map *)
Definition cfg_reg : config := mkCfg true true false false false None 5 4.
Lemma reg_matching : matching cfg_lidar cfg_reg. Proof. unfold matching; conj; reflexivity. Qed.
Definition script_reg : list ins :=
  [Sen (IImu 90000 1); Sen (ICloud 100 50000); Sen (IImu 125000 2); Sen (ICloud 200 50000); Sen (IImu 155000 3); Pol;
   Snd TInit 100000; Job TInit; Odo; Pol; Pol; Scn 1; RS; RS; Mp; RM; RM; Pol;
   Sen (IImu 190000 4); Sen (IImu 235000 5); Sen (ICloud 300 50000); Pol; Snd TImu 200000; Job TImu; RM; RM; RM; Sen (IImu 265000 6); Pol; Pol;
   Scn 2; RS; RS; RS; RS; RS; RS; RM; RM; RM; RM; RM; RM; RM; RM; Pol; Snd TReg 200000; Job TReg; Odo; Mp; RM; RM].
Example reg_run : match play al0 al1 cfg_lidar cfg_reg true (start cfg_reg) script_reg with
  | Some (p, s) => (odoms (y_ev (l_b s)), cloud_stamps (l_f s), map fst (r_pub Z Z (l_r s)), f_pc (l_f s), l_odo s, l_map s, y_mutex (l_b s)) = ([(0, 100000); (1, 200000)], [100000; 200000], [200000], PIdle, 2%nat, 2%nat, None)
  | None => False end.
Proof. vm_compute. reflexivity. Qed.
Definition quietb (bp : Z -> Z -> Z -> Z -> Z) (c : config) (s : sys) : bool :=
  match y_mutex s with None => true | _ => false end &&
  forallb (fun t => match pget (y_ctl s) t with CIdle => match pget (y_q s) t with [] => true | _ => false end | _ => false end) all_tids.
Lemma quietb_ok c s : quietb bp0 c s = true -> quiescent bp0 c s.
Proof.
  intros H. apply andb_prop in H. destruct H as [H1 H2]. rewrite forallb_forall in H2. assert (A : forall t, In t all_tids) by (intros []; cbn; tauto). split; [destruct (y_mutex s); [discriminate|reflexivity]|]. split.
  - intros t. specialize (H2 t (A t)). cbn. destruct (pget (y_ctl s) t); try reflexivity. destruct (pget (y_q s) t); [reflexivity|discriminate].
  - intros t m l E. specialize (H2 t (A t)). rewrite E in H2. discriminate.
Qed.
(* the run above ends at rest, two clouds and two odometry messages *)
Example reg_rest : exists p s, lreach bp0 al0 al1 cfg_lidar cfg_reg true p s /\ at_rest bp0 cfg_lidar cfg_reg true s /\ features_in cfg_reg p s /\ enough_workers cfg_reg /\
  List.length (odoms (y_ev (l_b s))) = 2%nat /\ List.length (out_clouds (f_out (l_f s))) = 2%nat /\ out_inits (f_out (l_f s)) = [100000] /\
  r_pub Z Z (l_r s) = [(200000, al1 200000 100000 (al0 200000 100000 2))].
Proof.
  destruct (play al0 al1 cfg_lidar cfg_reg true (start cfg_reg) script_reg) as [[p s]|] eqn:E; [|pose proof reg_run as X; rewrite E in X; destruct X]. exists p, s. split; [eapply play_reach; exact E|].
  revert E. vm_compute. intros [= <- <-]. split.
  - constructor; try reflexivity.
    + intros [| | | |]; cbn; try reflexivity; discriminate.
    + intros t H. discriminate.
    + intros _. split; [reflexivity|]. right. exists 200000. split; [right; reflexivity|left; reflexivity].
    + apply quietb_ok. vm_compute. reflexivity.
  - split; [intros H; discriminate|]. split; [apply Nat.leb_le; reflexivity|]. conj; reflexivity.
Qed.
(* the front end waits for odometry that has been overtaken: no registration, the back end answers IMU data at once *)
Definition cfg_open : config := mkCfg true false false false false None 5 2.
Definition script_open : list ins :=
  [Sen (IImu 90000 1); Sen (ICloud 100 50000); Sen (IImu 125000 2); Sen (ICloud 200 50000); Sen (IImu 155000 3); Pol; Snd TInit 100000; Job TInit; Odo; Pol; Pol; Pol;
   Sen (IImu 190000 4); Sen (IImu 235000 5); Sen (ICloud 300 50000); Pol; Snd TImu 200000; Job TImu; Odo].
Lemma open_loop_stops : exists p s, lreach bp0 al0 al1 cfg_lidar cfg_open true p s /\ matching cfg_lidar cfg_open /\ enough_workers cfg_open /\
  f_pc (l_f s) = PBias 300 50000 200000 /\ List.length (out_clouds (f_out (l_f s))) = 1%nat /\
  forall p' s', later bp0 al0 al1 cfg_lidar cfg_open true p s p' s' -> out_clouds (f_out (l_f s')) = out_clouds (f_out (l_f s)).
Proof.
  assert (M : matching cfg_lidar cfg_open) by (unfold matching; conj; reflexivity).
  assert (X : match play al0 al1 cfg_lidar cfg_open true (start cfg_open) script_open with
    | Some (p, s) => (f_pc (l_f s), f_pst (l_f s) <? f_bias (l_f s), List.length (out_clouds (f_out (l_f s)))) = (PBias 300 50000 200000, true, 1%nat) | None => False end) by (vm_compute; reflexivity).
  destruct (play al0 al1 cfg_lidar cfg_open true (start cfg_open) script_open) as [[p s]|] eqn:E; [|destruct X]. injection X as X1 X2 X3. pose proof (play_reach _ _ _ _ _ _ _ _ E) as R. clear E. exists p, s. conj; auto; [repeat constructor|].
  intros p' s' L. apply Z.ltb_lt in X2. apply (overtaken _ _ _ _ _ _ _ _ _ _ _ _ _ M R X1 X2 L).
Qed.
