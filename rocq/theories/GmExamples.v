(* Concrete histories: hypotheses of the graph manager theorems are met by non-trivial runs, and
   witnesses of the refuted properties. *)
From Verif Require Import Base GmModel GmSpec GmInv GmProofs GmFactors GmValues GmHist GmKeys GmStereo GmIds.

Definition bp0 (p c k m : Z) : Z := p * 1000 + c * 100 + k * 10 + m.
Definition orc (b : bool) : oracle := mkOracle (Some 3) b true (fun k => k mod 97) true.
Definition orc_fail : oracle := mkOracle (Some 3) true false (fun k => 0) true.
Definition orc_strict : oracle := mkOracle None true true (fun k => 0) true.

(* a normal run: initial state, two odometry keys, stereo at 0, 1, 2, optimisations at 1 and 2, window 1 *)
Definition run0 : list gmop :=
  [ OSetCalib 4; OSetCam 5; OSetMarg true 1; OSetNamedKey "imu" 0 0; OSetNamedKey "barometer" 3 1;
    OSetTimestamp 0 1000; OSetNavstate 0 100 200; OSetBias 0 300; OSetBaro 0 400;
    OCreate FPriorPose 0 1; OCreate FPriorVel 0 2; OCreate FPriorBias 0 3; OCreate FPriorBaro 0 4;
    OStereo 0 [(10, 1); (11, 2)];
    OIncrement "imu"; OSetTimestamp 1 1100; OSetNavstate 1 101 201; OSetBias 1 301; OSetBaro 1 401;
    OCreate FImu 1 5; OCreate FBaroBias 1 6; OCreate FBaro 1 7; OStereo 1 [(10, 3); (11, 4); (12, 5)];
    OOptimise (orc true) 1;
    OIncrement "imu"; OSetTimestamp 2 1250; OSetNavstate 2 102 202; OSetBias 2 302; OSetBaro 2 402;
    OCreate FBetweenPose 2 8; OCreate FImu 2 9; OStereo 2 [(11, 6); (12, 7)] ].

Lemma no_ub_dec t : forallb (fun o => match o with UB => false | _ => true end) t = true -> no_ub t.
Proof. intros H o Ho. rewrite forallb_forall in H. specialize (H o Ho). intros ->. discriminate. Qed.

Example run0_no_ub : no_ub (gm_trace bp0 igm_init run0).
Proof. apply no_ub_dec. vm_compute. reflexivity. Qed.

Example run0_all_ok : forallb (fun o => is_ok o) (gm_trace bp0 igm_init run0) = true.
Proof. vm_compute. reflexivity. Qed.

Example run0_opts_ok : opts_ok bp0 igm_init run0.
Proof. vm_compute. repeat split. Qed.

(* decision procedures for the side conditions *)
Fixpoint msortedb {A} (m : omap A) : bool :=
  match m with [] => true | (k, _) :: m' => forallb (fun k' => k <? k') (mkeys m') && msortedb m' end.
Lemma msortedb_ok {A} (m : omap A) : msortedb m = true -> msorted m.
Proof.
  induction m as [|[k a] m IH]; simpl; intros H; [exact I|]. apply andb_prop in H. destruct H as [H1 H2].
  split; [|auto]. intros k' Hk. rewrite forallb_forall in H1. specialize (H1 k' Hk). lia.
Qed.

Definition freshb_op (s : igm) (op : gmop) : bool :=
  match op with
  | OStereo k f => msortedb f && forallb (fun t => negb (t_first t) || negb (mmem (raw SymS (t_id t)) (g_val (i_gm s)))) (stereo_done k f (i_gm s))
  | OOptimise o _ => match o_end o with Some e => e <? raw SymB 0 | None => false end
  | _ => true
  end.
Fixpoint freshb bp (s : igm) (ops : list gmop) : bool :=
  match ops with [] => true | op :: ops' => freshb_op s op && freshb bp (fst (gm_step bp s op)) ops' end.
Lemma freshb_ok bp ops s : freshb bp s ops = true -> fresh bp s ops.
Proof.
  revert s. induction ops as [|op ops IH]; intros s H; [exact I|]. cbn [freshb fresh] in *. apply andb_prop in H.
  destruct H as [H1 H2]. split; [|auto]. destruct op; try exact I; simpl in H1.
  - apply andb_prop in H1. destruct H1 as [A B]. split; [apply msortedb_ok; auto|]. intros t Ht Hf.
    rewrite forallb_forall in B. specialize (B t Ht). rewrite Hf in B. simpl in B. unfold mmem in B.
    destruct (mget _ _); [discriminate|reflexivity].
  - simpl. destruct (o_end o) as [e|] eqn:E; [|discriminate]. exists e. split; [reflexivity|lia].
Qed.

Example run0_fresh : fresh bp0 igm_init run0.
Proof. apply freshb_ok. vm_compute. reflexivity. Qed.

Example run0_solver_ok : solver_ok bp0 igm_init run0.
Proof. cbn [solver_ok run0]. repeat (split; [intros; vm_compute; reflexivity|]). exact I. Qed.

Example run0_stereo_ok : stereo_ok bp0 igm_init run0.
Proof. cbn [stereo_ok run0]. repeat (split; [first [vm_compute; reflexivity|vm_compute; discriminate]|]). exact I. Qed.

Definition frames0 : list (omap Z) := [[(10, 1); (11, 2)]; [(10, 3); (11, 4); (12, 5)]; [(11, 6); (12, 7)]].

Example run0_frames : stereo_calls run0 = number 0 frames0 /\ Forall msorted frames0.
Proof.
  split; [reflexivity|]. repeat (constructor; [simpl; intuition (subst; lia)|]). constructor.
Qed.

(* values, pending and handed data of the run are non-trivial *)
Example run0_values : gm_get SymX 1 (i_gm (gm_run bp0 igm_init run0)) <> Throw /\
  gm_get SymX 2 (i_gm (gm_run bp0 igm_init run0)) = Ok 102 /\ gm_get SymX 3 (i_gm (gm_run bp0 igm_init run0)) = Throw.
Proof. vm_compute. repeat split. discriminate. Qed.

Example run0_next_optimise :
  match snd (gm_step bp0 (gm_run bp0 igm_init run0) (OOptimise (orc false) 2)) with
  | Ok (fs, vs, ks) => (List.length fs, List.length vs, List.length ks) = (5%nat, 5%nat, 4%nat)
  | _ => False end.
Proof. vm_compute. reflexivity. Qed.

Example run0_window : i_marg_on (gm_run bp0 igm_init run0) = true /\
  i_marg_key (gm_run bp0 igm_init run0) <= 2 - i_window (gm_run bp0 igm_init run0).
Proof. vm_compute. split; [reflexivity|discriminate]. Qed.

Example run0_pairs :
  map (fun x => map f_meas (filter (is_pair x 11) (map snd (run_creations bp0 igm_init run0)))) [0; 1; 2; 3] = [[2]; [4]; [6]; []].
Proof. vm_compute. reflexivity. Qed.

Example run0_listed : listed (i_gm (gm_run bp0 igm_init run0)) 1 10 /\ listed (i_gm (gm_run bp0 igm_init run0)) 2 12.
Proof. vm_compute. auto. Qed.

Lemma seen_after k0 frames j id : k0 + Z.of_nat (List.length frames) <= j -> seen k0 frames j id = None.
Proof.
  intros H. unfold seen. destruct (j <? k0); [reflexivity|].
  assert (E: nth_error frames (Z.to_nat (j - k0)) = None) by (apply nth_error_None; lia). rewrite E. reflexivity.
Qed.

Example run0_never_reacquired : never_reacquired 0 frames0.
Proof.
  intros id i j l H1 H2 Hi Hl.
  assert (0 <= i) by (unfold seen in Hi; destruct (Z.ltb_spec i 0); [congruence|lia]).
  assert (l < 3). { destruct (Z.lt_ge_cases l 3); [auto|]. rewrite seen_after in Hl by (simpl; lia). congruence. }
  assert (i = 0) by lia. assert (j = 1) by lia. assert (l = 2) by lia. subst.
  change (seen 0 frames0 0 id) with (if id =? 10 then Some 1 else if id =? 11 then Some 2 else None) in Hi.
  change (seen 0 frames0 2 id) with (if id =? 11 then Some 6 else if id =? 12 then Some 7 else None) in Hl.
  change (seen 0 frames0 1 id) with (if id =? 10 then Some 3 else if id =? 11 then Some 4 else if id =? 12 then Some 5 else None).
  destruct (Z.eqb_spec id 10); [discriminate|]. destruct (Z.eqb_spec id 11); [discriminate|]. congruence.
Qed.

(* ---- refutations ---- *)
(* an optimisation that throws loses the factors it took *)
Lemma factor_conservation_on_failure_refuted :
  exists ops f, In f (map snd (run_creations bp0 igm_init ops)) /\ no_ub (gm_trace bp0 igm_init ops) /\
    ~ In f (i_facs (gm_run bp0 igm_init ops)) /\
    (forall k, ~ In f (mentry k (g_new_fac (i_gm (gm_run bp0 igm_init ops))))).
Proof.
  exists [OSetPose 0 1; OCreate FPriorPose 0 2; OOptimise orc_fail 0], (mkFactor FPriorPose [raw SymX 0] 2).
  split; [vm_compute; auto|]. split; [apply no_ub_dec; vm_compute; reflexivity|].
  split; [vm_compute; tauto|]. intros k. vm_compute. tauto.
Qed.

(* the extraction of an ordinary graph dereferences the end iterator *)
Lemma extraction_defined_refuted :
  exists ops, no_ub (gm_trace bp0 igm_init ops) /\
    snd (gm_step bp0 (gm_run bp0 igm_init ops) (OOptimise orc_strict 0)) = UB.
Proof.
  exists [OSetPose 0 1; OCreate FPriorPose 0 2]. split; [apply no_ub_dec; vm_compute; reflexivity|]. vm_compute. reflexivity.
Qed.

(* a feature id seen again after a loss makes the following optimisation throw *)
Definition reacquire : list gmop :=
  [ OSetCalib 4; OSetCam 5; OSetPose 0 10; OStereo 0 [(1, 1)]; OSetPose 1 11; OStereo 1 [(1, 2)];
    OOptimise (orc true) 1; OSetPose 2 12; OStereo 2 []; OSetPose 3 13; OStereo 3 [(1, 3)]; OSetPose 4 14; OStereo 4 [(1, 4)] ].

Lemma reacquired_feature_refuted :
  forallb (fun o => is_ok o) (gm_trace bp0 igm_init reacquire) = true /\
  snd (gm_step bp0 (gm_run bp0 igm_init reacquire) (OOptimise (orc true) 4)) = Throw.
Proof. split; vm_compute; reflexivity. Qed.

(* values(first, last) omits the landmarks of the range when there is no stereo frame at `first` *)
Lemma values_range_landmarks_refuted :
  exists ops k id, forallb (fun o => is_ok o) (gm_trace bp0 igm_init ops) = true /\
    listed (i_gm (gm_run bp0 igm_init ops)) k id /\ 0 <= k <= 5 /\
    exists vs, gm_values (Some 3) 0 5 (i_gm (gm_run bp0 igm_init ops)) = Ok vs /\ mget (raw SymS id) vs = None /\
      mget (raw SymS id) (g_val (i_gm (gm_run bp0 igm_init ops))) <> None.
Proof.
  exists [OSetCalib 4; OSetCam 5; OSetPose 0 10; OStereo 0 [(1, 1)]; OSetPose 1 11; OStereo 1 [(1, 2)]], 1, 1.
  split; [vm_compute; reflexivity|]. split; [vm_compute; auto|]. split; [lia|].
  eexists. split; [vm_compute; reflexivity|]. split; [vm_compute; reflexivity|]. vm_compute. discriminate.
Qed.

(* stereo frames at keys 0 and 2: the observation made at key 0 constrains pose 1 *)
Definition gap : list gmop :=
  [ OSetCalib 4; OSetCam 5; OSetPose 0 10; OStereo 0 [(1, 41)]; OSetPose 1 11; OSetPose 2 12; OStereo 2 [(1, 42)] ].

Lemma missed_keys_refuted :
  forallb (fun o => is_ok o) (gm_trace bp0 igm_init gap) = true /\
  map snd (run_creations bp0 igm_init gap) = [stereo_factor 1 1 41; stereo_factor 2 1 42].
Proof. split; vm_compute; reflexivity. Qed.

(* landmark created at the current key m but with id <= m - w is marginalised at once *)
Definition lm_marg : list gmop :=
  [ OSetCalib 4; OSetCam 5; OSetMarg true 2; OSetPose 0 10; OSetPose 1 11; OSetPose 2 12; OSetPose 3 13; OSetPose 4 14;
    OStereo 4 [(0, 1); (9, 1)]; OSetPose 5 15; OStereo 5 [(0, 2); (9, 2)] ].

Lemma landmark_window_refuted :
  let s := gm_run bp0 igm_init lm_marg in
  forallb (fun o => is_ok o) (gm_trace bp0 igm_init lm_marg) = true /\ i_window s = 2 /\
  listed (i_gm s) 5 0 /\ listed (i_gm s) 5 9 /\
  exists s' fs vs ks, gm_step bp0 s (OOptimise (orc true) 5) = (s', Ok (fs, vs, ks)) /\
    In (raw SymS 0) ks /\ ~ In (raw SymS 9) ks.
Proof.
  vm_compute. split; [reflexivity|]. split; [reflexivity|]. split; [auto|]. split; [auto|].
  do 4 eexists. split; [reflexivity|]. split; [simpl; auto 10|]. simpl. intuition discriminate.
Qed.
