(* Abstract view of the graph manager used by the back end proofs: how far each kind of value, time stamp and
   named key has got. Every call of the callbacks is described by its effect on this view. *)
From Verif Require Import Base GmModel GmSpec GmInv GmProofs GmFactors GmValues GmHist GmKeys GmStereo GmIds GmReady.
From Verif Require Import BeModel BeSpec BeEff.

Record ast := mkA {
  a_opt : Z;                               (* newest optimised key *)
  a_u : Z; a_r : Z; a_s : Z; a_b : Z;      (* named keys imu, reg, stereo, barometer *)
  aX : Z; aV : Z; aB : Z; aP : Z;          (* values exist for the indices below *)
  aT : Z;                                  (* time stamps exist for the keys below *)
  a_last : Z;                              (* no stereo frame is stored above this key *)
  a_fr : list (omap Z);                    (* stored stereo frames *)
  a_cal : bool }.                          (* stereo calibration set *)

Definition cnt (A : ast) (cc : sym) : Z :=
  match cc with SymX => aX A | SymV => aV A | SymB => aB A | SymP => aP A | SymS => 0 end.

Definition bump (cc : sym) (k : Z) (A : ast) : ast :=
  match A with mkA o u r s b x v bi p t l f ca =>
    match cc with
    | SymX => mkA o u r s b (Z.max x (k + 1)) v bi p t l f ca
    | SymV => mkA o u r s b x (Z.max v (k + 1)) bi p t l f ca
    | SymB => mkA o u r s b x v (Z.max bi (k + 1)) p t l f ca
    | SymP => mkA o u r s b x v bi (Z.max p (k + 1)) t l f ca
    | SymS => A
    end
  end.

Definition setop (cc : sym) (k v : Z) : gmop :=
  match cc with SymX => OSetPose k v | SymV => OSetVel k v | SymB => OSetBias k v | _ => OSetBaro k v end.

Section Abs.
Variable bp : Z -> Z -> Z -> Z -> Z.
Variable c : config.
Variable tau : Z -> Z.

Definition keyview (A : ast) (n : string) : option (Z * Z) :=
  if String.eqb n "imu" then Some (a_u A, 0)
  else if String.eqb n "reg" then if c_reg c then Some (a_r A, 0) else None
  else if String.eqb n "stereo" then if c_stereo c then Some (a_s A, 0) else None
  else if String.eqb n "barometer" then if c_baro c then Some (a_b A, 1) else None
  else None.

Record abs (A : ast) (W : list Z) (g : igm) : Prop := {
  ab_rdy : rdy g;
  ab_keys : forall n, sget n (g_keys (i_gm g)) = keyview A n;
  ab_kbd : a_u A <= int_max /\ a_r A <= int_max /\ a_s A <= int_max /\ a_b A <= int_max;
  ab_val : forall cc k, state_sym cc = true -> idx_ok k = true ->
     (In (raw cc k) (mkeys (g_val (i_gm g))) <-> k < cnt A cc);
  ab_bd : forall cc, 0 <= cnt A cc <= int_max + 1;
  ab_ts : forall k, mget k (g_ts (i_gm g)) = if (0 <=? k) && (k <? aT A) then Some (tau k) else None;
  ab_opt : i_opt g = a_opt A;
  ab_vars : forall k, 0 <= k <= a_opt A -> k <= int_max -> In (raw SymX k) (i_vars g) /\ In (raw SymV k) (i_vars g);
  ab_fr : map snd (g_feat (i_gm g)) = a_fr A;
  ab_last : forall j, mget j (g_feat (i_gm g)) <> None -> 0 <= j <= a_last A;
  ab_cam : c_stereo c = true -> g_cam (i_gm g) <> None;
  ab_cal : g_calib (i_gm g) <> None <-> a_cal A = true;
  ab_frcal : a_fr A <> [] -> a_cal A = true;
  ab_owe : forall k f v, In f (mentry k (g_new_fac (i_gm g))) -> In v (f_vars f) -> has_val (i_gm g) v \/ In v W }.

Lemma idx_int k : 0 <= k <= int_max + 1 -> idx_ok k = true.
Proof. intros H. apply idx_ok_lim. change (int_max + 1) with 2147483648 in H. change (2 ^ 56) with 72057594037927936. lia. Qed.

Lemma abs_has A W g cc k : abs A W g -> state_sym cc = true -> 0 <= k -> k < cnt A cc -> has_val (i_gm g) (raw cc k).
Proof.
  intros H Hc Hk Hlt. apply has_val_key. pose proof (ab_bd _ _ _ H cc). apply (ab_val _ _ _ H); auto. apply idx_int. lia.
Qed.

(* ---- reads ---- *)
Lemma abs_get A W g cc k : abs A W g -> state_sym cc = true -> 0 <= k -> k < cnt A cc ->
  exists v, gm_get cc k (i_gm g) = Ok v.
Proof.
  intros H Hc Hk Hlt. pose proof (abs_has A W g cc k H Hc Hk Hlt) as Hv. pose proof (ab_bd _ _ _ H cc).
  unfold gm_get, sym_key. rewrite idx_int by lia. unfold has_val in Hv. destruct (mget _ _); [eauto|congruence].
Qed.

Lemma abs_hasq A W g cc k : abs A W g -> state_sym cc = true -> 0 <= k <= int_max + 1 ->
  gm_has cc k (i_gm g) = Ok (k <? cnt A cc).
Proof.
  intros H Hc Hk. unfold gm_has, sym_key. rewrite idx_int by lia. f_equal.
  pose proof (ab_val _ _ _ H cc k Hc (idx_int k Hk)) as E. rewrite <- mmem_true in E.
  destruct (mmem _ _), (Z.ltb_spec k (cnt A cc)); try reflexivity; exfalso; intuition (try lia; try discriminate).
Qed.

Lemma abs_tsq A W g k : abs A W g -> 0 <= k -> k < aT A -> gm_timestamp k (i_gm g) = Ok (tau k).
Proof.
  intros H Hk Hlt. unfold gm_timestamp. replace (0 <=? k) with true by lia. rewrite (ab_ts _ _ _ H).
  replace ((0 <=? k) && (k <? aT A)) with true by lia. reflexivity.
Qed.

Lemma abs_keyq A W g n off k p : abs A W g -> keyview A n = Some (k, p) -> gm_key n off (i_gm g) = Ok (k + off).
Proof. intros H E. unfold gm_key. rewrite (ab_keys _ _ _ H), E. reflexivity. Qed.

Lemma abs_covq A W g cc k : abs A W g -> cc = SymX \/ cc = SymV -> 0 <= k <= a_opt A -> k <= int_max -> q_cov cc k g = Ok tt.
Proof.
  intros H Hc Hk Hi. unfold q_cov, sym_key. rewrite idx_int by lia. cbn [rbind].
  destruct (ab_vars _ _ _ H k Hk Hi) as [HX HV].
  assert (E : zmem (raw cc k) (i_vars g) = true) by (apply zmem_In; destruct Hc; subst; auto). rewrite E. reflexivity.
Qed.

Definition amin (A : ast) : Z :=
  Z.min (a_u A) (Z.min (if c_reg c then a_r A else a_u A) (if c_stereo c then a_s A else a_u A)).

Lemma abs_minq A W g : abs A W g -> q_min g = Ok (amin A).
Proof.
  intros H. unfold q_min. pose proof (ab_kbd _ _ _ H) as BD.
  pose proof (inv_names _ (inv_gm _ (r_inv _ (ab_rdy _ _ _ H)))) as ND.
  assert (Hin : forall n k p, keyview A n = Some (k, p) -> p <= 0 -> k = a_u A \/ (c_reg c = true /\ k = a_r A) \/ (c_stereo c = true /\ k = a_s A)).
  { intros n k p. unfold keyview. destruct (String.eqb n "imu"); [intros E; injection E; auto|].
    destruct (String.eqb n "reg"); [destruct (c_reg c); [intros E; injection E; auto|discriminate]|].
    destruct (String.eqb n "stereo"); [destruct (c_stereo c); [intros E; injection E; auto|discriminate]|].
    destruct (String.eqb n "barometer"); [destruct (c_baro c); [|discriminate]|discriminate]. intros E; injection E; intros; lia. }
  assert (HI : keys_int (i_gm g)).
  { intros n k p Hn. rewrite (ab_keys _ _ _ H) in Hn. clear Hin. unfold keyview in Hn.
    repeat match type of Hn with context [if ?b then _ else _] => destruct b; try discriminate end; injection Hn; intros; lia. }
  destruct (gm_minimum_key 0 (i_gm g)) as [k| |] eqn:E.
  - f_equal. destruct (minimum_key_lower _ _ _ ND HI E) as [L (n & p & Hn & Hp)]. rewrite (ab_keys _ _ _ H) in Hn.
    assert (Lu : k <= a_u A) by (apply (L "imu"%string (a_u A) 0); [rewrite (ab_keys _ _ _ H); reflexivity|lia]).
    assert (Lr : c_reg c = true -> k <= a_r A).
    { intros Hr. apply (L "reg"%string (a_r A) 0); [rewrite (ab_keys _ _ _ H); unfold keyview; simpl; rewrite Hr; reflexivity|lia]. }
    assert (Ls : c_stereo c = true -> k <= a_s A).
    { intros Hr. apply (L "stereo"%string (a_s A) 0); [rewrite (ab_keys _ _ _ H); unfold keyview; simpl; rewrite Hr; reflexivity|lia]. }
    unfold amin. destruct (Hin _ _ _ Hn Hp) as [Ek|[[Hc Ek]|[Hc Ek]]];
      destruct (c_reg c), (c_stereo c); try discriminate;
      try specialize (Lr eq_refl); try specialize (Ls eq_refl); lia.
  - exfalso. pose proof (proj1 (minimum_key_throws _ _ ND HI) E "imu"%string (a_u A) 0) as X.
    rewrite (ab_keys _ _ _ H) in X. specialize (X eq_refl). lia.
  - exfalso. apply (minimum_key_not_ub (i_gm g) 0). exact E.
Qed.

Lemma path_keys A W g ks : abs A W g -> (forall k, In k ks -> 0 <= k < aX A /\ k < aT A) ->
  exists l, path_loop g ks = Ok l /\
    Forall2 (fun k tp => fst tp = tau k /\ gm_get SymX k (i_gm g) = Ok (snd tp)) ks l.
Proof.
  intros H. induction ks as [|k ks IH]; intros Hk; simpl.
  - exists []. split; [reflexivity|constructor].
  - destruct IH as (l & E & F). { intros; apply Hk; right; auto. }
    assert (Hk0 : 0 <= k < aX A /\ k < aT A) by (apply Hk; left; auto).
    rewrite (abs_tsq A W g k H) by lia. cbn [rbind].
    destruct (abs_get A W g SymX k H eq_refl) as [p Ep]; [lia|simpl; lia|]. rewrite Ep. cbn [rbind]. rewrite E. cbn [rbind].
    exists ((tau k, p) :: l). split; [reflexivity|]. constructor; auto.
Qed.

Lemma in_zrange k a b : In k (zrange a b) <-> a <= k <= b.
Proof.
  unfold zrange. rewrite in_map_iff. split.
  - intros (i & E & Hi). apply in_seq in Hi. lia.
  - intros H. exists (Z.to_nat (k - a)). split; [lia|]. apply in_seq. lia.
Qed.

Lemma landmarks_total vals ids ext :
  (forall id, In id ids -> idx_ok id = true /\ In (raw SymS id) (mkeys vals)) -> exists l, landmarks_of vals ids ext = Ok l.
Proof.
  revert ext. induction ids as [|id ids IH]; intros ext H; simpl; [eauto|].
  destruct (H id) as [H1 H2]; [left; auto|]. unfold sym_key. rewrite H1. cbn [rbind].
  apply some_key in H2. destruct (mget (raw SymS id) vals); [|congruence]. apply IH. intros; apply H; right; auto.
Qed.

Lemma abs_pointsq A W g : abs A W g -> exists l, gm_stereo_landmarks (-1) (i_gm g) = Ok l.
Proof.
  intros H. unfold gm_stereo_landmarks. cbn [Z.eqb]. apply landmarks_total.
  intros id Hid. apply (li_val _ (r_list _ (ab_rdy _ _ _ H))). exact Hid.
Qed.

(* ---- calls ---- *)
Lemma eff_val_none s op s' : eff bp s op s' -> opt_bound op <> None \/ writes bp s op = [] ->
  forall v, In v (mkeys (g_val (i_gm s'))) <-> In v (mkeys (g_val (i_gm s))).
Proof. intros E H v. rewrite (e_val _ _ _ _ E). destruct H as [H|H]; [tauto|]. rewrite H. simpl. tauto. Qed.

Lemma owe_same A W g op g' : abs A W g -> eff bp g op g' -> creations g op = [] ->
  forall k f v, In f (mentry k (g_new_fac (i_gm g'))) -> In v (f_vars f) -> has_val (i_gm g') v \/ In v W.
Proof.
  intros H E Hc k f v Hf Hv. apply (e_pend _ _ _ _ E) in Hf. rewrite Hc in Hf. destruct Hf as [Hf|[]].
  destruct (ab_owe _ _ _ H _ _ _ Hf Hv) as [X|X]; [|auto]. left. apply has_val_key. apply has_val_key in X.
  apply (e_val _ _ _ _ E). auto.
Qed.

Lemma vars_same A W g op g' : abs A W g -> eff bp g op g' ->
  forall k, 0 <= k <= a_opt A -> k <= int_max -> In (raw SymX k) (i_vars g') /\ In (raw SymV k) (i_vars g').
Proof. intros H E k Hk Hi. destruct (ab_vars _ _ _ H k Hk Hi). split; apply (e_vars _ _ _ _ E); auto. Qed.

Lemma cnt_bump cc k A cc' : cnt (bump cc k A) cc' = if match cc, cc' with SymX, SymX | SymV, SymV | SymB, SymB | SymP, SymP => true | _, _ => false end
  then Z.max (cnt A cc) (k + 1) else cnt A cc'.
Proof. destruct A, cc, cc'; reflexivity. Qed.

Ltac bfields := (* fields of bump unrelated to counts *)
  match goal with |- context [bump ?cc ?k ?A] => destruct A, cc; reflexivity end.
Lemma bump_opt cc k A : a_opt (bump cc k A) = a_opt A. Proof. bfields. Qed.
Lemma bump_key cc k A n : keyview (bump cc k A) n = keyview A n. Proof. bfields. Qed.
Lemma bump_T cc k A : aT (bump cc k A) = aT A. Proof. bfields. Qed.
Lemma bump_rest cc k A : a_last (bump cc k A) = a_last A /\ a_fr (bump cc k A) = a_fr A /\ a_cal (bump cc k A) = a_cal A /\
  a_u (bump cc k A) = a_u A /\ a_r (bump cc k A) = a_r A /\ a_s (bump cc k A) = a_s A /\ a_b (bump cc k A) = a_b A.
Proof. destruct A, cc; repeat split. Qed.

Lemma abs_set A W g cc k v g' : abs A W g -> state_sym cc = true -> 0 <= k <= cnt A cc -> k <= int_max ->
  eff bp g (setop cc k v) g' -> rdy g' -> abs (bump cc k A) W g'.
Proof.
  intros H Hc Hk Hi E R. destruct (bump_rest cc k A) as (B1 & B2 & B3 & B4 & B5 & B6 & B7).
  assert (Hidx : idx_ok k = true) by (apply idx_int; lia).
  assert (Hw : writes bp g (setop cc k v) = [(raw cc k, v)]) by (destruct cc; try discriminate; simpl; rewrite Hidx; reflexivity).
  assert (OB : opt_bound (setop cc k v) = None) by (destruct cc; reflexivity).
  constructor; auto.
  - intros n. rewrite (e_keys _ _ _ _ E), bump_key, <- (ab_keys _ _ _ H). destruct cc; try discriminate; reflexivity.
  - rewrite B4, B5, B6, B7. apply (ab_kbd _ _ _ H).
  - intros cc' k' Hc' Hk'. rewrite (e_val _ _ _ _ E), Hw, OB, (ab_val _ _ _ H) by auto. simpl map. simpl In.
    rewrite cnt_bump. split.
    + intros [[_ [Ek|[]]]|Hlt].
      * apply raw_inj in Ek; auto. destruct Ek as [-> ->]. destruct cc'; try discriminate; lia.
      * destruct cc, cc'; simpl cnt in *; lia.
    + intros Hlt. destruct (Z.ltb_spec k' (cnt A cc')); [right; auto|left]. split; [reflexivity|].
      destruct cc, cc'; try discriminate; simpl cnt in *; try lia; left; f_equal; lia.
  - intros cc'. rewrite cnt_bump. pose proof (ab_bd _ _ _ H cc). pose proof (ab_bd _ _ _ H cc').
    destruct cc, cc'; lia.
  - intros k'. rewrite (e_ts _ _ _ _ E), bump_T, <- (ab_ts _ _ _ H). destruct cc; try discriminate; reflexivity.
  - rewrite (e_opt _ _ _ _ E), bump_opt, OB. apply (ab_opt _ _ _ H).
  - rewrite bump_opt. exact (vars_same _ _ _ _ _ H E).
  - rewrite (e_feat _ _ _ _ E), B2, <- (ab_fr _ _ _ H). destruct cc; try discriminate; reflexivity.
  - intros j. rewrite (e_feat _ _ _ _ E), B1. intros Hj. apply (ab_last _ _ _ H). destruct cc; try discriminate; exact Hj.
  - intros Hs. rewrite (e_cam _ _ _ _ E). pose proof (ab_cam _ _ _ H Hs). destruct cc; try discriminate; assumption.
  - rewrite (e_calib _ _ _ _ E), B3. rewrite <- (ab_cal _ _ _ H). destruct cc; try discriminate; reflexivity.
  - rewrite B2, B3. apply (ab_frcal _ _ _ H).
  - eapply owe_same; eauto. destruct cc; reflexivity.
Qed.

Lemma abs_nav A W g k p v g' : abs A W g -> 0 <= k <= aX A -> k <= aV A -> k <= int_max ->
  eff bp g (OSetNavstate k p v) g' -> rdy g' -> abs (bump SymV k (bump SymX k A)) W g'.
Proof.
  intros H Hk Hk2 Hi E R. destruct A as [o u r s b x vv bi pp t l fr ca]. cbn [bump] in *. cbn [aX aV] in *.
  assert (Hidx : idx_ok k = true) by (apply idx_int; lia).
  constructor; auto.
  - intros n. rewrite (e_keys _ _ _ _ E). apply (ab_keys _ _ _ H).
  - apply (ab_kbd _ _ _ H).
  - intros cc' k' Hc' Hk'. rewrite (e_val _ _ _ _ E), (ab_val _ _ _ H) by auto. simpl writes. rewrite Hidx. cbn [app map In fst opt_bound].
    split.
    + intros [[_ [Ek|[Ek|[]]]]|Hlt].
      1,2: apply raw_inj in Ek; auto; destruct Ek as [<- <-]; cbn [cnt aX aV]; lia.
      destruct cc'; cbn [cnt aX aV aB aP] in *; lia.
    + intros Hlt. destruct (Z.ltb_spec k' (cnt (mkA o u r s b x vv bi pp t l fr ca) cc')); [right; auto|left]. split; [reflexivity|].
      destruct cc'; try discriminate; cbn [cnt aX aV aB aP] in *; try lia; [right; left|left]; f_equal; lia.
  - intros cc'. pose proof (ab_bd _ _ _ H cc'). destruct cc'; cbn [cnt aX aV aB aP] in *; lia.
  - intros k'. rewrite (e_ts _ _ _ _ E). apply (ab_ts _ _ _ H).
  - rewrite (e_opt _ _ _ _ E). apply (ab_opt _ _ _ H).
  - exact (vars_same _ _ _ _ _ H E).
  - rewrite (e_feat _ _ _ _ E). apply (ab_fr _ _ _ H).
  - intros j. rewrite (e_feat _ _ _ _ E). apply (ab_last _ _ _ H).
  - intros Hs. rewrite (e_cam _ _ _ _ E). apply (ab_cam _ _ _ H Hs).
  - rewrite (e_calib _ _ _ _ E). apply (ab_cal _ _ _ H).
  - apply (ab_frcal _ _ _ H).
  - eapply owe_same; eauto.
Qed.

(* calls that write no value and create no factor *)
Definition quiet (op : gmop) : bool :=
  match op with OIncrement _ | OSetTimestamp _ _ | OSetCalib _ => true | _ => false end.

Lemma abs_quiet A W g op g' A' : abs A W g -> quiet op = true -> eff bp g op g' -> rdy g' ->
  aX A' = aX A -> aV A' = aV A -> aB A' = aB A -> aP A' = aP A -> a_opt A' = a_opt A -> a_last A <= a_last A' -> a_fr A' = a_fr A ->
  (forall n, named_after n op (keyview A n) = keyview A' n) ->
  a_u A' <= int_max /\ a_r A' <= int_max /\ a_s A' <= int_max /\ a_b A' <= int_max ->
  (forall k, stamp_after k op (if (0 <=? k) && (k <? aT A) then Some (tau k) else None) = if (0 <=? k) && (k <? aT A') then Some (tau k) else None) ->
  a_cal A' = (match op with OSetCalib _ => true | _ => a_cal A end) ->
  abs A' W g'.
Proof.
  intros H Hq E R E1 E2 E3 E4 E5 E6 E7 Hn Hb Ht Hcal.
  assert (Ecnt : forall cc, cnt A' cc = cnt A cc) by (destruct cc; simpl; congruence).
  constructor; auto.
  - intros n. rewrite (e_keys _ _ _ _ E), (ab_keys _ _ _ H). apply Hn.
  - intros cc k Hc Hk. rewrite Ecnt, <- (ab_val _ _ _ H) by auto. apply (eff_val_none _ _ _ E). destruct op; try discriminate; auto.
  - intros cc. rewrite Ecnt. apply (ab_bd _ _ _ H).
  - intros k. rewrite (e_ts _ _ _ _ E), (ab_ts _ _ _ H). apply Ht.
  - rewrite (e_opt _ _ _ _ E), E5, <- (ab_opt _ _ _ H). destruct op; try discriminate; reflexivity.
  - rewrite E5. exact (vars_same _ _ _ _ _ H E).
  - rewrite (e_feat _ _ _ _ E), E7, <- (ab_fr _ _ _ H). destruct op; try discriminate; reflexivity.
  - intros j. rewrite (e_feat _ _ _ _ E). intros Hj. cut (0 <= j <= a_last A); [lia|]. apply (ab_last _ _ _ H).
    destruct op; try discriminate; exact Hj.
  - intros Hs. rewrite (e_cam _ _ _ _ E). pose proof (ab_cam _ _ _ H Hs). destruct op; try discriminate; assumption.
  - rewrite (e_calib _ _ _ _ E), Hcal. pose proof (ab_cal _ _ _ H) as X. destruct op; try discriminate; auto. split; congruence.
  - rewrite E7, Hcal. intros X. apply (ab_frcal _ _ _ H) in X. destruct op; auto.
  - eapply owe_same; eauto. destruct op; try discriminate; reflexivity.
Qed.

(* calls that create one factor *)
Lemma abs_create A W W' g kind k meas g' : abs A W g -> eff bp g (OCreate kind k meas) g' -> rdy g' -> kind <> FStereo ->
  (forall v, In v W -> In v W') ->
  (forall cc i, In (cc, i) (factor_vars kind k) -> (state_sym cc = true /\ 0 <= i < cnt A cc) \/ In (raw cc i) W') ->
  abs A W' g'.
Proof.
  intros H E R Hk HW Hv. 
  assert (V: forall v, In v (mkeys (g_val (i_gm g'))) <-> In v (mkeys (g_val (i_gm g)))).
  { apply (eff_val_none _ _ _ E). right. destruct kind; reflexivity. }
  constructor; auto.
  - intros n. rewrite (e_keys _ _ _ _ E). apply (ab_keys _ _ _ H).
  - apply (ab_kbd _ _ _ H).
  - intros cc k' Hc Hk'. rewrite V. apply (ab_val _ _ _ H); auto.
  - apply (ab_bd _ _ _ H).
  - intros k'. rewrite (e_ts _ _ _ _ E). apply (ab_ts _ _ _ H).
  - rewrite (e_opt _ _ _ _ E). apply (ab_opt _ _ _ H).
  - exact (vars_same _ _ _ _ _ H E).
  - rewrite (e_feat _ _ _ _ E). apply (ab_fr _ _ _ H).
  - intros j. rewrite (e_feat _ _ _ _ E). apply (ab_last _ _ _ H).
  - intros Hs. rewrite (e_cam _ _ _ _ E). apply (ab_cam _ _ _ H Hs).
  - rewrite (e_calib _ _ _ _ E). apply (ab_cal _ _ _ H).
  - apply (ab_frcal _ _ _ H).
  - intros j f v Hf Hvf. apply (e_pend _ _ _ _ E) in Hf. unfold has_val. rewrite some_key, V, <- some_key. fold (has_val (i_gm g) v).
    destruct Hf as [Hf|Hf]; [destruct (ab_owe _ _ _ H _ _ _ Hf Hvf); auto|].
    rewrite creations_create in Hf by auto. destruct (forallb _ _) eqn:Ef; [|inversion Hf]. destruct Hf as [Hf|[]].
    injection Hf as <- <-. simpl in Hvf. apply in_map_iff in Hvf. destruct Hvf as ([cc i] & Ev & Hi). simpl in Ev. subst v.
    destruct (Hv cc i Hi) as [[Hs Hlt]|X]; [|auto]. left. apply (abs_has A W); auto; lia.
Qed.

(* variables owed that now have values *)
Lemma abs_paid A W g : abs A W g -> (forall v, In v W -> has_val (i_gm g) v) -> abs A [] g.
Proof.
  intros H HW. destruct H. constructor; auto. intros k f v Hf Hv. destruct (ab_owe0 k f v Hf Hv); auto.
Qed.

Definition with_frame (k : Z) (f : omap Z) (A : ast) : ast :=
  match A with mkA o u r s b x v bi p t l fr ca => mkA o u r s b x v bi p t k (fr ++ [f]) ca end.

Lemma abs_stereo A W g k f g' : abs A W g -> wf_op g (OStereo k f) -> eff bp g (OStereo k f) g' -> rdy g' ->
  0 <= k -> a_last A < k -> a_cal A = true -> abs (with_frame k f A) W g'.
Proof.
  intros H Wf E R H0 Hl Hcal. destruct A as [o u r s b x vv bi pp t l fr ca]. cbn [with_frame a_last] in *.
  assert (Hw : forall v, In v (map fst (writes bp g (OStereo k f))) -> exists id, idx_ok id = true /\ v = raw SymS id).
  { intros v Hv. simpl writes in Hv. unfold stereo_writes in Hv.
    destruct (mget (raw SymX k) _), (g_cam (i_gm g)), (g_calib (i_gm g)); try inversion Hv.
    rewrite map_map in Hv. simpl in Hv. apply in_map_iff in Hv. destruct Hv as (tr & <- & Htr). exists (t_id tr). split; [|reflexivity].
    destruct (done_cases bp k f g (ab_rdy _ _ _ H) Wf) as [[_ D]|(k1 & f1 & rest & _ & D)]; rewrite D in Htr; [inversion Htr|].
    destruct Wf as (Sf & Hids & _). apply tracks_mem in Htr; auto. apply idx_ok_lim, Hids. tauto. }
  constructor; auto.
  - intros n. rewrite (e_keys _ _ _ _ E). apply (ab_keys _ _ _ H).
  - apply (ab_kbd _ _ _ H).
  - intros cc k' Hc Hk'. rewrite (e_val _ _ _ _ E).
    transitivity (In (raw cc k') (mkeys (g_val (i_gm g)))); [|apply (ab_val _ _ _ H); auto].
    split; [|auto]. intros [[_ Hv]|Hv]; [|exact Hv]. exfalso. apply Hw in Hv. destruct Hv as (id & Hid & Er).
    apply raw_inj in Er; auto. destruct Er as [-> _]. discriminate.
  - apply (ab_bd _ _ _ H).
  - intros k'. rewrite (e_ts _ _ _ _ E). apply (ab_ts _ _ _ H).
  - rewrite (e_opt _ _ _ _ E). apply (ab_opt _ _ _ H).
  - exact (vars_same _ _ _ _ _ H E).
  - rewrite (e_feat _ _ _ _ E), map_app, (ab_fr _ _ _ H). reflexivity.
  - intros j Hj. cbn [a_last]. rewrite (e_feat _ _ _ _ E) in Hj. apply some_key in Hj. unfold mkeys in Hj. rewrite map_app in Hj.
    apply in_app_or in Hj. destruct Hj as [Hj|[Hj|[]]]; [|simpl in Hj; lia].
    apply some_key, (ab_last _ _ _ H) in Hj. cbn [a_last] in Hj. lia.
  - intros Hs. rewrite (e_cam _ _ _ _ E). apply (ab_cam _ _ _ H Hs).
  - rewrite (e_calib _ _ _ _ E). apply (ab_cal _ _ _ H).
  - intros j f0 v Hf Hv. apply (e_pend _ _ _ _ E) in Hf.
    destruct Hf as [Hf|Hf].
    { destruct (ab_owe _ _ _ H _ _ _ Hf Hv) as [X|X]; [|auto]. left. apply has_val_key. apply has_val_key in X.
      apply (e_val _ _ _ _ E). auto. }
    left. simpl in Hf. apply in_map_iff in Hf. destruct Hf as (f1 & Ef & Hf). injection Ef as <- <-.
    apply in_flat_map in Hf. destruct Hf as (tr & Htr & Hf).
    assert (Hx : g_feat (i_gm g) <> []).
    { intros Z0. destruct (done_cases bp k f g (ab_rdy _ _ _ H) Wf) as [[_ D]|(k1 & f2 & rest & Er & D)].
      - rewrite D in Htr. inversion Htr.
      - rewrite Z0 in Er. discriminate. }
    destruct Wf as (Sf & Hids & Hlt & Hcon & Hne). destruct (Hne Hx) as (K1 & X1 & X2 & C1 & C2).
    assert (HS : has_val (i_gm g') (raw SymS (t_id tr))).
    { apply has_val_key, (e_val _ _ _ _ E). left. split; [reflexivity|]. simpl writes. unfold stereo_writes.
      unfold has_val in X1. destruct (mget (raw SymX k) _); [|congruence]. destruct (g_cam (i_gm g)); [|congruence].
      destruct (g_calib (i_gm g)); [|congruence]. rewrite map_map. apply in_map_iff. exists tr. auto. }
    assert (keep : forall w, has_val (i_gm g) w -> has_val (i_gm g') w).
    { intros w Hw0. apply has_val_key. apply has_val_key in Hw0. apply (e_val _ _ _ _ E). auto. }
    unfold track_factors in Hf. apply in_app_or in Hf. destruct Hf as [Hf|[<-|[]]].
    + destruct (t_first tr); [|inversion Hf]. destruct Hf as [<-|[]]. simpl in Hv. destruct Hv as [<-|[<-|[]]]; auto.
    + simpl in Hv. destruct Hv as [<-|[<-|[]]]; auto.
Qed.

Definition with_opt (m : Z) (A : ast) : ast :=
  match A with mkA o u r s b x v bi p t l fr ca => mkA m u r s b x v bi p t l fr ca end.

Lemma abs_optimise A g o m g' : abs A [] g -> eff bp g (OOptimise o m) g' -> rdy g' ->
  0 <= m < aX A -> m < aV A -> abs (with_opt m A) [] g'.
Proof.
  intros H E R Hm1 Hm2. destruct A as [oo u r s b x vv bi pp t l fr ca]. cbn [with_opt aX aV] in *.
  assert (V: forall v, In v (mkeys (g_val (i_gm g'))) <-> In v (mkeys (g_val (i_gm g)))).
  { apply (eff_val_none _ _ _ E). left. discriminate. }
  constructor; auto.
  - intros n. rewrite (e_keys _ _ _ _ E). apply (ab_keys _ _ _ H).
  - apply (ab_kbd _ _ _ H).
  - intros cc k' Hc Hk'. rewrite V. apply (ab_val _ _ _ H); auto.
  - apply (ab_bd _ _ _ H).
  - intros k'. rewrite (e_ts _ _ _ _ E). apply (ab_ts _ _ _ H).
  - rewrite (e_opt _ _ _ _ E). reflexivity.
  - intros k Hk Hi. cbn [a_opt] in Hk. split; apply (e_vars_opt _ _ _ _ E m); auto; try apply idx_int; try lia;
      apply has_val_key, (abs_has _ _ _ _ _ H); simpl; auto; lia.
  - rewrite (e_feat _ _ _ _ E). apply (ab_fr _ _ _ H).
  - intros j. rewrite (e_feat _ _ _ _ E). apply (ab_last _ _ _ H).
  - intros Hs. rewrite (e_cam _ _ _ _ E). apply (ab_cam _ _ _ H Hs).
  - rewrite (e_calib _ _ _ _ E). apply (ab_cal _ _ _ H).
  - apply (ab_frcal _ _ _ H).
  - intros k f v Hf Hv. apply (e_pend _ _ _ _ E) in Hf. destruct Hf as [Hf|[]].
    destruct (ab_owe _ _ _ H _ _ _ Hf Hv) as [X|X]; [|auto]. left. apply has_val_key. apply has_val_key in X. apply V. exact X.
Qed.

End Abs.
