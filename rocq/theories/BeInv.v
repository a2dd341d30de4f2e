(* The back end fed by a healthy environment: every critical section, started between sections, succeeds and
   leaves the key counters, the log of graph manager calls and the publications in the stated relation. *)
From Verif Require Import Base GmModel GmSpec GmInv GmProofs GmFactors GmValues GmHist GmKeys GmStereo GmIds GmReady.
From Verif Require Import BeModel BeSpec BeEff BeAbs.

(* ---- views of the call log and of the publications ---- *)
Definition opts (log : list gmop) : list Z := flat_map (fun op => match op with OOptimise _ m => [m] | _ => [] end) log.
Definition is_kind (a b : fkind) : bool :=
  match a, b with
  | FPriorPose, FPriorPose | FPriorVel, FPriorVel | FPriorBias, FPriorBias | FPriorBaro, FPriorBaro
  | FBetweenPose, FBetweenPose | FImu, FImu | FBaro, FBaro | FBaroBias, FBaroBias | FStereo, FStereo => true
  | _, _ => false
  end.
Definition crts (kind : fkind) (log : list gmop) : list Z :=
  flat_map (fun op => match op with OCreate kd k _ => if is_kind kind kd then [k] else [] | _ => [] end) log.
Definition stereo_incs (log : list gmop) : Z :=
  Z.of_nat (List.length (filter (fun op => match op with OIncrement n => String.eqb n "stereo" | _ => false end) log)).
Definition odoms (ev : list event) : list (Z * Z) := flat_map (fun e => match e with EOdom k t _ _ => [(k, t)] | _ => [] end) ev.
Definition trans (ev : list event) : list Z := flat_map (fun e => match e with ETransform t => [t] | _ => [] end) ev.

Lemma zrange_snoc a b : a <= b + 1 -> zrange a (b + 1) = zrange a b ++ [b + 1].
Proof.
  intros H. unfold zrange. replace (Z.to_nat (b + 1 - a + 1)) with (S (Z.to_nat (b - a + 1))) by lia.
  rewrite seq_S, map_app. cbn [map]. do 2 f_equal. lia.
Qed.
Lemma zrange_nil a b : b < a -> zrange a b = [].
Proof. intros H. unfold zrange. replace (Z.to_nat (b - a + 1)) with O by lia. reflexivity. Qed.

Lemma opts_app a b : opts (a ++ b) = opts a ++ opts b. Proof. apply flat_map_app. Qed.
Lemma crts_app k a b : crts k (a ++ b) = crts k a ++ crts k b. Proof. apply flat_map_app. Qed.
Lemma odoms_app a b : odoms (a ++ b) = odoms a ++ odoms b. Proof. apply flat_map_app. Qed.
Lemma trans_app a b : trans (a ++ b) = trans a ++ trans b. Proof. apply flat_map_app. Qed.
Lemma incs_app a b : stereo_incs (a ++ b) = stereo_incs a + stereo_incs b.
Proof. unfold stereo_incs. rewrite filter_app, app_length. lia. Qed.

Section Inv.
Variable bp : Z -> Z -> Z -> Z -> Z.
Variable c : config.
Variable tau : Z -> Z.

(* at every optimisation of key k, the constraints of the keys up to k had been created, none of a later key, and
   exactly the earlier keys had been optimised *)
Definition fed (k : Z) (l : list gmop) : Prop :=
  opts l = zrange 0 (k - 1) /\
  (1 <= k -> (c_imu c = true -> crts FImu l = zrange 1 k) /\ (c_reg c = true -> crts FBetweenPose l = zrange 1 k) /\
             (c_stereo c = true -> stereo_incs l = k + 1)).
Definition before (log : list gmop) : Prop :=
  forall l1 o k l2, log = l1 ++ OOptimise o k :: l2 -> fed k l1.

Lemma snoc_split {A} (log : list A) x l1 y l2 : log ++ [x] = l1 ++ y :: l2 ->
  (x = y /\ l1 = log /\ l2 = []) \/ exists l3, l2 = l3 ++ [x] /\ log = l1 ++ y :: l3.
Proof.
  intros E. destruct l2 as [|z l2 _] using rev_ind.
  - apply app_inj_tail in E. destruct E as [-> ->]. auto.
  - right. exists l2. rewrite app_comm_cons, app_assoc in E. apply app_inj_tail in E. destruct E as [-> ->]. auto.
Qed.
Lemma before_snoc log op : before log -> (forall o k, op = OOptimise o k -> fed k log) -> before (log ++ [op]).
Proof.
  intros B H l1 o k l2 E. apply snoc_split in E. destruct E as [(E & -> & _)|(l3 & _ & E)]; eauto.
Qed.

(* ---- weakest preconditions ---- *)
Definition wp (p : prog) (g : igm) (log : list gmop) (ev : list event)
    (Q : igm -> list gmop -> list event -> outcome -> Prop) : Prop :=
  match prun bp p g log ev with (g', log', ev', ROut o) => Q g' log' ev' o | _ => False end.

Lemma wp_call A' W' A W g op p log ev Q : abs c tau A W g -> wf_op g op ->
  (forall g', eff bp g op g' -> rdy g' -> abs c tau A' W' g') ->
  (forall g', abs c tau A' W' g' -> wp p g' (log ++ [op]) ev Q) -> wp (PCall op p) g log ev Q.
Proof.
  intros H Wf Hs Hp. destruct (step_eff bp g op (ab_rdy _ _ _ _ _ H) Wf) as (g' & x & E & R & F).
  unfold wp. cbn [prun]. rewrite E. apply Hp. apply Hs; auto.
Qed.
Lemma wp_rd {A} (q : igm -> res A) k a g log ev Q : q g = Ok a -> wp (k a) g log ev Q -> wp (rd q k) g log ev Q.
Proof. intros E H. unfold wp, rd. cbn [prun]. rewrite E. exact H. Qed.
Lemma wp_read k g log ev Q : wp (k g) g log ev Q -> wp (PRead k) g log ev Q.
Proof. exact (fun H => H). Qed.
Lemma wp_emit e k g log ev Q : wp k g log (ev ++ [e]) Q -> wp (PEmit e k) g log ev Q.
Proof. exact (fun H => H). Qed.
Lemma wp_ret o g log ev (Q : igm -> list gmop -> list event -> outcome -> Prop) : Q g log ev o -> wp (PRet o) g log ev Q.
Proof. exact (fun H => H). Qed.
Lemma wp_mono p g log ev (Q Q' : igm -> list gmop -> list event -> outcome -> Prop) :
  (forall g l e o, Q g l e o -> Q' g l e o) -> wp p g log ev Q -> wp p g log ev Q'.
Proof. intros H. unfold wp. destruct (prun bp p g log ev) as [[[? ?] ?] [o|]]; auto. Qed.

Lemma abs_eq A A' W g : abs c tau A W g -> A = A' -> abs c tau A' W g.
Proof. intros H <-. exact H. Qed.

(* ---- call rules ---- *)
Lemma wp_set cc k v A W g p log ev Q : abs c tau A W g -> state_sym cc = true -> 0 <= k <= cnt A cc -> k <= int_max ->
  (forall g', abs c tau (bump cc k A) W g' -> wp p g' (log ++ [setop cc k v]) ev Q) -> wp (PCall (setop cc k v) p) g log ev Q.
Proof.
  intros H Hc Hk Hi Hp. eapply wp_call; eauto.
  - pose proof (idx_int k) as X. rewrite idx_ok_lim in X. destruct cc; try discriminate; apply X; lia.
  - intros g' E R. eapply abs_set; eauto.
Qed.
Lemma wp_nav k x v A W g p log ev Q : abs c tau A W g -> 0 <= k <= aX A -> k <= aV A -> k <= int_max ->
  (forall g', abs c tau (bump SymV k (bump SymX k A)) W g' -> wp p g' (log ++ [OSetNavstate k x v]) ev Q) ->
  wp (PCall (OSetNavstate k x v) p) g log ev Q.
Proof.
  intros H Hc Hk Hi Hp. eapply wp_call; eauto.
  - pose proof (idx_int k) as X. rewrite idx_ok_lim in X. apply X; lia.
  - intros g' E R. eapply abs_nav; eauto.
Qed.

Definition with_T (k : Z) (A : ast) : ast :=
  match A with mkA o u r s b x v bi p t l f ca => mkA o u r s b x v bi p (Z.max t (k + 1)) l f ca end.
Lemma wp_ts k t A W g p log ev Q : abs c tau A W g -> t = tau k -> 0 <= k <= aT A ->
  (forall g', abs c tau (with_T k A) W g' -> wp p g' (log ++ [OSetTimestamp k t]) ev Q) ->
  wp (PCall (OSetTimestamp k t) p) g log ev Q.
Proof.
  intros H -> Hk Hp. eapply wp_call; eauto.
  - simpl. lia.
  - intros g' E R. eapply abs_quiet; eauto; destruct A; try reflexivity.
    + simpl. apply (ab_kbd _ _ _ _ _ H).
    + intros k'. simpl in *. repeat match goal with |- context [?a =? ?b] => destruct (Z.eqb_spec a b) | |- context [?a <=? ?b] => destruct (Z.leb_spec a b)
        | |- context [?a <? ?b] => destruct (Z.ltb_spec a b) end; simpl; subst; try reflexivity; lia.
Qed.

Definition incr (n : string) (A : ast) : ast :=
  match A with mkA o u r s b x v bi p t l f ca =>
    if String.eqb n "imu" then mkA o (u + 1) r s b x v bi p t l f ca
    else if String.eqb n "reg" then mkA o u (r + 1) s b x v bi p t l f ca
    else if String.eqb n "stereo" then mkA o u r (s + 1) b x v bi p t l f ca
    else if String.eqb n "barometer" then mkA o u r s (b + 1) x v bi p t l f ca
    else A
  end.
Lemma incr_view n A k p : keyview c A n = Some (k, p) -> forall n', named_after n' (OIncrement n) (keyview c A n') = keyview c (incr n A) n'.
Proof.
  intros Hn n'. cbn [named_after]. destruct (String.eqb_spec n' n) as [->|Hne].
  - rewrite Hn. unfold keyview in *. destruct A. unfold incr.
    destruct (String.eqb n "imu"); [injection Hn as <- <-; reflexivity|].
    destruct (String.eqb n "reg"); [destruct (c_reg c); [injection Hn as <- <-; reflexivity|discriminate]|].
    destruct (String.eqb n "stereo"); [destruct (c_stereo c); [injection Hn as <- <-; reflexivity|discriminate]|].
    destruct (String.eqb n "barometer"); [destruct (c_baro c); [injection Hn as <- <-; reflexivity|discriminate]|discriminate].
  - unfold keyview, incr. destruct A.
    destruct (String.eqb_spec n "imu"); [subst n|destruct (String.eqb_spec n "reg"); [subst n|
      destruct (String.eqb_spec n "stereo"); [subst n|destruct (String.eqb_spec n "barometer"); [subst n|reflexivity]]]];
      destruct (String.eqb_spec n' "imu"); try congruence; try reflexivity;
      destruct (String.eqb_spec n' "reg"); try congruence; try reflexivity;
      destruct (String.eqb_spec n' "stereo"); try congruence; try reflexivity.
      destruct (String.eqb_spec n' "barometer"); try congruence; try reflexivity.
Qed.
Lemma wp_inc n k pr A W g p log ev Q : abs c tau A W g -> keyview c A n = Some (k, pr) -> k + 1 <= int_max ->
  (forall g', abs c tau (incr n A) W g' -> wp p g' (log ++ [OIncrement n]) ev Q) ->
  wp (PCall (OIncrement n) p) g log ev Q.
Proof.
  intros H Hk Hi Hp. pose proof (ab_kbd _ _ _ _ _ H) as BD.
  assert (KV := incr_view n A k pr Hk). unfold keyview in Hk.
  eapply wp_call; eauto.
  - simpl. rewrite (ab_keys _ _ _ _ _ H). unfold keyview. rewrite Hk. discriminate.
  - intros g' E R. clear Hp. eapply abs_quiet; eauto; destruct A as [o u r s b x v bi pp t l f ca]; unfold incr in *; cbn [a_u a_r a_s a_b] in *.
    all: destruct (String.eqb n "imu"); [try reflexivity; try lia; try (cbn; injection Hk as <- _; conj; lia)|].
    all: destruct (String.eqb n "reg"); [destruct (c_reg c); try discriminate; try reflexivity; try lia; try (cbn; injection Hk as <- _; conj; lia)|].
    all: destruct (String.eqb n "stereo"); [destruct (c_stereo c); try discriminate; try reflexivity; try lia; try (cbn; injection Hk as <- _; conj; lia)|].
    all: destruct (String.eqb n "barometer"); [destruct (c_baro c); try discriminate; try reflexivity; try lia; try (cbn; injection Hk as <- _; conj; lia)|discriminate].
Qed.

Definition with_cal (A : ast) : ast :=
  match A with mkA o u r s b x v bi p t l f ca => mkA o u r s b x v bi p t l f true end.
Lemma wp_cal cal A W g p log ev Q : abs c tau A W g ->
  (forall g', abs c tau (with_cal A) W g' -> wp p g' (log ++ [OSetCalib cal]) ev Q) ->
  wp (PCall (OSetCalib cal) p) g log ev Q.
Proof.
  intros H Hp. eapply wp_call; eauto.
  - exact I.
  - intros g' E R. eapply abs_quiet; eauto; destruct A; try reflexivity. simpl. apply (ab_kbd _ _ _ _ _ H).
Qed.

Lemma wp_create W' kind k meas A W g p log ev Q : abs c tau A W g -> kind <> FStereo ->
  (forall v, In v W -> In v W') ->
  (forall cc i, In (cc, i) (factor_vars kind k) -> 0 <= i <= int_max) ->
  (forall cc i, In (cc, i) (factor_vars kind k) -> (state_sym cc = true /\ 0 <= i < cnt A cc) \/ In (raw cc i) W') ->
  (forall g', abs c tau A W' g' -> wp p g' (log ++ [OCreate kind k meas]) ev Q) ->
  wp (PCall (OCreate kind k meas) p) g log ev Q.
Proof.
  intros H Hk HW Hi Hv Hp. eapply wp_call; eauto.
  - cbn [wf_op]. split; [exact Hk|].
    destruct (vars_table kind k) as [T _].
    assert (X : forallb (fun v => idx_ok (snd v)) (factor_vars kind k) = true).
    { apply forallb_forall. intros [cc i] Hci. apply idx_int. apply Hi in Hci. cbn [snd]. lia. }
    rewrite <- T in X. rewrite forallb_forall in X. intros cc i Hci. apply X in Hci. cbn [snd] in Hci. apply andb_prop in Hci. destruct Hci as [C1 C2]. apply Z.leb_le in C1. apply Z.ltb_lt in C2. split; assumption.
  - intros g' E R. eapply abs_create; eauto.
Qed.

(* ---- optimise and publish ---- *)
Definition good (n : numerics) : Prop := forall k, end_harmless (o_end (n_opt n k)) /\ o_solve (n_opt n k) = true.

Lemma wp_optimise n k A g p log ev Q : abs c tau A [] g -> good n -> 0 <= k <= int_max -> k < aX A -> k < aV A -> k < aT A ->
  (forall g', abs c tau (with_opt k A) [] g' -> wp p g' (log ++ [OOptimise (n_opt n k) k]) ev Q) ->
  wp (p_optimise n k p) g log ev Q.
Proof.
  intros H Hn Hk H1 H2 H3 Hp. unfold p_optimise. eapply wp_call; [exact H| |intros g' E R; eapply abs_optimise; eauto; lia|].
  - destruct (Hn k) as [G1 G2]. cbn [wf_op]. split; [exact G1|]. split; [exact G2|]. split.
    + apply idx_ok_lim, idx_int. lia.
    + intros j f v _ Hf Hv. destruct (ab_owe _ _ _ _ _ H _ _ _ Hf Hv) as [X|[]]. exact X.
  - intros g' H'. eapply wp_rd; [eapply abs_tsq; [exact H'|lia|destruct A; exact H3]|]. apply Hp. exact H'.
Qed.

(* what is published for key k in graph state g *)
Definition published (k : Z) (g : igm) (evs : list event) : Prop :=
  exists p v b l rest, evs = [EOdom k (tau k) p v; EBias (tau k) b; EPath l] ++ rest /\
    gm_get SymX k (i_gm g) = Ok p /\ gm_get SymV k (i_gm g) = Ok v /\ gm_get SymB k (i_gm g) = Ok b /\
    Forall2 (fun j tp => fst tp = tau j /\ gm_get SymX j (i_gm g) = Ok (snd tp)) (zrange 0 k) l /\
    (rest = [] \/ exists pts, rest = [EPoints pts]).

Lemma wp_publish k A g p log ev Q : abs c tau A [] g -> 0 <= k <= a_opt A -> k <= int_max -> k < aX A -> k < aV A -> k < aB A -> k < aT A ->
  (forall evs, published k g evs -> wp p g log (ev ++ evs) Q) -> wp (p_publish c k p) g log ev Q.
Proof.
  intros H Hk Hi H1 H2 H3 H4 Hp. unfold p_publish.
  destruct (abs_get _ _ _ _ _ SymX k H eq_refl) as [x Ex]; [lia|exact H1|].
  destruct (abs_get _ _ _ _ _ SymV k H eq_refl) as [v Ev]; [lia|exact H2|].
  destruct (abs_get _ _ _ _ _ SymB k H eq_refl) as [b Eb]; [lia|exact H3|].
  destruct (path_keys c tau A [] g (zrange 0 k) H) as (l & El & Fl). { intros j Hj. apply in_zrange in Hj. lia. }
  eapply wp_rd; [eapply abs_tsq; [exact H|lia|lia]|]. eapply wp_rd; [exact Ex|].
  assert (Rest : wp (rd (q_get SymV k) (fun v => (fun rest => if c_imu c then rd (q_cov SymV k) (fun _ => rest) else rest)
      (PEmit (EOdom k (tau k) x v) (rd (q_get SymB k) (fun b => PEmit (EBias (tau k) b) (rd (q_path k) (fun l => PEmit (EPath l)
         (if c_points c then rd (fun s => gm_stereo_landmarks (-1) (i_gm s)) (fun l => PEmit (EPoints l) p) else p)))))))) g log ev Q).
  { eapply wp_rd; [exact Ev|]. cbv beta.
    assert (R2 : wp (PEmit (EOdom k (tau k) x v) (rd (q_get SymB k) (fun b => PEmit (EBias (tau k) b) (rd (q_path k) (fun l => PEmit (EPath l)
         (if c_points c then rd (fun s => gm_stereo_landmarks (-1) (i_gm s)) (fun l => PEmit (EPoints l) p) else p)))))) g log ev Q).
    { apply wp_emit. eapply wp_rd; [exact Eb|]. apply wp_emit. eapply wp_rd; [exact El|]. apply wp_emit.
      destruct (c_points c).
      - destruct (abs_pointsq _ _ _ _ _ H) as [pts Ep]. eapply wp_rd; [exact Ep|]. apply wp_emit. rewrite <- !app_assoc. apply Hp.
        exists x, v, b, l, [EPoints pts]. conj; eauto.
      - rewrite <- !app_assoc. apply Hp. exists x, v, b, l, []. conj; eauto. }
    destruct (c_imu c); [|exact R2]. eapply wp_rd; [eapply abs_covq; eauto|]. exact R2. }
  destruct (c_stereo c); [exact Rest|]. eapply wp_rd; [eapply abs_covq; eauto|]. exact Rest.
Qed.

Lemma published_odoms k g evs : published k g evs -> odoms evs = [(k, tau k)] /\ trans evs = [].
Proof. intros (p & v & b & l & rest & -> & _ & _ & _ & _ & [->|[pts ->]]); split; reflexivity. Qed.

End Inv.
