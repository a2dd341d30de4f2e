(* Landmark queries: stereo_landmarks() returns every landmark with its current value, stereo_landmarks(k)
   the landmarks first constrained at key k (C10). *)
From Verif Require Import Base GmModel GmSpec GmInv GmProofs GmFactors GmValues GmHist GmKeys GmStereo GmIds GmReady.

Lemma landmarks_exact vals ids : forall ext, msorted ext ->
  (forall id, In id ids -> idx_ok id = true /\ In (raw SymS id) (mkeys vals)) ->
  exists l, landmarks_of vals ids ext = Ok l /\ msorted l /\
    forall id, mget id l = match mget id ext with Some v => Some v | None => if zmem id ids then mget (raw SymS id) vals else None end.
Proof.
  induction ids as [|i ids IH]; intros ext S H; cbn [landmarks_of].
  - exists ext. conj; auto. intros id. cbn. destruct (mget id ext); reflexivity.
  - destruct (H i) as [H1 H2]; [left; auto|]. unfold sym_key. rewrite H1. cbn [rbind].
    apply some_key in H2. destruct (mget (raw SymS i) vals) as [v|] eqn:Ev; [|congruence].
    destruct (IH (if mmem i ext then ext else mput i v ext)) as (l & E & Sl & Hl).
    { destruct (mmem i ext); [exact S|]. apply msorted_mput. exact S. }
    { intros; apply H; right; auto. }
    exists l. conj; auto. intros id. rewrite Hl. unfold mmem at 1. destruct (mget i ext) as [w|] eqn:Ei.
    + destruct (mget id ext) eqn:Eid; [reflexivity|]. cbn [existsb].
      destruct (Z.eqb_spec id i) as [->|]; [congruence|]. unfold zmem. cbn [existsb].
      replace (id =? i) with false by lia. reflexivity.
    + rewrite mget_mput. unfold zmem. cbn [existsb]. destruct (Z.eqb_spec id i) as [->|].
      * rewrite Ei. cbn [orb]. symmetry. exact Ev.
      * destruct (mget id ext); reflexivity.
Qed.

Section Lm.
Variable bp : Z -> Z -> Z -> Z -> Z.

Lemma wf_rdy ops : wf_run bp igm_init ops -> rdy (gm_run bp igm_init ops).
Proof. intros W. destruct (wf_run_rdy bp ops igm_init (rdy_init bp) W) as [R _]. exact R. Qed.

Lemma landmarks_all ops : wf_run bp igm_init ops ->
  exists l, gm_stereo_landmarks (-1) (i_gm (gm_run bp igm_init ops)) = Ok l /\
    forall id, 0 <= id < 2 ^ 56 ->
      mget id l = match gm_get SymS id (i_gm (gm_run bp igm_init ops)) with Ok v => Some v | _ => None end.
Proof.
  intros W. apply wf_rdy in W. set (s := gm_run bp igm_init ops) in *.
  unfold gm_stereo_landmarks. cbn [Z.eqb].
  destruct (landmarks_exact (g_val (i_gm s)) (concat (map snd (g_ids (i_gm s)))) []) as (l & E & _ & Hl).
  { constructor. } { apply (li_val _ (r_list _ W)). }
  exists l. split; [exact E|]. intros id Hid. rewrite Hl. cbn [mget]. apply idx_ok_lim in Hid.
  unfold gm_get, sym_key. rewrite Hid. cbn [rbind].
  destruct (mget (raw SymS id) (g_val (i_gm s))) eqn:Ev.
  - assert (X : In id (elems (g_ids (i_gm s)))).
    { destruct (r_lm _ W id Hid) as (j & k & Hj & _). { apply some_key. congruence. }
      eapply listed_elems; [apply (r_inv _ W)|exact Hj]. }
    replace (zmem id (concat (map snd (g_ids (i_gm s))))) with true; [reflexivity|]. symmetry.
    unfold zmem. apply existsb_exists. exists id. split; [exact X|apply Z.eqb_refl].
  - destruct (zmem _ _); reflexivity.
Qed.

Lemma landmarks_at ops k : wf_run bp igm_init ops -> k <> -1 ->
  exists l, gm_stereo_landmarks k (i_gm (gm_run bp igm_init ops)) = Ok l /\
    forall id v, mget id l = Some v <->
      In id (mentry k (g_ids (i_gm (gm_run bp igm_init ops)))) /\ gm_get SymS id (i_gm (gm_run bp igm_init ops)) = Ok v.
Proof.
  intros W Hk. apply wf_rdy in W. set (s := gm_run bp igm_init ops) in *.
  assert (Hin : forall id, In id (mentry k (g_ids (i_gm s))) -> idx_ok id = true /\ In (raw SymS id) (mkeys (g_val (i_gm s)))).
  { intros id Hid. apply (li_val _ (r_list _ W)). eapply listed_elems; [apply (r_inv _ W)|exact Hid]. }
  unfold gm_stereo_landmarks. replace (k =? -1) with false by lia.
  destruct (landmarks_exact (g_val (i_gm s)) (mentry k (g_ids (i_gm s))) []) as (l & E & _ & Hl).
  { constructor. } { exact Hin. }
  exists l. split; [exact E|]. intros id v. rewrite Hl. cbn [mget].
  assert (Z : zmem id (mentry k (g_ids (i_gm s))) = true <-> In id (mentry k (g_ids (i_gm s)))).
  { unfold zmem. rewrite existsb_exists. split; [intros (x & Hx & Ex); apply Z.eqb_eq in Ex; subst; exact Hx|].
    intros Hx. exists id. split; [exact Hx|apply Z.eqb_refl]. }
  unfold gm_get, sym_key. destruct (zmem id _) eqn:Ez.
  - assert (X : In id (mentry k (g_ids (i_gm s)))) by (apply Z; reflexivity). destruct (Hin id X) as [H1 _]. rewrite H1. cbn [rbind].
    destruct (mget (raw SymS id) (g_val (i_gm s))); split; [intros [= ->]; auto|intros [_ [= ->]]; auto|discriminate|intros [_ [=]]].
  - split; [discriminate|]. intros [X _]. apply Z in X. discriminate.
Qed.
End Lm.
