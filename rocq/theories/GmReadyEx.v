(* A decision procedure for the calling contract of GmReady and a concrete run satisfying it. *)
From Verif Require Import Base GmModel GmSpec GmInv GmProofs GmReady GmExamples.
From Coq Require Import Ascii.

Definition memb {A} (k : Z) (m : omap A) : bool := match mget k m with Some _ => true | None => false end.
Lemma memb_ok {A} k (m : omap A) : memb k m = true <-> mget k m <> None.
Proof. unfold memb. destruct (mget k m); split; congruence. Qed.

Definition contigb (fr : list (omap Z)) : bool :=
  let ix := seq 0 (List.length fr) in
  forallb (fun i => forallb (fun j => forallb (fun l =>
    match nth_error fr i, nth_error fr j, nth_error fr l with
    | Some a, Some b, Some c =>
        negb (Nat.leb i j && Nat.leb j l) || forallb (fun id => negb (memb id c) || memb id b) (mkeys a)
    | _, _, _ => true
    end) ix) ix) ix.

Lemma nth_seq {A} (l : list A) i x : nth_error l i = Some x -> In i (seq 0 (List.length l)).
Proof. intros H. apply in_seq. split; [lia|]. apply nth_error_Some. congruence. Qed.

Lemma contigb_ok fr : contigb fr = true -> contiguous fr.
Proof.
  unfold contigb. intros H i j l a b c id Hij Hjl Ha Hb Hc Ia Ic.
  rewrite forallb_forall in H. specialize (H i (nth_seq _ _ _ Ha)).
  rewrite forallb_forall in H. specialize (H j (nth_seq _ _ _ Hb)).
  rewrite forallb_forall in H. specialize (H l (nth_seq _ _ _ Hc)).
  rewrite Ha, Hb, Hc in H.
  replace (Nat.leb i j) with true in H by (symmetry; apply Nat.leb_le; lia).
  replace (Nat.leb j l) with true in H by (symmetry; apply Nat.leb_le; lia).
  cbn [andb negb orb] in H. rewrite forallb_forall in H.
  assert (Hin : In id (mkeys a)).
  { destruct (mget id a) as [x|] eqn:E; [|congruence]. apply mget_In in E. apply in_map_iff. exists (id, x). auto. }
  specialize (H id Hin). apply memb_ok in Ic. rewrite Ic in H. cbn in H. apply memb_ok. exact H.
Qed.

Definition wf_opb (s : igm) (op : gmop) : bool :=
  let g := i_gm s in
  match op with
  | OSetPose k _ | OSetVel k _ | OSetBias k _ | OSetBaro k _ | OSetNavstate k _ _ => idx_ok k
  | OSetNamedKey _ _ _ | OSetCalib _ | OSetCam _ => true
  | OIncrement n => match sget n (g_keys g) with Some _ => true | None => false end
  | OSetTimestamp k _ => 0 <=? k
  | OCreate kind k _ =>
      negb (match kind with FStereo => true | _ => false end) && forallb (fun ci => idx_ok (snd ci)) (spec_vars kind k)
  | OStereo k f =>
      msortedb f && forallb idx_ok (mkeys f) && forallb (fun j => j <? k) (mkeys (g_feat g)) &&
      contigb (map snd (g_feat g) ++ [f]) &&
      match g_feat g with
      | [] => true
      | _ => (1 <=? k) && idx_ok k && memb (raw SymX k) (g_val g) && memb (raw SymX (k - 1)) (g_val g) &&
             match g_cam g, g_calib g with Some _, Some _ => true | _, _ => false end
      end
  | OUpdateAll l => forallb (fun rk => memb rk (g_val g)) (mkeys l)
  | OOptimise o m =>
      match o_end o with Some e => e <? raw SymB 0 | None => false end && o_solve o && idx_ok m &&
      forallb (fun kf => (m <? fst kf) ||
        forallb (fun f => forallb (fun v => memb v (g_val g)) (f_vars f)) (mentry (fst kf) (g_new_fac g))) (g_new_fac g)
  | OMarginalise _ _ => false
  | OSetMarg b _ => negb b
  end.

Lemma idx_ok_range k : idx_ok k = true -> 0 <= k < 2 ^ 56.
Proof. unfold idx_ok, idx_lim. intros H. apply andb_prop in H. destruct H. split; lia. Qed.

Lemma mget_keys {A} k (m : omap A) : mget k m <> None -> In k (mkeys m).
Proof.
  intros H. destruct (mget k m) as [x|] eqn:E; [|congruence]. apply mget_In in E. apply in_map_iff. exists (k, x). auto.
Qed.

Lemma wf_opb_ok s op : wf_opb s op = true -> wf_op s op.
Proof.
  destruct op; simpl; intros H; try discriminate; auto using idx_ok_range.
  - destruct (sget name (g_keys (i_gm s))); congruence.
  - lia.
  - apply andb_prop in H. destruct H as [H1 H2]. split; [intros ->; discriminate|].
    intros c i Hi. rewrite forallb_forall in H2. apply idx_ok_range. apply (H2 (c, i) Hi).
  - repeat (apply andb_prop in H; let H' := fresh "H" in destruct H as [H H']).
    split; [apply msortedb_ok; assumption|].
    split. { intros id Hid. rewrite forallb_forall in H3. apply idx_ok_range, H3, mget_keys, Hid. }
    split. { intros j Hj. rewrite forallb_forall in H2. apply mget_keys, H2 in Hj. lia. }
    split; [apply contigb_ok; assumption|].
    intros Hne. destruct (g_feat (i_gm s)); [congruence|].
    repeat (apply andb_prop in H0; let H' := fresh "Q" in destruct H0 as [H0 H']).
    apply idx_ok_range in Q2. apply memb_ok in Q1. apply memb_ok in Q0.
    split; [split; lia|]. split; [exact Q1|]. split; [exact Q0|].
    destruct (g_cam (i_gm s)), (g_calib (i_gm s)); split; congruence.
  - intros rk Hrk. rewrite forallb_forall in H. apply memb_ok, H, Hrk.
  - repeat (apply andb_prop in H; let H' := fresh "Q" in destruct H as [H H']).
    apply idx_ok_range in Q0. split.
    { destruct (o_end o) as [e|] eqn:E; [|discriminate]. exists e. split; [reflexivity|lia]. }
    split; [assumption|]. split; [assumption|].
    intros k' f v Hk Hf Hv. rewrite forallb_forall in Q.
    assert (Hin : In k' (mkeys (g_new_fac (i_gm s)))).
    { apply mget_keys. unfold mentry in Hf. destruct (mget k' (g_new_fac (i_gm s))); [congruence|contradiction]. }
    apply in_map_iff in Hin. destruct Hin as ([k2 l] & E & Hin). simpl in E. subst k2.
    specialize (Q _ Hin). cbn [fst] in Q. apply orb_prop in Q. destruct Q as [Q|Q]; [lia|].
    rewrite forallb_forall in Q. specialize (Q f Hf). rewrite forallb_forall in Q. apply memb_ok, Q, Hv.
  - apply Bool.negb_true_iff. exact H.
Qed.

Fixpoint wf_runb bp (s : igm) (ops : list gmop) : bool :=
  match ops with [] => true | op :: ops' => wf_opb s op && wf_runb bp (fst (gm_step bp s op)) ops' end.
Lemma wf_runb_ok bp s ops : wf_runb bp s ops = true -> wf_run bp s ops.
Proof.
  revert s. induction ops as [|op ops IH]; simpl; intros s H; [exact I|]. apply andb_prop in H. destruct H as [H1 H2].
  split; [apply wf_opb_ok; assumption|]. apply IH. exact H2.
Qed.

(* registration, IMU, stereo and barometer constraints over three keys, two optimisations; the
   barometer factor precedes the value of its variable *)
Definition wf0 : list gmop :=
  [ OSetNamedKey "imu" 0 0; OSetNamedKey "stereo" (-1) 0; OSetCam 5; OSetBias 0 300; OSetPose 0 10; OSetTimestamp 0 1000; OSetVel 0 20;
    OCreate FPriorPose 0 1; OCreate FPriorVel 0 2; OCreate FPriorBias 0 3; OOptimise (orc true) 0;
    OCreate FBaro 0 50; OSetBaro 0 7; OCreate FPriorBaro 0 7;
    OSetCalib 4; OStereo 0 [(10, 1); (11, 2)];
    OIncrement "imu"; OSetBias 1 301; OSetNavstate 1 11 21; OSetTimestamp 1 1100; OCreate FImu 1 5; OCreate FBetweenPose 1 6;
    OStereo 1 [(10, 3); (11, 4); (12, 5)]; OCreate FBaro 1 51; OCreate FBaroBias 1 0; OSetBaro 1 7;
    OOptimise (orc true) 1;
    OIncrement "imu"; OSetBias 2 302; OSetNavstate 2 12 22; OSetTimestamp 2 1200; OCreate FImu 2 5; OCreate FBetweenPose 2 6;
    OStereo 2 [(11, 6); (12, 7)]; OOptimise (orc true) 2 ].

Example wf0_ok : wf_run bp0 igm_init wf0.
Proof. apply wf_runb_ok. vm_compute. reflexivity. Qed.
