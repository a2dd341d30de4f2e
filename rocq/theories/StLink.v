(* What the back end receives from the tracker meets the graph manager's contract. *)
From Verif Require Import Base GmModel GmSpec GmStereo GmReady StModel StSpec StFilter StTrack StMatch StRun StEmit.

Lemma mget_ids {A} (m : omap A) x : mget x m <> None <-> In x (map fst m).
Proof.
  induction m as [|[k a] m IH]; cbn [mget map In]; [split; [congruence | tauto]|].
  cbn [fst]. destruct (Z.eqb_spec x k) as [->|N]; [split; [left; reflexivity | discriminate]|].
  rewrite IH. split; [right; assumption | intros [<-|H]; [congruence | exact H]].
Qed.
Fixpoint increasing (l : list nat) : Prop :=
  match l with [] => True | a :: l' => (forall b, In b l' -> (a < b)%nat) /\ increasing l' end.
Lemma increasing_lt l : increasing l -> forall i j a b, (i < j)%nat -> nth_error l i = Some a -> nth_error l j = Some b -> (a < b)%nat.
Proof.
  induction l as [|x l IH]; intros H i j a b L Hi Hj; [destruct i; discriminate|]. destruct H as [H1 H2].
  destruct j as [|j]; [lia|]. destruct i as [|i].
  - injection Hi as <-. apply H1. change (nth_error l j = Some b) in Hj. exact (nth_error_In _ _ Hj).
  - apply (IH H2 i j); [lia | exact Hi | exact Hj].
Qed.
Lemma Forall2_nth {A B} (P : A -> B -> Prop) l r : Forall2 P l r -> forall i b, nth_error r i = Some b -> exists a, nth_error l i = Some a /\ P a b.
Proof.
  induction 1 as [|a b l r Hab F IH]; intros i x Hx; [destruct i; discriminate|].
  destruct i as [|i]; [injection Hx as <-; exists a; split; [reflexivity | exact Hab] | apply IH; exact Hx].
Qed.

Section Link.
Variables (c : tcfg) (l : list frame) (st' : tst) (os : list (res (lrm * tstats))) (enc : feature -> Z).
Hypothesis F : Forall flow_ok l.
Hypothesis R : track_run c tst0 l = (st', os).

Theorem message_accepted i o : outs os i = Some o -> exists m, back_map enc os i = Some m /\ map fst m = ids o.
Proof. apply (back_map_eq c l st' os enc F R). Qed.

(* any increasing choice of the published messages (the back end skips some) *)
Theorem tracker_meets_contract sel frames : increasing sel -> Forall2 (fun i m => back_map enc os i = Some m) sel frames ->
  Forall msorted frames /\ contiguous frames /\ (forall k0, never_reacquired k0 frames) /\
  (forall m x, In m frames -> mget x m <> None -> 0 <= x).
Proof.
  intros SI SF.
  assert (X : forall i m, nth_error frames i = Some m -> exists n o, nth_error sel i = Some n /\ outs os n = Some o /\ map fst m = ids o).
  { intros i m Hm. destruct (Forall2_nth _ _ _ SF i m Hm) as (n & Hn & B). exists n. unfold back_map in B.
    destruct (outs os n) as [o|] eqn:O; [|discriminate]. exists o. split; [exact Hn|]. split; [reflexivity|].
    destruct (message_accepted n o O) as (m' & B' & E). unfold back_map in B'. rewrite O in B'. rewrite B in B'. injection B' as <-. exact E. }
  assert (C : contiguous frames).
  { intros i j k a b d id Lij Ljk Ha Hb Hd Xa Xd. rewrite mget_ids in *.
    destruct (X _ _ Ha) as (n1 & o1 & S1 & O1 & E1). destruct (X _ _ Hb) as (n2 & o2 & S2 & O2 & E2).
    destruct (X _ _ Hd) as (n3 & o3 & S3 & O3 & E3). rewrite E1 in Xa. rewrite E3 in Xd. rewrite E2.
    destruct (Nat.eq_dec i j) as [->|N1]; [rewrite Hb in Ha; injection Ha as <-; congruence|].
    destruct (Nat.eq_dec j k) as [->|N2]; [rewrite Hd in Hb; injection Hb as <-; congruence|].
    destruct (in_dec Z.eq_dec id (ids o2)) as [Y|Y]; [exact Y|]. exfalso.
    assert (L1 : (n1 < n2)%nat) by (apply (increasing_lt sel SI i j); [lia | exact S1 | exact S2]).
    assert (L2 : (n2 < n3)%nat) by (apply (increasing_lt sel SI j k); [lia | exact S2 | exact S3]).
    exact (ids_never_return c l st' os F R n1 n2 n3 o1 o2 o3 L1 L2 O1 O2 O3 id Xa Y Xd). }
  split; [|split; [exact C|split]].
  - apply Forall_forall. intros m Hm. apply In_nth_error in Hm. destruct Hm as [i Hi].
    destruct (X _ _ Hi) as (n & o & _ & O & E). apply incr_msorted. rewrite E. apply (ids_increase c l st' os F R n o O).
  - intros k0 id i j k Lij Ljk. unfold seen. destruct (i <? k0) eqn:Ei; [congruence|].
    destruct (j <? k0) eqn:Ej; [lia|]. destruct (k <? k0) eqn:Ek; [lia|].
    destruct (nth_error frames (Z.to_nat (i - k0))) as [a|] eqn:Ha; [|congruence].
    destruct (nth_error frames (Z.to_nat (k - k0))) as [d|] eqn:Hd; [|congruence]. intros Xa Xd.
    destruct (nth_error frames (Z.to_nat (j - k0))) as [b|] eqn:Hb.
    + apply (C (Z.to_nat (i - k0)) (Z.to_nat (j - k0)) (Z.to_nat (k - k0)) a b d id); try assumption; lia.
    + exfalso. apply nth_error_None in Hb. assert (Z.to_nat (k - k0) < length frames)%nat by (apply nth_error_Some; congruence). lia.
  - intros m x Hm Hx. apply In_nth_error in Hm. destruct Hm as [i Hi]. destruct (X _ _ Hi) as (n & o & _ & O & E).
    rewrite mget_ids, E in Hx. apply (ids_increase c l st' os F R n o O). exact Hx.
Qed.
End Link.
