(* Concrete runs of the map model: poses are displacements on a line.                              *)
From Verif Require Import Base MapModel MapSpec MapProofs MapPast MapPast2.

(* a knn search by sorting on the distance, ties in index order *)
Fixpoint ex_ins (q : Z) (x : Z * Z) (l : list (Z * Z)) : list (Z * Z) :=
  match l with
  | [] => [x]
  | y :: l' => if Z.abs (snd x - q) <=? Z.abs (snd y - q) then x :: l else y :: ex_ins q x l'
  end.
Definition ex_sort (q : Z) (l : list (Z * Z)) : list (Z * Z) := fold_right (ex_ins q) [] l.
Definition ex_num (pc : list Z) : list (Z * Z) := combine (map Z.of_nat (seq 0 (length pc))) pc.
Definition ex_knn (pc : list Z) (q : Z) (k : nat) : list Z := map fst (firstn k (ex_sort q (ex_num pc))).

Definition ex_moved (p q : Z) : bool := 1 <? Z.abs (p - q).
Definition ex_callback n := callback Z Z Z Z.add Z.opp Z.add (fun p => p) 0 ex_moved ex_knn (fun l => l) n.
Definition ex_run n := run Z Z Z Z.add Z.opp Z.add (fun p => p) 0 ex_moved ex_knn (fun l => l) n.
Definition ex_out n := outcomes Z Z Z Z.add Z.opp Z.add (fun p => p) 0 ex_moved ex_knn (fun l => l) n.
Definition ex_init := init Z Z Z.

(* the example search meets the contract used by the theorems *)
Definition ex_nearer (q x y : Z) : Prop := Z.abs (x - q) <= Z.abs (y - q).

Lemma ex_ins_perm q x l : Permutation (x :: l) (ex_ins q x l).
Proof.
  induction l as [|y l IH]; cbn [ex_ins]; [reflexivity|].
  destruct (_ <=? _); [reflexivity|]. rewrite perm_swap. constructor. exact IH.
Qed.
Lemma ex_sort_perm q l : Permutation l (ex_sort q l).
Proof. induction l as [|x l IH]; [reflexivity|]. cbn. rewrite <- ex_ins_perm. constructor. exact IH. Qed.
Lemma ex_sort_sorted q l : StronglySorted (fun a b => ex_nearer q (snd a) (snd b)) (ex_sort q l).
Proof.
  induction l as [|x l IH]; [constructor|]. change (ex_sort q (x :: l)) with (ex_ins q x (ex_sort q l)).
  unfold ex_nearer in *. generalize dependent (ex_sort q l). intros r0 IH.
  induction IH as [|y r Hs IHr Hf]; cbn [ex_ins]; [repeat constructor|].
  destruct (Z.abs (snd x - q) <=? Z.abs (snd y - q)) eqn:E.
  - constructor; [constructor; assumption|]. constructor; [lia|].
    eapply Forall_impl; [|exact Hf]. cbn. intros. lia.
  - constructor; [exact IHr|]. apply Forall_forall. intros z Hz.
    assert (Hz' : In z (x :: r)) by (apply (Permutation_in z (Permutation_sym (ex_ins_perm q x r))); exact Hz).
    destruct Hz' as [<- | Hz']; [lia|]. rewrite Forall_forall in Hf. apply Hf. exact Hz'.
Qed.
Lemma ex_num_fst pc : map fst (ex_num pc) = map Z.of_nat (seq 0 (length pc)).
Proof.
  unfold ex_num. assert (H : length (map Z.of_nat (seq 0 (length pc))) = length pc) by (rewrite map_length, seq_length; reflexivity).
  revert H. generalize (map Z.of_nat (seq 0 (length pc))). induction pc as [|x pc IH]; intros [|i l] H; try reflexivity; try discriminate.
  cbn. f_equal. apply IH. injection H as H. exact H.
Qed.
Lemma ex_num_In pc i x : In (i, x) (ex_num pc) <-> 0 <= i /\ nth_error pc (Z.to_nat i) = Some x.
Proof.
  unfold ex_num. assert (G : forall pc k, In (i, x) (combine (map Z.of_nat (seq k (length pc))) pc) <->
    Z.of_nat k <= i /\ nth_error pc (Z.to_nat i - k) = Some x).
  { clear pc. induction pc as [|y pc IH]; intros k; cbn [length seq map combine].
    - split; [intros [] | intros [_ H]; destruct (Z.to_nat i - k)%nat; discriminate].
    - cbn [In]. rewrite IH. split.
      + intros [[= <- <-] | [H1 H2]].
        * split; [lia|]. rewrite Nat2Z.id, Nat.sub_diag. reflexivity.
        * split; [lia|]. replace (Z.to_nat i - k)%nat with (S (Z.to_nat i - S k)) by lia. exact H2.
      + intros [H1 H2]. destruct (Z.eq_dec i (Z.of_nat k)) as [->|Hne].
        * left. rewrite Nat2Z.id, Nat.sub_diag in H2. cbn in H2. congruence.
        * right. split; [lia|]. replace (Z.to_nat i - k)%nat with (S (Z.to_nat i - S k)) in H2 by lia. exact H2. }
  rewrite G. rewrite Nat.sub_0_r. cbn. reflexivity.
Qed.

Lemma ex_knn_ok : knn_ok Z ex_nearer ex_knn.
Proof.
  intros pc q k Hk. unfold ex_knn.
  pose proof (ex_sort_perm q (ex_num pc)) as Hp. pose proof (ex_sort_sorted q (ex_num pc)) as Hs.
  assert (Hl : length (ex_sort q (ex_num pc)) = length pc).
  { rewrite <- (Permutation_length Hp), <- (map_length fst), ex_num_fst, map_length, seq_length. reflexivity. }
  assert (Hn : NoDup (map fst (ex_sort q (ex_num pc)))).
  { apply (Permutation_NoDup (l := map fst (ex_num pc))); [apply Permutation_map; exact Hp|].
    rewrite ex_num_fst. apply FinFun.Injective_map_NoDup; [intros a b; lia | apply seq_NoDup]. }
  assert (Hin : forall i, In i (map fst (firstn k (ex_sort q (ex_num pc)))) ->
            exists x, In (i, x) (firstn k (ex_sort q (ex_num pc))) /\ 0 <= i /\ nth_error pc (Z.to_nat i) = Some x).
  { intros i Hi. apply in_map_iff in Hi. destruct Hi as ([i' x] & E & Hi). cbn in E. subst i'. exists x. split; [exact Hi|].
    apply ex_num_In. apply (Permutation_in _ (Permutation_sym Hp)).
    rewrite <- (firstn_skipn k (ex_sort q (ex_num pc))). apply in_or_app. left. exact Hi. }
  refine (conj _ (conj _ (conj _ _))).
  - rewrite map_length, firstn_length. lia.
  - rewrite <- (firstn_skipn k (ex_sort q (ex_num pc))) in Hn. rewrite map_app in Hn. clear - Hn.
    induction (map fst (firstn k (ex_sort q (ex_num pc)))) as [|a l IH]; [constructor|]. cbn in Hn.
    inversion Hn as [|? ? Ha Hl]; subst. constructor; [intros Hi; apply Ha; apply in_or_app; left; exact Hi | auto].
  - intros i Hi. destruct (Hin i Hi) as (x & _ & H0 & Hx).
    assert (Hx' : nth_error pc (Z.to_nat i) <> None) by congruence. apply nth_error_Some in Hx'. lia.
  - intros i j x y Hi Hj Hnj Ex Ey. destruct (Hin i Hi) as (x' & Hix & _ & Ex'). rewrite Ex in Ex'. injection Ex' as <-.
    assert (Hjy : In (j, y) (ex_sort q (ex_num pc))).
    { apply (Permutation_in _ Hp). apply ex_num_In. auto. }
    rewrite <- (firstn_skipn k (ex_sort q (ex_num pc))) in Hjy. apply in_app_or in Hjy. destruct Hjy as [Hjy | Hjy].
    + exfalso. apply Hnj. apply (in_map fst) in Hjy. exact Hjy.
    + rewrite <- (firstn_skipn k (ex_sort q (ex_num pc))) in Hs.
      clear - Hs Hix Hjy. induction (firstn k (ex_sort q (ex_num pc))) as [|a l IH]; [destruct Hix|].
      cbn [app] in Hs. inversion Hs as [|? ? Hs' Hf]; subst. destruct Hix as [-> | Hix]; [|apply IH; assumption].
      rewrite Forall_forall in Hf. apply (Hf (j, y)). apply in_or_app. right. exact Hjy.
Qed.

(* Four clouds in time order; the third has not moved enough; the fourth path corrects the first pose. *)
Definition ex_h : list (call Z Z) :=
  [Call _ _ 10 [1] [(10, 0)];
   Call _ _ 20 [2] [(10, 0); (20, 5)];
   Call _ _ 30 [3] [(20, 5); (30, 6)];
   Call _ _ 40 [4; 5] [(10, 3); (20, 6); (40, 10)]].

Example ex_orderly : orderly Z Z ex_h.
Proof. split; repeat constructor; cbn; auto; lia. Qed.
Example ex_distinct : distinct Z Z ex_h.
Proof. apply orderly_distinct. exact ex_orderly. Qed.

(* the first three keyframes, poses corrected by the last path *)
Example ex_map : m_map _ _ _ (ex_run 2 NEARBY false ex_h (ex_init NEARBY)) =
  [(10, Fr Z Z 10 3 [1]); (20, Fr Z Z 20 6 [2]); (40, Fr Z Z 40 10 [4; 5])].
Proof. vm_compute. reflexivity. Qed.
Example ex_index : m_cloud _ _ _ (ex_run 2 NEARBY false ex_h (ex_init NEARBY)) = Some [3; 6; 10].
Proof. vm_compute. reflexivity. Qed.
(* local maps: the two nearest keyframes seen from the cloud's own pose *)
Example ex_locals : ex_out 2 NEARBY false ex_h (ex_init NEARBY) =
  [Ok [1]; Ok [2; -4]; Ok [1; -5]; Ok [4; 5; -2]].
Proof. vm_compute. reflexivity. Qed.

(* Past mode: fine as long as paths name only the cloud itself ...                                  *)
Definition ex_h1 : list (call Z Z) :=
  [Call _ _ 10 [1] [(10, 0)]; Call _ _ 20 [2] [(20, 5)]; Call _ _ 30 [3] [(30, 6)]; Call _ _ 40 [4] [(40, 10)]].
Example ex_past_ok : ex_out 2 PAST false ex_h1 (ex_init PAST) = [Ok [1]; Ok [2; -4]; Ok [1; -5]; Ok [4; -3]].
Proof. vm_compute. reflexivity. Qed.

(* the same history by the reference rules: the third cloud has not moved enough; the fourth path also names a pose
   that is not a keyframe *)
Definition ex_h2 : list (call Z Z) :=
  [Call _ _ 10 [1] [(10, 0)]; Call _ _ 20 [2] [(20, 5)]; Call _ _ 30 [3] [(30, 6)]; Call _ _ 40 [4] [(30, 7); (40, 10)]].
Example ex_quiet : orderly Z Z ex_h2 /\
  quiet_run Z Z Z.add 0 ex_moved [] ex_h2 [Fr Z Z 10 0 [1]; Fr Z Z 20 5 [2]; Fr Z Z 40 10 [4]].
Proof.
  split; [split; repeat constructor; cbn; auto; lia|].
  econstructor; [intros s b [[= <- <-]|[]] Hne; exfalso; apply Hne; reflexivity | |].
  { econstructor; [apply re_first | constructor]. }
  econstructor; [intros s b [[= <- <-]|[]] Hne; exfalso; apply Hne; reflexivity | |].
  { econstructor; [|constructor]. apply (re_add Z Z Z.add 0 ex_moved 20 [2] _ 5 (Fr Z Z 10 0 [1])); [|reflexivity].
    split; [left; reflexivity | intros g [<-|[]]; cbn; lia]. }
  econstructor; [intros s b [[= <- <-]|[]] Hne; exfalso; apply Hne; reflexivity | |].
  { econstructor; [|constructor]. apply (re_skip Z Z Z.add 0 ex_moved 30 [3] _ 6 (Fr Z Z 20 5 [2])); [|reflexivity].
    split; [right; left; reflexivity | intros g [<-|[<-|[]]]; cbn; lia]. }
  econstructor; [intros s b [[= <- <-]|[[= <- <-]|[]]] Hne; cbn; [lia | exfalso; apply Hne; reflexivity] | |].
  { econstructor; [apply re_pose; discriminate|]. econstructor; [|constructor].
    apply (re_add Z Z Z.add 0 ex_moved 40 [4] _ 10 (Fr Z Z 20 5 [2])); [|reflexivity].
    split; [right; left; reflexivity | intros g [<-|[<-|[]]]; cbn; lia]. }
  constructor.
Qed.
Example ex_quiet_out : ex_out 2 PAST false ex_h2 (ex_init PAST) = [Ok [1]; Ok [2; -4]; Ok [1; -5]; Ok [4; -3]].
Proof. vm_compute. reflexivity. Qed.

(* ... and undefined as soon as a path mentions an earlier keyframe (C36, second half).             *)
Lemma past_mode_null_refuted :
  exists h, orderly Z Z h /\ In UB (ex_out 2 PAST false h (ex_init PAST)).
Proof.
  exists [Call _ _ 10 [1] [(10, 0)]; Call _ _ 20 [2] [(10, 0); (20, 5)]]. split.
  - split; repeat constructor; cbn; auto; lia.
  - vm_compute. auto.
Qed.

(* C36, first half: two clouds with the same stamp.  The index gains a second entry for the same
   frame, the local map contains the frame twice, and the map keeps the old pose and cloud.          *)
Lemma duplicate_stamp_refuted :
  exists h, let st := ex_run 5 NEARBY false h (ex_init NEARBY) in
    map (c_ts _ _) h = [10; 10] /\
    m_map _ _ _ st = [(10, Fr Z Z 10 0 [1])] /\ m_cloud _ _ _ st = Some [0; 7] /\
    last_pose Z 10 (flat_map (c_path _ _) h) = Some 7 /\
    ex_out 5 NEARBY false h (ex_init NEARBY) = [Ok [1]; Ok [-6; -6]].
Proof.
  exists [Call _ _ 10 [1] [(10, 0)]; Call _ _ 10 [2] [(10, 7)]]. vm_compute. auto.
Qed.

(* a corrected pose for the stamp of the cloud itself does not reach the map *)
Lemma own_stamp_not_updated_refuted :
  exists h s b, last_pose Z s (flat_map (c_path _ _) h) = Some b /\
    exists f, mget s (m_map _ _ _ (ex_run 5 NEARBY false h (ex_init NEARBY))) = Some f /\ fr_pose _ _ f <> b.
Proof.
  exists [Call _ _ 10 [1] [(10, 0)]; Call _ _ 10 [1] [(10, 1)]], 10, 1. split; [reflexivity|].
  exists (Fr Z Z 10 0 [1]). split; [vm_compute; reflexivity | cbn; lia].
Qed.

(* C37: a cloud older than every keyframe walks past the end of the map *)
Lemma past_walk_refuted :
  exists h, distinct Z Z h /\ Forall (fun c => exists b, c_path _ _ c = [(c_ts _ _ c, b)]) h /\
    In UB (ex_out 2 PAST false h (ex_init PAST)).
Proof.
  exists [Call _ _ 10 [1] [(10, 0)]; Call _ _ 5 [2] [(5, 1)]]. split; [|split].
  - split; repeat constructor; cbn; auto; lia.
  - repeat constructor; eexists; reflexivity.
  - vm_compute. auto.
Qed.

(* in nearby mode an older cloud makes the call throw after the map was modified *)
Lemma out_of_order_throws_refuted :
  exists h, distinct Z Z h /\ ex_out 2 NEARBY false h (ex_init NEARBY) = [Ok [1]; Throw] /\
    length (m_map _ _ _ (ex_run 2 NEARBY false h (ex_init NEARBY))) = 2%nat.
Proof.
  exists [Call _ _ 10 [1] [(10, 0)]; Call _ _ 5 [2] [(5, 9)]]. split; [|split].
  - split; repeat constructor; cbn; auto; lia.
  - vm_compute. reflexivity.
  - vm_compute. reflexivity.
Qed.

(* the switch for filtering the global map has no effect, the one for the local map has *)
Lemma global_switch_refuted :
  exists st, publish_map Z Z Z Z.add (fun _ => []) false true st <> (fun _ => []) (publish_map Z Z Z Z.add (fun _ => []) false false st) /\
    forall vl, publish_map Z Z Z Z.add (fun _ => []) vl true st = publish_map Z Z Z Z.add (fun _ => []) vl false st.
Proof.
  exists (ex_run 2 NEARBY false ex_h (ex_init NEARBY)). split; [vm_compute; discriminate | reflexivity].
Qed.
