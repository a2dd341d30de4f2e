(* Numbers read from the parameter server. *)
From Coq Require Import QArith Qround Lia String List.
From Verif Require Import Base CfgModel.
Import ListNotations.
Open Scope Z_scope.
Open Scope string_scope.
Open Scope list_scope.

(* the integer a value stands for: itself, or for a number that is not negative the nearest integer (halves up), for
   a negative one the next integer below *)
Definition whole (q : Q) (z : Z) : Prop := ((0 <= q)%Q /\ (inject_Z z - (1#2) <= q)%Q /\ (q < inject_Z z + (1#2))%Q) \/ ((q < 0)%Q /\ (inject_Z z <= q)%Q /\ (q < inject_Z z + 1)%Q).
Definition number (v : pval) (z : Z) : Prop := v = VInt z \/ exists q, v = VDouble q /\ whole q z.
Definition element (v : pval) (z : Z) : Prop := number v z \/ v = VBool true /\ z = 1 \/ v = VBool false /\ z = 0.

Lemma floor_is q z : (inject_Z z <= q)%Q -> (q < inject_Z z + 1)%Q -> Qfloor q = z.
Proof.
  intros A B. pose proof (Qfloor_le q) as F1. pose proof (Qlt_floor q) as F2. rewrite inject_Z_plus in F2.
  assert (X1 : (inject_Z (Qfloor q) < inject_Z (z + 1))%Q) by (rewrite inject_Z_plus; eapply Qle_lt_trans; eassumption).
  assert (X2 : (inject_Z z < inject_Z (Qfloor q + 1))%Q) by (rewrite inject_Z_plus; eapply Qle_lt_trans; eassumption).
  rewrite <- Zlt_Qlt in X1, X2. lia.
Qed.
Lemma floor_ok q : (inject_Z (Qfloor q) <= q)%Q /\ (q < inject_Z (Qfloor q) + 1)%Q.
Proof. split; [apply Qfloor_le|]. pose proof (Qlt_floor q) as F. rewrite inject_Z_plus in F. exact F. Qed.
Lemma whole_iff q z : whole q z <-> q_int q = z.
Proof.
  unfold whole, q_int. destruct (Qle_bool 0 q) eqn:E.
  - apply Qle_bool_iff in E. split.
    + intros [(_ & A & B)|(A & _)]; [|destruct (Qlt_not_le _ _ A E)]. apply floor_is; [|apply Qplus_lt_l with (-(1#2))%Q; ring_simplify (q + (1#2) + - (1#2))%Q; ring_simplify (inject_Z z + 1 + - (1#2))%Q; exact B].
      apply Qplus_le_l with (-(1#2))%Q. ring_simplify (q + (1#2) + - (1#2))%Q. exact A.
    + intros <-. left. destruct (floor_ok (q + (1#2))) as [A B]. split; [exact E|]. split.
      * apply Qplus_le_l with (1#2). ring_simplify (inject_Z (Qfloor (q + (1#2))) - (1#2) + (1#2))%Q. exact A.
      * apply Qplus_lt_l with (1#2). ring_simplify (inject_Z (Qfloor (q + (1#2))) + (1#2) + (1#2))%Q. ring_simplify (inject_Z (Qfloor (q + (1#2))) + 1)%Q in B. exact B.
  - assert (N : (q < 0)%Q) by (apply Qnot_le_lt; intros X; apply Qle_bool_iff in X; congruence). split.
    + intros [(A & _)|(_ & A & B)]; [destruct (Qlt_not_le _ _ N A)|]. apply floor_is; assumption.
    + intros <-. right. split; [exact N|]. apply floor_ok.
Qed.
Theorem integer_read P k d z : p_int P k d = z <-> (exists v, P k = Some v /\ number v z) \/ (z = d /\ forall v y, P k = Some v -> ~ number v y).
Proof.
  unfold p_int. assert (N : forall v y, (match v with VInt _ | VDouble _ => False | _ => True end) -> ~ number v y) by (intros v y Hv [->|(q & -> & _)]; exact Hv).
  destruct (P k) as [[b|i|q|s|l]|] eqn:E; split.
  all: try (intros <-; right; split; [reflexivity|]; intros v y [= <-]; apply N; exact I).
  all: try (intros [(v & [= <-] & H)|[-> _]]; [exfalso; revert H; apply N; exact I|reflexivity]).
  - intros <-. left. exists (VInt i). split; [reflexivity|left; reflexivity].
  - intros [(v & [= <-] & [[= ->]|(q & X & _)])|[_ H]]; [reflexivity|discriminate X|destruct (H _ i eq_refl); left; reflexivity].
  - intros <-. left. exists (VDouble q). split; [reflexivity|]. right. exists q. split; [reflexivity|]. apply whole_iff. reflexivity.
  - intros [(v & [= <-] & [X|(q' & [= <-] & H)])|[_ H]]; [discriminate X|apply whole_iff; exact H|]. destruct (H _ (q_int q) eq_refl). right. exists q. split; [reflexivity|]. apply whole_iff. reflexivity.
  - intros [(v & X & _)|[-> _]]; [discriminate X|reflexivity].
Qed.
Lemma v_int_iff v z : v_int v = Some z <-> element v z.
Proof.
  unfold element, number. destruct v as [b|i|q|s|l]; cbn; split; intros H.
  - injection H as <-. right. destruct b; auto.
  - destruct H as [[X|(q & X & _)]|[[X ->]|[X ->]]]; try discriminate X; injection X as ->; reflexivity.
  - injection H as <-. left. left. reflexivity.
  - destruct H as [[X|(q & X & _)]|[[X ->]|[X ->]]]; try discriminate X. injection X as ->. reflexivity.
  - injection H as <-. left. right. exists q. split; [reflexivity|apply whole_iff; reflexivity].
  - destruct H as [[X|(q' & X & W)]|[[X ->]|[X ->]]]; try discriminate X. injection X as <-. f_equal. apply whole_iff. exact W.
  - discriminate.
  - destruct H as [[X|(q & X & _)]|[[X ->]|[X ->]]]; discriminate X.
  - discriminate.
  - destruct H as [[X|(q & X & _)]|[[X ->]|[X ->]]]; discriminate X.
Qed.
Lemma v_ints_iff l zs : v_ints l = Some zs <-> Forall2 element l zs.
Proof.
  revert zs. induction l as [|v l IH]; intros zs; cbn; [split; [intros [= <-]; constructor|inversion 1; reflexivity]|]. split.
  - destruct (v_int v) as [z|] eqn:E; [|discriminate]. destruct (v_ints l) as [r|]; [|discriminate]. intros [= <-]. constructor; [apply v_int_iff; exact E|apply IH; reflexivity].
  - inversion 1 as [|a z b r H1 H2]; subst. apply v_int_iff in H1. apply IH in H2. rewrite H1, H2. reflexivity.
Qed.
(* the window of the optical flow: the first two numbers of the list, if every element of the list is one; without such
   a list 21 by 21; with a list of fewer than two the node does not start *)
Definition window_key : string := "stereo_tracking/sparse_optical_flow/win_size".
Definition window (P : params) (w h : Z) : Prop :=
  (exists l r, P window_key = Some (VList l) /\ Forall2 element l (w :: h :: r)) \/
  (w = 21 /\ h = 21 /\ forall l zs, P window_key = Some (VList l) -> ~ Forall2 element l zs).
Definition window_of (f : flow) : Z * Z := let 'Flow w h _ _ _ _ _ _ := f in (w, h).
Theorem window_read P f : flow_config P = Ok f -> window P (fst (window_of f)) (snd (window_of f)).
Proof.
  unfold flow_config. destruct (String.eqb _ _); [|discriminate]. unfold p_ints, window. fold window_key. destruct (P window_key) as [[b|i|q|s|l]|] eqn:E.
  5:{ destruct (v_ints l) as [zs|] eqn:Ev.
      - destruct zs as [|w [|h r]]; try discriminate. destruct (to_term_criteria _) as [tc| |]; try discriminate. intros [= <-]. cbn. left. exists l, r. split; [reflexivity|]. apply v_ints_iff. exact Ev.
      - destruct (to_term_criteria _) as [tc| |]; try discriminate. intros [= <-]. cbn. right. split; [reflexivity|]. split; [reflexivity|]. intros l' zs [= <-] X. apply v_ints_iff in X. congruence. }
  all: destruct (to_term_criteria _) as [tc| |]; try discriminate; intros [= <-]; cbn; right; split; [reflexivity|]; split; [reflexivity|]; intros l' zs X; discriminate X.
Qed.
Lemma Forall2_len {A B} {R : A -> B -> Prop} {l m} : Forall2 R l m -> List.length l = List.length m.
Proof. induction 1; cbn; congruence. Qed.
Theorem window_short P l zs : P window_key = Some (VList l) -> Forall2 element l zs -> (List.length l < 2)%nat -> flow_config P = Throw.
Proof.
  intros E F L. unfold flow_config. destruct (String.eqb _ _); [|reflexivity]. unfold p_ints. fold window_key. rewrite E. pose proof (Forall2_len F) as EL. apply v_ints_iff in F. rewrite F. destruct zs as [|w [|h r]]; cbn in EL; try reflexivity. lia.
Qed.

(* cases *)
Example ex_window : exists P f, flow_config P = Ok f /\ window_of f = (15, 8).
Proof. exists (fun k => if String.eqb k window_key then Some (VList [VInt 15; VDouble (75#10); VBool true]) else None). eexists. split; [vm_compute; reflexivity|reflexivity]. Qed.
Example ex_window_bad : exists P f, flow_config P = Ok f /\ P window_key = Some (VList [VInt 15; VInt 8; VStr "x"]) /\ window_of f = (21, 21).
Proof. exists (fun k => if String.eqb k window_key then Some (VList [VInt 15; VInt 8; VStr "x"]) else None). eexists. split; [vm_compute; reflexivity|split; reflexivity]. Qed.
Example ex_window_short : exists P, P window_key = Some (VList [VInt 15]) /\ flow_config P = Throw.
Proof. exists (fun k => if String.eqb k window_key then Some (VList [VInt 15]) else None). split; vm_compute; reflexivity. Qed.
Example ex_integers : whole (25#10) 3 /\ whole (24#10) 2 /\ whole (-(2#10)) (-1).
Proof. rewrite !whole_iff. vm_compute. auto. Qed.
