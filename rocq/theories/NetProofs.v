(* Delivery through a chain of modules, for every schedule.                                         *)
From Verif Require Import Base NetModel NetSpec.

Section Subseq.
  Context {A : Type}.
  Implicit Types l : list A.
  Lemma ss_refl l : subseq l l.
  Proof. induction l; constructor; auto. Qed.
  Lemma ss_app l1 l2 m1 m2 : subseq l1 l2 -> subseq m1 m2 -> subseq (l1 ++ m1) (l2 ++ m2).
  Proof.
    intros H Hm. induction H as [l|x l l' H IH|x l l' H IH]; cbn.
    - induction l; cbn; [exact Hm | constructor; assumption].
    - constructor; exact IH.
    - constructor; exact IH.
  Qed.
  Lemma ss_trans l1 l2 l3 : subseq l1 l2 -> subseq l2 l3 -> subseq l1 l3.
  Proof.
    intros H1 H2. revert l1 H1. induction H2 as [l|x l l' H IH|x l l' H IH]; intros k Hk.
    - inversion Hk; constructor.
    - inversion Hk; subst.
      + constructor.
      + apply ss_take. apply IH. assumption.
      + apply ss_skip. apply IH. assumption.
    - apply ss_skip. apply IH. exact Hk.
  Qed.
  Lemma ss_In l l' x : subseq l l' -> In x l -> In x l'.
  Proof. induction 1; cbn; intuition. Qed.
  Lemma ss_tl l : subseq (tl l) l.
  Proof. destruct l; cbn; [constructor | apply ss_skip, ss_refl]. Qed.
  Lemma ss_app_l l m : subseq l (l ++ m).
  Proof. induction l; cbn; constructor; assumption. Qed.
  Lemma ss_length l l' : subseq l l' -> (length l <= length l')%nat.
  Proof. induction 1; cbn; lia. Qed.
End Subseq.

Section NetProofs.
  Variable C S : Type.
  Variable f : S -> C -> res C.
  Variable cap : nat.
  Notation cell := (cell C S).
  Notation on := (on C).
  Notation pub c := (n_pub S (c_nd C S c)).
  Notation op c := (n_op S (c_nd C S c)).

  Definition olist {A} (o : option A) : list A := match o with Some a => [a] | None => [] end.

  Lemma on_app t l1 l2 : on t (l1 ++ l2) = on t l1 ++ on t l2.
  Proof. unfold NetSpec.on. rewrite filter_app, map_app. reflexivity. Qed.
  Lemma on_same t l m : on t (l ++ [(t, m)]) = on t l ++ [m].
  Proof. rewrite on_app. cbn. rewrite String.eqb_refl. reflexivity. Qed.
  Lemma on_other t t' l m : t <> t' -> on t (l ++ [(t', m)]) = on t l.
  Proof.
    intros H. rewrite on_app. cbn. destruct (String.eqb_spec t' t); [congruence|]. cbn. apply app_nil_r.
  Qed.

  (* how the messages seen by a module relate to the messages published on its topic *)
  Variable R : list C -> list C -> Prop.
  Variable okq : list C -> Prop.
  Hypothesis R_enq : forall p q h m, okq q -> R (p ++ q) h -> R (p ++ enq C cap q m) (h ++ [m]).

  Fixpoint inv (h : list C) (cs : list cell) (lg : list (string * C)) : Prop :=
    match cs with
    | [] => True
    | c :: cs' =>
        (exists dn, R (dn ++ olist (c_busy C S c) ++ c_q C S c) h /\
                    Forall2 (fun m r => f (op c) m = Ok r) dn (on (pub c) lg)) /\
        inv (on (pub c) lg) cs' lg
    end.

  Definition wf (t : string) (cs : list cell) (t' : string) : Prop :=
    linked S t (map (c_nd C S) cs) t' /\ NoDup (topics S t (map (c_nd C S) cs)).

  Lemma wf_tail t c cs t' : wf t (c :: cs) t' -> wf (pub c) cs t'.
  Proof. intros [[H1 H2] H3]. split; [exact H2|]. apply NoDup_cons_iff in H3. apply H3. Qed.

  Lemma wf_sub_in t cs t' c : wf t cs t' -> In c cs -> In (n_sub S (c_nd C S c)) (topics S t (map (c_nd C S) cs)).
  Proof.
    intros H Hc. revert t H. induction cs as [|d cs IH]; [destruct Hc|]. intros t H.
    destruct Hc as [<- | Hc].
    - left. destruct H as [[H _] _]. symmetry. exact H.
    - right. specialize (IH Hc _ (wf_tail _ _ _ _ H)). destruct IH as [IH|IH]; [left; exact IH | right; exact IH].
  Qed.

  Lemma deliver_none t m cs : (forall c, In c cs -> n_sub S (c_nd C S c) <> t) -> map (deliver C S cap t m) cs = cs.
  Proof.
    induction cs as [|c cs IH]; intros H; [reflexivity|]. cbn. rewrite IH by (intros; apply H; right; assumption).
    unfold deliver. destruct (String.eqb_spec (n_sub S (c_nd C S c)) t) as [E|E]; [|reflexivity].
    exfalso. apply (H c); [left; reflexivity | exact E].
  Qed.

  Lemma deliver_nd t m cs : map (c_nd C S) (map (deliver C S cap t m) cs) = map (c_nd C S) cs.
  Proof. rewrite map_map. apply map_ext. intros c. unfold deliver. destruct (String.eqb _ _); reflexivity. Qed.

  Lemma inv_log_other h cs lg t m : ~ In t (map (fun c => pub c) cs) -> inv h cs lg -> inv h cs (lg ++ [(t, m)]).
  Proof.
    revert h. induction cs as [|c cs IH]; intros h Hn Hi; [exact I|]. cbn [inv] in *. cbn in Hn.
    rewrite on_other by (intros E; apply Hn; left; exact E).
    destruct Hi as [H1 H2]. split; [exact H1|]. apply IH; [|exact H2]. intros E. apply Hn. right. exact E.
  Qed.

  (* no subscriber of the output of a chain inside the chain, etc.: a message published on the first topic
     reaches the first module only *)
  Lemma inv_publish_head t cs t' h lg m :
    wf t cs t' -> (forall c, In c cs -> okq (c_q C S c)) -> inv h cs lg ->
    inv (h ++ [m]) (map (deliver C S cap t m) cs) (lg ++ [(t, m)]).
  Proof.
    intros Hw Hq Hi. destruct cs as [|c cs]; [exact I|]. destruct (wf_tail _ _ _ _ Hw) as [_ Hnd'].
    destruct Hw as [[Hs Hl] Hnd]. cbn [map topics] in *.
    inversion Hnd as [|x l Hx Hn]; subst x l.
    assert (Hpub : pub c <> t) by (intros E; apply Hx; left; exact E).
    assert (Hrest : map (deliver C S cap t m) cs = cs).
    { apply deliver_none. intros d Hd E. apply Hx. right.
      assert (In t (topics S (pub c) (map (c_nd C S) cs))).
      { rewrite <- E. eapply wf_sub_in; [split; [exact Hl | exact Hnd'] | exact Hd]. }
      destruct H as [H|H]; [congruence|]. exact H. }
    rewrite Hrest. unfold deliver. rewrite Hs, String.eqb_refl. cbn [inv c_nd c_busy c_q].
    rewrite on_other by congruence. destruct Hi as [(dn & H1 & H2) H3]. split.
    - exists dn. split; [|exact H2]. rewrite app_assoc. apply R_enq; [apply Hq; left; reflexivity|].
      rewrite <- app_assoc. exact H1.
    - apply inv_log_other; [|exact H3]. intros E. apply Hx. right. rewrite map_map. exact E.
  Qed.

  Lemma inv_fin t cs t' h lg i n q m r :
    wf t cs t' -> (forall c, In c cs -> okq (c_q C S c)) -> inv h cs lg ->
    nth_error cs i = Some (Cell C S n q (Some m)) -> f (n_op S n) m = Ok r ->
    inv h (map (deliver C S cap (n_pub S n) r) (upd cs i (Cell C S n q None))) (lg ++ [(n_pub S n, r)]).
  Proof.
    revert t h i. induction cs as [|c cs IH]; intros t h i Hw Hq Hi Hn Hf; [destruct i; discriminate|].
    pose proof (wf_tail _ _ _ _ Hw) as Hw'. destruct Hw as [[Hs Hl] Hnd]. cbn [map topics] in Hnd.
    inversion Hnd as [|x l Hx Hn']; subst x l.
    destruct i as [|i]; cbn [nth_error upd map] in *.
    - injection Hn as ->. cbn [c_nd] in *.
      destruct Hi as [(dn & H1 & H2) H3]. cbn [c_busy c_q c_nd olist] in *.
      unfold deliver at 1. cbn [c_nd]. destruct (String.eqb_spec (n_sub S n) (n_pub S n)) as [E|E].
      { exfalso. apply Hx. left. congruence. }
      cbn [inv c_nd c_busy c_q olist]. rewrite on_same. split.
      + exists (dn ++ [m]). split.
        * rewrite <- app_assoc. exact H1.
        * apply Forall2_app; [exact H2|]. constructor; [exact Hf | constructor].
      + apply (inv_publish_head (n_pub S n) cs t'); [exact Hw' | intros; apply Hq; right; assumption | exact H3].
    - assert (Hin : In (n_pub S n) (map (n_pub S) (map (c_nd C S) cs))).
      { apply nth_error_In in Hn. rewrite map_map. apply in_map_iff. exists (Cell C S n q (Some m)). auto. }
      assert (E1 : n_sub S (c_nd C S c) <> n_pub S n) by (intros E; apply Hx; right; rewrite <- Hs; rewrite E; exact Hin).
      assert (E2 : pub c <> n_pub S n).
      { intros E. inversion Hn' as [|x l Hy _]; subst x l. apply Hy. rewrite E. exact Hin. }
      unfold deliver at 1. destruct (String.eqb_spec (n_sub S (c_nd C S c)) (n_pub S n)); [congruence|].
      cbn [inv] in *. rewrite on_other by exact E2. destruct Hi as [H1 H2]. split; [exact H1|].
      apply (IH (pub c)); [exact Hw' | intros; apply Hq; right; assumption | exact H2 | exact Hn | exact Hf].
  Qed.

  Lemma inv_start h cs lg i n q m :
    inv h cs lg -> nth_error cs i = Some (Cell C S n (m :: q) None) -> inv h (upd cs i (Cell C S n q (Some m))) lg.
  Proof.
    revert h i. induction cs as [|c cs IH]; intros h i Hi Hn; [destruct i; discriminate|].
    destruct i as [|i]; cbn [nth_error upd inv] in *.
    - injection Hn as ->. exact Hi.
    - destruct Hi as [H1 H2]. split; [exact H1|]. apply IH; assumption.
  Qed.

  Lemma upd_nd (cs : list cell) i n q b :
    (exists q' b', nth_error cs i = Some (Cell C S n q' b')) -> map (c_nd C S) (upd cs i (Cell C S n q b)) = map (c_nd C S) cs.
  Proof.
    revert i. induction cs as [|c cs IH]; intros i (q' & b' & H); [destruct i; discriminate|].
    destruct i as [|i]; cbn in *; [injection H as ->; reflexivity|]. f_equal. apply IH. eauto.
  Qed.

  (* one step *)
  Lemma step_inv t t' s l s' :
    wf t (cells C S s) t' -> (forall c, In c (cells C S s) -> okq (c_q C S c)) ->
    (forall x m, l = In_ C x m -> x = t) -> ~ In t (map (n_pub S) (map (c_nd C S) (cells C S s))) ->
    inv (on t (log C S s)) (cells C S s) (log C S s) ->
    step C S f cap l s = Some (Ok s') ->
    inv (on t (log C S s')) (cells C S s') (log C S s') /\ map (c_nd C S) (cells C S s') = map (c_nd C S) (cells C S s) /\
    on t (log C S s') = on t (log C S s) ++ match l with In_ _ _ m => [m] | _ => [] end.
  Proof.
    intros Hw Hq Hl Ht Hi Hs. destruct l as [x m|i|i]; cbn [step] in Hs.
    - assert (x = t) by (eapply Hl; reflexivity). subst x. injection Hs as <-. cbn [publish cells log].
      rewrite on_same. refine (conj _ (conj _ eq_refl)).
      + eapply inv_publish_head; eassumption.
      + apply deliver_nd.
    - destruct (nth_error (cells C S s) i) as [[n [|m q] [b|]]|] eqn:E; try discriminate. injection Hs as <-.
      cbn [cells log]. rewrite app_nil_r. refine (conj _ (conj _ eq_refl)).
      + apply inv_start; assumption.
      + apply upd_nd. eauto.
    - destruct (nth_error (cells C S s) i) as [[n q [m|]]|] eqn:E; try discriminate.
      destruct (f (n_op S n) m) as [r| |] eqn:Ef; try discriminate. injection Hs as <-. cbn [publish cells log].
      assert (Hp : t <> n_pub S n).
      { intros E'. apply Ht. rewrite map_map. apply in_map_iff. exists (Cell C S n q (Some m)). split; [symmetry; exact E' |].
        eapply nth_error_In. exact E. }
      rewrite on_other by exact Hp. rewrite app_nil_r. refine (conj _ (conj _ eq_refl)).
      + eapply inv_fin; eassumption.
      + rewrite deliver_nd. apply upd_nd. eauto.
  Qed.
End NetProofs.
