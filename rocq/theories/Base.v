(* Common vocabulary of the models: outcomes of a C++ call and ordered maps.                      *)
From Coq Require Export String List ZArith Lia Bool Permutation Sorted.
From Coq Require Export ZifyBool.
Export ListNotations.
Open Scope list_scope.
Open Scope Z_scope.

(* Outcome of a C++ call: normal return, exception (also std::abort of a failed assert), or
   undefined behaviour (dereferencing an end iterator, null pointer, out-of-range operator[] ...). *)
Inductive res (A : Type) : Type :=
| Ok (a : A)
| Throw
| UB.
Arguments Ok {A} a.
Arguments Throw {A}.
Arguments UB {A}.

Definition rbind {A B} (r : res A) (f : A -> res B) : res B :=
  match r with Ok a => f a | Throw => Throw | UB => UB end.

Definition is_ok {A} (r : res A) : bool := match r with Ok _ => true | _ => false end.

(* ------------------------------------------------------------------------------------------- *)
(* Ordered maps with integer keys: std::map<int, A>, gtsam::Values (ordered by Key).             *)
(* A map is the list of its (key, value) entries in iteration order.                            *)
Definition omap (A : Type) : Type := list (Z * A).

Fixpoint mget {A} (k : Z) (m : omap A) : option A :=
  match m with
  | [] => None
  | (k', a) :: m' => if k =? k' then Some a else mget k m'
  end.

(* std::map::insert_or_assign at the ordered position *)
Fixpoint mput {A} (k : Z) (a : A) (m : omap A) : omap A :=
  match m with
  | [] => [(k, a)]
  | (k', a') :: m' =>
      if k =? k' then (k, a) :: m'
      else if k <? k' then (k, a) :: (k', a') :: m'
      else (k', a') :: mput k a m'
  end.

(* std::map::erase(key) *)
Fixpoint mdel {A} (k : Z) (m : omap A) : omap A :=
  match m with
  | [] => []
  | (k', a) :: m' => if k =? k' then m' else (k', a) :: mdel k m'
  end.

Definition mmem {A} (k : Z) (m : omap A) : bool :=
  match mget k m with Some _ => true | None => false end.

Definition mkeys {A} (m : omap A) : list Z := map fst m.

(* strictly increasing keys *)
Fixpoint msorted {A} (m : omap A) : Prop :=
  match m with
  | [] => True
  | (k, _) :: m' => (forall k', In k' (mkeys m') -> k < k') /\ msorted m'
  end.

Section OMap.
  Context {A : Type}.
  Implicit Types m : omap A.

  Lemma mget_In k a m : mget k m = Some a -> In (k, a) m.
  Proof.
    induction m as [|[k' a'] m IH]; simpl; [discriminate|].
    destruct (Z.eqb_spec k k'); intros H; [inversion H; subst; auto | right; auto].
  Qed.

  Lemma mget_key_In k a m : mget k m = Some a -> In k (mkeys m).
  Proof. intros H. apply mget_In in H. apply (in_map fst) in H. exact H. Qed.

  Lemma mget_None_notin k m : mget k m = None <-> ~ In k (mkeys m).
  Proof.
    induction m as [|[k' a'] m IH]; simpl; [tauto|].
    destruct (Z.eqb_spec k k'); split; intros H; try congruence.
    - exfalso; apply H; auto.
    - intros [E|E]; [congruence|]. apply IH in H; auto.
    - apply IH. intros E; apply H; auto.
  Qed.

  Lemma In_mget k a m : msorted m -> In (k, a) m -> mget k m = Some a.
  Proof.
    induction m as [|[k' a'] m IH]; simpl; [tauto|].
    intros [Hlt Hs] [E|E].
    - inversion E; subst. rewrite Z.eqb_refl. reflexivity.
    - assert (In k (mkeys m)) by (apply (in_map fst) in E; exact E).
      specialize (Hlt _ H). destruct (Z.eqb_spec k k'); [lia|]. auto.
  Qed.

  Lemma mget_mput_eq k a m : mget k (mput k a m) = Some a.
  Proof.
    induction m as [|[k' a'] m IH]; simpl; [rewrite Z.eqb_refl; reflexivity|].
    destruct (Z.eqb_spec k k'); simpl.
    - rewrite Z.eqb_refl; reflexivity.
    - destruct (Z.ltb_spec k k'); simpl; [rewrite Z.eqb_refl; reflexivity|].
      destruct (Z.eqb_spec k k'); [congruence|exact IH].
  Qed.

  Lemma mget_mput_ne k k' a m : k <> k' -> mget k (mput k' a m) = mget k m.
  Proof.
    intros Hne. induction m as [|[k2 a2] m IH]; simpl.
    - destruct (Z.eqb_spec k k'); [congruence|reflexivity].
    - destruct (Z.eqb_spec k' k2); simpl.
      + subst. destruct (Z.eqb_spec k k2); [congruence|reflexivity].
      + destruct (Z.ltb_spec k' k2); simpl.
        * destruct (Z.eqb_spec k k'); [congruence|reflexivity].
        * destruct (Z.eqb_spec k k2); [reflexivity|exact IH].
  Qed.

  Lemma mget_mput k k' a m : mget k (mput k' a m) = if k =? k' then Some a else mget k m.
  Proof.
    destruct (Z.eqb_spec k k'); [subst; apply mget_mput_eq | apply mget_mput_ne; auto].
  Qed.

  Lemma mget_mdel_ne k k' m : k <> k' -> mget k (mdel k' m) = mget k m.
  Proof.
    intros Hne. induction m as [|[k2 a2] m IH]; simpl; [reflexivity|].
    destruct (Z.eqb_spec k' k2); simpl.
    - subst. destruct (Z.eqb_spec k k2); [congruence|reflexivity].
    - destruct (Z.eqb_spec k k2); [reflexivity|exact IH].
  Qed.

  Lemma mkeys_mput k a m x : In x (mkeys (mput k a m)) <-> x = k \/ In x (mkeys m).
  Proof.
    induction m as [|[k2 a2] m IH]; simpl.
    - intuition.
    - destruct (Z.eqb_spec k k2); simpl; [subst; intuition|].
      destruct (Z.ltb_spec k k2); simpl; [intuition|]. rewrite IH. intuition.
  Qed.

  Lemma mkeys_mdel k m x : In x (mkeys (mdel k m)) -> In x (mkeys m).
  Proof.
    induction m as [|[k2 a2] m IH]; simpl; [auto|].
    destruct (Z.eqb_spec k k2); simpl; intuition.
  Qed.

  Lemma msorted_mput k a m : msorted m -> msorted (mput k a m).
  Proof.
    induction m as [|[k2 a2] m IH]; simpl; [intuition|].
    intros [Hlt Hs]. destruct (Z.eqb_spec k k2); simpl; [subst; auto|].
    destruct (Z.ltb_spec k k2); simpl.
    - split; [intros x [E|E]; [lia|specialize (Hlt _ E); lia] | auto].
    - split; [|auto]. intros x Hx. apply mkeys_mput in Hx. destruct Hx as [E|E]; [lia|auto].
  Qed.

  Lemma msorted_mdel k m : msorted m -> msorted (mdel k m).
  Proof.
    induction m as [|[k2 a2] m IH]; simpl; [auto|].
    intros [Hlt Hs]. destruct (Z.eqb_spec k k2); simpl; auto.
    split; [|auto]. intros x Hx. apply mkeys_mdel in Hx. auto.
  Qed.

  Lemma mget_mdel_eq k m : msorted m -> mget k (mdel k m) = None.
  Proof.
    induction m as [|[k2 a2] m IH]; simpl; [auto|].
    intros [Hlt Hs]. destruct (Z.eqb_spec k k2); simpl.
    - subst. apply mget_None_notin. intros E. specialize (Hlt _ E). lia.
    - destruct (Z.eqb_spec k k2); [congruence|auto].
  Qed.

  Lemma mget_mdel k k' m : msorted m -> mget k (mdel k' m) = if k =? k' then None else mget k m.
  Proof.
    intros Hs. destruct (Z.eqb_spec k k'); [subst; apply mget_mdel_eq; auto | apply mget_mdel_ne; auto].
  Qed.

  Lemma msorted_tail k a m : msorted ((k, a) :: m) -> msorted m.
  Proof. simpl; tauto. Qed.

  Lemma msorted_app m1 m2 :
    msorted (m1 ++ m2) <->
    msorted m1 /\ msorted m2 /\ (forall x y, In x (mkeys m1) -> In y (mkeys m2) -> x < y).
  Proof.
    unfold mkeys. induction m1 as [|[k a] m1 IH]; simpl.
    - split; [intros H; split; [exact I|split; [exact H|tauto]] | tauto].
    - rewrite IH. unfold mkeys. rewrite map_app. split.
      + intros [Hlt (H1 & H2 & H3)]. repeat split; auto.
        * intros x Hx. apply Hlt. apply in_or_app; auto.
        * intros x y [E|E] Hy; [subst; apply Hlt; apply in_or_app; auto | auto].
      + intros ([Hlt H1] & H2 & H3). repeat split; auto.
        intros x Hx. apply in_app_or in Hx. destruct Hx; auto.
  Qed.

  (* two sorted maps with the same lookups are equal *)
  Lemma msorted_ext m1 m2 :
    msorted m1 -> msorted m2 -> (forall k, mget k m1 = mget k m2) -> m1 = m2.
  Proof.
    revert m2. induction m1 as [|[k a] m1 IH]; intros m2 H1 H2 He.
    - destruct m2 as [|[k2 a2] m2]; [reflexivity|]. specialize (He k2). simpl in He.
      rewrite Z.eqb_refl in He. discriminate.
    - destruct m2 as [|[k2 a2] m2].
      + specialize (He k). simpl in He. rewrite Z.eqb_refl in He. discriminate.
      + destruct H1 as [L1 S1], H2 as [L2 S2].
        assert (k = k2).
        { destruct (Z.lt_trichotomy k k2) as [L|[E|L]]; [|exact E|]; exfalso.
          - specialize (He k). simpl in He. rewrite Z.eqb_refl in He.
            destruct (Z.eqb_spec k k2); [lia|]. symmetry in He. apply mget_key_In in He.
            specialize (L2 _ He). lia.
          - specialize (He k2). simpl in He. rewrite Z.eqb_refl in He.
            destruct (Z.eqb_spec k2 k); [lia|]. apply mget_key_In in He.
            specialize (L1 _ He). lia. }
        subst k2. assert (a = a2).
        { specialize (He k). simpl in He. rewrite Z.eqb_refl in He. congruence. }
        subst a2. f_equal. apply IH; auto. intros x. specialize (He x). simpl in He.
        destruct (Z.eqb_spec x k); [|exact He]. subst.
        assert (mget k m1 = None) by (apply mget_None_notin; intros E; specialize (L1 _ E); lia).
        assert (mget k m2 = None) by (apply mget_None_notin; intros E; specialize (L2 _ E); lia).
        congruence.
  Qed.

  Lemma mmem_true k m : mmem k m = true <-> In k (mkeys m).
  Proof.
    unfold mmem. destruct (mget k m) eqn:E.
    - split; [intros _; eapply mget_key_In; eauto|auto].
    - split; [discriminate|]. intros H. apply mget_None_notin in E. contradiction.
  Qed.

  Lemma mmem_mget k m : mmem k m = true <-> exists a, mget k m = Some a.
  Proof. unfold mmem. destruct (mget k m) eqn:E; split; intros H; eauto; [discriminate|destruct H; discriminate]. Qed.

  Lemma mmem_false k m : mmem k m = false <-> mget k m = None.
  Proof. unfold mmem. destruct (mget k m); split; intros; congruence. Qed.

  Lemma msorted_NoDup m : msorted m -> NoDup (mkeys m).
  Proof.
    induction m as [|[k a] m IH]; simpl; intros H; constructor.
    - intros E. destruct H as [L _]. specialize (L _ E). lia.
    - apply IH. tauto.
  Qed.

  Lemma mget_app k m1 m2 :
    mget k (m1 ++ m2) = match mget k m1 with Some a => Some a | None => mget k m2 end.
  Proof.
    induction m1 as [|[k' a] m1 IH]; simpl; [reflexivity|]. destruct (k =? k'); auto.
  Qed.

  Lemma msorted_filter (f : Z * A -> bool) m : msorted m -> msorted (filter f m).
  Proof.
    induction m as [|[k a] m IH]; simpl; [auto|]. intros [L S].
    destruct (f (k, a)); simpl; auto. split; auto.
    intros x Hx. apply L. unfold mkeys in *. apply in_map_iff in Hx. destruct Hx as ([k2 a2] & E & Hin).
    apply filter_In in Hin. simpl in E; subst. apply in_map_iff. exists (x, a2). tauto.
  Qed.

  Lemma mget_filter_key (f : Z -> bool) m k :
    mget k (filter (fun e => f (fst e)) m) = if f k then mget k m else None.
  Proof.
    induction m as [|[k' a] m IH]; simpl; [destruct (f k); reflexivity|].
    destruct (f k') eqn:E; simpl.
    - destruct (Z.eqb_spec k k'); [subst; rewrite E; reflexivity | exact IH].
    - destruct (Z.eqb_spec k k'); [subst; rewrite IH, E; reflexivity | exact IH].
  Qed.

  Lemma mput_absent_keys k a m :
    mget k m = None -> Permutation (mkeys (mput k a m)) (k :: mkeys m).
  Proof.
    induction m as [|[k2 a2] m IH]; simpl; intros H; [auto|].
    destruct (Z.eqb_spec k k2); [discriminate|].
    destruct (Z.ltb_spec k k2); simpl; [auto|]. rewrite IH by auto. constructor.
  Qed.

  Lemma mput_present_keys k a m :
    msorted m -> mget k m <> None -> mkeys (mput k a m) = mkeys m.
  Proof.
    induction m as [|[k2 a2] m IH]; simpl; intros S H; [congruence|].
    destruct (Z.eqb_spec k k2); simpl; [subst; reflexivity|].
    destruct (Z.ltb_spec k k2); simpl.
    - exfalso. destruct (mget k m) eqn:E; [|congruence]. apply mget_key_In in E.
      destruct S as [L _]. specialize (L _ E). lia.
    - f_equal. apply IH; tauto.
  Qed.

  Lemma mput_same k a m : msorted m -> mget k m = Some a -> mput k a m = m.
  Proof.
    intros S H. apply msorted_ext; auto using msorted_mput.
    intros x. rewrite mget_mput. destruct (Z.eqb_spec x k); congruence.
  Qed.
End OMap.

(* maps keyed by names: std::map<std::string, A>; iteration order is never observable in the model *)
Definition smap (A : Type) : Type := list (string * A).

Fixpoint sget {A} (k : string) (m : smap A) : option A :=
  match m with
  | [] => None
  | (k', a) :: m' => if String.eqb k k' then Some a else sget k m'
  end.

Fixpoint sput {A} (k : string) (a : A) (m : smap A) : smap A :=
  match m with
  | [] => [(k, a)]
  | (k', a') :: m' => if String.eqb k k' then (k, a) :: m' else (k', a') :: sput k a m'
  end.

Section SMap.
  Context {A : Type}.
  Implicit Types m : smap A.

  Lemma sget_sput k k' a m : sget k (sput k' a m) = if String.eqb k k' then Some a else sget k m.
  Proof.
    induction m as [|[k2 a2] m IH]; simpl; [reflexivity|].
    destruct (String.eqb_spec k' k2); simpl.
    - subst. destruct (String.eqb_spec k k2); reflexivity.
    - destruct (String.eqb_spec k k2).
      + subst. destruct (String.eqb_spec k2 k'); [congruence|reflexivity].
      + exact IH.
  Qed.

  Lemma sget_In k a m : sget k m = Some a -> In (k, a) m.
  Proof.
    induction m as [|[k2 a2] m IH]; simpl; [discriminate|].
    destruct (String.eqb_spec k k2); intros H; [inversion H; subst; auto|auto].
  Qed.

  Lemma sget_None k m : sget k m = None <-> ~ In k (map fst m).
  Proof.
    induction m as [|[k2 a2] m IH]; simpl; [tauto|].
    destruct (String.eqb_spec k k2); split; intros H; try congruence.
    - exfalso; auto.
    - intros [E|E]; [congruence|]. apply IH in H; auto.
    - apply IH. intros E; apply H; auto.
  Qed.

  Lemma In_sget k a m : NoDup (map fst m) -> In (k, a) m -> sget k m = Some a.
  Proof.
    induction m as [|[k2 a2] m IH]; simpl; [tauto|]. intros Hn [E|E].
    - inversion E; subst. rewrite String.eqb_refl. reflexivity.
    - inversion Hn; subst. destruct (String.eqb_spec k k2); [|auto].
      subst. exfalso. apply H1. apply (in_map fst) in E. exact E.
  Qed.

  Lemma sput_keys k a m x : In x (map fst (sput k a m)) <-> x = k \/ In x (map fst m).
  Proof.
    induction m as [|[k2 a2] m IH]; simpl; [intuition|].
    destruct (String.eqb_spec k k2); simpl; [subst; intuition|]. rewrite IH; intuition.
  Qed.

  Lemma sput_NoDup k a m : NoDup (map fst m) -> NoDup (map fst (sput k a m)).
  Proof.
    induction m as [|[k2 a2] m IH]; simpl; intros H; [repeat constructor; auto|].
    inversion H; subst. destruct (String.eqb_spec k k2); simpl; constructor; subst; auto.
    rewrite sput_keys. intuition.
  Qed.
End SMap.
