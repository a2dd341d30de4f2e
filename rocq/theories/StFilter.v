(* The match filters are exact (C31). *)
From Verif Require Import Base StModel StSpec.
From Coq Require Import Lqa.

Lemma qle_spec a b : qle a b = true <-> (a <= b)%Q.
Proof. unfold qle. apply Qle_bool_iff. Qed.
Lemma qlt_spec a b : qlt a b = true <-> (a < b)%Q.
Proof.
  unfold qlt. rewrite negb_true_iff. split; intros H.
  - apply Qnot_le_lt. intros C. apply Qle_bool_iff in C. congruence.
  - destruct (Qle_bool b a) eqn:E; [|reflexivity]. apply Qle_bool_iff in E. exfalso. lra.
Qed.
Lemma qle_false a b : qle a b = false <-> (b < a)%Q.
Proof. rewrite <- qlt_spec. unfold qlt, qle. destruct (Qle_bool a b); cbn; intuition congruence. Qed.
Lemma qlt_false a b : qlt a b = false <-> (b <= a)%Q.
Proof. rewrite <- qle_spec. unfold qlt, qle. destruct (Qle_bool b a); cbn; intuition congruence. Qed.
Lemma qabs_le x t : (Qabs x <= t)%Q <-> (- t <= x <= t)%Q.
Proof. rewrite Qabs_Qle_condition. reflexivity. Qed.

Lemma vat_ok {A} (l : list A) i a : vat l i = Ok a <-> 0 <= i /\ nth_error l (Z.to_nat i) = Some a.
Proof.
  unfold vat. destruct (i <? 0) eqn:E.
  - split; [discriminate | intros [? _]; lia].
  - destruct (nth_error l (Z.to_nat i)) eqn:F; split.
    + intros [= ->]. split; [lia | reflexivity].
    + intros [_ [= ->]]. reflexivity.
    + discriminate.
    + intros [_ ?]; discriminate.
Qed.
Lemma vat_some {A} (l : list A) i : 0 <= i < Z.of_nat (length l) -> exists a, vat l i = Ok a.
Proof.
  intros H. destruct (nth_error l (Z.to_nat i)) as [a|] eqn:F.
  - exists a. apply vat_ok. split; [lia | exact F].
  - apply nth_error_None in F. lia.
Qed.
Lemma vat_none {A} (l : list A) i : ~ 0 <= i < Z.of_nat (length l) -> vat l i = Throw.
Proof.
  intros H. unfold vat. destruct (i <? 0) eqn:E; [reflexivity|].
  destruct (nth_error l (Z.to_nat i)) eqn:F; [|reflexivity].
  assert (Z.to_nat i < length l)%nat by (apply nth_error_Some; congruence). lia.
Qed.
Lemma vix_ok {A} (l : list A) i a : vix l i = Ok a <-> 0 <= i /\ nth_error l (Z.to_nat i) = Some a.
Proof.
  unfold vix. destruct (i <? 0) eqn:E.
  - split; [discriminate | intros [? _]; lia].
  - destruct (nth_error l (Z.to_nat i)) eqn:F; split.
    + intros [= ->]. split; [lia | reflexivity].
    + intros [_ [= ->]]. reflexivity.
    + discriminate.
    + intros [_ ?]; discriminate.
Qed.
Lemma vix_nat {A} (l : list A) n a : nth_error l n = Some a -> vix l (Z.of_nat n) = Ok a.
Proof. intros H. apply vix_ok. rewrite Nat2Z.id. split; [lia | exact H]. Qed.
Lemma vat_nat {A} (l : list A) n a : nth_error l n = Some a -> vat l (Z.of_nat n) = Ok a.
Proof. intros H. apply vat_ok. rewrite Nat2Z.id. split; [lia | exact H]. Qed.

(* ---- the loop ---- *)
Lemma keep_filter p q : forall l i,
  (forall m, In m l -> p m = Ok (q m)) -> keep p i l = Ok (filter q l, positions q i l).
Proof.
  induction l as [|m l IH]; intros i H; cbn [keep filter positions]; [reflexivity|].
  rewrite H by (left; reflexivity). cbn [rbind]. rewrite IH by (intros; apply H; right; assumption).
  cbn [rbind]. destruct (q m); reflexivity.
Qed.

Lemma positions_in {A} (q : A -> bool) : forall l i j,
  In j (positions q i l) <-> i <= j /\ exists a, nth_error l (Z.to_nat (j - i)) = Some a /\ q a = true.
Proof.
  induction l as [|a l IH]; intros i j; cbn [positions].
  - split; [intros [] | intros [_ (a & H & _)]; destruct (Z.to_nat (j - i)); discriminate].
  - assert (E : In j (positions q (i + 1) l) <-> i + 1 <= j /\ exists b, nth_error (a :: l) (Z.to_nat (j - i)) = Some b /\ q b = true).
    { rewrite IH. split; intros [H (b & Hb & Q)]; (split; [exact H|]); exists b; (split; [|exact Q]).
      - replace (Z.to_nat (j - i)) with (S (Z.to_nat (j - (i + 1)))) by lia. exact Hb.
      - replace (Z.to_nat (j - i)) with (S (Z.to_nat (j - (i + 1)))) in Hb by lia. exact Hb. }
    destruct (q a) eqn:Qa; cbn [In].
    + rewrite E. split.
      * intros [<- | [H X]]; [|split; [lia | exact X]]. split; [lia|].
        exists a. rewrite Z.sub_diag. split; [reflexivity | exact Qa].
      * intros [H X]. destruct (Z.eq_dec i j) as [->|N]; [left; reflexivity | right; split; [lia | exact X]].
    + rewrite E. split.
      * intros [H X]. split; [lia | exact X].
      * intros [H (b & Hb & Qb)]. split; [|exists b; split; assumption].
        destruct (Z.eq_dec i j) as [->|N]; [|lia]. rewrite Z.sub_diag in Hb. cbn in Hb.
        injection Hb as <-. congruence.
Qed.

Lemma positions_incr {A} (q : A -> bool) : forall l i, incr (positions q i l).
Proof.
  induction l as [|a l IH]; intros i; cbn [positions]; [exact I|].
  destruct (q a); [|apply IH]. split; [|apply IH].
  intros b Hb. apply positions_in in Hb. lia.
Qed.

Lemma positions_nth {A} (q : A -> bool) : forall l pre i, i = Z.of_nat (length pre) ->
  Forall2 (fun j a => nth_error (pre ++ l) (Z.to_nat j) = Some a) (positions q i l) (filter q l).
Proof.
  induction l as [|a l IH]; intros pre i E; cbn [positions filter]; [constructor|].
  assert (T : Forall2 (fun j b => nth_error (pre ++ a :: l) (Z.to_nat j) = Some b) (positions q (i + 1) l) (filter q l)).
  { replace (pre ++ a :: l) with ((pre ++ [a]) ++ l) by (rewrite <- app_assoc; reflexivity).
    apply IH. rewrite app_length. cbn. lia. }
  destruct (q a); [|exact T]. constructor; [|exact T].
  rewrite E, Nat2Z.id, nth_error_app2, Nat.sub_diag by lia. reflexivity.
Qed.

Lemma filter_selects {A} (q : A -> bool) (P : A -> Prop) l :
  (forall a, In a l -> q a = true <-> P a) -> selects P l (filter q l) (positions q 0 l).
Proof.
  intros H. split; [apply positions_incr|]. split.
  - intros i. rewrite positions_in, Z.sub_0_r.
    split; intros [H0 (a & Ha & Pa)]; (split; [exact H0|]); exists a; (split; [exact Ha|]);
      apply (H a (nth_error_In _ _ Ha)); exact Pa.
  - apply (positions_nth q l [] 0). reflexivity.
Qed.

Lemma keep_throws p : forall l i, (forall m, In m l -> p m = Throw \/ exists b, p m = Ok b) ->
  (exists m, In m l /\ p m = Throw) -> keep p i l = Throw.
Proof.
  induction l as [|m l IH]; intros i A (x & Hx & Px); [destruct Hx|]. cbn [keep].
  destruct (p m) as [b| |] eqn:E; [|reflexivity|].
  - cbn [rbind]. rewrite IH; [reflexivity | intros; apply A; right; assumption |].
    destruct Hx as [<-|Hx]; [congruence | exists x; split; assumption].
  - destruct (A m (or_introl eq_refl)) as [|(b & ?)]; congruence.
Qed.

(* ---- the predicates ---- *)
Definition stereo_q (thr : Q) (kq kt : list kp) (m : dm) : bool :=
  match vat kq (qi m), vat kt (ti m) with Ok a, Ok b => stereo_test thr a b | _, _ => false end.
Definition depth_q (f : sdf) (kq kt : list kp) (m : dm) : bool :=
  match vat kq (qi m), vat kt (ti m) with Ok a, Ok b => depth_test f a b | _, _ => false end.

Lemma stereo_test_spec thr a b : stereo_test thr a b = true <-> epipolar thr (kpt a) (kpt b).
Proof. unfold stereo_test, epipolar. rewrite andb_true_iff, qlt_spec, qle_spec, qabs_le. reflexivity. Qed.

Lemma depth_test_spec f a b :
  depth_test f a b = true <-> in_range (s_fxb f) (s_min f) (s_max f) (kpt a) (kpt b).
Proof.
  unfold depth_test, in_range. cbn zeta.
  destruct (qlt 0 (px (kpt a) - px (kpt b))) eqn:E.
  - apply qlt_spec in E. rewrite andb_true_iff, !qle_spec. set (d := (px (kpt a) - px (kpt b))%Q) in *.
    assert (M : ((s_min f <= s_fxb f / d)%Q <-> (s_min f * d <= s_fxb f)%Q)).
    { split; intros H.
      - apply Qle_shift_div_l in H || idtac. apply (Qmult_le_compat_r _ _ d) in H; [|lra].
        rewrite (Qmult_comm (s_fxb f / d)), Qmult_div_r in H by (intros C; lra). exact H.
      - apply Qle_shift_div_l; assumption. }
    assert (N : ((s_fxb f / d <= s_max f)%Q <-> (s_fxb f <= s_max f * d)%Q)).
    { split; intros H.
      - apply (Qmult_le_compat_r _ _ d) in H; [|lra].
        rewrite (Qmult_comm (s_fxb f / d)), Qmult_div_r in H by (intros C; lra). exact H.
      - apply Qle_shift_div_r; assumption. }
    rewrite M, N. unfold d in *. intuition lra.
  - apply qlt_false in E. split; [discriminate | intros (H & _); lra].
Qed.

Lemma q_good (t : kp -> kp -> bool) (P : pt -> pt -> Prop) kq kt m :
  (forall a b, t a b = true <-> P (kpt a) (kpt b)) -> refers kq kt m ->
  (match vat kq (qi m), vat kt (ti m) with Ok a, Ok b => t a b | _, _ => false end) = true <-> good P kq kt m.
Proof.
  intros T [Hq Ht]. destruct (vat_some kq _ Hq) as [a Ea]. destruct (vat_some kt _ Ht) as [b Eb].
  rewrite Ea, Eb, T. apply vat_ok in Ea. apply vat_ok in Eb. unfold good, ends.
  destruct Ea as [_ ->], Eb as [_ ->]. split.
  - intros H. exists (kpt a), (kpt b). split; [reflexivity | exact H].
  - intros (x & y & [= <- <-] & H). exact H.
Qed.

Lemma stereo_filter_eq thr kq kt l : (forall m, In m l -> refers kq kt m) ->
  stereo_filter thr kq kt l = Ok (filter (stereo_q thr kq kt) l, positions (stereo_q thr kq kt) 0 l).
Proof.
  intros H. apply keep_filter. intros m Hm. destruct (H m Hm) as [Hq Ht]. unfold stereo_q.
  destruct (vat_some kq _ Hq) as [a ->]. destruct (vat_some kt _ Ht) as [b ->]. reflexivity.
Qed.
Lemma depth_filter_eq f kq kt l : (forall m, In m l -> refers kq kt m) ->
  depth_filter f kq kt l = Ok (filter (depth_q f kq kt) l, positions (depth_q f kq kt) 0 l).
Proof.
  intros H. apply keep_filter. intros m Hm. destruct (H m Hm) as [Hq Ht]. unfold depth_q.
  destruct (vat_some kq _ Hq) as [a ->]. destruct (vat_some kt _ Ht) as [b ->]. reflexivity.
Qed.

(* ---- C31 ---- *)
Lemma distance_exact thr l : exists r idx,
  distance_filter thr l = Ok (r, idx) /\ selects (fun m => (dd m <= thr)%Q) l r idx.
Proof.
  exists (filter (fun m => qle (dd m) thr) l), (positions (fun m => qle (dd m) thr) 0 l). split.
  - apply keep_filter. reflexivity.
  - apply filter_selects. intros a _. apply qle_spec.
Qed.

Lemma stereo_exact thr kq kt l : (forall m, In m l -> refers kq kt m) -> exists r idx,
  stereo_filter thr kq kt l = Ok (r, idx) /\ selects (good (epipolar thr) kq kt) l r idx.
Proof.
  intros H. eexists. eexists. split; [apply stereo_filter_eq; exact H|].
  apply filter_selects. intros m Hm. apply (q_good (stereo_test thr)); [apply stereo_test_spec | apply H; exact Hm].
Qed.

Lemma depth_exact f kq kt l : (forall m, In m l -> refers kq kt m) -> exists r idx,
  depth_filter f kq kt l = Ok (r, idx) /\ selects (good (in_range (s_fxb f) (s_min f) (s_max f)) kq kt) l r idx.
Proof.
  intros H. eexists. eexists. split; [apply depth_filter_eq; exact H|].
  apply filter_selects. intros m Hm. apply (q_good (depth_test f)); [apply depth_test_spec | apply H; exact Hm].
Qed.

Lemma refers_dec {A B} (kq : list A) (kt : list B) m : {refers kq kt m} + {~ refers kq kt m}.
Proof.
  destruct (Z_le_dec 0 (qi m)), (Z_lt_dec (qi m) (Z.of_nat (length kq))), (Z_le_dec 0 (ti m)),
    (Z_lt_dec (ti m) (Z.of_nat (length kt))); try (left; split; lia); right; intros [? ?]; lia.
Qed.

Lemma bad_throws (t : kp -> kp -> bool) kq kt m : ~ refers kq kt m ->
  rbind (vat kq (qi m)) (fun a => rbind (vat kt (ti m)) (fun b => Ok (t a b))) = Throw.
Proof.
  intros H. destruct (Z_le_dec 0 (qi m)) as [L|L]; [destruct (Z_lt_dec (qi m) (Z.of_nat (length kq))) as [L2|L2]|].
  - destruct (vat_some kq (qi m)) as [a ->]; [lia|]. cbn [rbind]. rewrite vat_none; [reflexivity|].
    intros C. apply H. split; [lia | exact C].
  - rewrite vat_none by lia. reflexivity.
  - rewrite vat_none by lia. reflexivity.
Qed.
Lemma any_filter_throws (t : kp -> kp -> bool) kq kt l i :
  (exists m, In m l /\ ~ refers kq kt m) ->
  keep (fun m => rbind (vat kq (qi m)) (fun a => rbind (vat kt (ti m)) (fun b => Ok (t a b)))) i l = Throw.
Proof.
  intros (m & Hm & R). apply keep_throws.
  - intros x _. destruct (refers_dec kq kt x) as [[Hq Ht]|N].
    + right. destruct (vat_some kq _ Hq) as [a ->]. destruct (vat_some kt _ Ht) as [b ->]. cbn. eexists. reflexivity.
    + left. apply bad_throws. exact N.
  - exists m. split; [exact Hm | apply bad_throws; exact R].
Qed.

(* filters are idempotent and commute *)
Lemma filter_twice {A} (q : A -> bool) l : filter q (filter q l) = filter q l.
Proof.
  induction l as [|a l IH]; cbn; [reflexivity|]. destruct (q a) eqn:E; [cbn; rewrite E, IH; reflexivity | exact IH].
Qed.
Lemma filter_comm {A} (q r : A -> bool) l : filter q (filter r l) = filter r (filter q l).
Proof.
  induction l as [|a l IH]; cbn; [reflexivity|].
  destruct (r a) eqn:R, (q a) eqn:Q; cbn; rewrite ?R, ?Q, ?IH; reflexivity.
Qed.

Lemma stereo_idempotent thr kq kt l r idx : (forall m, In m l -> refers kq kt m) ->
  stereo_filter thr kq kt l = Ok (r, idx) -> exists idx', stereo_filter thr kq kt r = Ok (r, idx').
Proof.
  intros H E. rewrite stereo_filter_eq in E by exact H. injection E as <- <-.
  eexists. rewrite stereo_filter_eq; [rewrite filter_twice; reflexivity|].
  intros m Hm. apply filter_In in Hm. apply H. tauto.
Qed.
Lemma depth_idempotent f kq kt l r idx : (forall m, In m l -> refers kq kt m) ->
  depth_filter f kq kt l = Ok (r, idx) -> exists idx', depth_filter f kq kt r = Ok (r, idx').
Proof.
  intros H E. rewrite depth_filter_eq in E by exact H. injection E as <- <-.
  eexists. rewrite depth_filter_eq; [rewrite filter_twice; reflexivity|].
  intros m Hm. apply filter_In in Hm. apply H. tauto.
Qed.
Lemma filters_commute thr f kq kt l : (forall m, In m l -> refers kq kt m) ->
  exists r1 r2 r i1 i2 i3 i4,
    stereo_filter thr kq kt l = Ok (r1, i1) /\ depth_filter f kq kt r1 = Ok (r, i2) /\
    depth_filter f kq kt l = Ok (r2, i3) /\ stereo_filter thr kq kt r2 = Ok (r, i4).
Proof.
  intros H. do 7 eexists. split; [apply stereo_filter_eq; exact H|].
  split; [apply depth_filter_eq; intros m Hm; apply filter_In in Hm; apply H; tauto|].
  split; [apply depth_filter_eq; exact H|]. rewrite filter_comm.
  apply stereo_filter_eq. intros m Hm. apply filter_In in Hm. apply H; tauto.
Qed.

(* the setters of the distance filter read uninitialised members *)
Lemma setters_ub fx base mx mn v :
  set_fx (sdf_make fx base mx mn) v = UB /\ set_baseline (sdf_make fx base mx mn) v = UB.
Proof. split; reflexivity. Qed.
