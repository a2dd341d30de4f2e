(* Barometer synchronisation of the front end. *)
From Verif Require Import Base ImuModel ImuSpec ImuProofs FeModel.

Inductive bev := BM (m : Z * Z) | BS (t : Z).
Definition bar_event (e : bev) (s : bar) : res (bar * list (Z * src)) :=
  match e with BM m => bar_measure m s | BS t => bar_state t s end.
Fixpoint bar_run (s : bar) (l : list bev) : res (bar * list (Z * src)) :=
  match l with
  | [] => Ok (s, [])
  | e :: l' => rbind (bar_event e s) (fun r => rbind (bar_run (fst r) l') (fun r' => Ok (fst r', snd r ++ snd r')))
  end.
Definition measurements (l : list bev) : list (Z * Z) := flat_map (fun e => match e with BM m => [m] | _ => [] end) l.
Definition states (l : list bev) : list Z := flat_map (fun e => match e with BS t => [t] | _ => [] end) l.
Fixpoint increasing (l : list Z) : Prop := match l with [] => True | x :: l' => (forall y, In y l' -> x < y) /\ increasing l' end.

(* what may be published for the state time t, given all measurements received *)
Definition faithful (ms : list (Z * Z)) (x : Z * src) : Prop :=
  match snd x with
  | First m => (exists r, ms = m :: r) /\ fst x < fst m
  | Between m1 m2 => (exists a b, ms = a ++ m1 :: m2 :: b) /\ fst m1 <= fst x <= fst m2 /\ fst m1 < fst m2
  end.

Lemma faithful_more ms m x : faithful ms x -> faithful (ms ++ [m]) x.
Proof.
  unfold faithful. destruct (snd x) as [m0|m1 m2].
  - intros [[r ->] H]. split; [exists (r ++ [m]); reflexivity|exact H].
  - intros [(a & b & ->) H]. split; [|exact H]. exists a, (b ++ [m]). rewrite <- app_assoc. reflexivity.
Qed.

Lemma trim_ok t : forall b x r, b = x :: r -> strict b -> fst x <= t -> r <> [] -> t < fst (last r x) ->
  exists q m1 m2 b', b = q ++ m1 :: m2 :: b' /\ bar_trim t b = Ok (m1 :: m2 :: b') /\ fst m1 <= t <= fst m2 /\ fst m1 < fst m2.
Proof.
  induction b as [|x0 b IH]; intros x r E Hs Hx Hr Hl; [discriminate|]. injection E as -> ->. destruct r as [|y r]; [congruence|].
  pose proof Hs as [H1 H2]. pose proof (H1 y (or_introl eq_refl)) as Hxy. cbn [bar_trim]. destruct (Z.ltb_spec (fst y) t).
  - destruct r as [|z r]; [cbn in Hl; lia|]. destruct (IH y (z :: r) eq_refl H2 ltac:(lia)) as (q & m1 & m2 & b' & E1 & E2 & E3); [discriminate| |].
    + replace (last (z :: r) y) with (last (y :: z :: r) x); [exact Hl|]. change (last (y :: z :: r) x) with (last (z :: r) x).
      destruct (exists_last (l := z :: r)) as (l' & w & ->); [discriminate|]. rewrite !last_last. reflexivity.
    + exists (x :: q), m1, m2, b'. split; [cbn; congruence|]. split; [exact E2|exact E3].
  - exists [], x, y, r. split; [reflexivity|]. split; [reflexivity|]. split; lia.
Qed.

Record binv (ms : list (Z * Z)) (sts : list Z) (s : bar) (outs : list (Z * src)) : Prop := {
  bv_buf : exists p, ms = p ++ b_buf s /\ (p <> [] -> exists m r t, b_buf s = m :: r /\ In t (map fst outs) /\ fst m <= t);
  bv_ts : sts = map fst outs ++ b_ts s;
  bv_out : Forall (faithful ms) outs }.

Lemma increasing_app a b : increasing (a ++ b) -> forall x y, In x a -> In y b -> x < y.
Proof.
  induction a as [|z a IH]; cbn; [intros _ ? ? []|]. intros [H1 H2] x y [<-|Hx] Hy; [apply H1; apply in_or_app; auto|eapply IH; eauto].
Qed.
Lemma strict_tail_in x b : strict (x :: b) -> strict b. Proof. intros [_ H]. exact H. Qed.

Lemma try_inv ms sts s outs : binv ms sts s outs -> strict ms -> increasing sts -> b_buf s <> [] ->
  exists s' o, bar_try s = Ok (s', o) /\ binv ms sts s' (outs ++ o) /\ b_buf s' <> [].
Proof.
  intros B Hm Hs Hb. unfold bar_try. destruct (b_ts s) as [|t ts] eqn:Et.
  - exists s, []. rewrite app_nil_r. auto.
  - destruct (b_buf s) as [|m r] eqn:Eb; [congruence|]. destruct B as [(p & Ep & Hp) T O].
    assert (Sb : strict (m :: r)). { rewrite Ep, Eb in Hm. apply strict_app in Hm. tauto. }
    destruct (Z.ltb_spec t (fst m)) as [L|L].
    + exists (mkBar (m :: r) ts), [(t, First m)]. split; [reflexivity|]. split; [|discriminate]. constructor.
      * exists p. cbn [b_buf]. rewrite Eb in *. split; [exact Ep|]. intros N. destruct (Hp N) as (m' & r' & t' & E & Ht' & Hl). exists m', r', t'. split; [exact E|]. split; [|exact Hl].
        rewrite map_app. apply in_or_app. auto.
      * cbn [b_ts]. rewrite T, Et, map_app, <- app_assoc. reflexivity.
      * apply Forall_app. split; [exact O|]. constructor; [|constructor]. cbn. split; [|exact L]. destruct p as [|x p]; [exists r; rewrite Ep, Eb; reflexivity|].
        exfalso. destruct (Hp ltac:(discriminate)) as (m' & r' & t' & E & Ht' & Hl). rewrite Eb in E. injection E as <- <-.
        rewrite T, Et in Hs. pose proof (increasing_app _ _ Hs t' t Ht' (or_introl eq_refl)). lia.
    + destruct r as [|y r].
      * cbn [andb]. exists s, []. rewrite app_nil_r. split; [reflexivity|]. split; [|rewrite Eb; discriminate]. constructor; [exists p; split; assumption|congruence|exact O].
      * destruct (Z.ltb_spec t (fst (last (y :: r) m))) as [Ll|Ll]; cbn [andb].
        -- destruct (trim_ok t _ m (y :: r) eq_refl Sb L ltac:(discriminate) Ll) as (q & m1 & m2 & b' & E1 & E2 & E3 & E4). rewrite E2. cbn [rbind].
           unfold interpolable. replace ((fst m1 <? fst m2) && (fst m1 <=? t) && (t <=? fst m2)) with true by lia.
           exists (mkBar (m1 :: m2 :: b') ts), [(t, Between m1 m2)]. split; [reflexivity|]. split; [|discriminate]. constructor.
           ++ exists (p ++ q). cbn [b_buf]. split; [rewrite Ep, Eb, E1, app_assoc; reflexivity|]. intros _. exists m1, (m2 :: b'), t. split; [reflexivity|]. split; [|lia].
              rewrite map_app. apply in_or_app. right. left. reflexivity.
           ++ cbn [b_ts]. rewrite T, Et, map_app, <- app_assoc. reflexivity.
           ++ apply Forall_app. split; [exact O|]. constructor; [|constructor]. cbn. split; [|auto]. exists (p ++ q), b'. rewrite Ep, Eb, E1, app_assoc. reflexivity.
        -- exists s, []. rewrite app_nil_r. split; [reflexivity|]. split; [|rewrite Eb; discriminate]. constructor; [exists p; split; assumption|congruence|exact O].
Qed.

Lemma increasing_prefix a b : increasing (a ++ b) -> increasing a.
Proof. induction a as [|z a IH]; cbn; [auto|]. intros [H1 H2]. split; [intros y Hy; apply H1; apply in_or_app; auto|auto]. Qed.

Lemma event_inv ms sts s outs e : binv ms sts s outs -> (b_buf s <> [] \/ exists m, e = BM m) ->
  strict (ms ++ measurements [e]) -> increasing (sts ++ states [e]) ->
  exists s' o, bar_event e s = Ok (s', o) /\ binv (ms ++ measurements [e]) (sts ++ states [e]) s' (outs ++ o) /\ b_buf s' <> [].
Proof.
  intros B Hb Hm Hs. destruct e as [m|t]; cbn [bar_event measurements states flat_map app] in *; rewrite ?app_nil_r in *.
  - unfold bar_measure. apply try_inv; auto; [|destruct (b_buf s); discriminate]. destruct B as [(p & Ep & Hp) T O]. constructor; cbn [b_buf b_ts].
    + exists p. split; [rewrite Ep, app_assoc; reflexivity|]. intros N. destruct (Hp N) as (m' & r' & t' & E & H). exists m', (r' ++ [m]), t'. split; [rewrite E; reflexivity|exact H].
    + exact T.
    + eapply Forall_impl; [|exact O]. intros x. apply faithful_more.
  - assert (Hb' : b_buf s <> []) by (destruct Hb as [Hb|(m & E)]; [exact Hb|discriminate]).
    unfold bar_state. apply try_inv; auto. destruct B as [H1 T O]. constructor; cbn [b_buf b_ts]; auto. rewrite T, app_assoc. reflexivity.
Qed.

Lemma run_inv : forall l ms sts s outs, binv ms sts s outs -> b_buf s <> [] -> strict (ms ++ measurements l) -> increasing (sts ++ states l) ->
  exists s' o, bar_run s l = Ok (s', o) /\ binv (ms ++ measurements l) (sts ++ states l) s' (outs ++ o) /\ b_buf s' <> [].
Proof.
  induction l as [|e l IH]; intros ms sts s outs B Hb Hm Hs.
  - exists s, []. cbn. rewrite !app_nil_r. auto.
  - assert (Em : measurements (e :: l) = measurements [e] ++ measurements l) by (unfold measurements; cbn [flat_map]; rewrite app_nil_r; reflexivity).
    assert (Es : states (e :: l) = states [e] ++ states l) by (unfold states; cbn [flat_map]; rewrite app_nil_r; reflexivity).
    rewrite Em, Es in *. rewrite app_assoc in Hm, Hs. pose proof (strict_app _ _ Hm) as (Hm1 & _). pose proof (increasing_prefix _ _ Hs) as Hs1.
    destruct (event_inv ms sts s outs e B (or_introl Hb) Hm1 Hs1) as (s1 & o1 & E1 & B1 & N1).
    destruct (IH _ _ _ _ B1 N1 Hm Hs) as (s2 & o2 & E2 & B2 & N2). exists s2, (o1 ++ o2). cbn [bar_run]. rewrite E1. cbn [rbind fst snd]. rewrite E2. cbn [rbind fst snd].
    split; [reflexivity|]. split; [|exact N2]. rewrite !app_assoc. exact B2.
Qed.

(* C26: with a first measurement before any state, nothing fails; published stamps followed by the ones still
   waiting are the state times in order; everything published is faithful *)
Lemma baro_one_to_one m l : strict (m :: measurements l) -> increasing (states l) ->
  exists s o, bar_run (mkBar [] []) (BM m :: l) = Ok (s, o) /\ map fst o ++ b_ts s = states l /\ Forall (faithful (m :: measurements l)) o.
Proof.
  intros Hm Hs. destruct (run_inv l [m] [] (mkBar [m] []) [] ) as (s & o & E & B & _); auto.
  - constructor; cbn; auto. exists []. split; [reflexivity|]. intros N. congruence.
  - discriminate.
  - exists s, o. cbn [bar_run bar_event bar_measure bar_try b_ts b_buf app rbind fst snd]. unfold bar_measure, bar_try. cbn [b_ts b_buf app rbind fst snd]. rewrite E. cbn.
    destruct B as [_ T O]. cbn in T, O. auto.
Qed.

(* the backlog is drained at one state per measurement *)
Lemma drain : forall (new : list (Z * Z)) s, b_buf s <> [] -> strict (b_buf s ++ new) -> increasing (b_ts s) -> (forall m t, In m new -> In t (b_ts s) -> t < fst m) ->
  exists s' o, bar_run s (map BM new) = Ok (s', o) /\ map fst o = firstn (List.length new) (b_ts s) /\ b_ts s' = skipn (List.length new) (b_ts s).
Proof.
  induction new as [|m new IH]; intros s Hb Hs Hi Hl.
  - exists s, []. auto.
  - cbn [map bar_run bar_event]. unfold bar_measure, bar_try. cbn [b_ts b_buf]. destruct (b_ts s) as [|t ts] eqn:Et.
    + cbn [rbind fst snd]. destruct (IH (mkBar (b_buf s ++ [m]) [])) as (s' & o & E & H1 & H2); cbn [b_buf b_ts]; auto; try (destruct (b_buf s); discriminate); try (rewrite <- app_assoc; exact Hs); try (intros ? ? _ []; fail).
      rewrite E. cbn [rbind fst snd]. exists s', o. split; [reflexivity|]. cbn [b_ts] in *. rewrite H1, H2. rewrite !firstn_nil, !skipn_nil. auto.
    + destruct (b_buf s) as [|m0 r] eqn:Eb; [congruence|]. cbn [app].
      assert (Hi' : increasing ts) by (destruct Hi; assumption).
      assert (Hl' : forall m' t', In m' new -> In t' ts -> t' < fst m') by (intros; apply Hl; right; assumption).
      assert (Sa : strict (m0 :: r ++ [m])). { change (m0 :: r ++ [m]) with ((m0 :: r) ++ [m]). replace ((m0 :: r) ++ m :: new) with (((m0 :: r) ++ [m]) ++ new) in Hs by (rewrite <- app_assoc; reflexivity). apply strict_app in Hs. tauto. }
      destruct (Z.ltb_spec t (fst m0)).
      * cbn [rbind fst snd]. destruct (IH (mkBar (m0 :: r ++ [m]) ts)) as (s' & o & E & H1 & H2); cbn [b_buf b_ts]; auto; [discriminate|cbn [app]; rewrite <- app_assoc; exact Hs|].
        rewrite E. cbn [rbind fst snd]. exists s', ((t, First m0) :: o). cbn [b_ts] in *. split; [reflexivity|]. cbn. rewrite H1, H2. auto.
      * rewrite last_last. replace (match r ++ [m] with [] => false | _ => true end) with true by (destruct r; reflexivity).
        assert (t < fst m) by (apply Hl; left; reflexivity). replace (t <? fst m) with true by lia. cbn [andb].
        destruct (trim_ok t (m0 :: r ++ [m]) m0 (r ++ [m]) eq_refl Sa ltac:(lia)) as (q & m1 & m2 & b' & E1 & E2 & E3 & E4); [destruct r; discriminate|rewrite last_last; lia|].
        rewrite E2. cbn [rbind]. unfold interpolable. replace ((fst m1 <? fst m2) && (fst m1 <=? t) && (t <=? fst m2)) with true by lia. cbn [rbind fst snd].
        destruct (IH (mkBar (m1 :: m2 :: b') ts)) as (s' & o & E & H1 & H2); cbn [b_buf b_ts]; auto; [discriminate| |].
        -- assert (X : (m0 :: r) ++ m :: new = q ++ (m1 :: m2 :: b') ++ new).
           { transitivity ((m0 :: r ++ [m]) ++ new); [cbn [app]; rewrite <- app_assoc; reflexivity|]. rewrite E1, <- app_assoc. reflexivity. }
           rewrite X in Hs. apply strict_app in Hs. tauto.
        -- rewrite E. cbn [rbind fst snd]. exists s', ((t, Between m1 m2) :: o). cbn [b_ts] in *. split; [reflexivity|]. cbn. rewrite H1, H2. auto.
Qed.

(* C27 and the stamp check *)
Lemma baro_empty_ub t : bar_run (mkBar [] []) [BS t] = UB. Proof. reflexivity. Qed.
Example baro_duplicate_throws : bar_run (mkBar [] []) [BM (5, 1); BM (5, 2); BS 5; BM (6, 3)] = Throw.
Proof. reflexivity. Qed.
Example baro_case : bar_run (mkBar [] []) [BM (5, 1); BS 3; BS 6; BM (7, 2); BS 8; BS 9; BM (10, 3); BM (11, 4)]
  = Ok (mkBar [(7, 2); (10, 3); (11, 4)] [], [(3, First (5, 1)); (6, Between (5, 1) (7, 2)); (8, Between (7, 2) (10, 3)); (9, Between (7, 2) (10, 3))]).
Proof. reflexivity. Qed.
