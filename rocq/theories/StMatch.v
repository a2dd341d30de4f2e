(* The keypoint matcher (C32): best cost, first among equals, mutual consistency, the ratio test. *)
From Verif Require Import Base StModel StSpec StFilter.
From Coq Require Import Lqa.

(* ---- costs ---- *)
Lemma dlt_dle a b : dlt a b = false -> dle b a.
Proof. destruct a, b; cbn; intros H; try exact I; try discriminate. apply qlt_false. exact H. Qed.
Lemma dle_refl a : dle a a.
Proof. destruct a; cbn; [lra | exact I]. Qed.
Lemma dle_trans a b c : dle a b -> dle b c -> dle a c.
Proof. destruct a, b, c; cbn; intros; try exact I; try contradiction; lra. Qed.
Lemma dlt_le a b : dlt a b = true -> dle a b.
Proof. destruct a, b; cbn; intros H; try exact I; try discriminate. apply qlt_spec in H. lra. Qed.
Lemma dlt_trans_l a b c : dle a b -> dlt b c = true -> dlt a c = true.
Proof.
  destruct a, b, c; cbn; intros H K; try reflexivity; try discriminate; try contradiction.
  apply qlt_spec in K. apply qlt_spec. lra.
Qed.
Lemma dlt_trans_r a b c : dlt a b = true -> dle b c -> dlt a c = true.
Proof.
  destruct a, b, c; cbn; intros H K; try reflexivity; try discriminate; try contradiction.
  apply qlt_spec in H. apply qlt_spec. lra.
Qed.

(* ---- the scan over candidates ---- *)
(* candidates met, in order, with their position and cost *)
Inductive scan (m : matcher) (cf : Z * Z -> res (option Q)) (sim : image) (right : bool) (ref : kp)
  : Z -> list kp -> list (Z * option Q) -> Prop :=
| scan_nil i : scan m cf sim right ref i [] []
| scan_skip i c l E : admissible m sim right ref c = false ->
    scan m cf sim right ref (i + 1) l E -> scan m cf sim right ref i (c :: l) E
| scan_take i c l wc E : admissible m sim right ref c = true -> cf (top_left m (kpt c)) = Ok wc ->
    scan m cf sim right ref (i + 1) l E -> scan m cf sim right ref i (c :: l) ((i, wc) :: E).

Definition upd (st : Z * option Q * option Q) (e : Z * option Q) : Z * option Q * option Q :=
  let '(idx, cost, second) := st in if dlt (snd e) cost then (fst e, snd e, cost) else (idx, cost, second).

Lemma search_scan m cf sim right ref : forall l i st r, search m cf sim right ref i l st = Ok r ->
  exists E, scan m cf sim right ref i l E /\ r = fold_left upd E st.
Proof.
  induction l as [|c l IH]; intros i st r H; cbn [search] in H.
  - injection H as <-. exists []. split; [constructor | reflexivity].
  - destruct (admissible m sim right ref c) eqn:A.
    + destruct (cf (top_left m (kpt c))) as [wc| |] eqn:C; cbn [rbind] in H; try discriminate.
      destruct st as [[idx cost] second]. apply IH in H. destruct H as (E & S & ->).
      exists ((i, wc) :: E). split; [constructor; assumption | reflexivity].
    + apply IH in H. destruct H as (E & S & ->). exists E. split; [constructor; assumption | reflexivity].
Qed.
Lemma search_total m cf sim right ref : forall l i st,
  (forall c, In c l -> admissible m sim right ref c = true -> exists wc, cf (top_left m (kpt c)) = Ok wc) ->
  exists r, search m cf sim right ref i l st = Ok r.
Proof.
  induction l as [|c l IH]; intros i st H; cbn [search]; [eexists; reflexivity|].
  destruct (admissible m sim right ref c) eqn:A.
  - destruct (H c (or_introl eq_refl) A) as [wc ->]. cbn [rbind]. destruct st as [[? ?] ?].
    apply IH. intros; apply H; [right|]; assumption.
  - apply IH. intros; apply H; [right|]; assumption.
Qed.

Lemma scan_in m cf sim right ref : forall i l E, scan m cf sim right ref i l E ->
  forall j wc, In (j, wc) E <->
    i <= j /\ exists c, nth_error l (Z.to_nat (j - i)) = Some c /\
      admissible m sim right ref c = true /\ cf (top_left m (kpt c)) = Ok wc.
Proof.
  induction 1 as [i | i c l E A SC IH | i c l wc0 E A C SC IH]; intros j wc.
  - split; [intros [] | intros [_ (c & H & _)]; destruct (Z.to_nat (j - i)); discriminate].
  - rewrite IH. split.
    + intros [H (x & Hx & R)]. split; [lia|]. exists x. split; [|exact R].
      replace (Z.to_nat (j - i)) with (S (Z.to_nat (j - (i + 1)))) by lia. exact Hx.
    + intros [H (x & Hx & R)]. destruct (Z.eq_dec i j) as [->|N].
      * rewrite Z.sub_diag in Hx. cbn in Hx. injection Hx as <-. destruct R. congruence.
      * split; [lia|]. exists x. split; [|exact R].
        replace (Z.to_nat (j - i)) with (S (Z.to_nat (j - (i + 1)))) in Hx by lia. exact Hx.
  - cbn [In]. rewrite IH. split.
    + intros [[= <- <-] | [H (x & Hx & R)]].
      * split; [lia|]. exists c. rewrite Z.sub_diag. split; [reflexivity | split; assumption].
      * split; [lia|]. exists x. split; [|exact R].
        replace (Z.to_nat (j - i)) with (S (Z.to_nat (j - (i + 1)))) by lia. exact Hx.
    + intros [H (x & Hx & R)]. destruct (Z.eq_dec i j) as [->|N].
      * rewrite Z.sub_diag in Hx. cbn in Hx. injection Hx as <-. left. destruct R as [_ R]. congruence.
      * right. split; [lia|]. exists x. split; [|exact R].
        replace (Z.to_nat (j - i)) with (S (Z.to_nat (j - (i + 1)))) in Hx by lia. exact Hx.
Qed.
Lemma scan_incr m cf sim right ref i l E : scan m cf sim right ref i l E -> incr (map fst E).
Proof.
  induction 1 as [i | i c l E A SC IH | i c l wc0 E A C SC IH]; cbn [map incr]; [exact I | exact IH |].
  split; [|exact IH]. intros b Hb. apply in_map_iff in Hb. destruct Hb as ([j w] & <- & Hj).
  apply (scan_in _ _ _ _ _ _ _ _ SC) in Hj. cbn. lia.
Qed.

(* the state after the candidates E: the best is the first of the least costs, the second the
   least cost among those before the best *)
Definition best_of (E : list (Z * option Q)) (st : Z * option Q * option Q) : Prop :=
  let '(idx, cost, second) := st in
  (cost = None /\ idx = -1 /\ second = None /\ forall e, In e E -> snd e = None) \/
  (cost <> None /\ exists pre post, E = pre ++ (idx, cost) :: post /\
     (forall e, In e pre -> dlt cost (snd e) = true /\ dle second (snd e)) /\
     (forall e, In e post -> dle cost (snd e)) /\
     (second = None \/ exists e, In e pre /\ snd e = second)).

Lemma fold_best : forall E, best_of E (fold_left upd E (-1, None, None)).
Proof.
  intros E. induction E as [|e E IH] using rev_ind.
  - left. split; [reflexivity|]. split; [reflexivity|]. split; [reflexivity|]. intros e [].
  - rewrite fold_left_app. cbn [fold_left].
    destruct (fold_left upd E (-1, None, None)) as [[idx cost] second]. unfold upd.
    destruct e as [j w]. cbn [fst snd]. destruct (dlt w cost) eqn:D.
    + right. split; [destruct w; [discriminate | destruct cost; discriminate]|].
      exists E, []. split; [reflexivity|].
      destruct IH as [(-> & -> & -> & N) | (C & pre & post & -> & P & Q & S)].
      * split; [|split; [intros ? []|left; reflexivity]].
        intros e He. rewrite (N e He). split; [destruct w; [reflexivity | discriminate] | exact I].
      * split; [|split; [intros ? []|]].
        -- intros e He. apply in_app_or in He. destruct He as [He|[<-|He]]; cbn [snd].
           ++ destruct (P e He) as [P1 _]. apply dlt_le in P1. split; [|exact P1]. exact (dlt_trans_r _ _ _ D P1).
           ++ split; [exact D | apply dle_refl].
           ++ split; [exact (dlt_trans_r _ _ _ D (Q e He)) | exact (Q e He)].
        -- right. exists (idx, cost). split; [apply in_or_app; right; left; reflexivity | reflexivity].
    + destruct IH as [(-> & -> & -> & N) | (C & pre & post & -> & P & Q & S)].
      * left. split; [reflexivity|]. split; [reflexivity|]. split; [reflexivity|].
        intros e He. apply in_app_or in He. destruct He as [He|[<-|[]]]; [apply N; exact He|].
        cbn. destruct w; [discriminate | reflexivity].
      * right. split; [exact C|]. exists pre, (post ++ [(j, w)]). split; [rewrite <- app_assoc; reflexivity|].
        split; [exact P|]. split; [|exact S]. intros e He. apply in_app_or in He.
        destruct He as [He|[<-|[]]]; [apply Q; exact He | cbn; apply dlt_dle; exact D].
Qed.

(* ---- keypoint_index ---- *)
Lemma admissible_spec m sim right ref c : admissible m sim right ref c = true <-> candidate m sim right ref c.
Proof.
  unfold admissible, candidate. rewrite !andb_true_iff, qle_spec, qabs_le. destruct right; rewrite qle_spec; tauto.
Qed.

Section Index.
Variables (m : matcher) (ref : kp) (cands : list kp) (imL imR : image) (right : bool).
Let rim := if right then imL else imR.
Let sim := if right then imR else imL.
Let tl0 := top_left m (kpt ref).
(* cost of the window around a keypoint of the searched image *)
Definition wcost (c : kp) : res (option Q) := m_gen m rim tl0 rim sim tl0 (top_left m (kpt c)) (m_win m).
Definition cand_at (i : Z) (c : kp) : Prop :=
  0 <= i /\ nth_error cands (Z.to_nat i) = Some c /\ candidate m sim right ref c.

Lemma scan_cand E : scan m (fun s => m_gen m rim tl0 rim sim tl0 s (m_win m)) sim right ref 0 cands E ->
  forall j wc, In (j, wc) E <-> exists c, cand_at j c /\ wcost c = Ok wc.
Proof.
  intros S j wc. rewrite (scan_in _ _ _ _ _ _ _ _ S). rewrite Z.sub_0_r. unfold cand_at. split.
  - intros [H (c & Hc & A & W)]. exists c. apply admissible_spec in A. tauto.
  - intros (c & (H & Hc & A) & W). split; [exact H|]. exists c. apply admissible_spec in A. tauto.
Qed.

(* what the scan found: best candidate b with cost q, second cost s *)
Definition found (b : Z) (q : option Q) (s : option Q) : Prop :=
  exists E, scan m (fun s => m_gen m rim tl0 rim sim tl0 s (m_win m)) sim right ref 0 cands E /\ best_of E (b, q, s).

Lemma index_cases c0 j cost : keypoint_index m ref cands imL imR right c0 = Ok (j, cost) ->
  (window_within_image rim tl0 (m_win m) = false /\ j = -1 /\ cost = c0) \/
  (window_within_image rim tl0 (m_win m) = true /\ exists b s, found b cost s /\
     (j = b \/ j = -1 /\ m_filter m = RatioTest) /\
     (m_filter m = RatioTest -> j = if ratio_fails m cost s then -1 else b)).
Proof.
  unfold keypoint_index. destruct (negb _); [discriminate|]. cbn zeta. fold rim sim tl0.
  destruct (window_within_image rim tl0 (m_win m)) eqn:W; cbn [negb].
  - destruct (search _ _ _ _ _ _ _ _) as [[[b q] s]| |] eqn:S; cbn [rbind]; try discriminate.
    apply search_scan in S. destruct S as (E & S & F). pose proof (fold_best E) as B. rewrite <- F in B.
    intros H. right. split; [reflexivity|]. exists b, s.
    assert (FD : found b q s) by (exists E; split; assumption).
    destruct (m_filter m) eqn:MF.
    + injection H as <- <-. split; [exact FD|]. split; [left; reflexivity | discriminate].
    + injection H as <- <-. split; [exact FD|]. split; [left; reflexivity | discriminate].
    + destruct (ratio_fails m q s) eqn:R; injection H as <- <-; (split; [exact FD|]); (split; [tauto | rewrite R; reflexivity]).
  - intros [= <- <-]. left. repeat split; reflexivity.
Qed.

Lemma found_best b q s : found b q s -> b <> -1 ->
  exists c, cand_at b c /\ wcost c = Ok q /\ q <> None /\
    (forall i ci wi, cand_at i ci -> wcost ci = Ok wi -> dle q wi /\ (i < b -> dlt q wi = true /\ dle s wi)) /\
    (s = None \/ exists i ci, i < b /\ cand_at i ci /\ wcost ci = Ok s).
Proof.
  intros (E & S & B) N. destruct B as [(_ & C & _) | (C & pre & post & EE & P & Q & SS)]; [congruence|].
  assert (I : In (b, q) E) by (rewrite EE; apply in_or_app; right; left; reflexivity).
  apply (scan_cand E S) in I. destruct I as (c & Hc & Wc). exists c. split; [exact Hc|]. split; [exact Wc|]. split; [exact C|].
  assert (IN : incr (map fst E)) by exact (scan_incr _ _ _ _ _ _ _ _ S).
  assert (PB : forall e, In e pre -> fst e < b).
  { rewrite EE, map_app in IN. intros e He. revert IN. clear - He. induction pre as [|x pre IH]; [destruct He|].
    cbn [map app incr]. intros [H1 H2]. destruct He as [<-|He]; [|apply IH; assumption].
    apply H1. apply in_or_app. right. left. reflexivity. }
  assert (BP : forall e, In e post -> b < fst e).
  { rewrite EE, map_app in IN. intros e He. revert IN. clear - He. induction pre as [|x pre IH].
    - cbn [map app incr]. intros [H1 _]. apply H1. apply in_map. exact He.
    - cbn [map app incr]. intros [_ H2]. apply IH. exact H2. }
  split.
  - intros i ci wi Hi Wi. assert (Ii : In (i, wi) E) by (apply (scan_cand E S); exists ci; tauto).
    rewrite EE in Ii. apply in_app_or in Ii. destruct Ii as [Ii|[[= <- <-]|Ii]].
    + destruct (P _ Ii) as [P1 P2]. cbn [snd] in *. split; [apply dlt_le; exact P1 | intros _; tauto].
    + split; [apply dle_refl | lia].
    + split; [exact (Q _ Ii) | apply BP in Ii; cbn in Ii; lia].
  - destruct SS as [->|(e & He & <-)]; [left; reflexivity|]. right. destruct e as [i w]. cbn [snd].
    pose proof (PB _ He) as L. cbn in L. assert (Ii : In (i, w) E) by (rewrite EE; apply in_or_app; left; exact He).
    apply (scan_cand E S) in Ii. destruct Ii as (ci & Hci & Wci). exists i, ci. tauto.
Qed.

Lemma found_none q s : found (-1) q s -> q = None /\ forall i ci wi, cand_at i ci -> wcost ci = Ok wi -> wi = None.
Proof.
  intros (E & S & B). destruct B as [(C & _ & _ & N) | (C & pre & post & EE & _)].
  - split; [exact C|]. intros i ci wi Hi Wi. apply (N (i, wi)). apply (scan_cand E S). exists ci. tauto.
  - exfalso. assert (I : In (-1, q) E) by (rewrite EE; apply in_or_app; right; left; reflexivity).
    apply (scan_cand E S) in I. destruct I as (c & (Hc & _) & _). lia.
Qed.

(* C32: the reported keypoint is the first of the cheapest candidates *)
Theorem index_best c0 j cost : keypoint_index m ref cands imL imR right c0 = Ok (j, cost) -> j <> -1 ->
  exists c q, cand_at j c /\ wcost c = Ok (Some q) /\ cost = Some q /\
    forall i ci wi, cand_at i ci -> wcost ci = Ok wi -> dle (Some q) wi /\ (i < j -> dlt (Some q) wi = true).
Proof.
  intros H N. apply index_cases in H. destruct H as [(_ & -> & _) | (W & b & s & F & J & _)]; [congruence|].
  destruct J as [->|[-> _]]; [|congruence]. destruct (found_best _ _ _ F N) as (c & Hc & Wc & Q & A & _).
  destruct cost as [q|]; [|congruence]. exists c, q. split; [exact Hc|]. split; [exact Wc|]. split; [reflexivity|].
  intros i ci wi Hi Wi. destruct (A i ci wi Hi Wi) as [A1 A2]. split; [exact A1 | intros L; apply A2; exact L].
Qed.

(* nothing is reported only if the window leaves the image, or no candidate has a finite cost, or
   the ratio test failed against an earlier candidate *)
Theorem index_none c0 cost : keypoint_index m ref cands imL imR right c0 = Ok (-1, cost) ->
  window_within_image rim tl0 (m_win m) = false \/
  (forall i ci wi, cand_at i ci -> wcost ci = Ok wi -> wi = None) \/
  (m_filter m = RatioTest /\ exists b cb q i ci s,
     cand_at b cb /\ wcost cb = Ok (Some q) /\ i < b /\ cand_at i ci /\ wcost ci = Ok (Some s) /\
     (q < s)%Q /\ ~ (s == 0)%Q /\ (m_ratio m < q / s)%Q).
Proof.
  intros H. apply index_cases in H. destruct H as [(W & _) | (W & b & s & F & J & R)]; [left; exact W|].
  right. destruct (Z.eq_dec b (-1)) as [->|N].
  - left. apply (proj2 (found_none _ _ F)).
  - right. destruct J as [J|[_ MF]]; [congruence|]. split; [exact MF|]. specialize (R MF).
    destruct (found_best _ _ _ F N) as (c & Hc & Wc & Q & A & SS).
    destruct cost as [q|]; [|congruence]. unfold ratio_fails in R.
    destruct s as [s|]; [|congruence]. destruct (Qeq_bool s 0) eqn:S0; [congruence|].
    destruct (qlt (m_ratio m) (q / s)) eqn:L; [|congruence]. apply qlt_spec in L.
    destruct SS as [|(i & ci & Li & Hi & Wi)]; [discriminate|].
    exists b, c, q, i, ci, s. split; [exact Hc|]. split; [exact Wc|]. split; [exact Li|]. split; [exact Hi|].
    split; [exact Wi|]. split; [|split; [|exact L]].
    + destruct (A i ci _ Hi Wi) as [_ A2]. destruct (A2 Li) as [A3 _]. cbn in A3. apply qlt_spec. exact A3.
    + intros C. apply Qeq_bool_iff in C. congruence.
Qed.

(* the ratio test, for positive costs: accepted means clearly cheaper than every EARLIER candidate *)
Theorem ratio_accepts c0 j cost : keypoint_index m ref cands imL imR right c0 = Ok (j, cost) -> j <> -1 ->
  m_filter m = RatioTest -> (0 < m_ratio m)%Q ->
  forall i ci s q, i < j -> cand_at i ci -> wcost ci = Ok (Some s) -> cost = Some q -> (0 <= q)%Q ->
    (q <= m_ratio m * s)%Q.
Proof.
  intros H N MF RP i ci s q Li Hi Wi -> Q0. apply index_cases in H.
  destruct H as [(_ & -> & _) | (W & b & s' & F & J & R)]; [congruence|].
  destruct J as [->|[-> _]]; [|congruence]. specialize (R MF).
  destruct (found_best _ _ _ F N) as (c & Hc & Wc & Q & A & SS).
  destruct (A i ci _ Hi Wi) as [_ A2]. destruct (A2 Li) as [A3 A4]. cbn in A3. apply qlt_spec in A3.
  unfold ratio_fails in R. destruct s' as [s'|]; [|destruct A4].
  cbn in A4. destruct SS as [|(k & ck & Lk & Hk & Wk)]; [discriminate|].
  destruct (A k ck _ Hk Wk) as [_ A5]. destruct (A5 Lk) as [A6 _]. cbn in A6. apply qlt_spec in A6.
  destruct (Qeq_bool s' 0) eqn:S0; [apply Qeq_bool_iff in S0; exfalso; lra|].
  destruct (qlt (m_ratio m) (q / s')) eqn:L; [congruence|]. apply qlt_false in L.
  assert (P : (0 < s')%Q) by lra.
  assert (M : (q <= m_ratio m * s')%Q).
  { apply (Qmult_le_compat_r _ _ s') in L; [|lra]. rewrite (Qmult_comm (q / s')), Qmult_div_r in L by (intros C; lra). exact L. }
  assert (X : (m_ratio m * s' <= m_ratio m * s)%Q) by nra. lra.
Qed.

(* with negative costs (negative cross-correlation) the ratio test rejects the match whenever some
   candidate comes before the best one *)
Theorem ratio_negative_rejects c0 j cost : keypoint_index m ref cands imL imR right c0 = Ok (j, cost) ->
  m_filter m = RatioTest -> (m_ratio m < 1)%Q ->
  (forall i ci wi, cand_at i ci -> wcost ci = Ok wi -> exists q, wi = Some q /\ (q < 0)%Q) ->
  j <> -1 -> forall i ci wi, cand_at i ci -> wcost ci = Ok wi -> j <= i.
Proof.
  intros H MF RP NEG N i ci wi Hi Wi. destruct (Z_le_dec j i) as [L|L]; [exact L|]. exfalso. apply index_cases in H.
  destruct H as [(_ & -> & _) | (W & b & s' & F & J & R)]; [congruence|].
  destruct J as [->|[-> _]]; [|congruence]. specialize (R MF).
  destruct (found_best _ _ _ F N) as (c & Hc & Wc & Q & A & SS).
  destruct (A i ci _ Hi Wi) as [_ A2]. destruct (A2 ltac:(lia)) as [A3 A4].
  destruct (NEG i ci wi Hi Wi) as (w & -> & W0). destruct s' as [s'|]; [|destruct A4].
  destruct SS as [|(k & ck & Lk & Hk & Wk)]; [discriminate|].
  destruct (NEG k ck _ Hk Wk) as (w' & [= <-] & W1).
  destruct (A k ck _ Hk Wk) as [_ A5]. destruct (A5 Lk) as [A6 _].
  destruct cost as [q|]; [|congruence]. cbn in A6. apply qlt_spec in A6. unfold ratio_fails in R.
  destruct (Qeq_bool s' 0) eqn:S0; [apply Qeq_bool_iff in S0; lra|].
  destruct (qlt (m_ratio m) (q / s')) eqn:LL; [congruence|]. apply qlt_false in LL.
  assert (M : (q / s' == (- q) / (- s'))%Q) by (field; lra).
  rewrite M in LL. assert (K : ((- q) / (- s') <= 1)%Q) by lra.
  apply (Qmult_le_compat_r _ _ (- s')) in K; [|lra].
  rewrite (Qmult_comm (- q / - s')), Qmult_div_r in K by (intros C; lra). lra.
Qed.

Lemma index_range c0 j cost : keypoint_index m ref cands imL imR right c0 = Ok (j, cost) ->
  j = -1 \/ 0 <= j < Z.of_nat (length cands).
Proof.
  intros H. destruct (Z.eq_dec j (-1)) as [->|N]; [left; reflexivity | right].
  destruct (index_best _ _ _ H N) as (c & q & (H0 & Hn & _) & _).
  assert (Z.to_nat j < length cands)%nat by (apply nth_error_Some; congruence). lia.
Qed.

Lemma index_total c0 : icols imL = icols imR -> irows imL = irows imR ->
  (forall c, window_within_image rim tl0 (m_win m) = true ->
     window_within_image sim (top_left m (kpt c)) (m_win m) = true -> exists w, wcost c = Ok w) ->
  exists r, keypoint_index m ref cands imL imR right c0 = Ok r.
Proof.
  intros EC ER T. unfold keypoint_index. rewrite EC, ER, !Z.eqb_refl. cbn [andb negb]. cbn zeta. fold rim sim tl0.
  destruct (window_within_image rim tl0 (m_win m)) eqn:W; cbn [negb]; [|eexists; reflexivity].
  destruct (search_total m (fun s => m_gen m rim tl0 rim sim tl0 s (m_win m)) sim right ref cands 0 (-1, None, None)) as [r ->].
  - intros c _ A. apply admissible_spec in A. destruct A as (_ & _ & A). apply T; [reflexivity | exact A].
  - cbn [rbind]. destruct r as [[b q] s]. destruct (m_filter m); [eexists; reflexivity.. |].
    destruct (ratio_fails m q s); eexists; reflexivity.
Qed.
End Index.

(* ---- the whole list ---- *)
Lemma indices_nth m kps others imL imR right : forall l i r, indices_from m kps others imL imR right i l = Ok r ->
  length r = length l /\
  forall n k, nth_error l n = Some k -> exists e, nth_error r n = Some e /\
    index_step m kps others imL imR right (i + Z.of_nat n) k (Some 0%Q) = Ok e.
Proof.
  induction l as [|k l IH]; intros i r H; cbn [indices_from] in H.
  - injection H as <-. split; [reflexivity|]. intros [|n] k; discriminate.
  - destruct (index_step m kps others imL imR right i k (Some 0%Q)) as [e| |] eqn:E; cbn [rbind] in H; try discriminate.
    destruct (indices_from m kps others imL imR right (i + 1) l) as [es| |] eqn:F; cbn [rbind] in H; try discriminate.
    injection H as <-. destruct (IH _ _ F) as [L IHn]. split; [cbn; rewrite L; reflexivity|].
    intros [|n] k' Hn; cbn [nth_error] in Hn.
    + injection Hn as <-. exists e. rewrite Z.add_0_r. split; [reflexivity | exact E].
    + destruct (IHn n k' Hn) as (e' & He & Se). exists e'. cbn [nth_error]. split; [exact He|].
      replace (i + Z.of_nat (S n)) with (i + 1 + Z.of_nat n) by lia. exact Se.
Qed.

Lemma step_cases m kps others imL imR right i k c0 j cost :
  index_step m kps others imL imR right i k c0 = Ok (j, cost) -> j <> -1 ->
  keypoint_index m k others imL imR right c0 = Ok (j, cost) /\
  (m_filter m = Bidirectional -> exists o w, nth_error others (Z.to_nat j) = Some o /\
     keypoint_index m o kps imL imR (negb right) None = Ok (i, w)).
Proof.
  unfold index_step. intros H N.
  destruct (keypoint_index m k others imL imR right c0) as [[j' c']| |] eqn:K; cbn [rbind] in H; try discriminate.
  destruct (m_filter m) eqn:MF.
  - injection H as -> ->. split; [reflexivity | discriminate].
  - destruct (j' =? -1) eqn:J; [injection H as <- <-; lia|].
    destruct (vix others j') as [o| |] eqn:V; cbn [rbind] in H; try discriminate.
    destruct (keypoint_index m o kps imL imR (negb right) None) as [[b w]| |] eqn:B; cbn [rbind] in H; try discriminate.
    destruct (b =? i) eqn:BI; [|injection H as <- <-; congruence]. injection H as -> ->. split; [reflexivity|].
    intros _. apply vix_ok in V. exists o, w. split; [tauto|]. rewrite B. do 2 f_equal. lia.
  - injection H as -> ->. split; [reflexivity | discriminate].
Qed.

Theorem indices_valid m left_kps right_kps imL imR r : keypoint_indices m left_kps right_kps imL imR true = Ok r ->
  length r = length left_kps /\
  forall n j c, nth_error r n = Some (j, c) -> j = -1 \/ 0 <= j < Z.of_nat (length right_kps).
Proof.
  unfold keypoint_indices. intros H. apply indices_nth in H. destruct H as [L H]. split; [exact L|].
  intros n j c Hn. destruct (nth_error left_kps n) as [k|] eqn:K.
  - destruct (H n k K) as ([j' c'] & He & S). rewrite Hn in He. injection He as <- <-.
    destruct (Z.eq_dec j (-1)) as [->|N]; [left; reflexivity|]. apply step_cases in S; [|exact N].
    eapply index_range. exact (proj1 S).
  - apply nth_error_None in K. assert (n < length r)%nat by (apply nth_error_Some; congruence). lia.
Qed.

(* bidirectional matching: mutual, hence one-to-one *)
Theorem indices_mutual m left_kps right_kps imL imR r : m_filter m = Bidirectional ->
  keypoint_indices m left_kps right_kps imL imR true = Ok r ->
  forall i j c, nth_error r i = Some (j, c) -> j <> -1 ->
  exists kl kr, nth_error left_kps i = Some kl /\ 0 <= j /\ nth_error right_kps (Z.to_nat j) = Some kr /\
    keypoint_index m kl right_kps imL imR true (Some 0%Q) = Ok (j, c) /\
    exists c', keypoint_index m kr left_kps imL imR false None = Ok (Z.of_nat i, c').
Proof.
  unfold keypoint_indices. intros MF H i j c Hi N. apply indices_nth in H. destruct H as [L H].
  destruct (nth_error left_kps i) as [k|] eqn:K.
  - destruct (H i k K) as ([j' c'] & He & S). rewrite Hi in He. injection He as <- <-.
    apply step_cases in S; [|exact N]. destruct S as [S1 S2]. destruct (S2 MF) as (o & w & Ho & B).
    exists k, o. split; [reflexivity|]. split; [destruct (index_range _ _ _ _ _ _ _ _ _ S1); lia|].
    split; [exact Ho|]. split; [exact S1|]. exists w. exact B.
  - apply nth_error_None in K. assert (i < length r)%nat by (apply nth_error_Some; congruence). lia.
Qed.
Theorem indices_injective m left_kps right_kps imL imR r : m_filter m = Bidirectional ->
  keypoint_indices m left_kps right_kps imL imR true = Ok r ->
  forall i i' j c c', nth_error r i = Some (j, c) -> nth_error r i' = Some (j, c') -> j <> -1 -> i = i'.
Proof.
  intros MF H i i' j c c' Hi Hi' N.
  destruct (indices_mutual _ _ _ _ _ _ MF H _ _ _ Hi N) as (k1 & r1 & _ & _ & R1 & _ & (w1 & B1)).
  destruct (indices_mutual _ _ _ _ _ _ MF H _ _ _ Hi' N) as (k2 & r2 & _ & _ & R2 & _ & (w2 & B2)).
  rewrite R1 in R2. injection R2 as <-. rewrite B1 in B2. injection B2. lia.
Qed.

(* a cost function that succeeds on windows inside the two images *)
Definition cost_total (m : matcher) (imL imR : image) : Prop :=
  forall rim sim a b, (rim = imL /\ sim = imR \/ rim = imR /\ sim = imL) ->
    window_within_image rim a (m_win m) = true -> window_within_image sim b (m_win m) = true ->
    exists w, m_gen m rim a rim sim a b (m_win m) = Ok w.

Lemma step_total m kps others imL imR right i k c0 : icols imL = icols imR -> irows imL = irows imR ->
  cost_total m imL imR -> exists e, index_step m kps others imL imR right i k c0 = Ok e.
Proof.
  intros EC ER T.
  assert (K : forall ref cs rt c, exists e, keypoint_index m ref cs imL imR rt c = Ok e).
  { intros ref cs rt c. apply index_total; [assumption..|]. intros x W1 W2. unfold wcost.
    apply T; [destruct rt; tauto | exact W1 | exact W2]. }
  unfold index_step. destruct (K k others right c0) as [[j c] E]. rewrite E. cbn [rbind].
  destruct (m_filter m); try (eexists; reflexivity). destruct (j =? -1) eqn:J; [eexists; reflexivity|].
  destruct (index_range _ _ _ _ _ _ _ _ _ E) as [->|R]; [discriminate|].
  destruct (nth_error others (Z.to_nat j)) as [o|] eqn:O; [|apply nth_error_None in O; lia].
  rewrite (proj2 (vix_ok others j o)) by (split; [lia | exact O]). cbn [rbind].
  destruct (K o kps (negb right) None) as [[b w] ->]. cbn [rbind]. destruct (b =? i); eexists; reflexivity.
Qed.
Theorem indices_total m left_kps right_kps imL imR right : icols imL = icols imR -> irows imL = irows imR ->
  cost_total m imL imR -> exists r, keypoint_indices m left_kps right_kps imL imR right = Ok r.
Proof.
  intros EC ER T. unfold keypoint_indices.
  generalize (if right then left_kps else right_kps) at 1 2. generalize (if right then right_kps else left_kps).
  intros others kps. generalize 0. revert kps.
  assert (G : forall kps0 l i, exists r, indices_from m kps0 others imL imR right i l = Ok r).
  { intros kps0. induction l as [|k l IH]; intros i; cbn [indices_from]; [eexists; reflexivity|].
    destruct (step_total m kps0 others imL imR right i k (Some 0%Q) EC ER T) as [e ->]. cbn [rbind].
    destruct (IH (i + 1)) as [r ->]. cbn [rbind]. eexists; reflexivity. }
  intros kps z. apply G.
Qed.
