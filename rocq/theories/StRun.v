(* The tracker over a sequence of frames: C28, C29, C30 and the statistics. *)
From Verif Require Import Base StModel StSpec StFilter StTrack StMatch.

(* ---- new matches ---- *)
Definition newlrm (l : list (kp * kp * Q)) : lrm :=
  Lrm (map tl (numbered 0 l)) (map tr (numbered 0 l)) (diag 0 (numbered 0 l)) [].

Lemma numbered_length l : forall n, length (numbered n l) = length l.
Proof. induction l as [|[[a b] q] l IH]; intros; cbn; [|rewrite IH]; reflexivity. Qed.
Lemma numbered_app l l' : forall n, numbered n (l ++ l') = numbered n l ++ numbered (n + Z.of_nat (length l)) l'.
Proof.
  induction l as [|[[a b] q] l IH]; intros n; cbn [numbered app length].
  - rewrite Z.add_0_r. reflexivity.
  - rewrite IH. do 3 f_equal. lia.
Qed.
Lemma numbered_tl l : forall n k, map tl (numbered n l) = map tl (numbered k l).
Proof. induction l as [|[[a b] q] l IH]; intros; cbn; [|rewrite (IH (n + 1) (k + 1))]; reflexivity. Qed.
Lemma numbered_tr l : forall n k, map tr (numbered n l) = map tr (numbered k l).
Proof. induction l as [|[[a b] q] l IH]; intros; cbn; [|rewrite (IH (n + 1) (k + 1))]; reflexivity. Qed.
Lemma numbered_diag l : forall n k i, diag i (numbered n l) = diag i (numbered k l).
Proof. induction l as [|[[a b] q] l IH]; intros; cbn; [|rewrite (IH (n + 1) (k + 1))]; reflexivity. Qed.
Lemma numbered_tid l : forall n, map tid (numbered n l) = count_from n (length l).
Proof. induction l as [|[[a b] q] l IH]; intros; cbn; [|rewrite IH]; reflexivity. Qed.
Lemma newlrm_snoc l a b q : newlrm (l ++ [(a, b, q)]) =
  Lrm (kL (newlrm l) ++ [a]) (kR (newlrm l) ++ [b])
      (ms (newlrm l) ++ [Dm (Z.of_nat (length (kL (newlrm l)))) (Z.of_nat (length (kR (newlrm l)))) q])
      (ids (newlrm l)).
Proof.
  unfold newlrm. cbn [kL kR ms ids]. rewrite numbered_app, !map_app, diag_app, !map_length. reflexivity.
Qed.

Lemma new_matches_eq thr r : forall l mi acc, length mi = length l ->
  (forall j c, In (j, c) mi -> j = -1 \/ 0 <= j < Z.of_nat (length r)) ->
  new_matches thr r l mi (newlrm acc) = Ok (newlrm (acc ++ chosen thr l mi r)).
Proof.
  induction l as [|k l IH]; intros mi acc L V; cbn [new_matches chosen].
  - rewrite app_nil_r. reflexivity.
  - destruct mi as [|[j c] mi]; [discriminate|]. cbn in L.
    assert (K : forall acc', new_matches thr r l mi (newlrm acc') = Ok (newlrm (acc' ++ chosen thr l mi r)))
      by (intros; apply IH; [lia | intros; apply (V j0 c0); right; assumption]).
    destruct c as [q|]; [|apply K]. destruct (qlt q thr && (0 <=? j)) eqn:T; [|apply K].
    apply andb_true_iff in T. destruct T as [_ J].
    destruct (V j (Some q) (or_introl eq_refl)) as [->|R]; [discriminate|].
    destruct (nth_error r (Z.to_nat j)) as [b|] eqn:E; [|apply nth_error_None in E; lia].
    rewrite (proj2 (vix_ok r j b)) by (split; [lia | exact E]). cbn [rbind].
    rewrite <- newlrm_snoc, K, <- app_assoc. reflexivity.
Qed.

Lemma filter_numbered d : forall l n k,
  map tl (filter (fun t => depth_test d (tl t) (tr t)) (numbered n l)) = map tl (numbered k (filter (pair_ok (Some d)) l)) /\
  map tr (filter (fun t => depth_test d (tl t) (tr t)) (numbered n l)) = map tr (numbered k (filter (pair_ok (Some d)) l)) /\
  forall i, diag i (filter (fun t => depth_test d (tl t) (tr t)) (numbered n l)) = diag i (numbered k (filter (pair_ok (Some d)) l)).
Proof.
  induction l as [|[[a b] q] l IH]; intros n k; cbn [numbered filter].
  - repeat split.
  - cbn [tl tr pair_ok depth_ok]. destruct (depth_test d a b).
    + destruct (IH (n + 1) (k + 1)) as (A & B & C). cbn [numbered map diag tl tr td]. rewrite A, B.
      split; [reflexivity|]. split; [reflexivity|]. intros i. rewrite C. reflexivity.
    + apply IH.
Qed.

Lemma new_part_eq c f n1 n2 :
  new_part c f n1 n2 =
  match keypoint_indices (c_match c) n1 n2 (f_left f) (f_right f) true with
  | Ok mi => Ok (newlrm (filter (pair_ok (f_depth f)) (chosen (c_cost c) n1 mi n2)))
  | Throw => Throw
  | UB => UB
  end.
Proof.
  unfold new_part. destruct (keypoint_indices _ _ _ _ _ _) as [mi| |] eqn:K; cbn [rbind]; try reflexivity.
  apply indices_valid in K. destruct K as [L V].
  change lrm0 with (newlrm []). rewrite new_matches_eq.
  2: exact L. 2: { intros j q Hq. apply In_nth_error in Hq. destruct Hq as [n Hn]. exact (V n j q Hn). }
  cbn [rbind app]. set (ps := chosen (c_cost c) n1 mi n2). destruct (f_depth f) as [d|].
  - set (hs := numbered 0 ps). change (kL (newlrm ps)) with (map tl hs). change (kR (newlrm ps)) with (map tr hs).
    replace (ms (newlrm ps)) with (map mk (enum 0 hs)) by (symmetry; apply diag_enum).
    assert (S0 : sub hs (enum 0 hs)) by (intros i t Hi; apply (enum_nth [] hs); exact Hi).
    rewrite depth_on by exact S0. cbn [rbind]. rewrite extract_kps_eq by (apply sub_filter; exact S0). cbn [rbind].
    rewrite <- !(map_map snd), (filter_enum (fun t => depth_test d (tl t) (tr t))).
    destruct (filter_numbered d ps 0 0) as (A & B & C). unfold hs. rewrite A, B, C. reflexivity.
  - do 2 f_equal. unfold pair_ok, depth_ok. clear. induction ps as [|[[a b] q] ps IH]; cbn; [|rewrite <- IH]; reflexivity.
Qed.

Lemma append_eq : forall rest done acc,
  append_matches (Z.of_nat (length done)) (lrm_of (done ++ rest)) (diag (Z.of_nat (length done)) rest) (lrm_of acc) =
  Ok (lrm_of (acc ++ rest)).
Proof.
  induction rest as [|t rest IH]; intros done acc; cbn [append_matches diag].
  - rewrite app_nil_r. reflexivity.
  - assert (V1 : vix (kL (lrm_of (done ++ t :: rest))) (Z.of_nat (length done)) = Ok (tl t)) by (unfold lrm_of; cbn [kL]; rewrite map_app; cbn [map]; apply vix_mid; rewrite map_length; reflexivity).
    assert (V2 : vix (kR (lrm_of (done ++ t :: rest))) (Z.of_nat (length done)) = Ok (tr t)) by (unfold lrm_of; cbn [kR]; rewrite map_app; cbn [map]; apply vix_mid; rewrite map_length; reflexivity).
    assert (V3 : vix (ids (lrm_of (done ++ t :: rest))) (Z.of_nat (length done)) = Ok (tid t)) by (unfold lrm_of; cbn [ids]; rewrite map_app; cbn [map]; apply vix_mid; rewrite map_length; reflexivity).
    rewrite V1, V2, V3. cbn [rbind dd]. rewrite <- lrm_of_snoc, (snoc_cons done), (snoc_cons acc t rest).
    replace (Z.of_nat (length done) + 1) with (Z.of_nat (length (done ++ [t]))) by (rewrite app_length; cbn; lia).
    apply IH.
Qed.

(* ---- one call ---- *)
Definition same_size (f : frame) : bool :=
  (icols (f_left f) =? icols (f_right f)) && (irows (f_left f) =? irows (f_right f)).
Definition kept (c : tcfg) (st : tst) (prev : list track) (f : frame) : list track :=
  filter (passes (c_vert c) (f_depth f)) (surv st prev f).
Definition cand_l (c : tcfg) (st : tst) (prev : list track) (f : frame) : list kp :=
  filter (far (c_sqr c) (map tl (surv st prev f))) (f_det f (f_left f)).
Definition cand_r (c : tcfg) (st : tst) (prev : list track) (f : frame) : list kp :=
  filter (far (c_sqr c) (map tr (surv st prev f))) (f_det f (f_right f)).
Definition fresh (c : tcfg) (st : tst) (prev : list track) (f : frame) (mi : list (Z * option Q)) : list (kp * kp * Q) :=
  filter (pair_ok (f_depth f)) (chosen (c_cost c) (cand_l c st prev f) mi (cand_r c st prev f)).
Definition matched (c : tcfg) (st : tst) (prev : list track) (f : frame) : res (list (Z * option Q)) :=
  keypoint_indices (c_match c) (cand_l c st prev f) (cand_r c st prev f) (f_left f) (f_right f) true.
Definition result (c : tcfg) (st : tst) (prev : list track) (f : frame) (mi : list (Z * option Q)) : list track :=
  kept c st prev f ++ numbered (t_next st) (fresh c st prev f mi).

Lemma process_eq c st prev f : inv st prev -> flow_ok f ->
  let fr := t_frame st + 1 in
  process c st f =
  if negb (same_size f) then (st, Throw)
  else match matched c st prev f with
       | Throw => (Tst fr (t_next st) (lrm_of (kept c st prev f)) (t_images st), Throw)
       | UB => (Tst fr (t_next st) (lrm_of (kept c st prev f)) (t_images st), UB)
       | Ok mi =>
           let n := fresh c st prev f mi in
           let out := result c st prev f mi in
           (Tst fr (t_next st + len n) (lrm_of out) (f_left f, f_right f),
            Ok (lrm_of out,
                Tstats fr (t_next st + len n - 1)
                  (match kept c st prev f with t :: _ => tid t | [] => -1 end)
                  (if 0 <? fr then Some (len (surv st prev f), len (surv st prev f)) else None)
                  (len (kept c st prev f)) (len (f_det f (f_left f)), len (f_det f (f_right f)))
                  (if 0 <? fr then Some (len (cand_l c st prev f), len (cand_r c st prev f)) else None)
                  (len n) (len (kept c st prev f) + len n) (map tid out)))
       end.
Proof.
  intros I F fr. unfold process. fold (same_size f). destruct (negb (same_size f)); [reflexivity|].
  cbn zeta. fold fr. rewrite (tracked_part_eq c st prev f _ _ I F). cbn iota.
  fold (cand_l c st prev f) (cand_r c st prev f) (kept c st prev f).
  rewrite new_part_eq. fold (matched c st prev f).
  destruct (matched c st prev f) as [mi| |]; [|reflexivity | reflexivity].
  fold (fresh c st prev f mi). set (n := fresh c st prev f mi).
  assert (LM : length (ms (newlrm n)) = length n) by (unfold newlrm; cbn [ms]; rewrite diag_length, numbered_length; reflexivity).
  assert (E : Lrm (kL (newlrm n)) (kR (newlrm n)) (ms (newlrm n)) (ids (newlrm n) ++ count_from (t_next st) (length (ms (newlrm n))))
              = lrm_of (numbered (t_next st) n)).
  { rewrite LM. unfold newlrm, lrm_of. cbn [kL kR ms ids app]. rewrite numbered_tid.
    rewrite (numbered_tl n 0 (t_next st)), (numbered_tr n 0 (t_next st)), (numbered_diag n 0 (t_next st)). reflexivity. }
  rewrite E.
  pose proof (append_eq (numbered (t_next st) n) [] (kept c st prev f)) as A. cbn [app length] in A.
  change (Z.of_nat 0) with 0 in A. change (diag 0 (numbered (t_next st) n)) with (ms (lrm_of (numbered (t_next st) n))) in A.
  rewrite A. fold (result c st prev f mi).
  assert (LL : len (ms (newlrm n)) = len n) by (unfold len; rewrite LM; reflexivity).
  rewrite LL.
  assert (L1 : forall l, len (ms (lrm_of l)) = len l) by (intros; unfold len, lrm_of; cbn [ms]; rewrite diag_length; reflexivity).
  assert (L2 : forall l, len (kL (lrm_of l)) = len l) by (intros; unfold len, lrm_of; cbn [kL]; rewrite map_length; reflexivity).
  assert (L4 : forall l, len (kR (lrm_of l)) = len l) by (intros; unfold len, lrm_of; cbn [kR]; rewrite map_length; reflexivity).
  assert (L5 : forall l, ids (lrm_of l) = map tid l) by reflexivity.
  rewrite !L1, L2, L4, !L5.
  assert (L3 : len (result c st prev f mi) = len (kept c st prev f) + len n).
  { unfold len, result. rewrite app_length, numbered_length. fold n. lia. }
  change (kept c st prev f ++ numbered (t_next st) n) with (result c st prev f mi).
  rewrite L3. do 3 f_equal. destruct (kept c st prev f); reflexivity.
Qed.

(* ---- over a run ---- *)
Lemma incr_nodup l : incr l -> NoDup l.
Proof. induction l as [|a l IH]; [constructor|]. intros [H1 H2]. constructor; [intros C; specialize (H1 a C); lia | apply IH; exact H2]. Qed.
Lemma incr_filter_map (p : track -> bool) l : incr (map tid l) -> incr (map tid (filter p l)).
Proof.
  induction l as [|t l IH]; [exact (fun H => H)|]. cbn [map filter incr]. intros [H1 H2].
  destruct (p t); [|apply IH; exact H2]. cbn [map incr]. split; [|apply IH; exact H2].
  intros b Hb. apply H1. apply in_map_iff in Hb. destruct Hb as (x & <- & Hx). apply filter_In in Hx.
  apply in_map. tauto.
Qed.
Lemma survivors_tid l : forall fl fr x, In x (map tid (survivors l fl fr)) -> In x (map tid l).
Proof.
  induction l as [|t l IH]; intros [|[p s] fl] [|[q r] fr] x; cbn [survivors]; intros H; try destruct H.
  destruct ((s =? 1) && (r =? 1)); [|right; eapply IH; exact H].
  destruct H as [<-|H]; [left; reflexivity | right; eapply IH; exact H].
Qed.
Lemma survivors_incr l : forall fl fr, incr (map tid l) -> incr (map tid (survivors l fl fr)).
Proof.
  induction l as [|t l IH]; intros [|[p s] fl] [|[q r] fr]; cbn [survivors]; intros H; try exact I.
  destruct H as [H1 H2]. destruct ((s =? 1) && (r =? 1)); [|apply IH; exact H2].
  cbn [map incr tid]. split; [|apply IH; exact H2]. intros b Hb. apply H1. apply survivors_tid in Hb. exact Hb.
Qed.
Lemma count_from_in n : forall k x, In x (count_from n k) <-> n <= x < n + Z.of_nat k.
Proof.
  intros k. revert n. induction k as [|k IH]; intros n x; cbn [count_from In]; [split; [intros [] | lia]|].
  rewrite IH. lia.
Qed.
Lemma count_from_incr k : forall n, incr (count_from n k).
Proof.
  induction k as [|k IH]; intros n; cbn [count_from incr]; [exact I|]. split; [|apply IH].
  intros b Hb. apply count_from_in in Hb. lia.
Qed.
Lemma incr_app l l' : incr l -> incr l' -> (forall a b, In a l -> In b l' -> a < b) -> incr (l ++ l').
Proof.
  induction l as [|a l IH]; intros H H' X; [exact H'|]. cbn [app incr]. destruct H as [H1 H2]. split.
  - intros b Hb. apply in_app_or in Hb. destruct Hb as [Hb|Hb]; [apply H1; exact Hb | apply X; [left; reflexivity | exact Hb]].
  - apply IH; [exact H2 | exact H' |]. intros x y Hx Hy. apply X; [right; exact Hx | exact Hy].
Qed.

(* the tracker's state invariant: [prev] are the current tracks *)
Record good_st (st : tst) (prev : list track) : Prop := {
  gs_inv : inv st prev;
  gs_incr : incr (map tid prev);
  gs_next : forall x, In x (map tid prev) -> 0 <= x < t_next st;
  gs_pos : 0 <= t_next st }.

Lemma good_init : good_st tst0 [].
Proof.
  constructor; [| exact I | intros x [] | cbn; lia].
  split; [reflexivity|]. split; [cbn; lia | reflexivity].
Qed.

Lemma kept_tid c st prev f x : In x (map tid (kept c st prev f)) -> In x (map tid prev).
Proof.
  intros H. apply in_map_iff in H. destruct H as (t & <- & Ht). unfold kept in Ht. apply filter_In in Ht.
  eapply survivors_tid. apply in_map. exact (proj1 Ht).
Qed.

(* what one call does to the tracks *)
Lemma process_step c st prev f st' o : good_st st prev -> flow_ok f -> process c st f = (st', o) ->
  exists prev', good_st st' prev' /\ t_next st <= t_next st' /\
    (forall x, In x (map tid prev') -> In x (map tid prev) \/ t_next st <= x < t_next st') /\
    (match o with
     | Ok (out, s) => out = lrm_of prev' /\ same_size f = true /\ (exists mi, matched c st prev f = Ok mi /\
                        prev' = result c st prev f mi /\ t_next st' = t_next st + len (fresh c st prev f mi)) /\
                      (forall x, t_next st <= x < t_next st' -> In x (map tid prev')) /\
                      t_images st' = (f_left f, f_right f)
     | _ => t_next st' = t_next st
     end).
Proof.
  intros G F E. destruct G as [GI GC GN GP]. rewrite (process_eq c st prev f GI F) in E.
  destruct (same_size f) eqn:SS; cbn [negb] in E.
  2: { injection E as <- <-. exists prev. split; [constructor; assumption|]. split; [lia|]. split; [intros x Hx; left; exact Hx | reflexivity]. }
  destruct GI as (P & L & Z0).
  assert (KI : incr (map tid (kept c st prev f))) by (apply incr_filter_map, survivors_incr; exact GC).
  assert (FAIL : forall im, good_st (Tst (t_frame st + 1) (t_next st) (lrm_of (kept c st prev f)) im) (kept c st prev f)).
  { intros im. constructor; cbn [t_next].
    - split; [reflexivity|]. cbn. split; [lia|]. intros C. lia.
    - exact KI.
    - intros x Hx. apply kept_tid in Hx. apply GN. exact Hx.
    - exact GP. }
  destruct (matched c st prev f) as [mi| |] eqn:M; injection E as <- <-.
  2,3: exists (kept c st prev f); split; [apply FAIL|]; cbn [t_next]; split; [lia|]; split;
       [intros x Hx; left; eapply kept_tid; exact Hx | reflexivity].
  set (n := fresh c st prev f mi). exists (result c st prev f mi).
  assert (TN : map tid (result c st prev f mi) = map tid (kept c st prev f) ++ count_from (t_next st) (length n)).
  { unfold result. rewrite map_app, numbered_tid. reflexivity. }
  assert (LN : 0 <= len n) by (unfold len; lia). cbn [t_next].
  split; [constructor; cbn [t_next]|].
  - split; [reflexivity|]. cbn. split; [lia|]. intros C. lia.
  - rewrite TN. apply incr_app; [exact KI | apply count_from_incr |].
    intros a b Ha Hb. apply kept_tid in Ha. apply GN in Ha. apply count_from_in in Hb. lia.
  - intros x Hx. rewrite TN in Hx. apply in_app_or in Hx. destruct Hx as [Hx|Hx].
    + apply kept_tid in Hx. apply GN in Hx. lia.
    + apply count_from_in in Hx. unfold len. lia.
  - lia.
  - split; [lia|]. split.
    + intros x Hx. rewrite TN in Hx. apply in_app_or in Hx. destruct Hx as [Hx|Hx].
      * left. eapply kept_tid. exact Hx.
      * right. apply count_from_in in Hx. unfold len. lia.
    + split; [reflexivity|]. split; [reflexivity|]. split; [exists mi; repeat split; reflexivity|].
      split; [|reflexivity]. intros x Hx. rewrite TN. apply in_or_app. right. apply count_from_in. unfold len in Hx. lia.
Qed.

(* runs *)
Lemma run_cons c st f l st' os : track_run c st (f :: l) = (st', os) ->
  exists st1 o os', process c st f = (st1, o) /\ track_run c st1 l = (st', os') /\ os = o :: os'.
Proof.
  cbn [track_run]. destruct (process c st f) as [st1 o]. destruct (track_run c st1 l) as [st2 os'] eqn:E.
  intros [= <- <-]. exists st1, o, os'. split; [reflexivity|]. split; [exact E | reflexivity].
Qed.

(* every later output relates to the tracks at the start *)
Lemma run_later c : forall l st prev st' os, good_st st prev -> Forall flow_ok l -> track_run c st l = (st', os) ->
  forall i o, outs os i = Some o ->
    (exists ts, o = lrm_of ts /\ incr (map tid ts) /\ forall x, In x (map tid ts) -> 0 <= x) /\
    (forall x, In x (ids o) -> In x (map tid prev) \/ t_next st <= x) /\
    (* present now and in a later output implies present in between *)
    (forall x, In x (ids o) -> x < t_next st -> In x (map tid prev)) /\
    (forall x y, In x (ids o) -> t_next st <= y < x -> exists i' o', (i' <= i)%nat /\ outs os i' = Some o' /\ In y (ids o')).
Proof.
  induction l as [|f l IH]; intros st prev st' os G F R i o Hi.
  - injection R as <- <-. unfold outs in Hi. destruct i; discriminate.
  - apply run_cons in R. destruct R as (st1 & o1 & os' & P & R & ->). inversion F as [|? ? F1 F2]; subst.
    destruct (process_step c st prev f st1 o1 G F1 P) as (prev' & G' & NX & MEM & RES).
    destruct i as [|i].
    + cbn in Hi. destruct o1 as [[out s]| |]; try discriminate. injection Hi as <-.
      destruct RES as (-> & _ & _ & FRESH & _). split.
      * exists prev'. split; [reflexivity|]. split; [exact (gs_incr _ _ G')|]. intros x Hx. apply (gs_next _ _ G'). exact Hx.
      * cbn [ids lrm_of]. split; [intros x Hx; destruct (MEM x Hx); [left; assumption | right; lia]|]. split.
        -- intros x Hx L. destruct (MEM x Hx) as [|K]; [assumption | lia].
        -- intros x y Hx Hy. exists O, (lrm_of prev'). split; [lia|]. split; [reflexivity|].
           cbn [ids lrm_of]. apply FRESH. pose proof (proj2 (gs_next _ _ G' x Hx)). lia.
    + destruct (IH st1 prev' st' os' G' F2 R i o Hi) as (SH & A & B & C). split; [exact SH|]. split; [|split].
      * intros x Hx. destruct (A x Hx) as [K|K]; [|right; lia]. destruct (MEM x K) as [K2|K2]; [left; exact K2 | right; lia].
      * intros x Hx L. destruct (MEM x (B x Hx ltac:(lia))) as [K2|K2]; [exact K2 | lia].
      * intros x y Hx Hy. destruct (Z_lt_dec y (t_next st1)) as [L|L].
        -- (* y was assigned by this call *)
           destruct o1 as [[out s]| |].
           ++ destruct RES as (-> & _ & _ & FRESH & _). exists O, (lrm_of prev'). split; [lia|]. split; [reflexivity|].
              cbn [ids lrm_of]. apply FRESH. lia.
           ++ lia.
           ++ lia.
        -- destruct (C x y Hx ltac:(lia)) as (i' & o' & Li & Ho & Iy). exists (S i'), o'. split; [lia|]. split; [exact Ho | exact Iy].
Qed.

Lemma run_pairs c : forall l st prev st' os, good_st st prev -> Forall flow_ok l -> track_run c st l = (st', os) ->
  forall i j o1 o2, (i < j)%nat -> outs os i = Some o1 -> outs os j = Some o2 ->
  (forall x, In x (ids o2) -> In x (ids o1) \/ forall y, In y (ids o1) -> y < x) /\
  (forall k o, (i < k)%nat -> (k < j)%nat -> outs os k = Some o -> forall x, In x (ids o1) -> In x (ids o2) -> In x (ids o)).
Proof.
  induction l as [|f l IH]; intros st prev st' os G F R i j o1 o2 L H1 H2.
  - injection R as <- <-. unfold outs in H1. destruct i; discriminate.
  - apply run_cons in R. destruct R as (st1 & o & os' & P & R & ->). inversion F as [|? ? F1 F2]; subst.
    destruct (process_step c st prev f st1 o G F1 P) as (prev' & G' & NX & MEM & RES).
    destruct j as [|j]; [lia|]. destruct i as [|i].
    + cbn in H1. destruct o as [[out s]| |]; try discriminate. injection H1 as <-. destruct RES as (-> & _).
      cbn [ids lrm_of]. split.
      * intros x Hx. destruct (run_later c l st1 prev' st' os' G' F2 R j o2 H2) as (_ & A & _ & _).
        destruct (A x Hx) as [K|K]; [left; exact K|]. right. intros y Hy. apply (gs_next _ _ G') in Hy. lia.
      * intros k o Hk Kj Ho x Hx Hx2. destruct k as [|k]; [lia|].
        (* by induction along the rest: x is a track of st1 and an id of the later output j, so of output k *)
        clear - G' F2 R Ho Hx Hx2 H2 Kj.
        change (outs os' k = Some o) in Ho. change (outs os' j = Some o2) in H2.
        assert (Kj' : (k < j)%nat) by lia. clear Kj.
        assert (NXT : x < t_next st1) by (apply (gs_next _ _ G'); exact Hx). clear Hx.
        revert st1 prev' os' j k G' F2 R Ho H2 Kj' NXT. induction l as [|g l IHl]; intros.
        -- injection R as <- <-. unfold outs in Ho. destruct k; discriminate.
        -- apply run_cons in R. destruct R as (st2 & q & os2 & P & R & ->). inversion F2 as [|? ? Fg Fl]; subst.
           destruct (process_step c st1 prev' g st2 q G' Fg P) as (prev2 & G2 & NX & MEM & RES).
           destruct j as [|j]; [lia|]. destruct k as [|k].
           ++ cbn in Ho. destruct q as [[out2 s2]| |]; try discriminate. injection Ho as <-. destruct RES as (-> & _).
              cbn [ids lrm_of]. destruct (run_later c l st2 prev2 st' os2 G2 Fl R j o2 H2) as (_ & _ & B & _).
              apply B; [exact Hx2 | lia].
           ++ apply (IHl st2 prev2 os2 j k G2 Fl R Ho H2); lia.
    + destruct (IH st1 prev' st' os' G' F2 R i j o1 o2 ltac:(lia) H1 H2) as [A B]. split; [exact A|].
      intros k o' Hk Kj Ho. destruct k as [|k]; [lia|]. apply (B k o'); [lia | lia | exact Ho].
Qed.

(* ---- C28 ---- *)
Theorem ids_increase c l st' os : Forall flow_ok l -> track_run c tst0 l = (st', os) ->
  forall i o, outs os i = Some o -> incr (ids o) /\ forall x, In x (ids o) -> 0 <= x.
Proof.
  intros F R i o Hi. destruct (run_later c l tst0 [] st' os good_init F R i o Hi) as ((ts & -> & A & B) & _).
  split; assumption.
Qed.
Theorem ids_carried_or_fresh c l st' os : Forall flow_ok l -> track_run c tst0 l = (st', os) ->
  forall i j o1 o2, (i < j)%nat -> outs os i = Some o1 -> outs os j = Some o2 ->
  forall x, In x (ids o2) -> In x (ids o1) \/ forall y, In y (ids o1) -> y < x.
Proof. intros F R i j o1 o2 L H1 H2. apply (run_pairs c l tst0 [] st' os good_init F R i j o1 o2 L H1 H2). Qed.
Theorem ids_never_return c l st' os : Forall flow_ok l -> track_run c tst0 l = (st', os) ->
  forall i k j o1 o o2, (i < k)%nat -> (k < j)%nat -> outs os i = Some o1 -> outs os k = Some o -> outs os j = Some o2 ->
  forall x, In x (ids o1) -> ~ In x (ids o) -> ~ In x (ids o2).
Proof.
  intros F R i k j o1 o o2 L1 L2 H1 H H2 x Hx N C. apply N.
  apply (proj2 (run_pairs c l tst0 [] st' os good_init F R i j o1 o2 ltac:(lia) H1 H2) k o L1 L2 H x Hx C).
Qed.
Theorem ids_dense c l st' os : Forall flow_ok l -> track_run c tst0 l = (st', os) ->
  forall i o x y, outs os i = Some o -> In x (ids o) -> 0 <= y < x ->
  exists i' o', (i' <= i)%nat /\ outs os i' = Some o' /\ In y (ids o').
Proof.
  intros F R i o x y Hi Hx Hy.
  destruct (run_later c l tst0 [] st' os good_init F R i o Hi) as (_ & _ & _ & D). exact (D x y Hx Hy).
Qed.
