(* Dense matching, keypoint_in_other_image: what the `matched` flag says (stereo_keypoint_matcher.cpp 66-96). *)
From Verif Require Import Base StModel StSpec StFilter StMatch StCost StExamples.
From Coq Require Import QArith Lqa Lia.
Open Scope Z_scope.

Lemma reverse_spec cf s ok x0 y cost : forall n x b, reverse_ok cf s ok x0 y cost n x = Ok b ->
  (b = true -> forall z, In z (walk (- s) ok n x) -> z <> x0 -> exists w, cf (z, y) = Ok w /\ dlt w cost = false) /\
  (b = false -> exists z w, In z (walk (- s) ok n x) /\ z <> x0 /\ cf (z, y) = Ok w /\ dlt w cost = true).
Proof.
  induction n as [|n IH]; intros x b H; cbn [reverse_ok walk] in *.
  - injection H as <-. split; [intros _ z []|discriminate].
  - destruct (ok x); [|injection H as <-; split; [intros _ z []|discriminate]].
    destruct (cf (x, y)) as [wc| |] eqn:C; cbn [rbind] in H; try discriminate.
    destruct (negb (x =? x0) && dlt wc cost) eqn:D.
    + injection H as <-. split; [discriminate|]. intros _. apply andb_true_iff in D. destruct D as [D1 D2].
      apply negb_true_iff, Z.eqb_neq in D1. exists x, wc. split; [left; reflexivity|auto].
    + apply IH in H. replace (x - s) with (x + - s) in H by lia. destruct H as [H1 H2]. split.
      * intros B z [<-|Hz] N; [|exact (H1 B z Hz N)]. exists wc. split; [exact C|].
        apply andb_false_iff in D. destruct D as [D|D]; [|exact D]. apply negb_false_iff, Z.eqb_eq in D. congruence.
      * intros B. destruct (H2 B) as (z & w & Hz & Hw). exists z, w. split; [right; exact Hz|exact Hw].
Qed.

Lemma walk_ge s ok : (s = 1 \/ s = -1) -> forall n x z, In z (walk s ok n x) -> 0 <= s * (z - x).
Proof.
  intros HS. induction n as [|n IH]; intros x z; cbn [walk]; [intros []|]. destruct (ok x); [|intros []].
  intros [<-|H]; [lia|]. apply IH in H. lia.
Qed.
Lemma walk_split s ok : (s = 1 \/ s = -1) -> forall n x a i b z, walk s ok n x = a ++ i :: b -> In z b -> 0 < s * (z - i).
Proof.
  intros HS. induction n as [|n IH]; intros x a i b z; cbn [walk]; [destruct a; discriminate|].
  destruct (ok x); [|destruct a; discriminate]. destruct a as [|a0 a]; cbn [app]; intros [= <- E] H.
  - rewrite <- E in H. apply (walk_ge s ok HS) in H. lia.
  - exact (IH _ _ _ _ _ E H).
Qed.

(* the windows of the reference image compared with the best one in the reverse search *)
Definition back (m : matcher) (im : image) (right : bool) (x z : Z) : Prop :=
  if right then x <= z <= icols im - fst (m_win m) else 0 <= z <= x.

(* Bidirectional: matched exactly if no other reference window on the row is cheaper against the window found.
   Ratio test: refused only for want of a cost or because a window nearer to the keypoint costs nearly as little.
   Unidirectional: always matched. *)
Theorem dense_matched m k imL imR right c0 k' cost b : 0 < fst (m_win m) ->
  keypoint_in_other m k imL imR right c0 = Ok (k', cost, Some b) ->
  let rim := if right then imL else imR in let sim := if right then imR else imL in
  let tl := top_left m (kpt k) in
  let c r x := m_gen m rim tl rim sim (r, snd tl) (x, snd tl) (m_win m) in
  exists x, along m imL right (fst tl) x /\
    kpt k' = Pt (inject_Z x + inject_Z (fst (m_win m)) / 2) (inject_Z (snd tl) + inject_Z (snd (m_win m)) / 2) /\
    (forall z, along m imL right (fst tl) z -> exists w, c (fst tl) z = Ok w /\ dle cost w) /\
    (cost <> None -> c (fst tl) x = Ok cost) /\
    match m_filter m with
    | Unidirectional => b = true
    | Bidirectional =>
        (b = true -> forall r, back m imL right x r -> r <> fst tl -> exists w, c r x = Ok w /\ dlt w cost = false) /\
        (b = false -> exists r w, back m imL right x r /\ r <> fst tl /\ c r x = Ok w /\ dlt w cost = true)
    | RatioTest =>
        (b = true -> exists q, cost = Some q /\ (forall z s, along m imL right (fst tl) z -> Z.abs (z - fst tl) < Z.abs (x - fst tl) -> c (fst tl) z = Ok (Some s) ->
                       (0 < m_ratio m)%Q -> (0 <= q)%Q -> (q <= m_ratio m * s)%Q)) /\
        (b = false -> cost = None \/ exists z q s, along m imL right (fst tl) z /\ Z.abs (z - fst tl) < Z.abs (x - fst tl) /\
                       cost = Some q /\ c (fst tl) z = Ok (Some s) /\ (q < s)%Q /\ ~ (s == 0)%Q /\ (m_ratio m < q / s)%Q)
    end.
Proof.
  intros WP. unfold keypoint_in_other. cbn zeta.
  destruct (negb ((icols imL =? icols imR) && (irows imL =? irows imR))) eqn:SZ; [discriminate|].
  apply negb_false_iff, andb_true_iff in SZ. destruct SZ as [SC SR]. apply Z.eqb_eq in SC. apply Z.eqb_eq in SR.
  set (rim := if right then imL else imR). set (sim := if right then imR else imL). set (tl := top_left m (kpt k)).
  destruct (negb (window_within_image rim tl (m_win m))) eqn:WI; [discriminate|].
  apply negb_false_iff, inside_spec in WI. unfold inside in WI.
  assert (TL : (fst tl, snd tl) = tl) by (destruct tl; reflexivity). rewrite !TL.
  set (cf := fun s => m_gen m rim tl rim sim tl s (m_win m)). set (n := S (Z.to_nat (icols imL))).
  set (ok := if right then fun x => 0 <=? x else fun x => x <=? icols imL - fst (m_win m)).
  assert (CR : icols rim = icols imL) by (unfold rim; destruct right; congruence).
  set (sg := if right then -1 else 1). assert (HS : sg = 1 \/ sg = -1) by (unfold sg; destruct right; auto).
  assert (AL : forall z, In z (walk sg ok n (fst tl)) <-> along m imL right (fst tl) z).
  { intros z. unfold along, ok, n, sg. destruct right; [apply walk_down; lia | apply walk_up; lia]. }
  destruct (dense cf sg ok (snd tl) n (fst tl) (fst tl, None, None)) as [[[bx cs] second]| |] eqn:D; cbn [rbind]; try discriminate.
  match goal with |- rbind ?t _ = _ -> _ => destruct t as [matched| |] eqn:MA; cbn [rbind]; try discriminate end.
  intros [= <- <- <-]. apply dense_fold in D. destruct D as (E & M & C & R). rewrite fold_start in R.
  pose proof (fold_best E) as B. destruct (fold_left upd E (-1, None, None)) as [[i q] s]. cbn [fst snd] in R.
  assert (IN : forall z, along m imL right (fst tl) z -> exists w, In (z, w) E /\ cf (z, snd tl) = Ok w).
  { intros z Hz. apply AL in Hz. rewrite <- M in Hz. apply in_map_iff in Hz. destruct Hz as ([z' w] & <- & Hw).
    exists w. split; [exact Hw | apply (C _ Hw)]. }
  assert (BR : along m imL right (fst tl) bx -> m_filter m = Bidirectional ->
    (matched = true -> forall r, back m imL right bx r -> r <> fst tl -> exists w, m_gen m rim tl rim sim (r, snd tl) (bx, snd tl) (m_win m) = Ok w /\ dlt w cs = false) /\
    (matched = false -> exists r w, back m imL right bx r /\ r <> fst tl /\ m_gen m rim tl rim sim (r, snd tl) (bx, snd tl) (m_win m) = Ok w /\ dlt w cs = true)).
  { intros HB MF. rewrite MF in MA. apply reverse_spec in MA.
    assert (BK : forall z, In z (walk (- sg) (if right then fun x => x <=? icols imL - fst (m_win m) else fun x => 0 <=? x) n bx) <-> back m imL right bx z).
    { intros z. unfold back, sg, n. unfold along in HB. destruct right; cbn [Z.opp]; [apply walk_up; lia | apply walk_down; lia]. }
    destruct MA as [MA1 MA2]. split.
    - intros T r Hr. apply MA1; [exact T|]. apply BK. exact Hr.
    - intros T. destruct (MA2 T) as (r & w & Hr & Hw). exists r, w. split; [apply BK; exact Hr|exact Hw]. }
  destruct B as [(-> & -> & -> & N)|(QN & pre & post & EE & P1 & P2 & P3)].
  - injection R as -> -> ->. assert (HX : along m imL right (fst tl) (fst tl)).
    { apply AL; unfold n; cbn [walk]; unfold ok; destruct right.
      + destruct (0 <=? fst tl) eqn:X; [left; reflexivity | lia].
      + destruct (fst tl <=? icols imL - fst (m_win m)) eqn:X; [left; reflexivity | lia]. }
    exists (fst tl). split; [exact HX|]. split; [reflexivity|].
    split; [|split; [congruence|]].
    + intros z Hz. destruct (IN z Hz) as (w & Hw & CW). exists w.
      split; [exact CW|]. pose proof (N _ Hw) as NW. cbn in NW. subst w. exact I.
    + destruct (m_filter m) eqn:MF; [injection MA as <-; reflexivity|exact (BR HX eq_refl)|].
      injection MA as <-. split; [discriminate|auto].
  - destruct q as [q|]; [|congruence]. injection R as -> -> ->.
    assert (HI : In (i, Some q) E) by (rewrite EE; apply in_or_app; right; left; reflexivity).
    assert (HX : along m imL right (fst tl) i) by (apply AL; rewrite <- M; exact (in_map fst _ _ HI)).
    assert (WE : walk sg ok n (fst tl) = map fst pre ++ i :: map fst post) by (rewrite <- M, EE, map_app; reflexivity).
    exists i. split; [exact HX|]. split; [reflexivity|]. split; [|split].
    + intros z Hz. destruct (IN z Hz) as (w & Hw & CW). exists w. split; [exact CW|]. rewrite EE in Hw.
      apply in_app_or in Hw. destruct Hw as [Hw|[[= <- <-]|Hw]].
      * apply dlt_le. exact (proj1 (P1 _ Hw)).
      * apply dle_refl.
      * exact (P2 _ Hw).
    + intros _. exact (C _ HI).
    + destruct (m_filter m) eqn:MF; [injection MA as <-; reflexivity|exact (BR HX eq_refl)|].
      injection MA as <-. unfold ratio_fails.
      assert (NEAR : forall z w, In (z, w) pre -> Z.abs (z - fst tl) < Z.abs (i - fst tl)).
      { intros z w Hz. apply in_split in Hz. destruct Hz as (p1 & p2 & ->). rewrite map_app in WE. cbn [map fst] in WE.
        rewrite <- app_assoc in WE. cbn [app] in WE.
        assert (X : 0 < sg * (i - z)) by (apply (walk_split sg ok HS _ _ _ _ _ _ WE); apply in_or_app; right; left; reflexivity).
        assert (Y : 0 <= sg * (z - fst tl)) by (apply (walk_ge sg ok HS n); rewrite WE; apply in_or_app; right; left; reflexivity).
        destruct HS as [HS|HS]; rewrite HS in X, Y; lia. }
      split.
      * intros T. exists q. split; [reflexivity|]. intros z w Hz LT CW RP Q0.
        destruct (IN z Hz) as (w' & Hw & CW'). change (m_gen m rim tl rim sim tl (z, snd tl) (m_win m)) with (cf (z, snd tl)) in CW.
        rewrite CW in CW'. injection CW' as <-. rewrite EE in Hw. apply in_app_or in Hw.
        destruct Hw as [Hw|[[= -> _]|Hw]]; [|lia|].
        -- destruct (P1 _ Hw) as [A3 A4]. cbn [snd] in A3, A4. cbn in A3. apply qlt_spec in A3.
           destruct s as [s|]; [|destruct A4]. cbn in A4. destruct P3 as [|([z2 w2] & K1 & K2)]; [discriminate|]. cbn in K2. subst w2.
           destruct (P1 _ K1) as [A6 _]. cbn in A6. apply qlt_spec in A6.
           destruct (Qeq_bool s 0) eqn:S0; [apply Qeq_bool_iff in S0; exfalso; lra|].
           apply negb_true_iff, qlt_false in T. assert (P : (0 < s)%Q) by lra.
           assert (MM : (q <= m_ratio m * s)%Q).
           { apply (Qmult_le_compat_r _ _ s) in T; [|lra]. rewrite (Qmult_comm (q / s)), Qmult_div_r in T by (intros CC; lra). exact T. }
           assert (X : (m_ratio m * s <= m_ratio m * w)%Q) by nra. lra.
        -- exfalso. assert (X : 0 < sg * (z - i)) by (apply (walk_split sg ok HS _ _ _ _ _ _ WE); exact (in_map fst _ _ Hw)).
           assert (Y : 0 <= sg * (i - fst tl)) by (apply (walk_ge sg ok HS n); apply AL; exact HX).
           destruct HS as [HS|HS]; rewrite HS in X, Y; lia.
      * intros F. right. apply negb_false_iff in F. destruct s as [s|]; [|discriminate]. destruct (Qeq_bool s 0) eqn:S0; [discriminate|].
        apply qlt_spec in F. destruct P3 as [|([z w] & K1 & K2)]; [discriminate|]. cbn in K2. subst w.
        destruct (P1 _ K1) as [A6 _]. cbn in A6. apply qlt_spec in A6.
        assert (K3 : In (z, Some s) E) by (rewrite EE; apply in_or_app; left; exact K1).
        exists z, q, s. split; [apply AL; rewrite <- M; exact (in_map fst _ _ K3)|]. split; [exact (NEAR _ _ K1)|].
        split; [reflexivity|]. split; [exact (C _ K3)|]. split; [exact A6|]. split; [|exact F].
        intros CC. apply Qeq_bool_iff in CC. congruence.
Qed.

(* the constructor refuses exactly even or empty windows and ratios outside (0, 1) *)
Theorem matcher_constructor w vert f r g : (exists m, make_matcher w vert f r g = Ok m /\ m_win m = w /\ m_vert m = vert /\ m_filter m = f /\ m_ratio m = r /\ m_gen m = g) <->
  (0 < fst w /\ Z.odd (fst w) = true) /\ (0 < snd w /\ Z.odd (snd w) = true) /\ (0 < r < 1)%Q.
Proof.
  unfold make_matcher. assert (K : matcher_ok w r = true <-> (0 < fst w /\ Z.odd (fst w) = true) /\ (0 < snd w /\ Z.odd (snd w) = true) /\ (0 < r < 1)%Q).
  { unfold matcher_ok, qle. rewrite andb_true_iff, !negb_true_iff, !orb_false_iff, !Z.ltb_ge, !Z.eqb_neq.
    rewrite !Zmod_odd.
    assert (A : forall a b, Qle_bool a b = false <-> (b < a)%Q).
    { intros a b. destruct (Qle_bool a b) eqn:X; [apply Qle_bool_iff in X|].
      - split; [discriminate|]. intros Y. lra.
      - split; [|reflexivity]. intros _. apply Qnot_le_lt. intros Y. apply Qle_bool_iff in Y. congruence. }
    rewrite !A. destruct (Z.odd (fst w)), (Z.odd (snd w)); split; intros HH; intuition (try lia; try discriminate). }
  rewrite <- K. destruct (matcher_ok w r).
  - split; [reflexivity|]. intros _. eexists. repeat split.
  - split; [intros (m & [=] & _)|discriminate].
Qed.

(* concrete cases: a window found in both directions; the reverse search finds a cheaper window; a constructor call *)
Example dense_both : exists k c, keypoint_in_other (sadm Bidirectional) (K 6 3) L0 R0 true None = Ok (k, c, Some true).
Proof. destruct dense_found as (k & c & H & _). exists k, c. exact H. Qed.
Example dense_refused : exists k c, keypoint_in_other (sadm Bidirectional) (K 3 3) L0 (img 3) true None = Ok (k, c, Some false) /\ c <> None.
Proof. do 2 eexists. split; [vm_compute; reflexivity|discriminate]. Qed.
Example dense_ratio : exists k c, keypoint_in_other (sadm RatioTest) (K 6 3) L0 R0 true None = Ok (k, c, Some true) /\ c = Some 0%Q.
Proof. do 2 eexists. split; vm_compute; reflexivity. Qed.
Example constructed : make_matcher (3, 5) 1 Bidirectional (1 # 2) gen_sad = Ok (Mk (3, 5) 1 Bidirectional (1 # 2) gen_sad).
Proof. reflexivity. Qed.

(* the distance filter, like the others, is idempotent, and commutes with them *)
Lemma distance_filter_eq thr l : distance_filter thr l = Ok (filter (fun m => qle (dd m) thr) l, positions (fun m => qle (dd m) thr) 0 l).
Proof. apply keep_filter. reflexivity. Qed.
Theorem distance_idempotent thr l r idx : distance_filter thr l = Ok (r, idx) -> exists idx', distance_filter thr r = Ok (r, idx').
Proof. rewrite distance_filter_eq. intros [= <- <-]. eexists. rewrite distance_filter_eq, filter_twice. reflexivity. Qed.
Theorem distance_commutes d thr f kq kt l : (forall m, In m l -> refers kq kt m) ->
  (exists r1 r2 r i1 i2 i3 i4, stereo_filter thr kq kt l = Ok (r1, i1) /\ distance_filter d r1 = Ok (r, i2) /\
     distance_filter d l = Ok (r2, i3) /\ stereo_filter thr kq kt r2 = Ok (r, i4)) /\
  (exists r1 r2 r i1 i2 i3 i4, depth_filter f kq kt l = Ok (r1, i1) /\ distance_filter d r1 = Ok (r, i2) /\
     distance_filter d l = Ok (r2, i3) /\ depth_filter f kq kt r2 = Ok (r, i4)).
Proof.
  intros H. split; do 7 eexists; (split; [first [apply stereo_filter_eq|apply depth_filter_eq]; exact H|]);
    (split; [apply distance_filter_eq|]); (split; [apply distance_filter_eq|]); rewrite filter_comm;
    first [apply stereo_filter_eq|apply depth_filter_eq]; intros m Hm; apply filter_In in Hm; apply H; tauto.
Qed.

(* the back end's reading of a feature message: refused exactly for a repeated id, otherwise one entry per feature *)
Lemma from_features_ok enc : forall l m, NoDup (map ft_id l) -> (forall k, In k (map ft_id l) -> mget k m = None) ->
  exists m', from_features enc l m = Ok m' /\ (forall f, In f l -> mget (ft_id f) m' = Some (enc f)) /\ (forall k, ~ In k (map ft_id l) -> mget k m' = mget k m).
Proof.
  induction l as [|f l IH]; intros m ND AB; cbn [from_features map] in *.
  - exists m. split; [reflexivity|]. split; [intros f []|reflexivity].
  - apply NoDup_cons_iff in ND. destruct ND as [N1 N2]. rewrite (proj2 (mmem_false _ _) (AB _ (or_introl eq_refl))).
    destruct (IH (mput (ft_id f) (enc f) m) N2) as (m' & E & H1 & H2).
    { intros k Hk. rewrite mget_mput_ne; [apply AB; right; exact Hk|]. intros ->. contradiction. }
    exists m'. split; [exact E|]. split.
    + intros g [<-|Hg]; [|exact (H1 g Hg)]. rewrite (H2 _ N1). apply mget_mput_eq.
    + intros k Hk. rewrite H2 by (intros X; apply Hk; right; exact X). apply mget_mput_ne. intros ->. apply Hk. left. reflexivity.
Qed.
Lemma from_features_inv enc : forall l m, (exists m', from_features enc l m = Ok m' /\ NoDup (map ft_id l) /\ (forall k, In k (map ft_id l) -> mget k m = None)) \/ from_features enc l m = Throw.
Proof.
  induction l as [|f l IH]; intros m; cbn [from_features map].
  - left. exists m. split; [reflexivity|]. split; [constructor|intros k []].
  - destruct (mmem (ft_id f) m) eqn:M; [right; reflexivity|]. destruct (IH (mput (ft_id f) (enc f) m)) as [(m' & E & ND & AB)|E]; [left|right; exact E].
    exists m'. split; [exact E|]. assert (NI : ~ In (ft_id f) (map ft_id l)) by (intros X; apply AB in X; rewrite mget_mput_eq in X; discriminate).
    split; [constructor; assumption|]. intros k [<-|Hk]; [apply mmem_false; exact M|]. specialize (AB k Hk).
    rewrite mget_mput_ne in AB; [exact AB|]. intros ->. contradiction.
Qed.
Theorem message_read enc l : (NoDup (map ft_id l) -> exists m, from_features enc l [] = Ok m /\ (forall f, In f l -> mget (ft_id f) m = Some (enc f)) /\ (forall k, ~ In k (map ft_id l) -> mget k m = None)) /\
  (~ NoDup (map ft_id l) -> from_features enc l [] = Throw).
Proof.
  split.
  - intros ND. destruct (from_features_ok enc l [] ND ltac:(reflexivity)) as (m & E & H1 & H2). exists m. split; [exact E|]. split; [exact H1|]. intros k Hk. rewrite (H2 k Hk). reflexivity.
  - intros N. destruct (from_features_inv enc l []) as [(m' & _ & ND & _)|E]; [contradiction|exact E].
Qed.
Example message_read_cases : from_features ft_id [Feat 3 (P 1 1) (P 0 1); Feat 5 (P 2 1) (P 1 1)] [] = Ok [(3, 3); (5, 5)] /\
  from_features ft_id [Feat 3 (P 1 1) (P 0 1); Feat 3 (P 2 1) (P 1 1)] [] = Throw.
Proof. split; reflexivity. Qed.
