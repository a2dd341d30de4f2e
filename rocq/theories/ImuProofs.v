From Verif Require Import Base ImuModel ImuSpec.
Ltac conj := repeat match goal with |- _ /\ _ => split end.

Lemma Ok_inj {A} (x y : A) : Ok x = Ok y -> y = x. Proof. congruence. Qed.
Lemma strict_ordered b : strict b -> ordered b.
Proof. induction b as [|x b IH]; [auto|]. intros [H1 H2]. split; [intros y Hy; specialize (H1 y Hy); lia|auto]. Qed.

(* ---- C23 ---- *)
Lemma delete_old_filter t : forall b, ordered b -> delete_old t b = filter (fun x => t <=? fst x) b.
Proof.
  induction b as [|[s v] b IH]; intros H; [reflexivity|]. cbn [delete_old filter fst]. destruct H as [H1 H2].
  destruct (Z.ltb_spec s t).
  - replace (t <=? s) with false by lia. apply IH. exact H2.
  - replace (t <=? s) with true by lia. f_equal. symmetry. clear IH H2.
    assert (forall y, In y b -> (t <=? fst y) = true) as A by (intros y Hy; specialize (H1 y Hy); cbn in H1; lia).
    clear H1. induction b as [|y b IH]; [reflexivity|]. cbn [filter]. rewrite A by (left; reflexivity). rewrite IH; [reflexivity|]. intros z Hz. apply A. right. exact Hz.
Qed.
Lemma delete_old_suffix t : forall b, exists p, b = p ++ delete_old t b /\ (forall x, In x p -> fst x < t).
Proof.
  induction b as [|[s v] b IH]; [exists []; split; [reflexivity|intros ? []]|]. cbn [delete_old]. destruct (Z.ltb_spec s t).
  - destruct IH as (p & E & H1). exists ((s, v) :: p). split; [cbn; congruence|]. intros x [<-|Hx]; [exact H|auto].
  - exists []. split; [reflexivity|intros ? []].
Qed.
Lemma delete_old_head t b x r : delete_old t b = x :: r -> t <= fst x.
Proof.
  induction b as [|[s v] b IH]; [discriminate|]. cbn [delete_old]. destruct (Z.ltb_spec s t); [exact IH|]. intros [= <- _]. cbn. lia.
Qed.

(* ---- hold ---- *)
Lemma hold_late t : forall b d, (forall x, In x b -> t < fst x) -> hold t b d = d.
Proof.
  induction b as [|[s v] b IH]; intros d H; [reflexivity|]. cbn [hold]. specialize (H (s, v) (or_introl eq_refl)) as Hs. cbn in Hs.
  replace (s <=? t) with false by lia. apply IH. intros x Hx. apply H. right. exact Hx.
Qed.
Lemma hold_some t : forall b v, hold t b (Some v) <> None.
Proof. induction b as [|[s v'] b IH]; intros v; [discriminate|]. cbn [hold]. destruct (s <=? t); apply IH. Qed.

(* ---- C21 ---- *)
Lemma loop_total start stop : forall b now, ordered b -> start <= now <= stop -> (exists x, In x b /\ fst x <= stop) ->
  total (integrate_loop start stop now b) = stop - now.
Proof.
  induction b as [|[s v] b IH]; intros now Ho Hn Hx; [destruct Hx as (x & [] & _)|].
  cbn [integrate_loop]. destruct Ho as [H1 H2].
  assert (Hs : s <= stop). { destruct Hx as (x & [<-|Hx] & L); [exact L|]. specialize (H1 x Hx). cbn in H1. lia. }
  replace (stop <? s) with false by lia. destruct b as [|[s' v'] b].
  - unfold total. cbn. lia.
  - destruct (Z.ltb_spec start s').
    + unfold total. cbn [fold_right snd]. change (fold_right _ 0 ?l) with (total l). specialize (H1 (s', v') (or_introl eq_refl)). cbn in H1.
      destruct (Z.le_gt_cases s' stop) as [L|L].
      * rewrite Z.min_l by lia. destruct (Z.le_gt_cases now s') as [Ln|Ln].
        -- rewrite IH; auto; try lia. exists (s', v'). split; [left; reflexivity|exact L].
        -- rewrite IH; auto; try lia. exists (s', v'). split; [left; reflexivity|exact L].
      * rewrite Z.min_r by lia. cbn [integrate_loop]. replace (stop <? s') with true by lia. cbn. lia.
    + apply IH; auto. exists (s', v'). split; [left; reflexivity|cbn; lia].
Qed.

Lemma applied_before now t l : t < now -> applied now t l = None.
Proof. intros H. destruct l as [|[v d] l]; [reflexivity|]. cbn. replace (t <? now) with true by lia. reflexivity. Qed.

(* the loop at an element with stamp s applies, from now on, the measurements in force *)
Lemma loop_applied start stop t : forall b now d, ordered b -> start <= now -> now <= t < stop ->
  (match b with (s, _) :: _ => s <= now | [] => False end) ->
  applied now t (integrate_loop start stop now b) = hold t b d.
Proof.
  induction b as [|[s v] b IH]; intros now d Ho Hn Ht Hs; [destruct Hs|].
  cbn [integrate_loop hold]. destruct Ho as [H1 H2]. replace (stop <? s) with false by lia. replace (s <=? t) with true by lia.
  destruct b as [|[s' v'] b].
  - cbn. replace (t <? now) with false by lia. replace (t <? now + (stop - now)) with true by lia. reflexivity.
  - pose proof (H1 (s', v') (or_introl eq_refl)) as H3. cbn in H3. destruct (Z.ltb_spec start s').
    + cbn [applied]. replace (t <? now) with false by lia. replace (now + (Z.min s' stop - now)) with (Z.min s' stop) by lia.
      destruct (Z.ltb_spec t (Z.min s' stop)).
      * symmetry. apply hold_late. intros x Hx. destruct Hx as [<-|Hx]; [cbn; lia|]. destruct H2 as [H2 _]. specialize (H2 x Hx). cbn in H2. lia.
      * rewrite Z.min_l in * by lia. apply IH; auto; try lia.
    + apply IH; auto; try lia.
Qed.

Lemma integrate_total b start stop l : ordered b -> start <= stop -> integrate_imu b start stop = Ok l -> total l = stop - start.
Proof.
  intros Ho Hs. unfold integrate_imu. destruct (Z.eqb_spec start stop) as [->|N]; [intros [= <-]; cbn; lia|].
  destruct b as [|[s v] [|[s' v'] b]]; try discriminate. destruct (Z.ltb_spec start s); [discriminate|]. unfold preintegrate.
  destruct (forallb _ _); [|discriminate]. intros E. apply Ok_inj in E. rewrite E. apply loop_total; auto; [lia|]. exists (s, v). split; [left; reflexivity|cbn; lia].
Qed.
Lemma integrate_applied b start stop l t : ordered b -> integrate_imu b start stop = Ok l -> start <= t < stop ->
  applied start t l = hold t b None /\ hold t b None <> None.
Proof.
  intros Ho. unfold integrate_imu. intros E Ht. replace (start =? stop) with false in E by lia.
  destruct b as [|[s v] [|[s' v'] b]]; try discriminate. destruct (Z.ltb_spec start s); [discriminate|]. unfold preintegrate in E.
  destruct (forallb _ _); [|discriminate]. apply Ok_inj in E. rewrite E. split.
  - apply loop_applied; auto; lia.
  - cbn [hold]. replace (s <=? t) with true by lia. destruct (s' <=? t); apply hold_some.
Qed.

(* ---- C22: when is a zero-length step produced ---- *)
Lemma in_strict_front x b y : strict (x :: b) -> In y b -> fst x < fst y.
Proof. intros [H _] Hy. apply H. exact Hy. Qed.

Lemma loop_zero start stop : forall s v b, strict ((s, v) :: b) -> start < stop -> s <= stop ->
  ((exists x, In x ((s, v) :: b) /\ fst x = stop) <-> exists x, In x (integrate_loop start stop (Z.max start s) ((s, v) :: b)) /\ snd x <= 0).
Proof.
  intros s v b. revert s v. induction b as [|[s' v'] b IH]; intros s v Ho Hn Hs.
  - cbn [integrate_loop]. replace (stop <? s) with false by lia. split.
    + intros (x & [<-|[]] & E). exists (v, stop - Z.max start s). split; [left; reflexivity|cbn in *; lia].
    + intros (x & [<-|[]] & E). exists (s, v). split; [left; reflexivity|cbn in *; lia].
  - pose proof (in_strict_front _ _ (s', v') Ho (or_introl eq_refl)) as Hss. cbn in Hss. destruct Ho as [H1 H2].
    cbn [integrate_loop]. replace (stop <? s) with false by lia. fold (integrate_loop start stop). destruct (Z.ltb_spec start s').
    + destruct (Z.le_gt_cases s' stop) as [L|L].
      * rewrite Z.min_l by lia. specialize (IH s' v' H2 Hn L). replace (Z.max start s') with s' in IH by lia. split.
        -- intros (x & [<-|Hx] & E); [cbn in E; lia|]. destruct IH as [IH _]. destruct IH as (y & Hy & Ey); [exists x; auto|]. exists y. split; [right; exact Hy|exact Ey].
        -- intros (x & [<-|Hx] & E); [cbn in E; lia|]. destruct IH as [_ IH]. destruct IH as (y & Hy & Ey); [exists x; auto|]. exists y. split; [right; exact Hy|exact Ey].
      * rewrite Z.min_r by lia. replace (stop <? s') with true by lia. split.
        -- intros (x & [<-|Hx] & E); [exists (v, stop - Z.max start s); split; [left; reflexivity|cbn in *; lia]|].
           assert (s' <= fst x). { destruct Hx as [<-|Hx]; [cbn; lia|]. destruct H2 as [H2 _]. specialize (H2 x Hx). cbn in H2. lia. } lia.
        -- intros (x & [<-|[]] & E). exists (s, v). split; [left; reflexivity|cbn in *; lia].
    + specialize (IH s' v' H2 Hn ltac:(lia)). replace (Z.max start s') with start in IH by lia. replace (Z.max start s) with start by lia. split.
      * intros (x & [<-|Hx] & E); [cbn in E; lia|]. destruct IH as [IH _]. apply IH. exists x. auto.
      * intros (x & Hx & E). destruct IH as [_ IH]. destruct IH as (y & Hy & Ey); [exists x; auto|]. exists y. split; [right; exact Hy|exact Ey].
Qed.
Lemma forallb_pos l : forallb (fun x : step => 0 <? snd x) l = false <-> exists x, In x l /\ snd x <= 0.
Proof.
  induction l as [|y l IH]; cbn; [split; [discriminate|intros (x & [] & _)]|]. rewrite andb_false_iff, IH. split.
  - intros [H|(x & Hx & E)]; [exists y; split; [auto|lia]|exists x; auto].
  - intros (x & [<-|Hx] & E); [left; lia|right; exists x; auto].
Qed.
(* with strictly increasing stamps and a measurement not after the start, integration fails exactly
   when there is a single measurement or one stamped exactly at the end *)
Lemma integrate_fails b start stop : strict b -> (exists x r, b = x :: r /\ fst x <= start) -> start < stop ->
  (integrate_imu b start stop = Throw <-> (List.length b < 2)%nat \/ exists x, In x b /\ fst x = stop) /\ integrate_imu b start stop <> UB.
Proof.
  intros Ho (x & r & -> & Hx) Hs. destruct x as [s v]. cbn in Hx. unfold integrate_imu. replace (start =? stop) with false by lia.
  destruct r as [|[s' v'] r].
  - split; [|discriminate]. split; [intros _; left; cbn; lia|reflexivity].
  - replace (start <? s) with false by lia. unfold preintegrate. split; [|destruct (forallb _ _); discriminate].
    pose proof (loop_zero start stop s v ((s', v') :: r) Ho Hs ltac:(lia)) as Q. replace (Z.max start s) with start in Q by lia.
    rewrite <- forallb_pos in Q. destruct (forallb (fun x : step => 0 <? snd x) (integrate_loop start stop start ((s, v) :: (s', v') :: r))).
    + split; [discriminate|]. intros [H|H]; [cbn in H; lia|]. apply Q in H. discriminate.
    + split; [|reflexivity]. intros _. right. apply Q. reflexivity.
Qed.
(* old measurements removed before integrating do not matter *)
Lemma hold_delete t t0 b : ordered b -> t0 <= t -> (exists x, In x b /\ fst x = t0) -> hold t (delete_old t0 b) None = hold t b None.
Proof.
  intros Ho Hle. cut (forall d, (exists x, In x b /\ fst x = t0) -> hold t (delete_old t0 b) None = hold t b d); [auto|].
  induction b as [|[s v] b IH]; intros d (x & Hx & E); [destruct Hx|]. cbn [delete_old]. destruct Ho as [H1 H2]. destruct (Z.ltb_spec s t0).
  - cbn [hold]. apply IH; auto. destruct Hx as [<-|Hx]; [cbn in E; lia|]. exists x. auto.
  - cbn [hold]. assert (s = t0). { destruct Hx as [<-|Hx]; [exact E|]. specialize (H1 x Hx). cbn in H1. lia. }
    replace (s <=? t) with true by lia. reflexivity.
Qed.

(* ---- selection for the back end ---- *)
(* late part: everything after prev *)
Lemma select_late prev new : forall b, strict b -> (forall x, In x b -> prev < fst x) -> select_imu prev new b = Ok (filter (fun x => fst x <? new) b).
Proof.
  induction b as [|[s v] b IH]; intros Ho Hp; [reflexivity|]. cbn [select_imu filter fst]. destruct Ho as [H1 H2].
  assert (prev < s) by (apply (Hp (s, v)); left; reflexivity). rewrite IH; auto; [|intros x Hx; apply Hp; right; exact Hx].
  destruct (s <? new); [|reflexivity]. replace (prev <? s) with true by lia. reflexivity.
Qed.
(* exact result: the last measurement not after prev, and those strictly between *)
Lemma select_exact prev new : prev < new -> forall b1 x b2, strict (b1 ++ x :: b2) -> fst x <= prev -> b2 <> [] -> (forall y, In y b2 -> prev < fst y) ->
  select_imu prev new (b1 ++ x :: b2) = Ok (x :: filter (fun y => fst y <? new) b2).
Proof.
  intros Hpn. induction b1 as [|[s v] b1 IH]; intros x b2 Ho Hx Hb Hp.
  - cbn [app]. destruct x as [s v]. cbn in Hx. cbn [select_imu]. destruct Ho as [H1 H2]. replace (s <? new) with true by lia. replace (prev <? s) with false by lia.
    rewrite select_late by auto. destruct b2 as [|[s' v'] b2]; [congruence|]. assert (prev < s') by (apply (Hp (s', v')); left; reflexivity).
    replace (prev <? s') with true by lia. reflexivity.
  - cbn [app select_imu]. destruct Ho as [H1 H2]. assert (s < fst x). { apply (H1 x). apply in_or_app. right. left. reflexivity. }
    replace (s <? new) with true by lia. replace (prev <? s) with false by lia. rewrite IH by auto.
    destruct b1 as [|[s' v'] b1]; cbn [app rbind].
    + destruct x as [s' v']. cbn in Hx. replace (prev <? s') with false by lia. reflexivity.
    + assert (s' < fst x). { destruct H2 as [H2 _]. apply (H2 x). apply in_or_app. right. left. reflexivity. } replace (prev <? s') with false by lia. reflexivity.
Qed.
(* undefined exactly when no measurement is after prev *)
Lemma select_ub prev new : prev < new -> forall b, strict b -> b <> [] -> (forall y, In y b -> fst y <= prev) -> select_imu prev new b = UB.
Proof.
  intros Hpn. induction b as [|[s v] b IH]; intros Ho Hn Hp; [congruence|]. cbn [select_imu]. destruct Ho as [H1 H2].
  assert (s <= prev) by (apply (Hp (s, v)); left; reflexivity). replace (s <? new) with true by lia. replace (prev <? s) with false by lia.
  destruct b as [|y b]; [reflexivity|]. rewrite IH; auto; [destruct y; reflexivity|discriminate|]. intros z Hz. apply Hp. right. exact Hz.
Qed.
Lemma strict_app a b : strict (a ++ b) -> strict a /\ strict b /\ (forall x y, In x a -> In y b -> fst x < fst y).
Proof.
  induction a as [|z a IH]; cbn; [intros H; conj; auto; intros ? ? []|]. intros [H1 H2]. destruct (IH H2) as (I1 & I2 & I3). split; [split; [|exact I1]|split; [exact I2|]].
  - intros y Hy. apply H1. apply in_or_app. auto.
  - intros x y [<-|Hx] Hy; [apply H1; apply in_or_app; auto|auto].
Qed.
(* any buffer splits at prev *)
Lemma split_at prev : forall b, strict b -> (exists x, In x b /\ fst x <= prev) -> exists b1 x b2, b = b1 ++ x :: b2 /\ fst x <= prev /\ (forall y, In y b2 -> prev < fst y).
Proof.
  induction b as [|z b IH]; intros Ho (x & Hx & Hl); [destruct Hx|]. destruct Ho as [H1 H2].
  assert (D : (exists y, In y b /\ fst y <= prev) \/ forall y, In y b -> prev < fst y).
  { clear -b. induction b as [|w b IH]; [right; intros ? []|]. destruct (Z.le_gt_cases (fst w) prev); [left; exists w; split; [left; reflexivity|exact H]|].
    destruct IH as [(y & Hy & E)|IH]; [left; exists y; split; [right; exact Hy|exact E]|right]. intros y [<-|Hy]; [lia|auto]. }
  destruct D as [D|D].
  - destruct (IH H2 D) as (b1 & y & b2 & -> & E1 & E2). exists (z :: b1), y, b2. auto.
  - exists [], z, b. split; [reflexivity|]. split; [|exact D]. destruct Hx as [->|Hx]; [exact Hl|]. specialize (D x Hx). lia.
Qed.
Lemma hold_app t : forall a b d, hold t (a ++ b) d = hold t b (hold t a d).
Proof. induction a as [|[s v] a IH]; intros b d; [reflexivity|]. cbn [app hold]. apply IH. Qed.
Lemma hold_filter t new : t < new -> forall b d, hold t (filter (fun y => fst y <? new) b) d = hold t b d.
Proof.
  intros Ht. induction b as [|[s v] b IH]; intros d; [reflexivity|]. cbn [filter fst hold]. destruct (Z.ltb_spec s new); cbn [hold]; [apply IH|].
  replace (s <=? t) with false by lia. apply IH.
Qed.
Lemma strict_filter f : forall b, strict b -> strict (filter f b).
Proof.
  induction b as [|x b IH]; [auto|]. intros [H1 H2]. cbn [filter]. destruct (f x); [|auto]. split; [|auto]. intros y Hy. apply filter_In in Hy. apply H1. tauto.
Qed.

(* what the back end receives: never undefined when a measurement is after prev; strictly before new, in
   force at every time of the interval like the whole buffer, oldest element not after prev *)
Lemma select_spec prev new b : prev < new -> strict b -> (exists x, In x b /\ fst x <= prev) -> (exists x, In x b /\ prev < fst x) ->
  exists x l, select_imu prev new b = Ok (x :: l) /\ fst x <= prev /\ strict (x :: l) /\ (forall y, In y (x :: l) -> In y b /\ fst y < new) /\
    (forall t, prev <= t < new -> hold t (x :: l) None = hold t b None) /\
    (forall y, In y b -> prev < fst y < new -> In y l).
Proof.
  intros Hpn Ho Hb Ha. destruct (split_at prev b Ho Hb) as (b1 & x & b2 & -> & Hx & Hp).
  assert (N : b2 <> []). { intros ->. destruct Ha as (y & Hy & L). destruct (strict_app _ _ Ho) as (_ & _ & H). apply in_app_or in Hy.
    destruct Hy as [Hy|[<-|[]]]; [specialize (H y x Hy (or_introl eq_refl)); lia|lia]. }
  exists x, (filter (fun y => fst y <? new) b2). split; [apply select_exact; auto|]. split; [exact Hx|].
  destruct (strict_app _ _ Ho) as (_ & [H1 H2] & H3). split; [split; [intros y Hy; apply filter_In in Hy; apply H1; tauto|apply strict_filter; exact H2]|].
  split; [intros y [<-|Hy]; [split; [apply in_or_app; right; left; reflexivity|lia]|apply filter_In in Hy; split; [apply in_or_app; right; right; tauto|lia]]|]. split.
  - intros t Ht. rewrite hold_app. destruct x as [s v]. cbn in Hx. cbn [hold]. replace (s <=? t) with true by lia. apply hold_filter. lia.
  - intros y Hy Hr. apply filter_In. split; [|lia]. apply in_app_or in Hy. destruct Hy as [Hy|[<-|Hy]]; [|lia|exact Hy].
    specialize (H3 y x Hy (or_introl eq_refl)). lia.
Qed.

(* end to end: front-end selection followed by the back end's integration *)
Lemma select_integrate prev new b l : prev < new -> strict b -> (exists x, In x b /\ fst x <= prev) -> select_imu prev new b = Ok l ->
  ((exists y, In y b /\ prev < fst y < new) -> exists steps, integrate_imu l prev new = Ok steps /\ total steps = new - prev /\
     (forall t, prev <= t < new -> applied prev t steps = hold t b None)) /\
  ((forall y, In y b -> ~ prev < fst y < new) -> integrate_imu l prev new = Throw).
Proof.
  intros Hpn Ho Hb E.
  assert (Ha : exists x, In x b /\ prev < fst x).
  { destruct (split_at prev b Ho Hb) as (b1 & x & b2 & -> & Hx & Hp). destruct b2 as [|y b2].
    - rewrite select_ub in E; auto; [discriminate|destruct b1; discriminate|]. intros y Hy. apply in_app_or in Hy. destruct Hy as [Hy|[<-|[]]]; [|exact Hx].
      destruct (strict_app _ _ Ho) as (_ & _ & H). specialize (H y x Hy (or_introl eq_refl)). lia.
    - exists y. split; [apply in_or_app; right; right; left; reflexivity|apply Hp; left; reflexivity]. }
  destruct (select_spec prev new b Hpn Ho Hb Ha) as (x & l' & E' & H1 & H2 & H3 & H4 & H5). rewrite E in E'. injection E' as ->.
  pose proof (integrate_fails (x :: l') prev new H2 (ex_intro _ x (ex_intro _ l' (conj eq_refl H1))) Hpn) as [F NU].
  split.
  - intros (y & Hy & Hr). pose proof (H5 y Hy Hr) as Hl.
    destruct (integrate_imu (x :: l') prev new) as [steps| |] eqn:Ei; [| |congruence].
    + exists steps. split; [reflexivity|]. split; [apply (integrate_total (x :: l')); auto; [apply strict_ordered; exact H2|lia]|].
      intros t Ht. rewrite <- H4 by exact Ht. apply (integrate_applied (x :: l') prev new steps t); auto. apply strict_ordered. exact H2.
    + destruct F as [F _]. destruct (F eq_refl) as [F'|(z & Hz & Ez)].
      * destruct l'; [destruct Hl|cbn in F'; lia].
      * apply H3 in Hz. lia.
  - intros Hn. apply F. left. destruct l' as [|y l']; [cbn; lia|]. exfalso. assert (Hy : In y (x :: y :: l')) by (right; left; reflexivity).
    destruct (H3 y Hy) as [Hy' L]. apply (Hn y Hy'). split; [|exact L].
    (* y is not x and strictly after it; if not after prev it would be in force at prev instead of x *)
    destruct (Z.le_gt_cases (fst y) prev) as [Lp|Lp]; [|exact Lp]. exfalso.
    destruct (split_at prev b Ho Hb) as (b1 & x0 & b2 & -> & Hx0 & Hp0).
    assert (N : b2 <> []) by (intros ->; destruct Ha as (z & Hz & Lz); destruct (strict_app _ _ Ho) as (_ & _ & H); apply in_app_or in Hz;
      destruct Hz as [Hz|[<-|[]]]; [specialize (H z x0 Hz (or_introl eq_refl)); lia|lia]).
    rewrite (select_exact prev new Hpn b1 x0 b2 Ho Hx0 N Hp0) in E. injection E as -> E. assert (Hy2 : In y (filter (fun y => fst y <? new) b2)) by (rewrite E; left; reflexivity).
    apply filter_In in Hy2. destruct Hy2 as [Hy2 _]. specialize (Hp0 y Hy2). lia.
Qed.

(* ---- neighbours for interpolation ---- *)
Lemma first_at_least_spec t : forall b p q r, first_at_least t p b = Some (q, r) -> fst p <= t ->
  (exists b1 b2, p :: b = b1 ++ q :: r :: b2 /\ (forall x, In x b1 -> fst x <= t)) /\ fst q <= t <= fst r.
Proof.
  induction b as [|x b IH]; intros p q r; [discriminate|]. cbn [first_at_least]. destruct (Z.ltb_spec (fst x) t).
  - intros E Hp. destruct (IH x q r E ltac:(lia)) as [(b1 & b2 & E1 & E2) H2]. split; [|exact H2]. exists (p :: b1), b2. cbn. rewrite E1. split; [reflexivity|].
    intros y [<-|Hy]; [exact Hp|auto].
  - intros [= <- <-] Hp. split; [exists [], b; split; [reflexivity|intros ? []]|lia].
Qed.
Lemma first_at_least_none t : forall b p, first_at_least t p b = None -> forall x, In x b -> fst x < t.
Proof.
  induction b as [|y b IH]; intros p; [intros _ x []|]. cbn [first_at_least]. destruct (Z.ltb_spec (fst y) t); [|discriminate].
  intros E x [<-|Hx]; [exact H|eapply IH; eauto].
Qed.
Lemma last_in {A} (l : list A) d : l <> [] -> In (last l d) l.
Proof. intros H. destruct (exists_last H) as (l' & x & ->). rewrite last_last. apply in_or_app. right. left. reflexivity. Qed.
(* consecutive measurements around the requested time, or an exception exactly when it is not covered *)
Lemma neighbours_ok t b q r : imu_neighbours t b = Ok (q, r) -> (exists b1 b2, b = b1 ++ q :: r :: b2) /\ fst q <= t <= fst r.
Proof.
  unfold imu_neighbours. destruct b as [|x [|y b]]; try discriminate. destruct (Z.ltb_spec t (fst x)); [discriminate|]. cbn [orb].
  destruct (_ <? t); [discriminate|]. destruct (first_at_least t x (y :: b)) as [[q' r']|] eqn:E; [|discriminate]. intros [= -> ->].
  apply first_at_least_spec in E; [|lia]. destruct E as [(b1 & b2 & E1 & _) E2]. split; [exists b1, b2; exact E1|exact E2].
Qed.
Lemma neighbours_throw t b : ordered b -> imu_neighbours t b <> UB /\
  (imu_neighbours t b = Throw <-> ~ ((2 <= List.length b)%nat /\ (exists x, In x b /\ fst x <= t) /\ (exists x, In x b /\ t <= fst x))).
Proof.
  intros Ho. unfold imu_neighbours. destruct b as [|x [|y b]].
  - split; [discriminate|]. split; [intros _ (H & _); cbn in H; lia|reflexivity].
  - split; [discriminate|]. split; [intros _ (H & _); cbn in H; lia|reflexivity].
  - pose proof Ho as [H1 H2]. assert (Hl : In (last (y :: b) x) (y :: b)) by (apply last_in; discriminate).
    assert (Hmax : forall z, In z (x :: y :: b) -> fst z <= fst (last (y :: b) x)).
    { assert (G : forall (l : list imu) d z, ordered l -> In z l -> fst z <= fst (last l d)).
      { clear. induction l as [|w l IH]; intros d z Ho Hz; [destruct Hz|]. destruct Ho as [H1 H2]. destruct l as [|w' l]; [destruct Hz as [<-|[]]; cbn; lia|].
        change (last (w :: w' :: l) d) with (last (w' :: l) d). destruct Hz as [<-|Hz]; [apply H1; apply last_in; discriminate|apply IH; auto]. }
      intros z [<-|Hz]; [apply H1; exact Hl|apply G; auto]. }
    destruct (Z.ltb_spec t (fst x)); cbn [orb].
    + split; [discriminate|]. split; [|reflexivity]. intros _ (_ & (z & [<-|Hz] & Lz) & _); [lia|]. specialize (H1 z Hz). lia.
    + destruct (Z.ltb_spec (fst (last (y :: b) x)) t).
      * split; [discriminate|]. split; [|reflexivity]. intros _ (_ & _ & (z & Hz & Lz)). specialize (Hmax z Hz). lia.
      * destruct (first_at_least t x (y :: b)) as [p|] eqn:E.
        -- split; [discriminate|]. split; [discriminate|]. intros N. destruct N. split; [cbn; lia|]. split; [exists x; split; [left; reflexivity|lia]|].
           exists (last (y :: b) x). split; [right; exact Hl|lia].
        -- pose proof (first_at_least_none t _ _ E _ Hl). lia.
Qed.
