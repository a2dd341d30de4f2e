(* Integration steps, repeated stamps, and laws of dropping old measurements. *)
From Verif Require Import Base ImuModel ImuSpec ImuProofs.

(* every step of a successful integration is positive *)
Lemma integrate_positive b start stop l : integrate_imu b start stop = Ok l -> Forall (fun x : step => 0 < snd x) l.
Proof.
  unfold integrate_imu. destruct (start =? stop); [intros [= <-]; constructor|].
  destruct b as [|[s v] [|[s' v'] b]]; try discriminate. destruct (start <? s); [discriminate|]. unfold preintegrate.
  destruct (forallb _ _) eqn:E; [|discriminate]. intros H. apply Ok_inj in H. rewrite H.
  apply Forall_forall. intros x Hx. pose proof (proj1 (forallb_forall _ _) E x Hx). lia.
Qed.

(* the steps are the pieces of the interval between consecutive measurements: only measurements of the buffer are
   used, each at most once and in the order of the buffer *)
Inductive sublist : list Z -> list Z -> Prop :=
| sub_nil l : sublist [] l
| sub_take x l l' : sublist l l' -> sublist (x :: l) (x :: l')
| sub_skip x l l' : sublist l l' -> sublist l (x :: l').
Lemma loop_sublist start stop : forall b now, sublist (map fst (integrate_loop start stop now b)) (map snd b).
Proof.
  induction b as [|[s v] b IH]; intros now; [constructor|]. cbn [integrate_loop]. destruct (stop <? s); [constructor|].
  destruct b as [|[s' v'] b]; [cbn; apply sub_take; constructor|]. destruct (start <? s').
  - cbn [map fst snd]. apply sub_take. apply IH.
  - cbn [map snd]. apply sub_skip. apply IH.
Qed.
Lemma integrate_sublist b start stop l : integrate_imu b start stop = Ok l -> sublist (map fst l) (map snd b).
Proof.
  unfold integrate_imu. destruct (start =? stop); [intros [= <-]; constructor|].
  destruct b as [|[s v] [|[s' v'] b]]; try discriminate. destruct (start <? s); [discriminate|]. unfold preintegrate.
  destruct (forallb _ _) eqn:E; [|discriminate]. intros H. apply Ok_inj in H. rewrite H. apply loop_sublist.
Qed.

(* two successive measurements with one stamp inside the interval *)
Definition repeated (start stop : Z) (b : list imu) : Prop :=
  exists b1 x y b2, b = b1 ++ x :: y :: b2 /\ fst x = fst y /\ start < fst x < stop.
Lemma repeated_cons start stop x y b :
  repeated start stop (x :: y :: b) <-> (fst x = fst y /\ start < fst x < stop) \/ repeated start stop (y :: b).
Proof.
  split.
  - intros (b1 & p & q & b2 & E & H). destruct b1 as [|z b1]; cbn in E.
    + injection E as -> -> _. left. exact H.
    + injection E as _ E. right. exists b1, p, q, b2. auto.
  - intros [H|(b1 & p & q & b2 & E & H)]; [exists [], x, y, b; auto|]. exists (x :: b1), p, q, b2. cbn. rewrite E. auto.
Qed.
Lemma repeated_one start stop x : ~ repeated start stop [x].
Proof. intros (b1 & p & q & b2 & E & _). destruct b1 as [|? [|? ?]]; discriminate. Qed.

Lemma loop_zero_ordered start stop : forall s v b, ordered ((s, v) :: b) -> start < stop -> s <= stop ->
  ((exists x, In x ((s, v) :: b) /\ fst x = stop) \/ repeated start stop ((s, v) :: b) <->
   exists x, In x (integrate_loop start stop (Z.max start s) ((s, v) :: b)) /\ snd x <= 0).
Proof.
  intros s v b. revert s v. induction b as [|[s' v'] b IH]; intros s v Ho Hn Hs.
  - cbn [integrate_loop]. replace (stop <? s) with false by lia. split.
    + intros [(x & [<-|[]] & E)|H]; [|destruct (repeated_one _ _ _ H)]. exists (v, stop - Z.max start s). split; [left; reflexivity|cbn in *; lia].
    + intros (x & [<-|[]] & E). left. exists (s, v). split; [left; reflexivity|cbn in *; lia].
  - destruct Ho as [H1 H2]. pose proof (H1 (s', v') (or_introl eq_refl)) as Hss. cbn in Hss.
    rewrite repeated_cons. cbn [fst].
    cbn [integrate_loop]. replace (stop <? s) with false by lia. fold (integrate_loop start stop). destruct (Z.ltb_spec start s').
    + destruct (Z.le_gt_cases s' stop) as [L|L].
      * rewrite Z.min_l by lia. specialize (IH s' v' H2 Hn L). replace (Z.max start s') with s' in IH by lia. split.
        -- intros [(x & [<-|Hx] & E)|[[E R]|R]].
           ++ cbn in E. assert (s' = stop) by lia. destruct (proj1 IH) as (y & Hy & Ey); [left; exists (s', v'); split; [left; reflexivity|exact H0]|].
              exists y. split; [right; exact Hy|exact Ey].
           ++ destruct (proj1 IH) as (y & Hy & Ey); [left; exists x; auto|]. exists y. split; [right; exact Hy|exact Ey].
           ++ exists (v, s' - Z.max start s). split; [left; reflexivity|cbn; lia].
           ++ destruct (proj1 IH) as (y & Hy & Ey); [right; exact R|]. exists y. split; [right; exact Hy|exact Ey].
        -- intros (x & [<-|Hx] & E).
           ++ cbn in E. destruct (Z.eq_dec s' stop) as [->|Ne]; [left; exists (stop, v'); split; [right; left; reflexivity|reflexivity]|].
              right. left. lia.
           ++ destruct (proj2 IH) as [(y & Hy & Ey)|R]; [exists x; auto| |right; right; exact R]. left. exists y. split; [right; exact Hy|exact Ey].
      * rewrite Z.min_r by lia. replace (stop <? s') with true by lia. split.
        -- intros [(x & [<-|Hx] & E)|[[E R]|R]].
           ++ exists (v, stop - Z.max start s); split; [left; reflexivity|cbn in *; lia].
           ++ assert (s' <= fst x). { destruct Hx as [<-|Hx]; [cbn; lia|]. destruct H2 as [H2 _]. specialize (H2 x Hx). cbn in H2. lia. } lia.
           ++ lia.
           ++ destruct R as (b1 & p & q & b2 & E & _ & R). assert (Hp : In p ((s', v') :: b)) by (rewrite E; apply in_or_app; right; left; reflexivity).
              assert (s' <= fst p). { destruct Hp as [<-|Hp]; [cbn; lia|]. destruct H2 as [H2 _]. specialize (H2 p Hp). cbn in H2. lia. } lia.
        -- intros (x & [<-|[]] & E). left. exists (s, v). split; [left; reflexivity|cbn in *; lia].
    + specialize (IH s' v' H2 Hn ltac:(lia)). replace (Z.max start s') with start in IH by lia. replace (Z.max start s) with start by lia.
      rewrite <- IH. split.
      * intros [(x & [<-|Hx] & E)|[[E R]|R]]; [cbn in E; lia|left; exists x; auto|lia|right; exact R].
      * intros [(x & Hx & E)|R]; [left; exists x; split; [right; exact Hx|exact E]|right; right; exact R].
Qed.

(* with non-decreasing stamps: integration fails exactly when there is a single measurement, one is stamped exactly at
   the end, or two share a stamp inside the interval *)
Lemma integrate_fails_ordered b start stop : ordered b -> (exists x r, b = x :: r /\ fst x <= start) -> start < stop ->
  (integrate_imu b start stop = Throw <-> (List.length b < 2)%nat \/ (exists x, In x b /\ fst x = stop) \/ repeated start stop b) /\
  integrate_imu b start stop <> UB.
Proof.
  intros Ho (x & r & -> & Hx) Hs. destruct x as [s v]. cbn in Hx. unfold integrate_imu. replace (start =? stop) with false by lia.
  destruct r as [|[s' v'] r].
  - split; [|discriminate]. split; [intros _; left; cbn; lia|reflexivity].
  - replace (start <? s) with false by lia. unfold preintegrate. split; [|destruct (forallb _ _); discriminate].
    pose proof (loop_zero_ordered start stop s v ((s', v') :: r) Ho Hs ltac:(lia)) as Q. replace (Z.max start s) with start in Q by lia.
    rewrite <- forallb_pos in Q. destruct (forallb (fun x : step => 0 <? snd x) (integrate_loop start stop start ((s, v) :: (s', v') :: r))).
    + split; [discriminate|]. intros [H|H]; [cbn in H; lia|]. apply Q in H. discriminate.
    + split; [|reflexivity]. intros _. right. apply Q. reflexivity.
Qed.
(* outside these hypotheses *)
Lemma integrate_late_start b start stop : start <> stop -> (forall x, In x b -> start < fst x) -> integrate_imu b start stop = Throw.
Proof.
  intros Hne H. unfold integrate_imu. destruct (Z.eqb_spec start stop) as [E|_]; [contradiction|].
  destruct b as [|[s v] [|y b]]; try reflexivity. specialize (H (s, v) (or_introl eq_refl)). cbn in H. replace (start <? s) with true by lia. reflexivity.
Qed.

(* the longest prefix older than the bound is removed, in any buffer *)
Lemma delete_old_longest t b : exists p, b = p ++ delete_old t b /\ (forall x, In x p -> fst x < t) /\
  match delete_old t b with [] => True | x :: _ => t <= fst x end.
Proof.
  destruct (delete_old_suffix t b) as (p & E & H). exists p. split; [exact E|]. split; [exact H|].
  destruct (delete_old t b) as [|x r] eqn:D; [exact I|]. exact (delete_old_head t b x r D).
Qed.
Lemma delete_old_twice t t' b : t <= t' -> delete_old t' (delete_old t b) = delete_old t' b.
Proof.
  intros H. induction b as [|[s v] b IH]; [reflexivity|]. cbn [delete_old]. destruct (Z.ltb_spec s t).
  - replace (s <? t') with true by lia. exact IH.
  - reflexivity.
Qed.
Lemma delete_old_idempotent t b : delete_old t (delete_old t b) = delete_old t b.
Proof. apply delete_old_twice. lia. Qed.
Lemma delete_old_monotone t t' b : t <= t' -> exists p, delete_old t b = p ++ delete_old t' b.
Proof. intros H. destruct (delete_old_suffix t' (delete_old t b)) as (p & E & _). exists p. rewrite delete_old_twice in E by exact H. exact E. Qed.

(* concrete cases: measurements at 0, 10, 10, 20; the first fails on the repeated stamp, the second avoids it *)
Example repeated_case : integrate_imu [(0, 1); (10, 2); (10, 3); (20, 4)] 5 15 = Throw /\
  integrate_imu [(0, 1); (10, 2); (10, 3); (20, 4)] 10 15 = Ok [(3, 5)].
Proof. split; reflexivity. Qed.
Example repeated_meets : repeated 5 15 [(0, 1); (10, 2); (10, 3); (20, 4)].
Proof. exists [(0, 1)], (10, 2), (10, 3), [(20, 4)]. split; [reflexivity|cbn; lia]. Qed.
