(* Statistics of point clouds: proofs, cases, refutations *)
From Coq Require Import String ZArith List Bool Reals Lra Lia.
From Verif Require Import Base Interp Geo EgModel AnModel AnSpec.
Import ListNotations.
Open Scope R_scope.

Lemma rltb_iff a b : rltb a b = true <-> a < b.
Proof. unfold rltb. destruct (Rlt_dec a b); split; intros; try discriminate; try tauto; lra. Qed.
Section Limits.
Variables lowest highest : R.

Lemma fold_max l : forall a, exists m, fold_left omax l (Some a) = Some m /\ a <= m /\ (m = a \/ In (Some m) l) /\ forall x, In (Some x) l -> x <= m.
Proof.
  induction l as [|[y|] l IH]; intros a; cbn [fold_left].
  - exists a. split; [reflexivity|]. split; [lra|]. split; [left; reflexivity|]. intros x [].
  - unfold omax at 2. cbn [oless]. destruct (rltb a y) eqn:E.
    + apply rltb_iff in E. destruct (IH y) as (m & F & L & C & U). exists m. split; [exact F|]. split; [lra|]. split; [right; destruct C as [->|C]; [left; reflexivity|right; exact C]|]. intros x [X|X]; [injection X as <-; lra|exact (U x X)].
    + assert (N : y <= a) by (destruct (Rle_lt_dec y a) as [|K]; [assumption|apply rltb_iff in K; congruence]). destruct (IH a) as (m & F & L & C & U). exists m. split; [exact F|]. split; [lra|]. split; [destruct C as [->|C]; [left; reflexivity|right; right; exact C]|]. intros x [X|X]; [injection X as <-; lra|exact (U x X)].
  - change (omax (Some a) None) with (Some a). destruct (IH a) as (m & F & L & C & U). exists m. split; [exact F|]. split; [exact L|]. split; [destruct C as [->|C]; [left; reflexivity|right; right; exact C]|]. intros x [X|X]; [discriminate|exact (U x X)].
Qed.
Lemma fold_min l : forall a, exists m, fold_left omin l (Some a) = Some m /\ m <= a /\ (m = a \/ In (Some m) l) /\ forall x, In (Some x) l -> m <= x.
Proof.
  induction l as [|[y|] l IH]; intros a; cbn [fold_left].
  - exists a. split; [reflexivity|]. split; [lra|]. split; [left; reflexivity|]. intros x [].
  - unfold omin at 2. cbn [oless]. destruct (rltb y a) eqn:E.
    + apply rltb_iff in E. destruct (IH y) as (m & F & L & C & U). exists m. split; [exact F|]. split; [lra|]. split; [right; destruct C as [->|C]; [left; reflexivity|right; exact C]|]. intros x [X|X]; [injection X as <-; lra|exact (U x X)].
    + assert (N : a <= y) by (destruct (Rle_lt_dec a y) as [|K]; [assumption|apply rltb_iff in K; congruence]). destruct (IH a) as (m & F & L & C & U). exists m. split; [exact F|]. split; [lra|]. split; [destruct C as [->|C]; [left; reflexivity|right; right; exact C]|]. intros x [X|X]; [injection X as <-; lra|exact (U x X)].
  - change (omin (Some a) None) with (Some a). destruct (IH a) as (m & F & L & C & U). exists m. split; [exact F|]. split; [exact L|]. split; [destruct C as [->|C]; [left; reflexivity|right; right; exact C]|]. intros x [X|X]; [discriminate|exact (U x X)].
Qed.
Lemma fold_none l : fold_left oplus l None = None. Proof. induction l as [|a l IH]; [reflexivity|]. cbn. exact IH. Qed.
Lemma fold_sum l : forall a, fold_left oplus (map Some l) (Some a) = Some (a + total l).
Proof. induction l as [|x l IH]; intros a; cbn [map fold_left oplus total]; [f_equal; lra|]. rewrite IH. f_equal. lra. Qed.
Lemma sum_nan l : forall a, In None l -> fold_left oplus l a = None.
Proof.
  induction l as [|b l IH]; intros a H; [contradiction|]. cbn [fold_left]. destruct H as [->|H]; [destruct a; apply fold_none|apply IH; exact H].
Qed.
Lemma all_numbers (l : list (option R)) : ~ In None l -> exists r, l = map Some r.
Proof.
  induction l as [|[x|] l IH]; intros H; [exists []; reflexivity| |contradiction H; left; reflexivity]. destruct IH as [r ->]; [intros X; apply H; right; exact X|]. exists (x :: r). reflexivity.
Qed.
Lemma over_inv n a x : over n a = Some x -> n <> 0%nat -> exists y, a = Some y /\ INR n * x = y.
Proof. destruct a as [y|]; [|discriminate]. cbn. intros H N. injection H as <-. exists y. split; [reflexivity|]. field. apply not_0_INR. exact N. Qed.

(* the numbers of one field *)
Lemma field_is n f s : field_statistics lowest highest n f = Ok s -> List.length (af_values f) = n -> (forall x, In (Some x) (af_values f) -> lowest <= x <= highest) ->
  as_label s = af_name f /\ as_count s = n /\
  ((exists x, In (Some x) (af_values f)) -> exists lo hi, as_min s = Some lo /\ as_max s = Some hi /\ least_of (af_values f) lo /\ greatest_of (af_values f) hi) /\
  (forall r, af_values f = map Some r -> exists m v, as_mean s = Some m /\ as_var s = Some v /\ mean_of r m /\ variance_of r m v) /\
  (In None (af_values f) -> as_mean s = None /\ as_var s = None) /\
  ((forall x, ~ In (Some x) (af_values f)) -> as_min s = Some highest /\ as_max s = Some lowest).
Proof.
  unfold field_statistics. destruct (Nat.eqb_spec n 0) as [|N]; [discriminate|]. destruct (af_known f); [|discriminate]. intros H L B. injection H as <-. cbn [as_label as_count as_min as_max as_mean as_var].
  split; [reflexivity|]. split; [reflexivity|]. destruct (fold_max (af_values f) lowest) as (hi & Eh & Lh & Ch & Uh). destruct (fold_min (af_values f) highest) as (lo & El & Ll & Cl & Ul). unfold col_min, col_max. rewrite Eh, El. split; [|split; [|split]].
  - intros [x X]. exists lo, hi. split; [reflexivity|]. split; [reflexivity|]. split.
    + split; [|exact Ul]. destruct Cl as [->|C]; [|exact C]. pose proof (Ul x X). pose proof (B x X). replace highest with x by lra. exact X.
    + split; [|exact Uh]. destruct Ch as [->|C]; [|exact C]. pose proof (Uh x X). pose proof (B x X). replace lowest with x by lra. exact X.
  - intros r E. rewrite E in *. rewrite map_length in L. unfold col_mean, col_var, col_sum. rewrite fold_sum. cbn [over]. set (m := (0 + total r) / INR n).
    rewrite map_map. cbn [residual]. assert (Q : map (fun x => Some ((x - m) * (x - m))) r = map Some (map (fun x => (x - m) ^ 2) r)) by (rewrite map_map; apply map_ext; intros x; f_equal; ring). rewrite Q, fold_sum. cbn [over].
    exists m. eexists. split; [reflexivity|]. split; [reflexivity|]. unfold mean_of, variance_of. rewrite L. assert (Nz : INR n <> 0) by (apply not_0_INR; exact N). split; [unfold m; field; exact Nz|field; exact Nz].
  - intros X. unfold col_mean, col_var, col_sum. rewrite (sum_nan _ _ X). cbn [over]. split; [reflexivity|]. rewrite sum_nan; [reflexivity|]. apply in_map_iff. exists None. split; [reflexivity|exact X].
  - intros X. split; f_equal; [destruct Cl as [->|C]; [reflexivity|contradiction (X _ C)]|destruct Ch as [->|C]; [reflexivity|contradiction (X _ C)]].
Qed.
Lemma fields_are n l : forall r, fields_statistics lowest highest n l = Ok r -> Forall2 (fun f s => field_statistics lowest highest n f = Ok s) l r.
Proof.
  induction l as [|f l IH]; intros r H; cbn [fields_statistics] in H; [injection H as <-; constructor|]. destruct (field_statistics lowest highest n f) as [s| |] eqn:E; cbn [rbind] in H; try discriminate. destruct (fields_statistics lowest highest n l) as [r'| |]; cbn [rbind] in H; try discriminate.
  injection H as <-. constructor; [exact E|]. apply IH. reflexivity.
Qed.
Lemma fields_ok n l : n <> 0%nat -> (forall f, In f l -> af_known f = true) -> exists r, fields_statistics lowest highest n l = Ok r.
Proof.
  intros N. induction l as [|f l IH]; intros H; cbn [fields_statistics]; [eexists; reflexivity|]. unfold field_statistics at 1. destruct (Nat.eqb_spec n 0); [contradiction|]. rewrite (H f (or_introl eq_refl)). cbn [rbind].
  destruct IH as [r E]; [intros x X; apply H; right; exact X|]. rewrite E. eexists. reflexivity.
Qed.

(* when a cloud is analysed *)
Theorem analysed_exactly c : (exists o, analyse lowest highest c = Ok o) <-> can_be_analysed c.
Proof.
  unfold analyse, statistics, can_be_analysed. split.
  - intros [o H]. destruct (ac_fields c) as [|f0 l0] eqn:F; [left; reflexivity|right]. destruct (fields_statistics lowest highest (ac_points c) (f0 :: l0)) as [r| |] eqn:E; try discriminate. apply fields_are in E.
    assert (K : forall f s, field_statistics lowest highest (ac_points c) f = Ok s -> ac_points c <> 0%nat /\ af_known f = true) by (intros f s; unfold field_statistics; destruct (Nat.eqb_spec (ac_points c) 0); [discriminate|]; destruct (af_known f); [tauto|discriminate]).
    split; [inversion E; subst; eapply K; eassumption|]. clear H F. induction E as [|f s l r Ef _ IH]; intros x []; [subst; eapply K; exact Ef|]. apply IH. assumption.
  - intros [->|[N K]]; [eexists; reflexivity|]. destruct (fields_ok (ac_points c) (ac_fields c) N K) as [r E]. rewrite E. eexists. reflexivity.
Qed.
(* what is published: header, one statistic for each field in order, the numbers *)
Theorem analysed_published c a r : proper lowest highest c -> analyse lowest highest c = Ok (a, r) ->
  aa_seq a = ac_seq c /\ aa_frame a = ac_frame c /\ (0 <= ac_stamp c - aa_stamp a < 1000)%Z /\ (aa_stamp a mod 1000 = 0)%Z /\
  Forall2 (fun f s => as_label s = af_name f /\ as_count s = ac_points c /\
    ((exists x, In (Some x) (af_values f)) -> exists lo hi, as_min s = Some lo /\ as_max s = Some hi /\ least_of (af_values f) lo /\ greatest_of (af_values f) hi) /\
    (forall l, af_values f = map Some l -> exists m v, as_mean s = Some m /\ as_var s = Some v /\ mean_of l m /\ variance_of l m v) /\
    (In None (af_values f) -> as_mean s = None /\ as_var s = None)) (ac_fields c) (aa_stats a).
Proof.
  intros P. unfold analyse, statistics. destruct (fields_statistics lowest highest (ac_points c) (ac_fields c)) as [s| |] eqn:E; cbn [rbind]; try discriminate. intros H. injection H as <- _. cbn [aa_seq aa_frame aa_stamp aa_stats].
  split; [reflexivity|]. split; [reflexivity|]. split; [pose proof (Z.div_mod (ac_stamp c) 1000); pose proof (Z.mod_pos_bound (ac_stamp c) 1000); lia|]. split; [apply Z.mod_mul; discriminate|].
  apply fields_are in E. unfold proper in P. revert P E. generalize (ac_fields c) as l. intros l P E. induction E as [|f s0 l s Ef _ IH]; constructor.
  - destruct (P f (or_introl eq_refl)) as [L B]. destruct (field_is _ _ _ Ef L B) as (A1 & A2 & A3 & A4 & A5 & _). tauto.
  - apply IH. intros x X. apply P. right. exact X.
Qed.
(* what is said of the normals *)
Lemma bad_iff v : bad_normal v = true <-> exists x y z, v = (Some x, Some y, Some z) /\ 1 / 1000000 < Rabs (vnorm (x, y, z) - 1).
Proof.
  destruct v as [[[x|] [y|]] [z|]]; cbn [bad_normal]; try (split; [discriminate|intros (? & ? & ? & X & _); discriminate]). rewrite rltb_iff. split; [intros H; exists x, y, z; split; [reflexivity|exact H]|]. intros (x' & y' & z' & E & H). injection E as <- <- <-. exact H.
Qed.
Lemma nth_combine {A B} (l : list A) (m : list B) i a b : nth_error (combine l m) i = Some (a, b) <-> nth_error l i = Some a /\ nth_error m i = Some b.
Proof. revert m i. induction l as [|x l IH]; intros [|y m] [|i]; cbn; try (split; [discriminate|intros [? ?]; discriminate]); [split; [intros H; injection H as <- <-; split; reflexivity|intros [H1 H2]; congruence]|apply IH]. Qed.
(* the positions at which p holds *)
Lemma indices {A} (p : A -> bool) l : exists at_, NoDup at_ /\ List.length at_ = List.length (filter p l) /\ forall i, In i at_ <-> exists v, nth_error l i = Some v /\ p v = true.
Proof.
  induction l as [|x l (at_ & N & L & I)]; [exists []; split; [constructor|]; split; [reflexivity|]; intros i; split; [intros []|intros (v & E & _); destruct i; discriminate]|].
  assert (Ns : NoDup (map S at_)) by (apply FinFun.Injective_map_NoDup; [intros a b E; congruence|exact N]).
  assert (Is : forall i, In (S i) (map S at_) <-> In i at_) by (intros i; rewrite in_map_iff; split; [intros (j & E & J); injection E as ->; exact J|intros J; exists i; split; [reflexivity|exact J]]).
  assert (I0 : ~ In 0%nat (map S at_)) by (rewrite in_map_iff; intros (j & E & _); discriminate).
  cbn [filter]. destruct (p x) eqn:P.
  - exists (0%nat :: map S at_). split; [constructor; assumption|]. split; [cbn; rewrite map_length, L; reflexivity|]. intros [|i]; cbn [In nth_error].
    + split; [intros _; exists x; split; [reflexivity|exact P]|left; reflexivity].
    + rewrite Is, I. split; [intros [X|X]; [discriminate|exact X]|right; assumption].
  - exists (map S at_). split; [exact Ns|]. split; [rewrite map_length; exact L|]. intros [|i]; cbn [nth_error].
    + split; [intros X; contradiction|intros (v & E & Pv); injection E as <-; congruence].
    + rewrite Is. apply I.
Qed.
Theorem normals_said c x y z : find_values "normal_x" c = Some x -> find_values "normal_y" c = Some y -> find_values "normal_z" c = Some z ->
  (normals_remark c = AllFine <-> forall i a b d, nth_error x i = Some (Some a) -> nth_error y i = Some (Some b) -> nth_error z i = Some (Some d) -> Rabs (vnorm (a, b, d) - 1) <= 1 / 1000000) /\
  (forall k n, normals_remark c = Bad k n -> k <> 0%nat /\ n = ac_points c /\ exists at_, NoDup at_ /\ List.length at_ = k /\ forall i, In i at_ <-> exists a b d, nth_error x i = Some (Some a) /\ nth_error y i = Some (Some b) /\ nth_error z i = Some (Some d) /\ 1 / 1000000 < Rabs (vnorm (a, b, d) - 1)).
Proof.
  intros X Y Z. unfold normals_remark, check_normals. rewrite X, Y, Z. set (l := filter bad_normal (combine (combine x y) z)). split.
  - assert (Q : List.length l = 0%nat <-> forall i a b d, nth_error x i = Some (Some a) -> nth_error y i = Some (Some b) -> nth_error z i = Some (Some d) -> Rabs (vnorm (a, b, d) - 1) <= 1 / 1000000).
    { unfold l. clear. revert y z. induction x as [|a x IH]; intros [|b y] [|d z]; cbn [combine filter List.length]; try (split; [|reflexivity]; intros _ [|i]; intros; discriminate). destruct (bad_normal (a, b, d)) eqn:B.
      - split; [discriminate|]. intros H. apply bad_iff in B. destruct B as (x0 & y0 & z0 & E & B). injection E as -> -> ->. specialize (H 0%nat x0 y0 z0 eq_refl eq_refl eq_refl). lra.
      - rewrite IH. split.
        + intros H [|i] a' b' d' A B' D; cbn in A, B', D; [|exact (H i a' b' d' A B' D)]. injection A as ->. injection B' as ->. injection D as ->. destruct (Rle_lt_dec (Rabs (vnorm (a', b', d') - 1)) (1 / 1000000)) as [|G]; [assumption|].
          assert (T : bad_normal (Some a', Some b', Some d') = true) by (apply bad_iff; exists a', b', d'; split; [reflexivity|exact G]). congruence.
        + intros H i a' b' d' A B' D. exact (H (S i) a' b' d' A B' D). }
    destruct (List.length l) as [|k]; [split; [intros _; apply Q; reflexivity|reflexivity]|]. split; [discriminate|]. intros H. apply Q in H. discriminate.
  - intros k n H. destruct (indices bad_normal (combine (combine x y) z)) as (at_ & N & L & I). fold l in L. destruct (List.length l) as [|k']; [discriminate|]. injection H as <- <-. split; [discriminate|]. split; [reflexivity|]. exists at_. split; [exact N|]. split; [exact L|].
    intros i. rewrite I. split.
    + intros ([[a b] d] & E & B). apply nth_combine in E. destruct E as [E D]. apply nth_combine in E. destruct E as [A B']. apply bad_iff in B. destruct B as (a0 & b0 & d0 & Q & G). injection Q as -> -> ->. exists a0, b0, d0. tauto.
    + intros (a & b & d & A & B & D & G). exists (Some a, Some b, Some d). split; [apply nth_combine; split; [apply nth_combine; split; assumption|assumption]|]. apply bad_iff. exists a, b, d. split; [reflexivity|exact G].
Qed.

(* the node serves every cloud that can be analysed, up to the first that cannot *)
Theorem node_serves l : Forall can_be_analysed l -> List.length (node lowest highest l) = List.length l /\ Forall2 (fun c o => analyse lowest highest c = Ok o) l (node lowest highest l).
Proof.
  induction 1 as [|c l C _ [I1 I2]]; cbn [node]; [split; [reflexivity|constructor]|]. apply analysed_exactly in C. destruct C as [o E]. rewrite E. split; [cbn; congruence|constructor; assumption].
Qed.
Theorem node_stops before c after : Forall can_be_analysed before -> ~ can_be_analysed c -> node lowest highest (before ++ c :: after) = node lowest highest before.
Proof.
  intros B N. induction B as [|b l Cb _ IH]; cbn [app node].
  - destruct (analyse lowest highest c) as [o| |] eqn:E; [|reflexivity|reflexivity]. exfalso. apply N. apply analysed_exactly. exists o. exact E.
  - apply analysed_exactly in Cb. destruct Cb as [o E]. rewrite E, IH. reflexivity.
Qed.
End Limits.

(* ---- cases ---- *)
Definition full : acloud := mkAC 7 1234567 "lidar" 2 [mkAF "x" true [Some 1; Some 3]; mkAF "r" true [None; Some 5]].
Definition none : acloud := mkAC 8 2000000 "lidar" 0 [mkAF "x" true []].
Example full_case : can_be_analysed full /\ proper (-10) 10 full.
Proof. split; [right; split; [discriminate|]; intros f [<-|[<-|[]]]; reflexivity|]. intros f [<-|[<-|[]]]; (split; [reflexivity|]); intros x X; cbn in X; repeat (destruct X as [X|X]; [injection X as <- || discriminate X; lra|]); contradiction. Qed.
Lemma none_not : ~ can_be_analysed none. Proof. intros [H|[H _]]; [discriminate H|apply H; reflexivity]. Qed.
(* finding: a cloud without points ends the node *)
Theorem empty_cloud_refuted lowest highest : ~ forall l c, In c l -> can_be_analysed c -> exists o, In o (node lowest highest l) /\ analyse lowest highest c = Ok o.
Proof.
  intros H. destruct (H [none; full] full (or_intror (or_introl eq_refl)) (proj1 full_case)) as (o & I & _). pose proof (node_stops lowest highest [] none [full] (Forall_nil _) none_not) as E. cbn [app] in E. rewrite E in I. contradiction.
Qed.
(* finding: one NaN and there is no mean of the others, though the extremes pass over it and the count includes it *)
Theorem nan_mean_refuted : ~ forall lowest highest n f s, field_statistics lowest highest n f = Ok s -> List.length (af_values f) = n -> (exists x, In (Some x) (af_values f)) -> exists m, as_mean s = Some m.
Proof. intros H. destruct (H (-10) 10 2%nat (mkAF "r" true [None; Some 5]) _ eq_refl eq_refl) as [m E]; [exists 5; right; left; reflexivity|discriminate E]. Qed.
(* finding: without a number the least value is greater than the greatest *)
Theorem nan_only_refuted lowest highest : lowest < highest -> ~ forall n f s lo hi, field_statistics lowest highest n f = Ok s -> List.length (af_values f) = n -> as_min s = Some lo -> as_max s = Some hi -> lo <= hi.
Proof. intros L H. specialize (H 1%nat (mkAF "r" true [None]) _ highest lowest eq_refl eq_refl eq_refl eq_refl). lra. Qed.
(* finding: normals of NaN are called normalised *)
Theorem nan_normals_refuted : ~ forall c x y z, find_values "normal_x" c = Some x -> find_values "normal_y" c = Some y -> find_values "normal_z" c = Some z -> normals_remark c = AllFine ->
  forall i a, nth_error x i = Some a -> a <> None.
Proof.
  intros H. apply (H (mkAC 0 0 "" 1 [mkAF "normal_x" true [None]; mkAF "normal_y" true [None]; mkAF "normal_z" true [None]]) _ _ _ eq_refl eq_refl eq_refl eq_refl 0%nat None eq_refl). reflexivity.
Qed.
(* finding: the stamp is not that of the cloud *)
Theorem stamp_refuted lowest highest : ~ forall c a r, analyse lowest highest c = Ok (a, r) -> aa_stamp a = ac_stamp c.
Proof. intros H. specialize (H (mkAC 0 1234567 "" 0 []) _ _ eq_refl). discriminate H. Qed.
(* a normal of length two among two *)
Example normals_case : normals_remark (mkAC 0 0 "" 2 [mkAF "normal_x" true [Some 2; None]; mkAF "normal_y" true [Some 0; Some 0]; mkAF "normal_z" true [Some 0; Some 0]]) = Bad 1 2.
Proof.
  unfold normals_remark. cbn [find_values find ac_fields af_name String.eqb Ascii.eqb Bool.eqb af_values ac_points]. unfold check_normals. cbn [combine filter].
  assert (B : bad_normal (Some 2, Some 0, Some 0) = true). { apply bad_iff. exists 2, 0, 0. split; [reflexivity|]. replace (vnorm (2, 0, 0)) with 2; [rewrite Rabs_right; lra|]. unfold vnorm, vdot. symmetry. apply sqrt_lem_1; lra. }
  rewrite B. reflexivity.
Qed.
