(* Evaluation scripts: interpolation at given times, length of a trajectory against distances. *)
From Coq Require Import Reals List ZArith Lra Lia Bool.
From Verif Require Import Base Interp Geo EgModel EgProofs MsModel RoModel BfModel EvModel EvSpec EvProofs EvPose EvMove.
Import ListNotations.
Open Scope R_scope.

(* ---- distances ---- *)
Lemma vnorm_pos v : 0 <= vnorm v. Proof. apply sqrt_pos. Qed.
Lemma vnorm_sq v : vnorm v * vnorm v = vdot v v.
Proof. apply sqrt_sqrt. destruct v as [[x y] z]. cbn. nra. Qed.
Lemma cauchy a b : vdot a b <= vnorm a * vnorm b.
Proof.
  destruct (Rle_dec (vdot a b) 0) as [H|H]; [pose proof (vnorm_pos a); pose proof (vnorm_pos b); nra|]. apply Rnot_le_lt in H. apply Rsqr_incr_0_var; [|apply Rmult_le_pos; apply vnorm_pos]. unfold Rsqr. replace (vnorm a * vnorm b * (vnorm a * vnorm b)) with ((vnorm a * vnorm a) * (vnorm b * vnorm b)) by ring. rewrite !vnorm_sq.
  destruct a as [[x y] z], b as [[p q] r]. unfold vdot. pose proof (Rle_0_sqr (x * q - y * p)). pose proof (Rle_0_sqr (x * r - z * p)). pose proof (Rle_0_sqr (y * r - z * q)). unfold Rsqr in *. nra.
Qed.
Lemma triangle a b : vnorm (vadd a b) <= vnorm a + vnorm b.
Proof.
  pose proof (vnorm_pos a). pose proof (vnorm_pos b). apply Rsqr_incr_0_var; [|lra]. unfold Rsqr. rewrite vnorm_sq. pose proof (cauchy a b) as C. pose proof (vnorm_sq a) as Ea. pose proof (vnorm_sq b) as Eb. replace (vdot (vadd a b) (vadd a b)) with (vdot a a + 2 * vdot a b + vdot b b) by (destruct a as [[? ?] ?], b as [[? ?] ?]; cbn; ring). nra.
Qed.
Lemma path_nonneg : forall l, 0 <= path_length l.
Proof. induction l as [|a l IH]; [cbn; lra|]. destruct l as [|b l]; [cbn; lra|]. change (path_length (a :: b :: l)) with (vnorm (vsub b a) + path_length (b :: l)). pose proof (vnorm_pos (vsub b a)). lra. Qed.
Lemma path_tail a l : path_length l <= path_length (a :: l).
Proof. destruct l as [|b l]; [cbn; lra|]. change (path_length (a :: b :: l)) with (vnorm (vsub b a) + path_length (b :: l)). pose proof (vnorm_pos (vsub b a)). lra. Qed.
Lemma path_first : forall l a j q, nth_error (a :: l) j = Some q -> vnorm (vsub q a) <= path_length (a :: l).
Proof.
  induction l as [|b l IH]; intros a j q H.
  - destruct j as [|[|j]]; cbn in H; try discriminate. injection H as <-. replace (vsub a a) with v0 by (destruct a as [[? ?] ?]; unfold v0, vsub, vadd, vopp; apply triple_eq; ring). unfold vnorm, v0. cbn. replace (0 * 0 + 0 * 0 + 0 * 0) with 0 by ring. rewrite sqrt_0. lra.
  - destruct j as [|j]; cbn in H.
    + injection H as <-. replace (vsub a a) with v0 by (destruct a as [[? ?] ?]; unfold v0, vsub, vadd, vopp; apply triple_eq; ring). unfold vnorm at 1, v0. cbn [vdot]. replace (0 * 0 + 0 * 0 + 0 * 0) with 0 by ring. rewrite sqrt_0. apply path_nonneg.
    + change (path_length (a :: b :: l)) with (vnorm (vsub b a) + path_length (b :: l)). specialize (IH b j q H). replace (vsub q a) with (vadd (vsub b a) (vsub q b)) by (destruct a as [[? ?] ?], b as [[? ?] ?], q as [[? ?] ?]; unfold vsub, vadd, vopp; apply triple_eq; ring). pose proof (triangle (vsub b a) (vsub q b)). lra.
Qed.
Lemma path_covers : forall l i j p q, nth_error l i = Some p -> nth_error l j = Some q -> (i <= j)%nat -> vnorm (vsub q p) <= path_length l.
Proof.
  induction l as [|a l IH]; intros [|i] [|j] p q Hp Hq L; try discriminate; try lia.
  - injection Hp as <-. apply (path_first l a 0 q Hq).
  - injection Hp as <-. apply (path_first l a (S j) q Hq).
  - apply Rle_trans with (path_length l); [apply (IH i j); [exact Hp|exact Hq|lia]|apply path_tail].
Qed.

(* ---- interpolation ---- *)
Section Inter.
Variable mixq : quat -> quat -> R -> quat.
Variable r2q : mat3 -> quat.
Hypothesis unit_mix : stays_unit mixq.
Hypothesis ends : keeps_ends mixq.
Hypothesis reads : reads_rotation r2q.
Lemma end_is a b : oriented a -> oriented b -> pose_between mixq a b 1 = pose_to_matrix b.
Proof.
  intros Ha Hb. unfold pose_between, pose_to_matrix, to_transform. destruct (ends (qnormalise (mp_ori a)) (qnormalise (mp_ori b)) (qnormalise_unit _ Ha) (qnormalise_unit _ Hb)) as [_ ->]. f_equal. unfold between_points. destruct (mp_pos a) as [[? ?] ?], (mp_pos b) as [[? ?] ?]. unfold vadd, vscale. apply triple_eq; ring.
Qed.
Lemma advance_within_link (gt : list (R * mpose)) t : forall rest before, rest <> [] -> link gt before rest -> link gt (fst (advance_within before rest t)) (snd (advance_within before rest t)) /\
  (exists e r, snd (advance_within before rest t) = e :: r /\ (r = [] \/ t < fst e)) /\
  ((fst (advance_within before rest t) = before /\ snd (advance_within before rest t) = rest) \/ exists b, fst (advance_within before rest t) = Some b /\ fst b <= t).
Proof.
  induction rest as [|e rest IH]; intros before N L; [congruence|]. cbn [advance_within]. destruct rest as [|e2 rest].
  - cbn. split; [exact L|]. split; [exists e, []; split; [reflexivity|left; reflexivity]|]. left. split; reflexivity.
  - destruct (rleb (fst e) t) eqn:C.
    + apply rleb_t in C. assert (L' : link gt (Some e) (e2 :: rest)). { destruct L as (pre & E & _). exists (pre ++ [e]). split; [rewrite <- app_assoc; exact E|]. exists pre. reflexivity. }
      destruct (IH (Some e) ltac:(discriminate) L') as (A1 & A2 & A3). split; [exact A1|]. split; [exact A2|]. right. destruct A3 as [[A3 _]|A3]; [exists e; split; [exact A3|exact C]|exact A3].
    + cbn. split; [exact L|]. split; [exists e, (e2 :: rest); split; [reflexivity|]; right; unfold rleb in C; destruct (Rle_dec (fst e) t); [discriminate|lra]|]. left. split; reflexivity.
Qed.
Lemma coefficient_ok {X} t1 t2 t (f : R -> X) v : t1 <= t2 -> coefficient t1 t2 t f = Ok v -> exists c, t1 < t2 /\ t1 <= t <= t2 /\ 0 <= c <= 1 /\ t = t1 + c * (t2 - t1) /\ v = f c.
Proof.
  intros L. unfold coefficient. destruct (Req_EM_T t1 t2) as [E|E]; [destruct (Req_EM_T t t1); discriminate|]. set (c := (t - t1) / (t2 - t1)). destruct (rltb c 0) eqn:C1; [discriminate|]. destruct (rltb 1 c) eqn:C2; [discriminate|]. cbn. intros [= <-]. apply rltb_f in C1. apply rltb_f in C2. assert (Ec : t = t1 + c * (t2 - t1)) by (unfold c; field; lra). exists c. split; [lra|]. split; [split; nra|]. split; [lra|]. split; [exact Ec|reflexivity].
Qed.
Lemma inter_sound l : in_order l -> all_oriented l -> forall refs before rest r, rest <> [] -> link l before rest -> interpolate_loop mixq r2q before rest refs = Ok r ->
  map fst r = refs /\ forall t p, In (t, p) r -> value_at pose_to_matrix (pose_between mixq) l t (pose_to_matrix p) /\ oriented p.
Proof.
  intros O A. induction refs as [|t refs IH]; intros before rest r N L H; cbn [interpolate_loop] in H; [injection H as <-; split; [reflexivity|intros t p []]|]. cbv zeta in H. destruct (advance_within_link l t rest before N L) as (L1 & (e & r' & E1 & E2) & _). rewrite E1 in *.
  destruct (fst (advance_within before rest t)) as [b|] eqn:Eb; [|discriminate]. destruct (interp_transform mixq (fst b) (fst e) (snd b) (snd e) t) as [T| |] eqn:ET; cbn [rbind] in H; try discriminate. destruct (interpolate_loop mixq r2q (Some b) (e :: r') refs) as [rr| |] eqn:El; cbn [rbind] in H; try discriminate. injection H as <-.
  destruct (IH (Some b) (e :: r') rr ltac:(discriminate) L1 El) as [I1 I2]. cbn [map fst]. split; [rewrite I1; reflexivity|]. intros t' p' [Hi|Hi]; [|apply I2; exact Hi]. apply pair_equal_spec in Hi. destruct Hi as [<- <-].
  destruct L1 as (pre & EL & pre' & ->). rewrite <- app_assoc in EL. cbn [app] in EL. pose proof (order_pair l pre' b e r' O EL) as Ob. rewrite raw_is in ET. destruct (coefficient_ok _ _ _ _ _ Ob ET) as (c & C1 & C2 & C3 & C4 & ->).
  assert (Gb : oriented (snd b)) by (apply A; rewrite EL; apply in_or_app; right; left; reflexivity). assert (Ge : oriented (snd e)) by (apply A; rewrite EL; apply in_or_app; right; right; left; reflexivity).
  destruct (to_pose_back r2q reads (raw_between mixq (snd b) (snd e) c) (raw_motion mixq unit_mix _ _ c Gb Ge C3)) as (B1 & B2 & _). split; [|exact B2]. rewrite B1, (raw_eq mixq unit_mix) by assumption.
  destruct (Req_dec t (fst e)) as [Et|Et].
  - left. exists (snd e). rewrite Et, <- surjective_pairing. split; [rewrite EL; apply in_or_app; right; right; left; reflexivity|]. assert (c = 1) as -> by nra. apply end_is; assumption.
  - right. exists pre', r', (fst b), (snd b), (fst e), (snd e), c. rewrite <- !surjective_pairing. split; [exact EL|]. split; [lra|]. split; [exact C4|reflexivity].
Qed.
Lemma interpolate_sound refs l r : in_order l -> all_oriented l -> interpolate_trajectory mixq r2q refs l = Ok r ->
  map fst r = refs /\ forall t p, In (t, p) r -> value_at pose_to_matrix (pose_between mixq) l t (pose_to_matrix p) /\ oriented p.
Proof.
  intros O A H. unfold interpolate_trajectory in H. destruct refs as [|t refs]; [discriminate|]. destruct l as [|f l]; [discriminate|]. destruct (_ || _); [discriminate|]. apply (inter_sound (f :: l) O A (t :: refs) None (f :: l) r); [discriminate|apply link_start|exact H].
Qed.
Lemma inter_total (l : list (R * mpose)) : increasing l -> (2 <= length l)%nat -> forall refs before rest, rest <> [] -> link l before rest -> (forall i j s t, nth_error refs i = Some s -> nth_error refs j = Some t -> (i <= j)%nat -> s <= t) ->
  (forall t, In t refs -> (forall a, nth_error l 0 = Some a -> fst a <= t) /\ (exists a, In a l /\ t <= fst a)) -> (forall b t, before = Some b -> In t refs -> fst b <= t) -> exists r, interpolate_loop mixq r2q before rest refs = Ok r.
Proof.
  intros O Len. induction refs as [|t refs IH]; intros before rest N L Or Hc Hb; cbn [interpolate_loop]; [eexists; reflexivity|]. cbv zeta. destruct (advance_within_link l t rest before N L) as (L1 & (e & r' & E1 & E2) & E3). rewrite E1 in *. destruct (Hc t (or_introl eq_refl)) as (Hf & a & Ha & Hta).
  destruct (fst (advance_within before rest t)) as [b|] eqn:Eb.
  - assert (Hbt : fst b <= t) by (destruct E3 as [[E3 _]|(b' & [= <-] & E3)]; [apply Hb; [symmetry; exact E3|left; reflexivity]|exact E3]). destruct L1 as (pre & EL & pre' & Ep). assert (EL' : l = pre' ++ b :: e :: r') by (rewrite EL, Ep, <- app_assoc; reflexivity).
    assert (Hlt : fst b < fst e). { apply (O (length pre') (S (length pre'))); [rewrite EL', nth_error_app2, Nat.sub_diag by lia; reflexivity|rewrite EL', nth_error_app2 by lia; replace (S (length pre') - length pre')%nat with 1%nat by lia; reflexivity|lia]. }
    assert (Hte : t <= fst e). { destruct E2 as [->|E2]; [|lra]. apply In_nth_error in Ha. destruct Ha as [i Hi]. assert (Li : (i < length l)%nat) by (apply nth_error_Some; rewrite Hi; discriminate). rewrite EL', app_length in Li. cbn in Li. assert (He : nth_error l (S (length pre')) = Some e) by (rewrite EL', nth_error_app2 by lia; replace (S (length pre') - length pre')%nat with 1%nat by lia; reflexivity).
      destruct (Nat.eq_dec i (S (length pre'))) as [->|Ni]; [rewrite He in Hi; injection Hi as <-; exact Hta|]. pose proof (O i (S (length pre')) a e Hi He ltac:(lia)). lra. }
    rewrite raw_is. unfold coefficient. destruct (Req_EM_T (fst b) (fst e)) as [Q|Q]; [exfalso; lra|]. assert (C : 0 <= (t - fst b) / (fst e - fst b) <= 1). { split; [apply Rmult_le_pos; [lra|left; apply Rinv_0_lt_compat; lra]|]. apply Rmult_le_reg_r with (fst e - fst b); [lra|]. unfold Rdiv. rewrite Rmult_assoc, Rinv_l by lra. lra. }
    rewrite (proj2 (rltb_f _ 0)), (proj2 (rltb_f 1 _)) by lra. cbn [orb rbind]. destruct (IH (Some b) (e :: r') ltac:(discriminate)) as [r Er].
    + exists pre. split; [exact EL|]. exists pre'. exact Ep.
    + intros i j s u Hi Hj Hij. apply (Or (S i) (S j) s u Hi Hj). lia.
    + intros u Hu. apply Hc. right. exact Hu.
    + intros b' u [= <-] Hu. apply In_nth_error in Hu. destruct Hu as [j Hj]. pose proof (Or 0%nat (S j) t u eq_refl Hj ltac:(lia)). lra.
    + rewrite Er. cbn [rbind]. eexists. reflexivity.
  - exfalso. destruct L1 as (pre & EL & ->). cbn [app] in EL. subst l. specialize (Hf e eq_refl). destruct E2 as [->|E2]; [cbn in Len; lia|lra].
Qed.
Lemma interpolate_total refs (l : list (R * mpose)) : increasing l -> (2 <= length l)%nat -> refs <> [] -> (forall i j s t, nth_error refs i = Some s -> nth_error refs j = Some t -> (i <= j)%nat -> s <= t) -> (forall t, In t refs -> covered l t) -> exists r, interpolate_trajectory mixq r2q refs l = Ok r.
Proof.
  intros O Len Nr Or Hc. assert (Io : in_order l). { intros i j a b Ha Hb Hij. destruct (Nat.eq_dec i j) as [->|Ne]; [rewrite Ha in Hb; injection Hb as <-; lra|]. pose proof (O i j a b Ha Hb ltac:(lia)). lra. }
  unfold interpolate_trajectory. destruct refs as [|t refs]; [congruence|]. destruct l as [|f l]; [cbn in Len; lia|].
  assert (Rng : forall u, In u (t :: refs) -> fst f <= u <= fst (last (f :: l) f)). { intros u Hu. destruct (Hc u Hu) as (a & b & Ha & Hb & H). pose proof (in_order_ends (f :: l) f l eq_refl Io a Ha). pose proof (in_order_ends (f :: l) f l eq_refl Io b Hb). lra. }
  rewrite (proj2 (rltb_f _ _)) by (apply Rng; left; reflexivity). rewrite (proj2 (rltb_f _ _)) by (apply Rng; apply last_in; discriminate). cbn [orb]. apply (inter_total (f :: l) O Len (t :: refs) None (f :: l)); [discriminate|apply link_start|exact Or| |discriminate].
  intros u Hu. specialize (Rng u Hu). split; [intros a [= <-]; lra|]. exists (last (f :: l) f). split; [apply last_in; discriminate|lra].
Qed.
(* what it refuses and where it gives no number *)
Lemma single_reference e refs : interpolate_trajectory mixq r2q refs [e] = Throw.
Proof. unfold interpolate_trajectory. destruct refs as [|t refs]; [reflexivity|]. destruct (_ || _); reflexivity. Qed.
Lemma repeated_last t0 t p q r : t0 < t -> interpolate_trajectory mixq r2q [t] [(t0, p); (t, q); (t, r)] = UB.
Proof.
  intros H. unfold interpolate_trajectory. cbn [last fst]. rewrite (proj2 (rltb_f t t0)), (proj2 (rltb_f t t)) by lra. cbn [orb interpolate_loop advance_within fst snd]. rewrite (proj2 (rleb_t t0 t)), (proj2 (rleb_t t t)) by lra. cbn [fst snd]. unfold interp_transform, coefficient. destruct (Req_EM_T t t); [reflexivity|congruence].
Qed.
End Inter.
