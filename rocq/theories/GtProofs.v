(* The graph beside the IMU integrator holds a state for every ten measurements. *)
From Coq Require Import ZArith Reals List Bool Lia Lra.
From Verif Require Import Base Mx Interp Geo EgModel CvModel MsModel NvModel NvSpec NvProofs GtModel GtSpec.
Import ListNotations.
Open Scope Z_scope.

Section P.
Variable pim : Type.
Variable strict : bool.
Variable add : pim -> vec3 -> vec3 -> R -> pim.
Variable predict : pim -> nav -> nav.
Variable pcov : pim -> mx.
Variable imu_body : iso.
Variable position velocity : vec3.
Variable p0 : pim.
Variable solvable : list (factor pim) -> values -> bool.
Notation run := (g_all pim strict add predict pcov imu_body position velocity p0 solvable).
Notation stepg := (g_step pim strict add predict pcov imu_body position velocity p0 solvable).
Notation gr := (group).
Notation state := (predicted add predict p0).
Notation vals := (graph_values add predict p0).
Notation facs := (graph_factors add p0).

(* ---- earlier states do not depend on later measurements ---- *)
Lemma group_app T e n : (10 * S n <= length T)%nat -> group (T ++ e) n = group T n.
Proof. intros L. unfold group. rewrite skipn_app, firstn_app, skipn_length. replace (10 - (length T - 10 * n))%nat with 0%nat by lia. rewrite firstn_O, app_nil_r. reflexivity. Qed.
Lemma state_app x0 T e n : (10 * n <= length T)%nat -> state x0 (T ++ e) n = state x0 T n.
Proof. induction n as [|n IH]; intros L; [reflexivity|]. cbn [predicted]. rewrite group_app, IH by lia. reflexivity. Qed.
Lemma vals_app x0 T e n : (10 * n <= length T)%nat -> vals x0 (T ++ e) n = vals x0 T n.
Proof. intros L. unfold graph_values. rewrite !flat_map_concat_map. f_equal. apply map_ext_in. intros k K. apply in_seq in K. unfold state_values. rewrite state_app by lia. reflexivity. Qed.
Lemma facs_app x0 T e n : (10 * n <= length T)%nat -> facs x0 (T ++ e) n = facs x0 T n.
Proof. intros L. unfold graph_factors. f_equal. apply map_ext_in. intros k K. apply in_seq in K. unfold between. rewrite group_app by lia. reflexivity. Qed.
Lemma vals_S x0 T n : vals x0 T (S n) = vals x0 T n ++ state_values add predict p0 x0 T (S n).
Proof. unfold graph_values. rewrite (seq_S (S n)), flat_map_app. cbn [flat_map plus]. rewrite app_nil_r. reflexivity. Qed.
Lemma facs_S x0 T n : facs x0 T (S n) = facs x0 T n ++ [between add p0 T n].
Proof. unfold graph_factors. rewrite seq_S, map_app, app_assoc. reflexivity. Qed.

(* ---- the keys of the graph ---- *)
Lemma has_app k a b : has k (a ++ b) = has k a || has k b. Proof. apply existsb_app. Qed.
Lemma has_vals x0 T n k : has (X (Z.of_nat k)) (vals x0 T n) = Nat.leb k n /\ has (V (Z.of_nat k)) (vals x0 T n) = Nat.leb k n /\ has (B (Z.of_nat k)) (vals x0 T n) = Nat.leb k n.
Proof.
  induction n as [|n (IX & IV & IB)].
  - unfold graph_values, has. cbn [seq flat_map state_values app existsb fst key_eqb]. rewrite !orb_false_r. change (Z.of_nat 0) with 0. repeat split; destruct (Z.eqb_spec (Z.of_nat k) 0), (Nat.leb_spec k 0); try reflexivity; lia.
  - rewrite vals_S, !has_app, IX, IV, IB. unfold state_values, has. cbn [existsb fst key_eqb]. rewrite !orb_false_r, !orb_false_l.
    repeat split; destruct (Z.eqb_spec (Z.of_nat k) (Z.of_nat (S n))), (Nat.leb_spec k n), (Nat.leb_spec k (S n)); try reflexivity; lia.
Qed.
Lemma insert3_ok k x l : has (X k) l = false -> has (V k) l = false -> has (B k) l = false -> insert3 k x l = Ok (l ++ [(X k, VPose (n_rot x) (n_pos x)); (V k, VVel (n_vel x)); (B k, VBias)]).
Proof.
  intros HX HV HB. unfold insert3, insert. rewrite HX. cbn [rbind]. rewrite has_app, HV. cbn [has existsb fst key_eqb orb rbind]. rewrite !has_app, HB. cbn [has existsb fst key_eqb orb rbind]. rewrite <- !app_assoc. reflexivity.
Qed.

(* pose, velocity and bias of every state are there once *)
Theorem keys_once x0 T n : NoDup (map fst (vals x0 T n)) /\ length (vals x0 T n) = (3 * S n)%nat.
Proof.
  induction n as [|n [IH IL]].
  - split; [|reflexivity]. cbn. repeat constructor; cbn; intuition discriminate.
  - rewrite vals_S. split; [|rewrite app_length, IL; cbn; lia]. rewrite map_app.
    assert (H : forall k, In k (map fst (vals x0 T n)) -> has k (vals x0 T n) = true).
    { intros k K. apply in_map_iff in K. destruct K as (e & <- & K). apply existsb_exists. exists e. split; [exact K|]. destruct (fst e); cbn; apply Z.eqb_refl. }
    destruct (has_vals x0 T n (S n)) as (HX & HV & HB). assert (LB : Nat.leb (S n) n = false) by (apply Nat.leb_gt; lia). rewrite LB in HX, HV, HB.
    assert (NX : forall k, has k (vals x0 T n) = false -> ~ In k (map fst (vals x0 T n))) by (intros k F I; apply H in I; congruence).
    unfold state_values. cbn [map fst]. generalize dependent (map fst (vals x0 T n)). intros K NK _ NX. apply NX in HX, HV, HB.
    assert (P : Permutation (K ++ [X (Z.of_nat (S n)); V (Z.of_nat (S n)); B (Z.of_nat (S n))]) ([X (Z.of_nat (S n)); V (Z.of_nat (S n)); B (Z.of_nat (S n))] ++ K)) by apply Permutation_app_comm.
    apply (Permutation_NoDup (Permutation_sym P)). cbn [app]. repeat constructor; cbn [In]; intuition discriminate.
Qed.

(* ---- measurements in order ---- *)
Definition last_time (t : Z) (l : list rimu) : Z := last (map ri_time l) t.
Lemma last_cons (a : Z) l d : last (a :: l) d = last l a.
Proof. revert a d. induction l as [|b l IH]; intros a d; [reflexivity|]. change (last (a :: b :: l) d) with (last (b :: l) d). rewrite !IH. reflexivity. Qed.
Lemma timed_snoc l : forall t m, timed t (l ++ [m]) = timed t l ++ [(ri_a m, ri_w m, (IZR (ri_time m - last_time t l) / 1000000000)%R)].
Proof. induction l as [|a l IH]; intros t m; [reflexivity|]. cbn [app timed]. rewrite IH. unfold last_time. cbn [map]. rewrite last_cons. reflexivity. Qed.
Lemma timed_length l : forall t, length (timed t l) = length l. Proof. induction l; intros; cbn; auto. Qed.
Lemma stalls_snoc l : forall t m, ~ stalls strict t (l ++ [m]) -> ~ stalls strict t l /\ ~ (ri_time m = last_time t l \/ strict = true /\ ri_time m < last_time t l).
Proof.
  induction l as [|a l IH]; intros t m N; cbn [app stalls] in *.
  - split; [tauto|]. intros H. apply N. left. exact H.
  - destruct (IH (ri_time a) m) as [A C]; [tauto|]. split; [tauto|]. unfold last_time in *. cbn [map]. rewrite last_cons. exact C.
Qed.
Lemma feed_snoc p T e : feed add p (T ++ [e]) = let '(a, w, dt) := e in add (feed add p T) a w dt.
Proof. unfold feed. rewrite fold_left_app. reflexivity. Qed.

(* ---- the state of the node ---- *)
Definition inv (x0 : nav) (t0 : Z) (l : list rimu) (g : gstate pim) : Prop :=
  let T := timed t0 l in let n := (length l / 10)%nat in
  is_time (g_main g) = last_time t0 l /\ is_time (g_main g) <> 0 /\ h_frame (pa_header (is_path (g_main g))) = MAP /\
  g_count g = Z.of_nat (length l) /\ g_key g = Z.of_nat (S n) /\ g_nav g = state x0 T n /\ g_pim g = feed add p0 (skipn (10 * n) T) /\
  g_of g ++ g_nf g = facs x0 T n /\ g_ov g ++ g_nv g = vals x0 T n /\
  ((n = 0%nat /\ g_of g = [] /\ g_ov g = []) \/ ((0 < n)%nat /\ g_nf g = [] /\ g_nv g = [])).

Lemma inv_step x0 t0 l g m : (forall f v, solvable f v = true) -> inv x0 t0 l g -> ri_time m <> 0 -> Z.of_nat (length l) < 2147483647 ->
  ~ (ri_time m = last_time t0 l \/ strict = true /\ ri_time m < last_time t0 l) ->
  exists g' o, stepg g m = Ok (g', Some o) /\ inv x0 t0 (l ++ [m]) g'.
Proof.
  intros SOL (I1 & I2 & I3 & I4 & I5 & I6 & I7 & I8 & I9 & I10) NZ LEN NB. set (n := (length l / 10)%nat) in *.
  destruct (step_some pim strict add predict pcov imu_body position velocity (g_main g) m I2 I3) as [_ S]. destruct S as (od & pa & S1 & S2); [rewrite I1; exact NB|]. cbv zeta in S1, S2.
  unfold g_step. rewrite S1. cbn [rbind fst snd]. destruct (Z.eqb_spec (is_time (g_main g)) 0); [contradiction|].
  set (main := mkIS _ _ _ _) in *. set (p := add (g_pim g) _ _ _).
  assert (HL : length (timed t0 l) = length l) by apply timed_length.
  assert (D : (length l = 10 * n + length l mod 10)%nat) by (apply Nat.div_mod_eq). assert (M : (length l mod 10 < 10)%nat) by (apply Nat.mod_upper_bound; lia).
  assert (HP : p = feed add p0 (skipn (10 * n) (timed t0 (l ++ [m])))).
  { rewrite timed_snoc, skipn_app. replace (10 * n - length (timed t0 l))%nat with 0%nat by lia. cbn [skipn]. rewrite feed_snoc. unfold p. rewrite I7, I1. reflexivity. }
  rewrite I4. replace (Z.of_nat (length l) + 1) with (Z.of_nat (S (length l))) by lia. destruct (Z.gtb_spec (Z.of_nat (S (length l))) 2147483647) as [G|_]; [lia|].
  rewrite Z.rem_mod_nonneg by lia. assert (LS : length (l ++ [m]) = S (length l)) by (rewrite app_length; cbn; lia).
  assert (LT : last_time t0 (l ++ [m]) = ri_time m) by (unfold last_time; rewrite map_app; apply last_last).
  destruct (Z.eqb_spec (Z.of_nat (S (length l)) mod 10) 0) as [E|E].
  - (* a batch *)
    assert (E' : (S (length l) = 10 * S n)%nat) by (pose proof (Z.div_mod (Z.of_nat (S (length l))) 10 ltac:(lia)) as Q; rewrite E in Q; revert D M Q; generalize (length l mod 10)%nat (Z.of_nat (S (length l)) / 10); clearbody n; clear; intros; lia).
    assert (N' : (S (length l) / 10 = S n)%nat) by (rewrite E', Nat.mul_comm; apply Nat.div_mul; lia).
    assert (GP : group (timed t0 (l ++ [m])) n = skipn (10 * n) (timed t0 (l ++ [m]))).
    { unfold group. apply firstn_all2. rewrite skipn_length, timed_length, LS. lia. }
    assert (ST : state x0 (timed t0 (l ++ [m])) (S n) = predict p (g_nav g)).
    { cbn [predicted]. rewrite GP, <- HP. f_equal. rewrite timed_snoc, state_app by lia. symmetry. exact I6. }
    assert (VL : vals x0 (timed t0 (l ++ [m])) n = vals x0 (timed t0 l) n) by (rewrite timed_snoc; apply vals_app; lia).
    assert (FL : facs x0 (timed t0 (l ++ [m])) n = facs x0 (timed t0 l) n) by (rewrite timed_snoc; apply facs_app; lia).
    destruct (has_vals x0 (timed t0 l) n (S n)) as (HX & HV & HB). assert (LB : Nat.leb (S n) n = false) by (apply Nat.leb_gt; lia). rewrite LB in HX, HV, HB. rewrite <- I9, has_app in HX, HV, HB. apply orb_false_iff in HX, HV, HB.
    destruct HX as [HX1 HX2]. destruct HV as [HV1 HV2]. destruct HB as [HB1 HB2].
    unfold batch. rewrite I5, insert3_ok by assumption. cbn [rbind]. set (nv := g_nv g ++ _).
    assert (VS : g_ov g ++ nv = vals x0 (timed t0 (l ++ [m])) (S n)).
    { unfold nv. rewrite vals_S, VL, <- I9, app_assoc. f_equal. unfold state_values. rewrite ST. reflexivity. }
    assert (FS : g_of g ++ g_nf g ++ [Imu (X (Z.of_nat (S n) - 1)) (V (Z.of_nat (S n) - 1)) (X (Z.of_nat (S n))) (V (Z.of_nat (S n))) (B (Z.of_nat (S n) - 1)) (B (Z.of_nat (S n))) p] = facs x0 (timed t0 (l ++ [m])) (S n)).
    { rewrite facs_S, FL, <- I8, app_assoc. f_equal. unfold between. rewrite GP, <- HP. replace (Z.of_nat (S n) - 1) with (Z.of_nat n) by lia. reflexivity. }
    assert (U : update pim solvable g (g_nf g ++ [Imu (X (Z.of_nat (S n) - 1)) (V (Z.of_nat (S n) - 1)) (X (Z.of_nat (S n))) (V (Z.of_nat (S n))) (B (Z.of_nat (S n) - 1)) (B (Z.of_nat (S n))) p]) nv = Ok (facs x0 (timed t0 (l ++ [m])) (S n), vals x0 (timed t0 (l ++ [m])) (S n))).
    { unfold update. rewrite FS, VS, SOL.
      assert (A : existsb (fun e => has (fst e) (g_ov g)) nv = false).
      { destruct I10 as [(_ & _ & O)|(_ & _ & O)].
        - rewrite O. clear. induction nv; [reflexivity|exact IHnv].
        - unfold nv. rewrite O. cbn [app existsb fst]. rewrite HX1, HV1, HB1. reflexivity. }
      rewrite A.
      assert (C : forallb (fun f => forallb (fun k => has k (vals x0 (timed t0 (l ++ [m])) (S n))) (fkeys f)) (g_nf g ++ [Imu (X (Z.of_nat (S n) - 1)) (V (Z.of_nat (S n) - 1)) (X (Z.of_nat (S n))) (V (Z.of_nat (S n))) (B (Z.of_nat (S n) - 1)) (B (Z.of_nat (S n))) p]) = true).
      { rewrite forallb_app. apply andb_true_iff. split.
        - assert (IN : forall f, In f (g_nf g) -> In f (priors x0)).
          { destruct I10 as [(Z0 & O & _)|(_ & O & _)]; [|rewrite O; contradiction]. rewrite O in I8. cbn [app] in I8. rewrite Z0 in I8. unfold graph_factors in I8. cbn [seq map] in I8. rewrite app_nil_r in I8. rewrite I8. auto. }
          apply forallb_forall. intros f F. apply IN in F. destruct (has_vals x0 (timed t0 (l ++ [m])) (S n) 0) as (A1 & A2 & A3). cbn [Z.of_nat Nat.leb] in A1, A2, A3.
          destruct F as [<-|[<-|[<-|[]]]]; cbn [fkeys forallb]; rewrite ?A1, ?A2, ?A3; reflexivity.
        - cbn [forallb fkeys]. replace (Z.of_nat (S n) - 1) with (Z.of_nat n) by lia. destruct (has_vals x0 (timed t0 (l ++ [m])) (S n) n) as (-> & -> & ->). destruct (has_vals x0 (timed t0 (l ++ [m])) (S n) (S n)) as (-> & -> & ->).
          rewrite (proj2 (Nat.leb_le n (S n))), (proj2 (Nat.leb_le (S n) (S n))) by lia. reflexivity. }
      rewrite C. reflexivity. }
    rewrite U. cbn [rbind fst snd]. eexists. eexists. split; [reflexivity|]. unfold inv. rewrite LS, N', LT. cbn [g_main g_count g_key g_nav g_pim g_of g_nf g_ov g_nv]. rewrite !app_nil_r.
    split; [reflexivity|]. split; [exact NZ|]. split; [apply S2|]. split; [reflexivity|]. split; [lia|]. split; [symmetry; exact ST|]. split; [|split; [reflexivity|split; [reflexivity|right; repeat split; lia]]].
    rewrite skipn_all2; [reflexivity|]. rewrite timed_length, LS. lia.
  - assert (E' : (S (length l) / 10 = n)%nat).
    { assert (Q : (S (length l) mod 10 <> 0)%nat) by (intros Q; apply E; change 10 with (Z.of_nat 10); rewrite <- Nat2Z.inj_mod, Q; reflexivity).
      symmetry. apply (Nat.div_unique _ _ _ (S (length l mod 10))); [|lia]. clear - Q D M. destruct (Nat.eq_dec (S (length l mod 10)) 10) as [Y|Y]; [|lia]. exfalso. apply Q. replace (S (length l)) with (S n * 10)%nat by lia. apply Nat.mod_mul. lia. }
    eexists. eexists. split; [reflexivity|]. unfold inv. rewrite LS, E', LT. cbn [g_main g_count g_key g_nav g_pim g_of g_nf g_ov g_nv].
    split; [reflexivity|]. split; [exact NZ|]. split; [apply S2|]. split; [reflexivity|]. split; [exact I5|]. split; [rewrite timed_snoc, state_app by lia; exact I6|]. split; [exact HP|].
    rewrite timed_snoc, facs_app, vals_app by lia. split; [exact I8|]. split; [exact I9|exact I10].
Qed.

Lemma run_app a : forall g b, run g (a ++ b) = rbind (run g a) (fun r => rbind (run (fst r) b) (fun r' => Ok (fst r', snd r ++ snd r'))).
Proof.
  induction a as [|m a IH]; intros g b; cbn [app g_all].
  - cbn [rbind fst snd app]. destruct (run g b) as [[g' o]| |]; reflexivity.
  - destruct (stepg g m) as [[g1 o1]| |]; cbn [rbind fst snd]; [|reflexivity|reflexivity]. rewrite IH. destruct (run g1 a) as [[g2 o2]| |]; cbn [rbind fst snd]; [|reflexivity|reflexivity]. destruct (run g2 b) as [[g3 o3]| |]; cbn [rbind fst snd]; [|reflexivity|reflexivity]. destruct o1; reflexivity.
Qed.
Lemma run_inv x0 t0 l : (forall f v, solvable f v = true) -> forall g, inv x0 t0 [] g -> (forall m, In m l -> ri_time m <> 0) -> Z.of_nat (length l) <= 2147483647 -> ~ stalls strict t0 l ->
  exists g' outs, run g l = Ok (g', outs) /\ inv x0 t0 l g'.
Proof.
  intros SOL g I. induction l as [|m l IH] using rev_ind; intros NZ LEN NS.
  - exists g, []. split; [reflexivity|exact I].
  - rewrite app_length in LEN. cbn [length] in LEN. apply stalls_snoc in NS. destruct NS as [NS NB]. destruct IH as (g1 & o1 & R1 & I1); [intros x Hx; apply NZ; apply in_or_app; left; exact Hx|lia|exact NS|].
    destruct (inv_step x0 t0 l g1 m SOL I1) as (g2 & o & S & I2); [apply NZ; apply in_or_app; right; left; reflexivity|lia|exact NB|].
    exists g2, (o1 ++ [o]). split; [|exact I2]. rewrite run_app, R1. cbn [rbind fst snd g_all]. rewrite S. reflexivity.
Qed.

(* what is published is what the node without the graph publishes *)
Theorem same_published l : forall g g' outs, run g l = Ok (g', outs) -> integrate_all pim strict add predict pcov imu_body position velocity (g_main g) l = Ok (g_main g', outs).
Proof.
  induction l as [|m l IH]; intros g g' outs R; cbn [g_all integrate_all] in *; [injection R as <- <-; reflexivity|].
  destruct (stepg g m) as [[g1 o1]| |] eqn:S; try discriminate. cbn [rbind fst snd] in R. destruct (run g1 l) as [[g2 o2]| |] eqn:Q; try discriminate. cbn [rbind fst snd] in R. injection R as <- <-.
  unfold g_step in S. destruct (integrate _ _ _ _ _ _ _ _ (g_main g) m) as [[i o]| |]; try discriminate. cbn [rbind fst snd] in S |- *.
  assert (A : g_main g1 = i /\ o1 = o).
  { destruct (is_time (g_main g) =? 0).
    - destruct (insert3 _ _ _); try discriminate. cbn [rbind] in S. injection S as <- <-. split; reflexivity.
    - destruct (_ >? _); try discriminate. destruct (_ =? 0).
      + unfold batch in S. destruct (insert3 _ _ _); try discriminate. cbn [rbind] in S. destruct (update _ _ _ _ _); try discriminate. cbn [rbind] in S. injection S as <- <-. split; reflexivity.
      + injection S as <- <-. split; reflexivity. }
  destruct A as [<- <-]. rewrite (IH _ _ _ Q). reflexivity.
Qed.

(* the graph: a state every ten measurements, tied to the one before by the measurements between them *)
Theorem graph_built m0 l : (forall f v, solvable f v = true) -> ri_time m0 <> 0 -> (forall m, In m l -> ri_time m <> 0) -> Z.of_nat (length l) <= 2147483647 -> ~ stalls strict (ri_time m0) l ->
  let x0 := initial_state imu_body position velocity (ri_ori m0) in let T := timed (ri_time m0) l in let n := (length l / 10)%nat in
  exists g outs, run (gstate0 pim p0) (m0 :: l) = Ok (g, outs) /\
    integrate_all pim strict add predict pcov imu_body position velocity (istate0 pim p0) (m0 :: l) = Ok (g_main g, outs) /\
    ((length l < 10)%nat -> g_of g = [] /\ g_ov g = []) /\
    ((10 <= length l)%nat -> g_of g = facs x0 T n /\ g_ov g = vals x0 T n).
Proof.
  intros SOL T0 NZ LEN NS. cbv zeta. set (x0 := initial_state _ _ _ _).
  assert (S : exists g1, stepg (gstate0 pim p0) m0 = Ok (g1, None) /\ inv x0 (ri_time m0) [] g1).
  { unfold g_step, integrate. cbn [gstate0 g_main istate0 is_time Z.eqb rbind fst snd g_nv]. unfold insert3, insert. cbn [has existsb fst key_eqb orb rbind app]. eexists. split; [reflexivity|].
    unfold inv. cbn. fold x0. repeat split; try assumption. left. repeat split. }
  destruct S as (g1 & S & I). destruct (run_inv x0 (ri_time m0) l SOL g1 I NZ LEN NS) as (g & outs & R & (_ & _ & _ & _ & _ & _ & _ & F & W & C)).
  assert (RR : run (gstate0 pim p0) (m0 :: l) = Ok (g, outs)) by (cbn [g_all]; rewrite S; cbn [rbind fst snd]; rewrite R; reflexivity).
  exists g, outs. split; [exact RR|]. split; [apply (same_published _ _ _ _ RR)|]. split.
  - intros L. rewrite Nat.div_small in C by exact L. destruct C as [(_ & A & A')|(A & _)]; [split; assumption|lia].
  - intros L. assert (0 < length l / 10)%nat by (apply Nat.div_str_pos; lia). destruct C as [(A & _)|(_ & A & A')]; [lia|]. rewrite A, app_nil_r in F. rewrite A', app_nil_r in W. split; assumption.
Qed.
End P.
(* the measurements between two states stand for the time between them *)
Definition stamp (m0 : rimu) (l : list rimu) (i : nat) : Z := ri_time (nth i (m0 :: l) m0).
Lemma total_firstn m0 l n : (n <= length l)%nat -> total (firstn n (timed (ri_time m0) l)) = (IZR (stamp m0 l n - stamp m0 l 0) / 1000000000)%R.
Proof.
  intros L. destruct n as [|n]; [rewrite Z.sub_diag; unfold Rdiv; rewrite Rmult_0_l; reflexivity|]. destruct (nth_error l n) as [m|] eqn:E; [|apply nth_error_None in E; lia].
  rewrite (times_add_up (ri_time m0) l n m E). unfold stamp. cbn [nth]. rewrite (nth_error_nth l n m0 E). reflexivity.
Qed.
Lemma total_app a b : total (a ++ b) = (total a + total b)%R.
Proof. induction a as [|x a IH]; [symmetry; apply Rplus_0_l|]. change (snd x + total (a ++ b) = snd x + total a + total b)%R. rewrite IH. ring. Qed.
Theorem group_time m0 l n : (10 * S n <= length l)%nat -> total (group (timed (ri_time m0) l) n) = (IZR (stamp m0 l (10 * S n) - stamp m0 l (10 * n)) / 1000000000)%R.
Proof.
  intros L. pose proof (total_firstn m0 l (10 * S n) L) as A. pose proof (total_firstn m0 l (10 * n) ltac:(lia)) as C.
  assert (E : firstn (10 * S n) (timed (ri_time m0) l) = firstn (10 * n) (timed (ri_time m0) l) ++ group (timed (ri_time m0) l) n).
  { unfold group. replace (10 * S n)%nat with (10 * n + 10)%nat by lia. generalize (10 * n)%nat as k. intros k. generalize (timed (ri_time m0) l) as T. clear. induction k as [|k IH]; intros T; [reflexivity|]. destruct T; [reflexivity|]. cbn [plus firstn skipn app]. rewrite IH. reflexivity. }
  rewrite E, total_app, C in A. apply (Rplus_eq_reg_l (IZR (stamp m0 l (10 * n) - stamp m0 l 0) / 1000000000)). rewrite A, !minus_IZR. field.
Qed.
