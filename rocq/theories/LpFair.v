(* Along every fair execution with registration, every cloud is registered, and its odometry reaches the front end. *)
From Verif Require Import Base ImuModel ImuSpec ImuProofs FeModel FeSpec FeBaro FeProofs FeImu FeLive.
From Verif Require Import RegModel RegSpec RegProofs RegMore.
From Verif Require Import GmModel GmReady BeModel BeSpec BeProofs BeAbs BeInv BeSect BeHealthy BeLive BeFair BeFairMore LpModel LpSpec LpProofs LpInv LpLive LpExamples LpFairSpec.
Local Open Scope Z_scope.

Lemma does_dec g a : {does g a} + {~ does g a}.
Proof.
  destruct g as [|t| | |w|t], a as [[i| | |m|gg| |l|b]|]; cbn [does]; try (right; tauto); try (left; exact I); try (destruct w; right; tauto).
  - destruct (tid_dec (msg_tid m) t) as [E|N]; [|right; tauto]. destruct (tid_dec t TStereo) as [E2|N2]; [right; tauto|left; auto].
  - destruct w, l; try (right; tauto); left; exact I.
  - apply moves_dec.
Qed.

(* a time line made increasing beyond the last state *)
Fixpoint fixt (tau : nat -> Z) (n : nat) : Z := match n with O => tau O | S m => Z.max (tau n) (fixt tau m + 1) end.
Definition fixz (tau : nat -> Z) (k : Z) : Z := fixt tau (Z.to_nat k).
Lemma fixt_lt tau i j : (i < j)%nat -> fixt tau i < fixt tau j.
Proof. induction 1 as [|j L IH]; cbn [fixt]; lia. Qed.
Lemma fixz_mono tau : mono (fixz tau).
Proof. intros i k H. unfold fixz. apply fixt_lt. lia. Qed.
Lemma fixt_at tau l : up l -> (forall k t, nth_error l k = Some t -> tau k = t) -> forall n t, nth_error l n = Some t -> fixt tau n = t.
Proof.
  intros U A. induction n as [|n IH]; intros t E; [apply A; exact E|]. cbn [fixt]. rewrite (A _ _ E).
  destruct (nth_error l n) as [t'|] eqn:E'; [|apply nth_error_None in E'; apply nth_lt in E; lia]. rewrite (IH t' eq_refl). pose proof (up_nth l n (S n) t' t U E' E ltac:(lia)). lia.
Qed.

Section Fair.
Variable bp : Z -> Z -> Z -> Z -> Z.
Variable al_s al_m : Z -> Z -> Z -> Z.
Variable fc : fcfg.
Variable c : config.
Variable s2m : bool.
Variable p : nat -> past.
Variable x : nat -> loop.
Variable acts : nat -> option lact.
Variable time : nat -> Z.
Hypothesis Hm : matching fc c.
Hypothesis Hex : lexecution bp al_s al_m fc c s2m p x acts.
Hypothesis Htime : timeline x time.
Notation fair_to g := (fair_to bp al_s al_m fc c s2m g p x acts).

Notation lstep := (lstep bp al_s al_m fc c s2m).
Notation lreach := (lreach bp al_s al_m fc c s2m).
Notation ready := (ready bp al_s al_m fc c s2m).
Notation linv := (linv bp al_s al_m fc c s2m).
Notation rstep := (rstep Z Z al_s al_m s2m).
Notation rexec := (rexec Z Z al_s al_m s2m).

Lemma reach n : lreach (p n) (x n).
Proof.
  induction n as [|n IH]; [apply (le_start _ _ _ _ _ _ _ _ _ Hex)|]. pose proof (le_step _ _ _ _ _ _ _ _ _ Hex n) as X.
  destruct (acts n) as [a|]; [destruct X as (F & E & ->); econstructor; eauto|destruct X as (-> & ->); exact IH].
Qed.
Lemma inv n : exists d, linv (p n) (x n) d.
Proof. apply lreach_inv; [exact Hm|apply reach]. Qed.

(* ---- what only grows ---- *)
Record grows (p0 : past) (s : loop) (p1 : past) (s' : loop) : Prop := {
  g_out : exists o, f_out (l_f s') = f_out (l_f s) ++ o;
  g_ev : exists o, y_ev (l_b s') = y_ev (l_b s) ++ o;
  g_pub : exists o, r_pub Z Z (l_r s') = r_pub Z Z (l_r s) ++ o;
  g_h : exists o, h_b p1 = h_b p0 ++ o;
  g_in : forall t, (pget (l_in s) t <= pget (l_in s') t)%nat;
  g_odo : (l_odo s <= l_odo s')%nat;
  g_scn : (l_scn s <= l_scn s')%nat;
  g_map : (l_map s <= l_map s')%nat }.
Lemma none {A} (l : list A) : exists o, l = l ++ o.
Proof. exists []. rewrite app_nil_r. reflexivity. Qed.
Lemma grows_refl q s : grows q s q s.
Proof. constructor; auto using none. Qed.
Lemma more {A} (a b d : list A) : (exists o, b = a ++ o) -> (exists o, d = b ++ o) -> exists o, d = a ++ o.
Proof. intros [o ->] [o' ->]. rewrite <- app_assoc. eauto. Qed.
Lemma grows_trans p0 s0 p1 s1 p2 s2 : grows p0 s0 p1 s1 -> grows p1 s1 p2 s2 -> grows p0 s0 p2 s2.
Proof. intros [A1 A2 A3 A4 A5 A6 A7 A8] [B1 B2 B3 B4 B5 B6 B7 B8]. constructor; try lia; try (eapply more; eassumption). intros t. specialize (A5 t). specialize (B5 t). lia. Qed.
Lemma grows_step n : grows (p n) (x n) (p (S n)) (x (S n)).
Proof.
  pose proof (le_step _ _ _ _ _ _ _ _ _ Hex n) as X. destruct (acts n) as [a|]; [|destruct X as (-> & ->); apply grows_refl].
  destruct X as (F & E & ->). destruct a as [i| | |m|g| |l|a]; cbn [LpModel.lstep note] in *.
  - destruct (sensor i); [|discriminate]. unfold with_f in E. destruct (fe_step fc (l_f (x n)) i) eqn:Ef; try discriminate. cbn in E. injection E as <-. destruct (fe_grows _ _ _ _ Ef) as (o & Eo & _). constructor; cbn; auto using none; eauto.
  - unfold with_f in E. destruct (fe_step fc (l_f (x n)) IPoll) eqn:Ef; try discriminate. cbn in E. injection E as <-. destruct (fe_grows _ _ _ _ Ef) as (o & Eo & _). constructor; cbn; auto using none; eauto.
  - destruct (nth_error _ _) as [[k t]|]; [|discriminate]. unfold with_f in E. destruct (fe_step fc (l_f (x n)) (IOdom t)) eqn:Ef; try discriminate. cbn in E. injection E as <-. destruct (fe_grows _ _ _ _ Ef) as (o & Eo & _). constructor; cbn; auto using none; eauto.
  - destruct (next_on (x n) m); [|discriminate]. destruct (sys_step bp c (l_b (x n)) (ADeliver m)) eqn:Es; [|discriminate]. cbn in E. injection E as <-. destruct (ev_grows _ _ _ _ _ Es) as [o Eo]. constructor; cbn [l_f l_b l_r l_in l_odo l_scn l_map h_b]; auto using none; eauto.
    intros t. destruct (tid_dec t (msg_tid m)) as [->|N]; [rewrite pget_upd_eq; lia|rewrite pget_upd_ne by exact N; lia].
  - destruct (nth_error (cloud_stamps (l_f (x n))) (l_scn (x n))) as [t|]; [|discriminate]. destruct (existsb _ _); [|discriminate]. unfold with_r in E. destruct (rstep _ _) as [[r| |]|] eqn:Er in E; try discriminate. cbn in E. injection E as <-.
    destruct (reg_grows _ _ _ _ _ _ Er) as [o Eo]. constructor; cbn; auto using none; eauto.
  - destruct (nth_error (cloud_stamps (l_f (x n))) (l_map (x n))) as [t|]; [|discriminate]. destruct (nth_error (odoms _) _); [|discriminate]. unfold with_r in E. destruct (rstep _ _) as [[r| |]|] eqn:Er in E; try discriminate. cbn in E. injection E as <-.
    destruct (reg_grows _ _ _ _ _ _ Er) as [o Eo]. constructor; cbn; auto using none; eauto.
  - destruct (works l); [|discriminate]. unfold with_r in E. destruct (rstep _ _) as [[r| |]|] eqn:Er in E; try discriminate. cbn in E. injection E as <-.
    destruct (reg_grows _ _ _ _ _ _ Er) as [o Eo]. constructor; cbn; auto using none; eauto.
  - destruct (internalb a); [|discriminate]. destruct (sys_step bp c (l_b (x n)) a) eqn:Es; [|discriminate]. cbn in E. injection E as <-. destruct (ev_grows _ _ _ _ _ Es) as [o Eo]. constructor; cbn; auto using none; eauto.
Qed.
Lemma grown n m : (n <= m)%nat -> grows (p n) (x n) (p m) (x m).
Proof. induction 1 as [|m L IH]; [apply grows_refl|]. eapply grows_trans; [exact IH|apply grows_step]. Qed.

Definition clouds n := cloud_stamps (l_f (x n)).
Definition odos n := odoms (y_ev (l_b (x n))).
Definition pubs n := List.length (r_pub Z Z (l_r (x n))).
Lemma clouds_grow n m : (n <= m)%nat -> exists o, clouds m = clouds n ++ o.
Proof. intros L. destruct (g_out _ _ _ _ (grown n m L)) as [o E]. eapply cloud_grow. exact E. Qed.
Lemma odos_grow n m : (n <= m)%nat -> exists o, odos m = odos n ++ o.
Proof. intros L. destruct (g_ev _ _ _ _ (grown n m L)) as [o E]. unfold odos. rewrite E, odoms_app. eauto. Qed.
Lemma trans_grow n m t : (n <= m)%nat -> In t (trans (y_ev (l_b (x n)))) -> In t (trans (y_ev (l_b (x m)))).
Proof. intros L H. destruct (g_ev _ _ _ _ (grown n m L)) as [o E]. rewrite E, trans_app. apply in_or_app. auto. Qed.
Lemma pubs_grow n m : (n <= m)%nat -> (pubs n <= pubs m)%nat.
Proof. intros L. destruct (g_pub _ _ _ _ (grown n m L)) as [o E]. unfold pubs. rewrite E, app_length. lia. Qed.
Lemma clouds_len n m : (n <= m)%nat -> (List.length (clouds n) <= List.length (clouds m))%nat.
Proof. intros L. destruct (clouds_grow n m L) as [o ->]. rewrite app_length. lia. Qed.
Lemma odos_len n m : (n <= m)%nat -> (List.length (odos n) <= List.length (odos m))%nat.
Proof. intros L. destruct (odos_grow n m L) as [o ->]. rewrite app_length. lia. Qed.
Lemma posted_len n m t : (n <= m)%nat -> (List.length (posted (x n) t) <= List.length (posted (x m) t))%nat.
Proof.
  intros L. pose proof (grown n m L) as G. destruct (g_out _ _ _ _ G) as [o E]. destruct (g_pub _ _ _ _ G) as [o' E']. destruct t; cbn [posted]; rewrite ?E, ?E'; unfold out_inits, out_spans, out_baros; rewrite ?flat_map_app, ?map_length, ?app_length; cbn; lia.
Qed.

(* ---- moves ---- *)
Definition still (g : agent) (n m : nat) : Prop := forall j, (n <= j < m)%nat -> ~ does g (acts j).
Lemma still_or g n m : (exists j, (n <= j < m)%nat /\ does g (acts j)) \/ still g n m.
Proof.
  induction m as [|m IH]; [right; intros j Hj; lia|]. destruct IH as [(i & Hi & Hb)|S]; [left; exists i; split; [lia|exact Hb]|].
  destruct (does_dec g (acts m)) as [Y|Y].
  - destruct (Nat.le_gt_cases n m); [left; exists m; split; [lia|exact Y]|right; intros j Hj; lia].
  - right. intros j Hj. destruct (Nat.eq_dec j m) as [->|]; [exact Y|]. apply S. lia.
Qed.
Lemma first_move g n : forall d, (exists j, (n <= j < n + d)%nat /\ does g (acts j)) -> exists m, (n <= m)%nat /\ does g (acts m) /\ still g n m.
Proof.
  induction d as [|d IH]; intros (j & Hj & Hb); [lia|]. destruct (still_or g n (n + d)) as [D|D]; [apply IH; exact D|].
  assert (j = n + d)%nat as ->. { destruct (Nat.eq_dec j (n + d)); [assumption|]. destruct (D j); [lia|exact Hb]. } exists (n + d)%nat. conj; [lia|exact Hb|exact D].
Qed.
Lemma next_do g n : fair_to g -> (forall m, (n <= m)%nat -> still g n m -> exists m', (m <= m')%nat /\ (still g n m' -> ready g (p m') (x m'))) ->
  exists m, (n <= m)%nat /\ does g (acts m) /\ still g n m.
Proof.
  intros Hg H. destruct (Hg n) as (m & L & Hb).
  - intros m L. destruct (still_or g n m) as [(j & Hj & Hb)|S].
    + exists (Nat.max m (Datatypes.S j)). split; [lia|]. right. exists j. split; [lia|exact Hb].
    + destruct (H m L S) as (m' & L' & E). destruct (still_or g n m') as [D|S']; [exists m'; auto|]. exists m'. split; [exact L'|left; auto].
  - apply (first_move g n (Datatypes.S (m - n))). exists m. split; [lia|exact Hb].
Qed.
Lemma readiness g n a r : does g (Some a) -> fine fc (p n) (x n) a -> lstep (x n) a = Some r -> ready g (p n) (x n).
Proof. intros D F E. destruct (pipeline_safe _ _ _ _ _ _ _ _ _ _ Hm (reach n) F E) as [s' ->]. exists a, s'. auto. Qed.
Lemma readiness' g n a : does g (Some a) -> fine fc (p n) (x n) a -> lstep (x n) a <> None -> ready g (p n) (x n).
Proof. intros D F E. destruct (lstep (x n) a) eqn:El; [|congruence]. eapply readiness; eauto. Qed.
Lemma moved g n : does g (acts n) -> exists a, acts n = Some a /\ does g (Some a) /\ lstep (x n) a = Some (Ok (x (S n))) /\ p (S n) = note (x n) a (p n).
Proof.
  intros D. pose proof (le_step _ _ _ _ _ _ _ _ _ Hex n) as X. destruct (acts n) as [a|]; [|destruct g; try destruct w; destruct D]. destruct X as (F & E & E2). exists a. auto.
Qed.

(* ---- one instant ---- *)
Definition reg_moves (n : nat) : Prop :=
  match acts n with
  | Some (LScan g) => exists t, rstep (InS Z Z t g) (l_r (x n)) = Some (Ok (l_r (x (S n))))
  | Some LMap => exists t, rstep (InM Z Z t) (l_r (x n)) = Some (Ok (l_r (x (S n))))
  | Some (LReg l) => works l = true /\ rstep l (l_r (x n)) = Some (Ok (l_r (x (S n))))
  | _ => l_r (x (S n)) = l_r (x n)
  end.
Definition bump (g : agent) (n : nat) (v : loop -> nat) : Prop := v (x (S n)) = if does_dec g (acts n) then S (v (x n)) else v (x n).
Lemma instant n : bump GOdom n l_odo /\ bump GScan n l_scn /\ bump GMap n l_map /\ (forall t, t <> TStereo -> bump (GSend t) n (fun s => pget (l_in s) t)) /\ reg_moves n.
Proof.
  unfold bump, reg_moves. pose proof (le_step _ _ _ _ _ _ _ _ _ Hex n) as X. destruct (acts n) as [a|].
  2:{ destruct X as (-> & _). conj; try reflexivity; intros; try (destruct does_dec as [D|D]; [destruct D|reflexivity]). }
  destruct X as (_ & E & _). destruct a as [i| | |m|g| |l|a]; cbn [LpModel.lstep] in E.
  - destruct (sensor i); [|discriminate]. unfold with_f in E. destruct (fe_step fc (l_f (x n)) i); try discriminate. cbn in E. injection E as <-. conj; try reflexivity; intros; destruct does_dec as [D|D]; try reflexivity; destruct D.
  - unfold with_f in E. destruct (fe_step fc (l_f (x n)) IPoll); try discriminate. cbn in E. injection E as <-. conj; try reflexivity; intros; destruct does_dec as [D|D]; try reflexivity; destruct D.
  - destruct (nth_error _ _) as [[k t]|]; [|discriminate]. unfold with_f in E. destruct (fe_step fc (l_f (x n)) (IOdom t)); try discriminate. cbn in E. injection E as <-. conj; try reflexivity; intros; destruct does_dec as [D|D]; try reflexivity; try (destruct D; fail); destruct (D I).
  - destruct (next_on (x n) m); [|discriminate]. destruct (sys_step bp c (l_b (x n)) (ADeliver m)); [|discriminate]. cbn in E. injection E as <-. conj; try reflexivity; try (destruct does_dec as [D|D]; [destruct D|reflexivity]).
    intros t Nt. cbn [l_in]. destruct (does_dec (GSend t) (Some (LSend m))) as [D|D]; cbn [does] in D.
    + destruct D as [<- _]. apply pget_upd_eq.
    + apply pget_upd_ne. intros ->. apply D. auto.
  - destruct (nth_error (cloud_stamps (l_f (x n))) (l_scn (x n))) as [t|]; [|discriminate]. destruct (existsb _ _); [|discriminate]. unfold with_r in E. destruct (rstep _ _) as [[r| |]|] eqn:Er in E; try discriminate. cbn in E. injection E as <-.
    conj; try (intros; destruct does_dec as [D|D]; try reflexivity; try (destruct D; fail); destruct (D I)). eauto.
  - destruct (nth_error (cloud_stamps (l_f (x n))) (l_map (x n))) as [t|]; [|discriminate]. destruct (nth_error (odoms _) _); [|discriminate]. unfold with_r in E. destruct (rstep _ _) as [[r| |]|] eqn:Er in E; try discriminate. cbn in E. injection E as <-.
    conj; try (intros; destruct does_dec as [D|D]; try reflexivity; try (destruct D; fail); destruct (D I)). eauto.
  - destruct (works l) eqn:W; [|discriminate]. unfold with_r in E. destruct (rstep _ _) as [[r| |]|] eqn:Er in E; try discriminate. cbn in E. injection E as <-.
    conj; try (intros; destruct does_dec as [D|D]; try reflexivity; try (destruct D; fail)); auto.
  - destruct (internalb a); [|discriminate]. destruct (sys_step bp c (l_b (x n)) a); [|discriminate]. cbn in E. injection E as <-. conj; try reflexivity; intros; destruct does_dec as [D|D]; try reflexivity; destruct D.
Qed.
Lemma bump_still g v : (forall n, bump g n v) -> forall n m, (n <= m)%nat -> still g n m -> v (x m) = v (x n).
Proof.
  intros B n m L. induction L as [|m L IH]; intros S; [reflexivity|]. specialize (B m). unfold bump in B. destruct (does_dec g (acts m)) as [D|D]; [destruct (S m); [lia|exact D]|]. rewrite B. apply IH. intros j Hj. apply S. lia.
Qed.
Lemma bump_do g v : (forall n, bump g n v) -> forall n, does g (acts n) -> v (x (S n)) = S (v (x n)).
Proof. intros B n D. specialize (B n). unfold bump in B. destruct (does_dec g (acts n)); [exact B|contradiction]. Qed.

(* a counter reaches i + 1 when each of its values up to i is left again *)
Lemma count_up g v i : fair_to g -> (forall n, bump g n v) -> 
  forall n, (forall n' m, (n <= n')%nat -> (n' <= m)%nat -> (v (x n') <= i)%nat -> still g n' m -> exists m', (m <= m')%nat /\ (still g n' m' -> ready g (p m') (x m'))) ->
  exists m, (n <= m)%nat /\ (i < v (x m))%nat.
Proof.
  intros Hg B n H. assert (G : forall d n', (n <= n')%nat -> (i - v (x n') < d)%nat -> exists m, (n <= m)%nat /\ (i < v (x m))%nat).
  { induction d as [|d IH]; intros n' L Ld; [lia|]. destruct (Nat.le_gt_cases (v (x n')) i) as [Lv|Lv]; [|exists n'; auto].
    destruct (next_do g n' Hg) as (m & Lm & Dm & Sm); [intros m Lm Sm; apply H; auto|]. pose proof (bump_do g v B m Dm) as E. rewrite (bump_still g v B n' m Lm Sm) in E.
    destruct (Nat.eq_dec (v (x n')) i) as [Ei|Ni]; [exists (S m); split; lia|]. apply (IH (S m)); lia. }
  apply (G (S (i - v (x n))) n); lia.
Qed.

(* ---- registration: only its own callbacks need to be scheduled fairly ---- *)
Hypothesis Hcall : forall w, fair_to (GReg w).
Lemma alive n : r_ok Z Z (l_r (x n)) = true. Proof. eapply reg_ok. apply reach. Qed.
Lemma reg_run n : rexec (h_r (p n)) (rinit Z Z) = Some (Ok (l_r (x n))). Proof. destruct (inv n) as [d V]. apply V. Qed.
Lemma scn_len n : List.length (scans Z Z (h_r (p n))) = l_scn (x n).
Proof. destruct (inv n) as [d V]. destruct (v_scn _ _ _ _ _ _ _ _ _ V) as [V1 V2]. pose proof (f_equal (@List.length Z) V1) as E. rewrite map_length, firstn_length in E. lia. Qed.
Lemma map_len n : List.length (maps Z Z (h_r (p n))) = l_map (x n).
Proof. destruct (inv n) as [d V]. destruct (v_map _ _ _ _ _ _ _ _ _ V) as (V1 & V2 & _). pose proof (f_equal (@List.length Z) V1) as E. rewrite firstn_length in E. lia. Qed.
Lemma s_keeps n : ~ does (GReg ThS) (acts n) -> r_s Z Z (l_r (x n)) <> SIdle Z Z -> r_s Z Z (l_r (x (S n))) = r_s Z Z (l_r (x n)).
Proof.
  intros N Ns. destruct (instant n) as (_ & _ & _ & _ & X). unfold reg_moves in X. destruct (acts n) as [[i| | |m|g| |l|a]|]; try (rewrite X; reflexivity).
  - destruct X as [t X]. destruct (l_r (x n)) as [ok own qc qt pv s m pb]. cbn in *. destruct s; try discriminate. congruence.
  - destruct X as [t X]. destruct (l_r (x n)) as [ok own qc qt pv s m pb]. cbn in *. destruct m; try discriminate. injection X as <-. reflexivity.
  - destruct X as [W X]. destruct l; try discriminate; [destruct (N I)|]. destruct (l_r (x n)) as [ok own qc qt pv s m pb]. cbn in *. destruct m; try discriminate; try (injection X as <-; reflexivity).
    + destruct own; try discriminate; injection X as <-; reflexivity.
    + match type of X with (if ?b then _ else _) = _ => destruct b end; injection X as <-; reflexivity.
    + destruct ok; injection X as <-; reflexivity.
    + destruct qc; try discriminate; injection X as <-; reflexivity.
    + destruct qt; try discriminate; injection X as <-; reflexivity.
Qed.
Lemma m_keeps n : ~ does (GReg ThM) (acts n) -> r_m Z Z (l_r (x n)) <> MIdle Z Z -> r_m Z Z (l_r (x (S n))) = r_m Z Z (l_r (x n)).
Proof.
  intros N Ns. destruct (instant n) as (_ & _ & _ & _ & X). unfold reg_moves in X. destruct (acts n) as [[i| | |m|g| |l|a]|]; try (rewrite X; reflexivity).
  - destruct X as [t X]. destruct (l_r (x n)) as [ok own qc qt pv s m pb]. cbn in *. destruct s; try discriminate. injection X as <-. reflexivity.
  - destruct X as [t X]. destruct (l_r (x n)) as [ok own qc qt pv s m pb]. cbn in *. destruct m; try discriminate. congruence.
  - destruct X as [W X]. destruct l; try discriminate; [|destruct (N I)]. destruct (l_r (x n)) as [ok own qc qt pv s m pb]. cbn in *. destruct s; try discriminate; try (injection X as <-; reflexivity).
    + destruct pv; [destruct s2m|]; injection X as <-; reflexivity.
    + destruct own; try discriminate; injection X as <-; reflexivity.
Qed.
Lemma s_still n m : (n <= m)%nat -> still (GReg ThS) n m -> r_s Z Z (l_r (x n)) <> SIdle Z Z -> r_s Z Z (l_r (x m)) = r_s Z Z (l_r (x n)).
Proof.
  intros L S N. induction L as [|m L IH]; [reflexivity|]. assert (E : r_s Z Z (l_r (x m)) = r_s Z Z (l_r (x n))) by (apply IH; intros j Hj; apply S; lia). rewrite s_keeps; [exact E|apply S; lia|congruence].
Qed.
Lemma m_still n m : (n <= m)%nat -> still (GReg ThM) n m -> r_m Z Z (l_r (x n)) <> MIdle Z Z -> r_m Z Z (l_r (x m)) = r_m Z Z (l_r (x n)).
Proof.
  intros L S N. induction L as [|m L IH]; [reflexivity|]. assert (E : r_m Z Z (l_r (x m)) = r_m Z Z (l_r (x n))) by (apply IH; intros j Hj; apply S; lia). rewrite m_keeps; [exact E|apply S; lia|congruence].
Qed.
Lemma s_ready n r : rstep (RunS Z Z) (l_r (x n)) = Some r -> ready (GReg ThS) (p n) (x n).
Proof. intros E. eapply (readiness (GReg ThS) n (LReg (RunS Z Z))); [exact I|exact I|]. cbn [LpModel.lstep works]. unfold with_r. rewrite E. reflexivity. Qed.
Lemma m_ready n r : rstep (RunM Z Z) (l_r (x n)) = Some r -> ready (GReg ThM) (p n) (x n).
Proof. intros E. eapply (readiness (GReg ThM) n (LReg (RunM Z Z))); [exact I|exact I|]. cbn [LpModel.lstep works]. unfold with_r. rewrite E. reflexivity. Qed.
Lemma s_did n : does (GReg ThS) (acts n) -> rstep (RunS Z Z) (l_r (x n)) = Some (Ok (l_r (x (S n)))).
Proof. intros D. destruct (instant n) as (_ & _ & _ & _ & X). unfold reg_moves in X. destruct (acts n) as [[i| | |m|g| |l|a]|]; try destruct D. destruct l; try destruct D. apply X. Qed.
Lemma m_did n : does (GReg ThM) (acts n) -> rstep (RunM Z Z) (l_r (x n)) = Some (Ok (l_r (x (S n)))).
Proof. intros D. destruct (instant n) as (_ & _ & _ & _ & X). unfold reg_moves in X. destruct (acts n) as [[i| | |m|g| |l|a]|]; try destruct D. destruct l; try destruct D. apply X. Qed.

(* the next move of a callback of registration that is not waiting for the lock *)
Lemma s_next n : r_s Z Z (l_r (x n)) <> SIdle Z Z -> (forall c0 r, r_s Z Z (l_r (x n)) = SWant Z Z c0 r -> forall m, (n <= m)%nat -> exists m', (m <= m')%nat /\ r_own Z Z (l_r (x m')) = None) ->
  exists m, (n <= m)%nat /\ r_s Z Z (l_r (x m)) = r_s Z Z (l_r (x n)) /\ rstep (RunS Z Z) (l_r (x m)) = Some (Ok (l_r (x (S m)))).
Proof.
  intros N W. destruct (next_do (GReg ThS) n (Hcall ThS)) as (m & L & D & St).
  - intros m L St. assert (X : (forall c0 r, r_s Z Z (l_r (x n)) <> SWant Z Z c0 r) \/ exists c0 r, r_s Z Z (l_r (x n)) = SWant Z Z c0 r) by (destruct (r_s Z Z (l_r (x n))); eauto; left; discriminate).
    destruct X as [X|(c0 & r & X)].
    + exists m. split; [lia|]. intros _. pose proof (s_still n m L St N) as E. destruct (l_r (x m)) as [ok own qc qt pv s k pb] eqn:El. cbn in E. rewrite <- E in *.
      assert (Y : exists r, rstep (RunS Z Z) (l_r (x m)) = Some r). { rewrite El. cbn. destruct s; try congruence; eauto. destruct pv; [destruct s2m|]; eauto. }
      destruct Y as [r Y]. apply (s_ready m r Y).
    + destruct (W c0 r X m L) as (m' & L' & Eo). exists m'. split; [exact L'|]. intros S'. pose proof (s_still n m' ltac:(lia) S' N) as E. destruct (l_r (x m')) as [ok own qc qt pv s k pb] eqn:El. cbn in E, Eo. rewrite X in E. subst s own.
      eapply (s_ready m'). rewrite El. cbn. reflexivity.
  - exists m. split; [exact L|]. split; [apply s_still; auto|apply s_did; exact D].
Qed.
Lemma m_next n : r_m Z Z (l_r (x n)) <> MIdle Z Z -> (forall c0, r_m Z Z (l_r (x n)) = MWant Z Z c0 -> forall m, (n <= m)%nat -> exists m', (m <= m')%nat /\ r_own Z Z (l_r (x m')) = None) ->
  exists m, (n <= m)%nat /\ r_m Z Z (l_r (x m)) = r_m Z Z (l_r (x n)) /\ rstep (RunM Z Z) (l_r (x m)) = Some (Ok (l_r (x (S m)))).
Proof.
  intros N W. destruct (next_do (GReg ThM) n (Hcall ThM)) as (m & L & D & St).
  - intros m L St. assert (X : (forall c0, r_m Z Z (l_r (x n)) <> MWant Z Z c0) \/ exists c0, r_m Z Z (l_r (x n)) = MWant Z Z c0) by (destruct (r_m Z Z (l_r (x n))); eauto; left; discriminate).
    destruct X as [X|(c0 & X)].
    + exists m. split; [lia|]. intros _. pose proof (m_still n m L St N) as E. destruct (l_r (x m)) as [ok own qc qt pv s k pb] eqn:El. cbn in E. rewrite <- E in *.
      assert (Y : exists r, rstep (RunM Z Z) (l_r (x m)) = Some r).
      { rewrite El. cbn. destruct k; try congruence; eauto; [match goal with |- exists _, (if ?b then _ else _) = _ => destruct b end; eauto|destruct ok; eauto|destruct qc; eauto|destruct qt; eauto]. }
      destruct Y as [r Y]. apply (m_ready m r Y).
    + destruct (W c0 X m L) as (m' & L' & Eo). exists m'. split; [exact L'|]. intros S'. pose proof (m_still n m' ltac:(lia) S' N) as E. destruct (l_r (x m')) as [ok own qc qt pv s k pb] eqn:El. cbn in E, Eo. rewrite X in E. subst k own.
      eapply (m_ready m'). rewrite El. cbn. reflexivity.
  - exists m. split; [exact L|]. split; [apply m_still; auto|apply m_did; exact D].
Qed.
Lemma rinv_at n : s2m = true -> exists D Dm, rinv Z Z al_s al_m (h_r (p n)) (l_r (x n)) D Dm.
Proof.
  intros E2. pose proof (reg_run n) as X. rewrite E2 in X. destruct (rinv_exec Z Z al_s al_m _ _ _ _ _ _ (rinv_init Z Z al_s al_m) X) as (st' & D & Dm & E & J). injection E as <-. eauto.
Qed.

(* the lock of the queues is released again and again *)
Definition s_rank (s : spc Z Z) : nat := match s with SIdle _ _ => 0 | SEnd _ _ _ => 1 | SFree _ _ _ => 2 | SPushT _ _ _ _ => 3 | SPushC _ _ _ _ => 4 | SWant _ _ _ _ => 5 | SWork _ _ _ _ => 6 end.
Lemma s_frees : forall k n, (s_rank (r_s Z Z (l_r (x n))) <= k)%nat -> s_crit Z Z (r_s Z Z (l_r (x n))) = true -> exists m, (n <= m)%nat /\ r_own Z Z (l_r (x m)) = None.
Proof.
  induction k as [|k IH]; intros n Lk C; [destruct (r_s Z Z (l_r (x n))); cbn in *; try discriminate; lia|].
  destruct (s_next n) as (m & L & E & Es); [intros Z0; rewrite Z0 in C; discriminate|intros c0 r Z0; rewrite Z0 in C; discriminate|]. rewrite <- E in *.
  destruct (l_r (x m)) as [ok own qc qt pv s k0 pb] eqn:El. cbn in *. destruct s; try discriminate; injection Es as Es.
  - destruct (IH (S m)) as (m' & L' & Eo); [rewrite <- Es; cbn in *; lia|rewrite <- Es; reflexivity|]. exists m'. split; [lia|exact Eo].
  - destruct (IH (S m)) as (m' & L' & Eo); [rewrite <- Es; cbn in *; lia|rewrite <- Es; reflexivity|]. exists m'. split; [lia|exact Eo].
  - exists (S m). split; [lia|]. rewrite <- Es. reflexivity.
Qed.
Lemma m_frees : forall k n, (m_steps Z Z (r_m Z Z (l_r (x n))) <= k)%nat -> m_crit Z Z (r_m Z Z (l_r (x n))) = true -> exists m, (n <= m)%nat /\ r_own Z Z (l_r (x m)) = None.
Proof.
  induction k as [|k IH]; intros n Lk C; [destruct (r_m Z Z (l_r (x n))); cbn in *; try discriminate; lia|].
  destruct (m_next n) as (m & L & E & Es); [intros Z0; rewrite Z0 in C; discriminate|intros c0 Z0; rewrite Z0 in C; discriminate|]. rewrite <- E in *.
  pose proof (alive m) as Ok. destruct (l_r (x m)) as [ok own qc qt pv s k0 pb] eqn:El. cbn in Ok. subst ok. cbn [r_m] in *.
  assert (Go : m_crit Z Z (r_m Z Z (l_r (x (S m)))) = true -> (m_steps Z Z (r_m Z Z (l_r (x (S m)))) <= k)%nat -> exists m, (n <= m)%nat /\ r_own Z Z (l_r (x m)) = None).
  { intros C' L'. destruct (IH (S m) L' C') as (m' & L2 & Eo). exists m'. split; [lia|exact Eo]. }
  cbn [RegModel.rstep] in Es. destruct k0; try discriminate; cbn in Lk.
  - match type of Es with (if ?b then _ else _) = _ => destruct b end; injection Es as Es; [exists (S m); split; [lia|rewrite <- Es; reflexivity]|]. apply Go; rewrite <- Es; cbn; auto; lia.
  - injection Es as Es. apply Go; rewrite <- Es; cbn; auto; lia.
  - destruct qc; [discriminate|]. injection Es as Es. apply Go; rewrite <- Es; cbn; auto; lia.
  - destruct qt; [discriminate|]. injection Es as Es. apply Go; rewrite <- Es; cbn; auto; lia.
  - injection Es as Es. exists (S m); split; [lia|rewrite <- Es; reflexivity].
Qed.
Lemma lock_freed n : s2m = true -> exists m, (n <= m)%nat /\ r_own Z Z (l_r (x m)) = None.
Proof.
  intros E2. destruct (rinv_at n E2) as (D & Dm & J). destruct (r_own Z Z (l_r (x n))) as [[|]|] eqn:Eo; [| |exists n; auto].
  - eapply s_frees; [apply le_n|]. apply (ri_s1 _ _ _ _ _ _ _ _ J). exact Eo.
  - eapply m_frees; [apply le_n|]. destruct (ri_m2 _ _ _ _ _ _ _ _ J Eo) as [X|(X & _)]; [exact X|]. rewrite alive in X. discriminate.
Qed.

(* the scan callback comes back *)
Lemma s_idles : forall k n, (s_rank (r_s Z Z (l_r (x n))) <= k)%nat -> exists m, (n <= m)%nat /\ r_s Z Z (l_r (x m)) = SIdle Z Z.
Proof.
  induction k as [|k IH]; intros n Lk.
  - exists n. split; [lia|]. destruct (r_s Z Z (l_r (x n))); cbn in Lk; try lia. reflexivity.
  - assert (D : r_s Z Z (l_r (x n)) = SIdle Z Z \/ r_s Z Z (l_r (x n)) <> SIdle Z Z) by (destruct (r_s Z Z (l_r (x n))); auto; right; discriminate). destruct D as [D|D]; [exists n; auto|].
    destruct (s_next n D) as (m & L & E & Es).
    { intros c0 r Z0 m L. assert (D2 : s2m = true \/ s2m = false) by (clear; destruct s2m; auto). destruct D2 as [E2|E2]; [apply lock_freed; exact E2|exfalso].
      pose proof (reg_run n) as X. rewrite E2 in X. destruct (dinv_exec Z Z al_s al_m _ [] _ _ (dinv_init Z Z al_s) X) as (st & Y & J). injection Y as <-. pose proof (di_s _ _ _ _ _ J) as W. rewrite Z0 in W. exact W. }
    rewrite <- E in *. assert (Go : (s_rank (r_s Z Z (l_r (x (S m)))) <= k)%nat -> exists m, (n <= m)%nat /\ r_s Z Z (l_r (x m)) = SIdle Z Z).
    { intros L'. destruct (IH (S m) L') as (m' & L2 & Eo). exists m'. split; [lia|exact Eo]. }
    destruct (l_r (x m)) as [ok own qc qt pv s k0 pb]. cbn in *. destruct s; cbn in *; try congruence; try (injection Es as Es; apply Go; rewrite <- Es; cbn; lia).
    + destruct pv; [match type of Es with context [if ?b then _ else _] => destruct b end|]; injection Es as Es; apply Go; rewrite <- Es; cbn; lia.
    + destruct own; [discriminate|]. injection Es as Es; apply Go; rewrite <- Es; cbn; lia.
Qed.
Lemma s_idle n : exists m, (n <= m)%nat /\ r_s Z Z (l_r (x m)) = SIdle Z Z.
Proof. eapply s_idles. apply le_n. Qed.

Hypothesis Hfair : lfair bp al_s al_m fc c s2m p x acts.

(* ---- topics ---- *)
Lemma odo_arrives n i : (i < List.length (odos n))%nat -> exists m, (n <= m)%nat /\ (i < l_odo (x m))%nat.
Proof.
  intros L. apply (count_up GOdom l_odo i (Hfair GOdom)); [intros; apply instant|]. intros n' m L' Lm Lv St. exists m. split; [lia|]. intros _.
  pose proof (bump_still GOdom l_odo (fun n => proj1 (instant n)) n' m Lm St) as E. pose proof (odos_len n m ltac:(lia)) as Lo.
  destruct (nth_error (odos m) (l_odo (x m))) as [[k t]|] eqn:En; [|apply nth_error_None in En; lia]. unfold odos in En. destruct (inv m) as [d V].
  destruct (front_step bp al_s al_m fc c s2m Hm _ _ _ (IOdom t) (S (l_odo (x m))) V (odom_calm _ _ _ _ _ _ Hm _ _ _ _ _ V En) I) as (s' & E' & _); [eauto|].
  apply (readiness GOdom m LOdom (Ok s')); [exact I|exact I|]. cbn [LpModel.lstep]. rewrite En. exact E'.
Qed.
Lemma send_arrives t n i : t <> TStereo -> subscribed c t = true -> (i < List.length (posted (x n) t))%nat -> (t = TImu -> Z.of_nat i + 1 < int_max) -> exists m, (n <= m)%nat /\ (i < pget (l_in (x m)) t)%nat.
Proof.
  intros Nt Sb L Hi. assert (B : forall n, bump (GSend t) n (fun s => pget (l_in s) t)) by (intros n0; apply (instant n0); exact Nt).
  apply (count_up (GSend t) (fun s => pget (l_in s) t) i (Hfair (GSend t)) B). intros n' m L' Lm Lv St. exists m. split; [lia|]. intros _.
  pose proof (bump_still _ _ B n' m Lm St) as E. cbn beta in E. pose proof (posted_len n m t ltac:(lia)) as Lo. destruct (inv m) as [d V].
  destruct (nth_error (posted (x m) t) (pget (l_in (x m)) t)) as [ts|] eqn:En; [|apply nth_error_None in En; lia].
  assert (Et : msg_tid (mk t ts) = t) by (destruct t; reflexivity). assert (Es : stamp (mk t ts) = ts) by (destruct t; reflexivity).
  eapply (readiness (GSend t) m (LSend (mk t ts))).
  - split; [exact Et|exact Nt].
  - split; [apply mk_ok|]. destruct t; cbn [mk]; auto; [|congruence]. rewrite (on_len _ _ _ _ _ _ _ _ _ TImu V Nt). specialize (Hi eq_refl). lia.
  - cbn [LpModel.lstep]. assert (Nx : next_on (x m) (mk t ts) = true).
    { unfold next_on. destruct t; try congruence; cbn [mk msg_tid stamp] in *; rewrite En; apply Z.eqb_refl. }
    rewrite Nx. cbn [sys_step]. rewrite Et, Sb. reflexivity.
Qed.

(* clouds whose transforms are out reach registration *)
Lemma scan_arrives n i : (i < List.length (clouds n))%nat -> (forall j t, (j <= i)%nat -> nth_error (clouds n) j = Some t -> In t (trans (y_ev (l_b (x n))))) -> exists m, (n <= m)%nat /\ (i < l_scn (x m))%nat.
Proof.
  intros L Ht. assert (B : forall n, bump GScan n l_scn) by (intros n0; apply (instant n0)).
  apply (count_up GScan l_scn i (Hfair GScan) B). intros n' m L' Lm Lv St. destruct (s_idle m) as (m' & L2 & Es). exists m'. split; [exact L2|]. intros S'.
  pose proof (bump_still _ _ B n' m' ltac:(lia) S') as E. destruct (clouds_grow n m' ltac:(lia)) as [o Eo].
  destruct (nth_error (clouds n) (l_scn (x m'))) as [t|] eqn:En; [|apply nth_error_None in En; lia].
  assert (In t (trans (y_ev (l_b (x m'))))) as Hi by (apply (trans_grow n m'); [lia|]; eapply Ht; [|exact En]; lia).
  assert (En' : nth_error (cloud_stamps (l_f (x m'))) (l_scn (x m')) = Some t) by (change (cloud_stamps (l_f (x m'))) with (clouds m'); rewrite Eo; apply nth_keep; exact En).
  apply (readiness' GScan m' (LScan 0)); [exact I|exact I|]. cbn [LpModel.lstep]. rewrite En'.
  assert (Ex : existsb (Z.eqb t) (trans (y_ev (l_b (x m')))) = true) by (apply existsb_exists; exists t; split; [exact Hi|apply Z.eqb_refl]). rewrite Ex.
  unfold with_r. destruct (l_r (x m')) as [ok own qc qt pv s k0 pb]. cbn in Es. subst s. cbn. discriminate.
Qed.

(* maps *)
Lemma m_counts n : s2m = true -> (pubs n <= l_map (x n) <= S (pubs n))%nat /\ (pubs n = l_map (x n) -> r_m Z Z (l_r (x n)) = MIdle Z Z) /\ (r_m Z Z (l_r (x n)) = MIdle Z Z -> pubs n = l_map (x n)).
Proof.
  intros E2. destruct (rinv_at n E2) as (D & Dm & J). pose proof (map_len n) as M. unfold pubs. rewrite (ri_pub _ _ _ _ _ _ _ _ J), map_length, combine_length, (ri_len _ _ _ _ _ _ _ _ J), Nat.min_id.
  destruct (ri_m _ _ _ _ _ _ _ _ J) as [X|[(X & _) _]]; [|rewrite alive in X; discriminate]. rewrite <- M, X, app_length. destruct (r_m Z Z (l_r (x n))); cbn [hand_m List.length]; conj; try lia; try discriminate; reflexivity.
Qed.
Lemma map_arrives n i : s2m = true -> (i < List.length (clouds n))%nat -> (i < List.length (odos n))%nat -> (i <= pubs n)%nat -> exists m, (n <= m)%nat /\ (i < l_map (x m))%nat.
Proof.
  intros E2 L1 L2 L3. assert (B : forall n, bump GMap n l_map) by (intros n0; apply (instant n0)).
  apply (count_up GMap l_map i (Hfair GMap) B). intros n' m L' Lm Lv St. exists m. split; [lia|]. intros _.
  pose proof (bump_still _ _ B n' m Lm St) as E. pose proof (pubs_grow n m ltac:(lia)) as Lp. pose proof (m_counts m E2) as ((M1 & M2) & M3 & _). specialize (M3 ltac:(lia)).
  pose proof (clouds_len n m ltac:(lia)) as Lc. pose proof (odos_len n m ltac:(lia)) as Lo.
  apply (readiness' GMap m LMap); [exact I|exact I|]. cbn [LpModel.lstep].
  destruct (nth_error (cloud_stamps (l_f (x m))) (l_map (x m))) as [t|] eqn:Et; [|apply nth_error_None in Et; unfold clouds in *; lia].
  destruct (nth_error (odoms (y_ev (l_b (x m)))) (l_map (x m))) as [o|] eqn:Ed; [|apply nth_error_None in Ed; unfold odos in *; lia].
  unfold with_r. destruct (l_r (x m)) as [ok own qc qt pv s k0 pb]. cbn in M3. subst k0. cbn. discriminate.
Qed.

(* scans handed to the map callback: registered, in its hands or in its queues *)
Definition given (st : rst Z Z) : nat := List.length (r_pub Z Z st) + List.length (hand_c Z Z (r_m Z Z st)) + List.length (r_qc Z Z st).
Definition given_t (st : rst Z Z) : nat := List.length (r_pub Z Z st) + List.length (hand_t Z Z (r_m Z Z st)) + List.length (r_qt Z Z st).
Lemma given_step l st st' : RegModel.rstep Z Z al_s al_m true l st = Some (Ok st') -> (given st <= given st' /\ given_t st <= given_t st')%nat.
Proof.
  unfold given, given_t. destruct st as [ok own qc qt pv s m pb]. destruct l; cbn; intros E.
  - destruct s; try discriminate. injection E as <-. cbn. lia.
  - destruct m; try discriminate. injection E as <-. cbn. lia.
  - destruct s; try discriminate; try (injection E as <-; cbn; rewrite ?app_length; cbn; lia); [destruct pv; injection E as <-; cbn; lia|destruct own; try discriminate; injection E as <-; cbn; lia].
  - destruct m; try discriminate; try (injection E as <-; cbn; rewrite ?app_length; cbn; lia).
    + destruct own; try discriminate; injection E as <-; cbn; lia.
    + match type of E with (if ?b then _ else _) = _ => destruct b end; injection E as <-; cbn; lia.
    + destruct ok; injection E as <-; cbn; lia.
    + destruct qc; try discriminate; injection E as <-; cbn; lia.
    + destruct qt; try discriminate; injection E as <-; cbn; lia.
  - injection E as <-. cbn. lia.
Qed.
Lemma given_grow n m : s2m = true -> (n <= m)%nat -> (given (l_r (x n)) <= given (l_r (x m)) /\ given_t (l_r (x n)) <= given_t (l_r (x m)))%nat.
Proof.
  intros E2 L. induction L as [|m L IH]; [lia|]. enough (given (l_r (x m)) <= given (l_r (x (S m))) /\ given_t (l_r (x m)) <= given_t (l_r (x (S m))))%nat by lia.
  destruct (instant m) as (_ & _ & _ & _ & X). unfold reg_moves in X. rewrite E2 in X. destruct (acts m) as [[i| | |mm|g| |l|a]|]; try (rewrite X; lia).
  - destruct X as [t X]. eapply given_step; exact X.
  - destruct X as [t X]. eapply given_step; exact X.
  - destruct X as [_ X]. eapply given_step; exact X.
Qed.
Lemma given_scans n i : s2m = true -> (i < l_scn (x n))%nat -> exists m, (n <= m)%nat /\ (i <= given (l_r (x m)) /\ i <= given_t (l_r (x m)))%nat.
Proof.
  intros E2 L. destruct (s_idle n) as (m & Lm & Es). exists m. split; [exact Lm|]. pose proof (g_scn _ _ _ _ (grown n m Lm)) as G.
  destruct (rinv_at m E2) as (D & Dm & J). pose proof (f_equal (@List.length Z) (ri_c _ _ _ _ _ _ _ _ J)) as C. pose proof (f_equal (@List.length Z) (ri_t _ _ _ _ _ _ _ _ J)) as C'. rewrite !app_length, !map_length, s2s_length, scn_len, Es in C, C'. cbn [pend_c pend_t List.length] in C, C'.
  unfold given, given_t. rewrite (ri_pub _ _ _ _ _ _ _ _ J), map_length, combine_length, <- (ri_len _ _ _ _ _ _ _ _ J), Nat.min_id. lia.
Qed.
(* a map whose scan has been handed over leads to a published transform *)
Lemma m_publishes i : s2m = true -> forall k n, (m_steps Z Z (r_m Z Z (l_r (x n))) <= k)%nat -> (i < l_map (x n))%nat -> (i < given (l_r (x n)))%nat -> (i < given_t (l_r (x n)))%nat -> (i <= pubs n)%nat -> exists m, (n <= m)%nat /\ (i < pubs m)%nat.
Proof.
  intros E2. induction k as [|k IH]; intros n Lk Lm Lg Lt Lp.
  - exists n. split; [lia|]. destruct (m_counts n E2) as (_ & _ & X). assert (r_m Z Z (l_r (x n)) = MIdle Z Z) as Y by (destruct (r_m Z Z (l_r (x n))); cbn in Lk; try lia; reflexivity). specialize (X Y). lia.
  - destruct (Nat.eq_dec (pubs n) i) as [Ep|Np]; [|exists n; split; lia].
    assert (N : r_m Z Z (l_r (x n)) <> MIdle Z Z) by (intros Y; destruct (m_counts n E2) as (_ & _ & X); specialize (X Y); lia).
    destruct (m_next n N) as (m & L & E & Es); [intros c0 _ m L; apply lock_freed; exact E2|].
    pose proof (pubs_grow n m L) as P1. destruct (Nat.eq_dec (pubs m) i) as [Ep'|Np']; [|exists m; split; lia].
    pose proof (pubs_grow m (S m) ltac:(lia)) as P2. destruct (Nat.eq_dec (pubs (S m)) i) as [Ep2|Np2]; [|exists (S m); split; lia].
    pose proof (given_grow n (S m) E2 ltac:(lia)) as [G1 G2]. pose proof (given_grow n m E2 L) as [G3 G4]. pose proof (g_map _ _ _ _ (grown n (S m) ltac:(lia))) as G5. rewrite <- E in Lk, N.
    destruct (IH (S m)) as (m' & L' & X); try lia; [|exists m'; split; [lia|exact X]].
    unfold pubs in *. unfold given, given_t in *. pose proof (alive m) as Ok. rewrite E2 in Es. destruct (l_r (x m)) as [ok own qc qt pv s k0 pb]. cbn in Ok. subst ok. cbn [r_m r_pub r_qc r_qt] in *. cbn [RegModel.rstep] in Es.
    destruct k0; try congruence; cbn [m_steps hand_c hand_t List.length] in *; try (injection Es as Es; rewrite <- Es in *; cbn in *; rewrite ?app_length in *; cbn in *; lia).
    + destruct own; [discriminate|]. injection Es as Es. rewrite <- Es. cbn. lia.
    + destruct qc; [cbn in *; lia|]. destruct qt; [cbn in *; lia|]. cbn in Es. injection Es as Es. rewrite <- Es. cbn. lia.
    + destruct qc; [discriminate|]. injection Es as Es. rewrite <- Es. cbn. lia.
    + destruct qt; [discriminate|]. injection Es as Es. rewrite <- Es. cbn. lia.
Qed.

(* registration answers *)
Lemma pub_arrives n i : (S i < l_scn (x n))%nat -> (i < List.length (odos n))%nat -> (i <= pubs n)%nat -> exists m, (n <= m)%nat /\ (i < pubs m)%nat.
Proof.
  intros L1 L2 L3. assert (Lc : (i < List.length (clouds n))%nat) by (destruct (inv n) as [d V]; pose proof (v_scn _ _ _ _ _ _ _ _ _ V); unfold clouds; lia).
  assert (D : s2m = true \/ s2m = false) by (clear; destruct s2m; auto). destruct D as [E2|E2].
  - destruct (map_arrives n i E2 Lc L2 L3) as (m1 & M1 & M2). pose proof (g_scn _ _ _ _ (grown n m1 M1)) as G1. destruct (given_scans m1 (S i) E2 ltac:(lia)) as (m2 & M3 & M4 & M5).
    pose proof (g_map _ _ _ _ (grown m1 m2 M3)) as G2. pose proof (pubs_grow n m2 ltac:(lia)) as G3.
    destruct (m_publishes i E2 _ m2 (le_n _) ltac:(lia) ltac:(lia) ltac:(lia) ltac:(lia)) as (m & M6 & M7). exists m. split; [lia|exact M7].
  - destruct (s_idle n) as (m & Lm & Es). exists m. split; [exact Lm|]. pose proof (g_scn _ _ _ _ (grown n m Lm)) as G. pose proof (reg_run m) as X. rewrite E2 in X. destruct (s2s_only Z Z al_s al_m _ _ X) as [_ Y].
    unfold pubs. rewrite (Y Es), s2s_length, scn_len. lia.
Qed.
(* ---- the back end sees an execution of its own ---- *)
Definition tau : Z -> Z := fixz time.
Definition bact (n : nat) : option act := match acts n with Some (LSend m) => Some (ADeliver m) | Some (LBack a) => Some a | _ => None end.
Lemma tau_at n : agrees tau (states (l_f (x n))).
Proof.
  intros k t E. unfold tau, fixz. rewrite Nat2Z.id. destruct (inv n) as [d V]. eapply fixt_at; [apply (states_up _ _ (c_t _ _ _ _ (v_f _ _ _ _ _ _ _ _ _ V)))|apply Htime|exact E].
Qed.
Lemma env_ok : environment c tau.
Proof. destruct Hm as (_ & _ & W & G). split; [apply fixz_mono|auto]. Qed.
Lemma with_f_b s r n s' : with_f s r n = Some (Ok s') -> l_b s' = l_b s.
Proof. unfold with_f. destruct r; cbn; intros E; try discriminate. injection E as <-. reflexivity. Qed.
Lemma back_reach n : hreach bp c tau (h_b (p n)) (l_b (x n)).
Proof. destruct (inv n) as [d V]. apply (v_b _ _ _ _ _ _ _ _ _ V tau (fixz_mono time) (tau_at n)). Qed.
Lemma back_exec : execution bp c tau (fun n => l_b (x n)) bact (fun n => h_b (p n)).
Proof.
  constructor; [apply back_reach|]. intros n. unfold bact. pose proof (le_step _ _ _ _ _ _ _ _ _ Hex n) as X. destruct (acts n) as [a|]; [|destruct X as (-> & ->); auto].
  destruct X as (F & E & ->). destruct a as [i| | |m|g| |l|a]; cbn [LpModel.lstep note] in *.
  - destruct (sensor i); [|discriminate]. rewrite (with_f_b _ _ _ _ E). auto.
  - rewrite (with_f_b _ _ _ _ E). auto.
  - destruct (nth_error _ _) as [[k t]|]; [|discriminate]. rewrite (with_f_b _ _ _ _ E). auto.
  - destruct (inv n) as [d V]. destruct (next_on (x n) m) eqn:Nx; [|discriminate]. destruct (sys_step bp c (l_b (x n)) (ADeliver m)) eqn:Es; [|discriminate]. cbn in E. injection E as <-. conj; auto.
    apply (send_allowed bp al_s al_m fc c s2m Hm _ _ _ _ _ V (fixz_mono time) (tau_at n)); auto. cbn in Es. destruct (subscribed c (msg_tid m)); [reflexivity|discriminate].
  - destruct (nth_error _ _) as [t|]; [|discriminate]. destruct (existsb _ _); [|discriminate]. destruct (with_r_ok _ _ _ _ _ E) as (r & Er & _ & _ & ->). auto.
  - destruct (nth_error (cloud_stamps (l_f (x n))) (l_map (x n))) as [t|]; [|discriminate]. destruct (nth_error (odoms _) _); [|discriminate]. destruct (with_r_ok _ _ _ _ _ E) as (r & Er & _ & _ & ->). auto.
  - destruct (works l); [|discriminate]. destruct (with_r_ok _ _ _ _ _ E) as (r & Er & _ & _ & ->). auto.
  - destruct (internalb a) eqn:Ei; [|discriminate]. destruct (sys_step bp c (l_b (x n)) a) eqn:Es; [|discriminate]. cbn in E. injection E as <-. destruct a; try discriminate; conj; auto; exact I.
Qed.
Lemma does_back t n : does (GBack t) (acts n) <-> moves t (bact n).
Proof. unfold bact. destruct (acts n) as [[i| | |m|g| |l|a]|]; cbn [does moves]; tauto. Qed.
Lemma back_fair : strongly_fair bp c (fun n => l_b (x n)) bact.
Proof.
  intros t n H. destruct (Hfair (GBack t) n) as (m & L & D).
  - intros m L. destruct (H m L) as (m' & L' & X). exists m'. split; [exact L'|]. destruct X as [(a & b & M & E)|(j & Hj & M)].
    + left. apply (readiness' (GBack t) m' (LBack a)); [exact M|exact I|]. cbn [LpModel.lstep]. assert (internalb a = true) as -> by (destruct a; try reflexivity; destruct M). rewrite E. discriminate.
    + right. exists j. split; [exact Hj|]. apply does_back. exact M.
  - exists m. split; [exact L|]. apply does_back. exact D.
Qed.

(* what is out when a key has been optimised *)
Lemma at_key n k : y_mutex (l_b (x n)) = None -> In k (opts (y_log (l_b (x n)))) -> (Z.to_nat k < List.length (odos n))%nat /\ forall j, 0 <= j <= k -> In (tau j) (trans (y_ev (l_b (x n)))).
Proof.
  intros Em Hk. destruct (hreach_healthy bp c tau _ _ env_ok (back_reach n)) as (K & u & r & st & b & cb & fr & cal & B). rewrite (settle_none bp _ Em) in B.
  pose proof (bi_rest _ _ _ _ _ _ _ _ _ _ _ _ B) as R. pose proof (rs_ev _ _ _ _ _ _ _ _ _ _ _ _ _ R) as L. rewrite (lv_opts _ _ _ _ _ _ _ (rs_log _ _ _ _ _ _ _ _ _ _ _ _ _ R)) in Hk. apply in_zrange in Hk.
  pose proof (rs_phase _ _ _ _ _ _ _ _ _ _ _ _ _ R) as PH. unfold odos. rewrite (ev_odoms _ _ _ _ L), (ev_trans _ _ _ _ L), map_length. replace (K <? 0) with false by lia. unfold zrange at 1. rewrite map_length, seq_length. split; [lia|].
  intros j Hj. apply in_map. apply in_zrange. destruct PH as [PH|PH]; lia.
Qed.
Lemma cloud_tau n i t : nth_error (clouds n) i = Some t -> t = tau (Z.of_nat i).
Proof.
  intros E. destruct (inv n) as [d V]. destruct (clouds_states _ _ (c_t _ _ _ _ (v_f _ _ _ _ _ _ _ _ _ V))) as (C1 & _). pose proof (nth_lt _ _ _ E) as L. unfold clouds in *. rewrite C1, nth_firstn in E by exact L. symmetry. apply (tau_at n). exact E.
Qed.
Lemma on_grow n m t : (n <= m)%nat -> len (on t (h_b (p n))) <= len (on t (h_b (p m))).
Proof. intros L. destruct (g_h _ _ _ _ (grown n m L)) as [o ->]. unfold on. rewrite filter_app, len_app. pose proof (len_nonneg (filter (fun m0 => tid_eqb (msg_tid m0) t) o)). lia. Qed.
Lemma on_at n t : t <> TStereo -> len (on t (h_b (p n))) = Z.of_nat (pget (l_in (x n)) t).
Proof. intros N. destruct (inv n) as [d V]. apply (on_len _ _ _ _ _ _ _ _ _ t V N). Qed.

Hypothesis Hreg : c_reg c = true.
Hypothesis Hpool : enough_workers c.
Hypothesis Hft : features_follow c p x.

Lemma first_key n : states (l_f (x n)) <> [] -> exists m, (n <= m)%nat /\ y_mutex (l_b (x m)) = None /\ In 0 (opts (y_log (l_b (x m)))).
Proof.
  intros N. destruct (inv n) as [d V]. destruct (states_spans _ _ (c_t _ _ _ _ (v_f _ _ _ _ _ _ _ _ _ V))) as [_ S2].
  destruct (send_arrives TInit n 0) as (m & L & A); [discriminate|reflexivity|cbn [posted]; rewrite S2; destruct (states (l_f (x n))); [congruence|cbn; lia]|discriminate|].
  destruct (fair_init bp c tau _ _ _ env_ok back_exec back_fair Hpool m) as (m' & L' & E & H); [|exists m'; conj; auto; lia].
  intros Z0. pose proof (on_at m TInit ltac:(discriminate)) as X. rewrite Z0 in X. change (len []) with 0 in X. lia.
Qed.
Lemma key_reached : forall i n, (i < List.length (clouds n))%nat -> Z.of_nat i < int_max ->
  exists m, (n <= m)%nat /\ y_mutex (l_b (x m)) = None /\ In (Z.of_nat i) (opts (y_log (l_b (x m)))) /\ (i < l_scn (x m))%nat /\ (i <= pubs m)%nat.
Proof.
  assert (Ag : forall n m k, (n <= m)%nat -> y_mutex (l_b (x n)) = None -> In k (opts (y_log (l_b (x n)))) -> exists m', (m <= m')%nat /\ y_mutex (l_b (x m')) = None /\ In k (opts (y_log (l_b (x m'))))).
  { intros n m k L Em Hk. destruct (xB bp c tau _ _ _ env_ok back_exec n) as [q HB]. destruct (freed' bp c tau _ _ _ env_ok back_exec (strongly_run _ _ _ _ back_fair) m) as (m2 & L2 & Em2).
    destruct (keys_later bp c tau _ _ _ env_ok back_exec n m2 q ltac:(lia) HB) as (q2 & B2 & K2 & _). exists m2. conj; auto. rewrite (settle_none bp _ Em) in HB. rewrite (settle_none bp _ Em2) in B2.
    pose proof (B_keys c tau _ _ _ _ HB) as (_ & _ & O1). pose proof (B_keys c tau _ _ _ _ B2) as (_ & _ & O2). cbn beta in O1, O2. rewrite O1 in Hk. rewrite O2. apply in_zrange in Hk. apply in_zrange. lia. }
  induction i as [|i IH]; intros n L Hi.
  - destruct (inv n) as [d V]. destruct (clouds_states _ _ (c_t _ _ _ _ (v_f _ _ _ _ _ _ _ _ _ V))) as (_ & _ & _ & C4).
    destruct (first_key n) as (m & Lm & Em & Hk); [unfold clouds in L; destruct (states (l_f (x n))); [cbn in C4; lia|discriminate]|]. destruct (at_key m 0 Em Hk) as [A1 A2].
    destruct (scan_arrives m 0) as (m2 & L2 & S2); [pose proof (clouds_len n m Lm); lia|intros j t Hj Ej; assert (j = O) as -> by lia; rewrite (cloud_tau _ _ _ Ej); apply A2; lia|].
    destruct (Ag m m2 0 L2 Em Hk) as (m3 & L3 & Em3 & Hk3). exists m3. pose proof (g_scn _ _ _ _ (grown m2 m3 L3)) as G. conj; auto; lia.
  - destruct (inv n) as [d V]. destruct (clouds_states _ _ (c_t _ _ _ _ (v_f _ _ _ _ _ _ _ _ _ V))) as (_ & _ & _ & C4). destruct (states_spans _ _ (c_t _ _ _ _ (v_f _ _ _ _ _ _ _ _ _ V))) as [S1 _].
    destruct (send_arrives TImu n i) as (m0 & L0 & D0); [discriminate|reflexivity|cbn [posted]; rewrite S1; unfold clouds in L; destruct (states (l_f (x n))); cbn in *; lia|intros _; lia|].
    destruct (IH m0) as (m1 & L1 & Em1 & Hk1 & Sc1 & Pb1); [pose proof (clouds_len n m0 L0); lia|lia|]. destruct (at_key m1 _ Em1 Hk1) as [A1 A2]. rewrite Nat2Z.id in A1.
    destruct (fair_transform bp c tau _ _ _ env_ok back_exec back_fair Hpool m1 (Z.of_nat (S i))) as (m2 & L2 & _ & T2); [replace (Z.of_nat (S i) - 1) with (Z.of_nat i) by lia; exact Hk1| |].
    { rewrite (on_at m1 TImu) by discriminate. pose proof (g_in _ _ _ _ (grown m0 m1 L1) TImu) as G. lia. }
    destruct (scan_arrives m2 (S i)) as (m3 & L3 & S3); [pose proof (clouds_len n m2 ltac:(lia)); lia| |].
    { intros j t Hj Ej. rewrite (cloud_tau _ _ _ Ej). destruct (Nat.eq_dec j (S i)) as [->|Nj]; [exact T2|]. apply (trans_grow m1 m2 _ L2). apply A2. lia. }
    destruct (pub_arrives m3 i S3) as (m4 & L4 & P4); [pose proof (odos_len m1 m3 ltac:(lia)); lia|pose proof (pubs_grow m1 m3 ltac:(lia)); lia|].
    destruct (send_arrives TReg m4 i) as (m5 & L5 & D5); [discriminate|exact Hreg|cbn [posted]; rewrite map_length; exact P4|discriminate|].
    assert (Fs : exists m6, (m5 <= m6)%nat /\ (c_stereo c = true -> exists f, In f (on TStereo (h_b (p m6))) /\ tau (Z.of_nat (S i)) <= stamp f)).
    { destruct (c_stereo c) eqn:Es; [|exists m5; split; [lia|discriminate]]. destruct (nth_error (clouds m5) (S i)) as [t|] eqn:Et; [|apply nth_error_None in Et; pose proof (clouds_len n m5 ltac:(lia)); lia].
      destruct (Hft Es m5 t (nth_error_In _ _ Et)) as (m6 & f & L6 & F1 & F2). exists m6. split; [exact L6|]. intros _. exists f. rewrite <- (cloud_tau _ _ _ Et). auto. }
    destruct Fs as (m6 & L6 & F6).
    destruct (fair_progress bp c tau _ _ _ env_ok back_exec back_fair Hpool m6 (Z.of_nat (S i))) as (m7 & L7 & Em7 & Hk7).
    { split; [|split; [|exact F6]].
      - rewrite (on_at m6 TImu) by discriminate. pose proof (g_in _ _ _ _ (grown m0 m6 ltac:(lia)) TImu) as G. lia.
      - intros _. rewrite (on_at m6 TReg) by discriminate. pose proof (g_in _ _ _ _ (grown m5 m6 L6) TReg) as G. lia. }
    exists m7. pose proof (g_scn _ _ _ _ (grown m3 m7 ltac:(lia))) as G1. pose proof (pubs_grow m4 m7 ltac:(lia)) as G2. conj; auto; lia.
Qed.

(* ---- what reaches whom ---- *)
Lemma odometry_arrives n i : (i < List.length (clouds n))%nat -> Z.of_nat i < int_max -> exists m, (n <= m)%nat /\ (i < l_odo (x m))%nat.
Proof.
  intros L Hi. destruct (key_reached i n L Hi) as (m & Lm & Em & Hk & _). destruct (at_key m _ Em Hk) as [A _]. rewrite Nat2Z.id in A. destruct (odo_arrives m i A) as (m' & L' & X). exists m'. split; [lia|exact X].
Qed.
Lemma odometry_in q s : lreach q s -> forall i k t, (i < l_odo s)%nat -> nth_error (odoms (y_ev (l_b s))) i = Some (k, t) -> In (IOdom t) (h_f q).
Proof.
  induction 1 as [|q s a s' H IH F E]; [cbn; intros; lia|]. intros i k t L En. destruct (lreach_inv _ _ _ _ _ _ Hm _ _ H) as [d V]. pose proof (v_odo _ _ _ _ _ _ _ _ _ V) as Vo.
  assert (Old : forall h, l_odo s' = l_odo s -> h_f (note s a q) = h_f q ++ h -> (exists o, y_ev (l_b s') = y_ev (l_b s) ++ o) -> In (IOdom t) (h_f (note s a q))).
  { intros h E1 E2 [o E3]. rewrite E2. apply in_or_app. left. apply (IH i k t); [lia|]. rewrite E3, odoms_app in En. destruct (nth_error (odoms (y_ev (l_b s))) i) as [y|] eqn:Ey; [|apply nth_error_None in Ey; lia]. apply (nth_keep _ (odoms o)) in Ey. congruence. }
  assert (Id : forall A (l : list A), exists o, l = l ++ o) by (intros A l; exists []; rewrite app_nil_r; reflexivity).
  destruct a as [f| | |m|g| |l|a]; cbn [LpModel.lstep note] in *.
  - destruct (sensor f); [|discriminate]. unfold with_f in E. destruct (fe_step _ _ _); try discriminate. cbn in E. injection E as <-. eapply Old; cbn; auto.
  - unfold with_f in E. destruct (fe_step _ _ _); try discriminate. cbn in E. injection E as <-. eapply Old; cbn; auto.
  - destruct (nth_error (odoms (y_ev (l_b s))) (l_odo s)) as [[k' t']|] eqn:E0; [|discriminate]. unfold with_f in E. destruct (fe_step _ _ _); try discriminate. cbn in E. injection E as <-. cbn [l_odo l_b] in *.
    cbn [h_f]. apply in_or_app. destruct (Nat.eq_dec i (l_odo s)) as [->|N]; [right; left; congruence|left; apply (IH i k t); [lia|exact En]].
  - destruct (next_on s m); [|discriminate]. destruct (sys_step bp c (l_b s) (ADeliver m)) eqn:Es; [|discriminate]. cbn in E. injection E as <-. eapply (Old []); cbn; rewrite ?app_nil_r; auto. eapply ev_grows; exact Es.
  - destruct (nth_error (cloud_stamps (l_f s)) (l_scn s)) as [ts|]; [|discriminate]. destruct (existsb _ _); [|discriminate]. unfold with_r in E. destruct (rstep _ _) as [[r| |]|] in E; try discriminate. cbn in E. injection E as <-. eapply (Old []); cbn; rewrite ?app_nil_r; auto.
  - destruct (nth_error (cloud_stamps (l_f s)) (l_map s)) as [ts|]; [|discriminate]. destruct (nth_error (odoms _) (l_map s)); [|discriminate]. unfold with_r in E. destruct (rstep _ _) as [[r| |]|] in E; try discriminate. cbn in E. injection E as <-. eapply (Old []); cbn; rewrite ?app_nil_r; auto.
  - destruct (works l); [|discriminate]. unfold with_r in E. destruct (rstep _ _) as [[r| |]|] in E; try discriminate. cbn in E. injection E as <-. eapply (Old []); cbn; rewrite ?app_nil_r; auto.
  - destruct (internalb a); [|discriminate]. destruct (sys_step bp c (l_b s) a) eqn:Es; [|discriminate]. cbn in E. injection E as <-. eapply (Old []); cbn; rewrite ?app_nil_r; auto. eapply ev_grows; exact Es.
Qed.
(* the odometry of every published cloud comes back to the front end *)
Lemma odometry_returns n i t : nth_error (cloud_stamps (l_f (x n))) i = Some t -> Z.of_nat i < int_max -> exists m, (n <= m)%nat /\ In (IOdom t) (h_f (p m)).
Proof.
  intros E Hi. destruct (odometry_arrives n i (nth_lt _ _ _ E) Hi) as (m & L & A). exists m. split; [exact L|]. destruct (inv m) as [d V]. pose proof (v_odo _ _ _ _ _ _ _ _ _ V) as Vo.
  destruct (nth_error (odoms (y_ev (l_b (x m)))) i) as [[k t']|] eqn:En; [|apply nth_error_None in En; lia]. destruct (odoms_states _ _ _ _ _ _ Hm _ _ _ _ _ _ V En) as [_ Es].
  replace t with t'; [eapply odometry_in; [apply reach|exact A|exact En]|]. rewrite (cloud_tau n i t E). symmetry. apply (tau_at m). exact Es.
Qed.
(* it meets its transform, and all but the first are registered *)
Lemma transform_published n i t : nth_error (cloud_stamps (l_f (x n))) i = Some t -> Z.of_nat i < int_max -> exists m, (n <= m)%nat /\ In t (trans (y_ev (l_b (x m)))).
Proof.
  intros E Hi. destruct (key_reached i n (nth_lt _ _ _ E) Hi) as (m & L & Em & Hk & _). exists m. split; [exact L|]. rewrite (cloud_tau n i t E). apply (at_key m _ Em Hk). lia.
Qed.
Lemma cloud_registered n i t : nth_error (cloud_stamps (l_f (x n))) (S i) = Some t -> Z.of_nat (S i) < int_max -> exists m, (n <= m)%nat /\ nth_error (map fst (r_pub Z Z (l_r (x m)))) i = Some t.
Proof.
  intros E Hi. destruct (key_reached (S i) n (nth_lt _ _ _ E) Hi) as (m & L & _ & _ & _ & P). exists m. split; [exact L|]. unfold pubs in P.
  destruct (nth_error (map fst (r_pub Z Z (l_r (x m)))) i) as [t'|] eqn:En; [|apply nth_error_None in En; rewrite map_length in En; lia]. f_equal.
  destruct (inv m) as [d V]. apply (reg_nth _ _ _ _ _ _ _ (v_r _ _ _ _ _ _ _ _ _ V)) in En. destruct (v_scn _ _ _ _ _ _ _ _ _ V) as [V1 V2]. rewrite V1 in En. pose proof (nth_lt _ _ _ En) as Lx. rewrite firstn_length in Lx. rewrite nth_firstn in En by lia.
  rewrite (cloud_tau n _ t E). apply (cloud_tau m). exact En.
Qed.

(* ---- the wait for odometry ---- *)
Lemma last_state n d u sw new : linv (p n) (x n) d -> f_pc (l_f (x n)) = PBias u sw new -> nth_error (states (l_f (x n))) (List.length d) = Some new.
Proof.
  intros V Ep. pose proof (c_t _ _ _ _ (v_f _ _ _ _ _ _ _ _ _ V)) as T. pose proof (t_phase _ _ T) as Ph. unfold phase_ok in Ph. rewrite Ep in Ph. destruct Ph as (c0 & Ec & _).
  rewrite (states_recs _ _ T), map_app. unfold current. rewrite Ep, Ec. rewrite nth_error_app2 by (rewrite map_length; lia). rewrite map_length, Nat.sub_diag. reflexivity.
Qed.
Lemma awaited_arrives n u sw new : f_pc (l_f (x n)) = PBias u sw new -> Z.of_nat (List.length (cloud_stamps (l_f (x n)))) <= int_max ->
  exists m, (n <= m)%nat /\ forall m', (m <= m')%nat -> f_pc (l_f (x m')) = PBias u sw new -> f_bias (l_f (x m')) = f_pst (l_f (x m')).
Proof.
  intros Ep Hi. fold (clouds n) in Hi. destruct (inv n) as [d V]. destruct (awaited _ _ _ _ _ _ _ _ _ _ _ _ V Ep) as (_ & Lc & Ls). pose proof (last_state n d u sw new V Ep) as La.
  assert (X : exists m, (n <= m)%nat /\ (Nat.max 1 (List.length (clouds n)) - 1 < l_odo (x m))%nat).
  { destruct (List.length (clouds n)) as [|q] eqn:El.
    - destruct (first_key n) as (m & L & Em & Hk); [intros Z0; rewrite Z0 in Ls; discriminate|]. destruct (at_key m 0 Em Hk) as [A _]. destruct (odo_arrives m 0 A) as (m' & L' & X). exists m'. split; [lia|cbn; exact X].
    - destruct (odometry_arrives n q) as (m & L & X); [lia|lia|]. exists m. split; [exact L|lia]. }
  destruct X as (m & L & X). exists m. split; [exact L|]. intros m' L' Ep'. destruct (inv m') as [d' V']. destruct (awaited _ _ _ _ _ _ _ _ _ _ _ _ V' Ep') as (Aw' & Lc' & Ls'). pose proof (last_state m' d' u sw new V' Ep') as La'.
  pose proof (c_t _ _ _ _ (v_f _ _ _ _ _ _ _ _ _ V')) as T'. destruct (g_out _ _ _ _ (grown n m' ltac:(lia))) as [o Eo]. destruct (states_grow _ _ _ _ _ (c_t _ _ _ _ (v_f _ _ _ _ _ _ _ _ _ V)) T' Eo) as [e Ee].
  assert (Ed : List.length d = List.length d') by (eapply up_inj; [apply (states_up _ _ T')|rewrite Ee; apply nth_keep; exact La|exact La']).
  pose proof (odoms_clouds _ _ _ _ _ _ _ _ _ Hm Hreg V') as O. pose proof (v_odo _ _ _ _ _ _ _ _ _ V') as Vo. pose proof (v_bias _ _ _ _ _ _ _ _ _ V') as Bi. pose proof (g_odo _ _ _ _ (grown m m' L')) as G. unfold clouds in *.
  destruct (l_odo (x m')) as [|q]; [lia|]. assert (q = Nat.max 1 (List.length (cloud_stamps (l_f (x m')))) - 1)%nat as -> by lia. congruence.
Qed.
(* ---- the point cloud callback of the front end returns ---- *)
Definition f_rank (q : FeModel.phase) : nat := match q with PIdle => 0 | PBaro _ _ _ => 1 | PSkew _ _ _ => 2 | PBias _ _ _ => 3 | PChosen _ _ _ => 4 | PStereo _ _ => 5 end.
Lemma f_moves n : match acts n with
  | Some LPoll => fe_step fc (l_f (x n)) IPoll = Ok (l_f (x (S n))) /\ h_f (p (S n)) = h_f (p n) ++ [IPoll]
  | _ => (l_f (x (S n)) = l_f (x n) /\ h_f (p (S n)) = h_f (p n)) \/ exists i, i <> IPoll /\ fe_step fc (l_f (x n)) i = Ok (l_f (x (S n))) /\ h_f (p (S n)) = h_f (p n) ++ [i]
  end.
Proof.
  pose proof (le_step _ _ _ _ _ _ _ _ _ Hex n) as X. destruct (acts n) as [a|]; [|destruct X as (-> & ->); auto]. destruct X as (F & E & ->). destruct a as [i| | |m|g| |l|a]; cbn [LpModel.lstep note] in *.
  - destruct (sensor i) eqn:Es; [|discriminate]. destruct (with_f_ok _ _ _ _ E) as (f & Ef & ->). right. exists i. conj; auto. intros ->. discriminate.
  - destruct (with_f_ok _ _ _ _ E) as (f & Ef & ->). auto.
  - destruct (nth_error _ _) as [[k t]|]; [|discriminate]. destruct (with_f_ok _ _ _ _ E) as (f & Ef & ->). right. exists (IOdom t). conj; auto. discriminate.
  - destruct (next_on (x n) m); [|discriminate]. destruct (sys_step bp c (l_b (x n)) (ADeliver m)); [|discriminate]. cbn in E. injection E as <-. auto.
  - destruct (nth_error _ _) as [t|]; [|discriminate]. destruct (existsb _ _); [|discriminate]. destruct (with_r_ok _ _ _ _ _ E) as (r & Er & _ & -> & _). auto.
  - destruct (nth_error (cloud_stamps (l_f (x n))) (l_map (x n))) as [t|]; [|discriminate]. destruct (nth_error (odoms _) _); [|discriminate]. destruct (with_r_ok _ _ _ _ _ E) as (r & Er & _ & -> & _). auto.
  - destruct (works l); [|discriminate]. destruct (with_r_ok _ _ _ _ _ E) as (r & Er & _ & -> & _). auto.
  - destruct (internalb a); [|discriminate]. destruct (sys_step bp c (l_b (x n)) a); [|discriminate]. cbn in E. injection E as <-. auto.
Qed.
Lemma hf_grow n m : (n <= m)%nat -> exists o, h_f (p m) = h_f (p n) ++ o.
Proof.
  induction 1 as [|m L IH]; [apply none|]. eapply more; [exact IH|]. pose proof (f_moves m) as X. destruct (acts m) as [[i| | |mm|g| |l|a]|]; try (destruct X as [(_ & ->)|(j & _ & _ & ->)]; [apply none|eauto]). destruct X as (_ & ->). eauto.
Qed.
Definition same (s s' : fe) : Prop := f_pc s' = f_pc s /\ f_prev s' = f_prev s /\ f_init s' = f_init s /\ out_clouds (f_out s') = out_clouds (f_out s).
Lemma same_refl s : same s s. Proof. unfold same. auto. Qed.
Lemma same_trans a b d : same a b -> same b d -> same a d.
Proof. intros (A1 & A2 & A3 & A4) (B1 & B2 & B3 & B4). unfold same. conj; congruence. Qed.
Lemma frame s i s' : f_pc s <> PIdle -> fe_step fc s i = Ok s' -> i <> IPoll -> same s s'.
Proof.
  intros Ep E N. unfold same. destruct i as [t v|t|t b|t|cu csw|]; cbn [fe_step] in E; try congruence.
  - unfold imu_callback in E. destruct (f_pre s); [|injection E as <-; auto]. destruct (preintegrate _); try discriminate. cbn [rbind] in E. injection E as <-. cbn [out f_out f_pc f_prev f_init].
    unfold out_clouds. rewrite flat_map_app. cbn. rewrite app_nil_r. auto 10.
  - destruct (fc_stereo fc); injection E as <-; auto 10. unfold stereo_callback. destruct (fc_graph_only fc); cbn [out f_out f_pc f_prev f_init]; auto 10. unfold out_clouds. rewrite flat_map_app. cbn. rewrite app_nil_r. auto 10.
  - destruct (fc_baro fc); [|injection E as <-; auto 10]. destruct (bar_measure _ _) as [r| |]; try discriminate. cbn [rbind] in E. injection E as <-. destruct (no_baro (snd r)) as (_ & _ & N3).
    unfold set_bar. cbn [out f_out f_pc f_prev f_init]. unfold out_clouds in *. rewrite flat_map_app, N3, app_nil_r. auto 10.
  - unfold odometry_callback in E. destruct (imu_neighbours _ _); try discriminate. cbn [rbind] in E. destruct (catch_up t (f_imu s)). destruct (preintegrate _); try discriminate. cbn [rbind] in E. injection E as <-. auto 10.
  - destruct (f_pc s) eqn:Ec; try congruence; injection E as <-; rewrite Ec; auto 10.
Qed.
(* one phase further *)
Definition next (s s' : fe) : Prop :=
  f_rank (f_pc s) = S (f_rank (f_pc s')) /\ List.length (out_clouds (f_out s')) = (List.length (out_clouds (f_out s)) + if Nat.eqb (f_rank (f_pc s)) 2 then 1 else 0)%nat.
Lemma poll s s' : f_pc s <> PIdle -> fe_step fc s IPoll = Ok s' -> same s s' \/ next s s'.
Proof.
  intros Ep E. cbn [fe_step] in E. unfold cloud_poll in E. assert (Nl : forall l o, out_clouds o = [] -> List.length (out_clouds (l ++ o)) = (List.length (out_clouds l) + 0)%nat) by (intros l o Z0; unfold out_clouds in *; rewrite flat_map_app, Z0, app_nil_r; lia).
  destruct (f_pc s) eqn:Ec; try congruence; (destruct (f_prev s) as [[pu psw]|] eqn:Ev; [|injection E as <-; left; apply same_refl]).
  - destruct (drop_before _ _); [|destruct (_ <? _)]; injection E as <-.
    + left. unfold same. cbn. auto.
    + right. unfold next. rewrite Ec. cbn [f_rank go out f_pc f_out Nat.eqb]. split; [reflexivity|]. apply Nl. destruct (fc_graph_only fc); reflexivity.
    + right. unfold next. rewrite Ec. cbn [f_rank go out f_pc f_out Nat.eqb]. split; [reflexivity|lia].
  - destruct (f_init s).
    + destruct (f_imu s) as [|[]]; [discriminate|]. destruct (_ <? _); [discriminate|]. destruct (select_imu _ _ _) as [[|[] ?]| |]; try discriminate. cbn [rbind] in E. injection E as <-.
      right. unfold next. rewrite Ec. cbn [f_rank go out f_pc f_out Nat.eqb]. split; [reflexivity|]. apply Nl. reflexivity.
    + destruct (_ <? _); [injection E as <-; left; apply same_refl|]. destruct (imu_neighbours _ _); try discriminate. cbn [rbind] in E. injection E as <-.
      right. unfold next. rewrite Ec. cbn [f_rank go out f_pc f_out Nat.eqb]. split; [reflexivity|]. apply Nl. reflexivity.
  - destruct (_ || _); injection E as <-; [left; apply same_refl|]. right. unfold next. rewrite Ec. cbn [f_rank go out f_pc f_out Nat.eqb]. split; [reflexivity|lia].
  - destruct (if f_init s then _ else _); try discriminate. cbn [rbind] in E. destruct (integrate_imu _ _ _); try discriminate. cbn [rbind] in E. injection E as <-.
    right. unfold next. rewrite Ec. cbn [f_rank go out f_pc f_out Nat.eqb]. split; [reflexivity|]. unfold out_clouds. rewrite flat_map_app, app_length. reflexivity.
  - destruct (if fc_baro fc then _ else _) as [s1| |] eqn:E1; try discriminate. cbn [rbind] in E. injection E as <-. right. unfold next. rewrite Ec. cbn [f_rank f_pc f_out Nat.eqb]. split; [reflexivity|].
    destruct (fc_baro fc); [|injection E1 as <-; lia]. destruct (bar_state _ _) as [r| |]; try discriminate. cbn [rbind] in E1. injection E1 as <-. unfold set_bar. cbn [out f_out]. apply Nl. apply no_baro.
Qed.
Lemma stays n m : (n <= m)%nat -> f_pc (l_f (x n)) <> PIdle -> same (l_f (x n)) (l_f (x m)) \/ exists j, (n <= j <= m)%nat /\ next (l_f (x n)) (l_f (x j)).
Proof.
  intros L N. induction L as [|m L [IH|(j & Hj & IH)]]; [left; apply same_refl| |right; exists j; split; [lia|exact IH]]. pose proof IH as (I1 & _ & _ & I4). pose proof (f_moves m) as X.
  assert (D : same (l_f (x m)) (l_f (x (S m))) \/ next (l_f (x m)) (l_f (x (S m)))).
  { rewrite <- I1 in N. destruct (acts m) as [[i| | |mm|g| |l|a]|]; try (left; destruct X as [(-> & _)|(j & Nj & Ej & _)]; [apply same_refl|eapply frame; eauto]). destruct X as [X _]. eapply poll; eauto. }
  destruct D as [D|[D1 D2]]; [left; eapply same_trans; eauto|]. right. exists (S m). split; [lia|]. unfold next. rewrite <- I1, <- I4. auto.
Qed.

Hypothesis Hpoll : polled acts.
Hypothesis Himu : imu_follows p.
Hypothesis Himg : images_follow fc p.

Lemma leaves n m0 : f_pc (l_f (x n)) <> PIdle -> (n <= m0)%nat ->
  (forall m s', (m0 <= m)%nat -> same (l_f (x n)) (l_f (x m)) -> fe_step fc (l_f (x m)) IPoll = Ok s' -> ~ same (l_f (x m)) s') ->
  exists m, (n <= m)%nat /\ next (l_f (x n)) (l_f (x m)).
Proof.
  intros N L H. destruct (Hpoll m0) as (m & Lm & Ea). destruct (stays n m ltac:(lia) N) as [Sm|(j & Hj & X)]; [|exists j; split; [lia|exact X]].
  pose proof (f_moves m) as X. rewrite Ea in X. destruct X as [X _]. pose proof Sm as (I1 & _ & _ & I4).
  destruct (poll _ _ ltac:(rewrite I1; exact N) X) as [Y|[Y1 Y2]]; [destruct (H m _ Lm Sm X Y)|]. exists (S m). split; [lia|]. unfold next. rewrite <- I1, <- I4. auto.
Qed.

(* images not yet used stay in the queue *)
Lemma drop_keeps t y : forall l, In y l -> t <= y -> In y (drop_before t l).
Proof. induction l as [|a l IH]; intros H L; [destruct H|]. cbn [drop_before]. destruct (Z.ltb_spec a t); [|exact H]. destruct H as [->|H]; [lia|auto]. Qed.
Definition above (s : fe) (y : Z) : Prop :=
  match f_pc s, f_prev s with PChosen u _ _, _ | PBias u _ _, _ | PSkew u _ _, _ | PBaro u _ _, _ => from_pcl u <= y | _, Some (pu, _) => from_pcl pu <= y | _, None => True end.
Definition kept (ins : list fin) (s : fe) : Prop :=
  (forall u sw, f_pc s = PStereo u sw -> fc_stereo fc = true) /\ (fc_stereo fc = true -> forall t, In (IStereo t) ins -> above s (from_pcl (to_pcl t)) -> In (from_pcl (to_pcl t)) (f_st s)).
Lemma kept_same ins s s' i : kept ins s -> f_pc s' = f_pc s -> f_prev s' = f_prev s -> f_st s' = f_st s -> (forall t, i <> IStereo t) -> kept (ins ++ [i]) s'.
Proof.
  intros [K1 K2] E1 E2 E3 Ni. split; [intros u sw; rewrite E1; apply K1|]. intros Hs t Ht A. apply in_app_or in Ht. destruct Ht as [Ht|[->|[]]]; [|destruct (Ni t eq_refl)]. rewrite E3. apply (K2 Hs t Ht). unfold above in *. rewrite E1, E2 in A. exact A.
Qed.
Lemma kept_step ins s i s' : phase_ok s -> kept ins s -> fe_step fc s i = Ok s' -> kept (ins ++ [i]) s'.
Proof.
  intros Ph K E. assert (Mono : forall a b, a <= b -> from_pcl a <= from_pcl b) by (intros a0 b0; unfold from_pcl; lia).
  destruct i as [t v|t|t b|t|cu csw|]; cbn [fe_step] in E.
  - unfold imu_callback in E. destruct (f_pre s); [destruct (preintegrate _); try discriminate; cbn [rbind] in E|]; injection E as <-; eapply kept_same; eauto; discriminate.
  - destruct (fc_stereo fc) eqn:Hs; injection E as <-.
    + destruct K as [K1 K2]. assert (Est : forall s2, (exists o, s2 = out (mkFe (f_imu s) (f_st s ++ [from_pcl (to_pcl t)]) (f_bar s) (f_prev s) (f_pst s) (f_init s) (f_last s) (f_bias s) (f_pre s) (f_pc s) (f_out s)) o) -> kept (ins ++ [IStereo t]) s2).
      { intros s2 [o ->]. split; [intros; exact Hs|]. intros _ t' Ht A. cbn [out f_st]. apply in_or_app. apply in_app_or in Ht. destruct Ht as [Ht|[[= ->]|[]]]; [left|right; left; reflexivity]. apply (K2 Hs t' Ht). exact A. }
      apply Est. unfold stereo_callback. destruct (fc_graph_only fc); [exists []; unfold out; cbn; rewrite app_nil_r; reflexivity|eexists; reflexivity].
    + destruct K as [K1 K2]. split; [exact K1|]. intros Z0. congruence.
  - destruct (fc_baro fc); [destruct (bar_measure _ _) as [r| |]; try discriminate; cbn [rbind] in E|]; injection E as <-; eapply kept_same; eauto; discriminate.
  - unfold odometry_callback in E. destruct (imu_neighbours _ _); try discriminate. cbn [rbind] in E. destruct (catch_up t (f_imu s)). destruct (preintegrate _); try discriminate. cbn [rbind] in E. injection E as <-. eapply kept_same; eauto; discriminate.
  - destruct (f_pc s) eqn:Ec; try (injection E as <-; eapply kept_same; eauto; discriminate). destruct K as [K1 K2]. destruct (f_prev s) as [[pu psw]|] eqn:Ev; injection E as <-.
    + split; [intros u sw H; cbn [go f_pc] in H; destruct (fc_stereo fc); [reflexivity|discriminate]|]. intros Hs t Ht A. apply in_app_or in Ht. destruct Ht as [Ht|[Ht|[]]]; [|discriminate]. cbn [go f_st]. apply (K2 Hs t Ht). unfold above in *. rewrite Hs in A. cbn [go f_pc f_prev] in A. rewrite Ev in A. rewrite Ec, Ev. exact A.
    + split; [intros u sw H; discriminate|]. intros Hs t Ht A. apply in_app_or in Ht. destruct Ht as [Ht|[Ht|[]]]; [|discriminate]. cbn [f_st]. apply (K2 Hs t Ht). unfold above. rewrite Ec, Ev. exact I.
  - unfold cloud_poll in E. unfold phase_ok in Ph. destruct (f_pc s) eqn:Ec; (destruct (f_prev s) as [[pu psw]|] eqn:Ev; try (injection E as <-; eapply kept_same; eauto; discriminate)); destruct K as [K1 K2].
    + assert (Kd : fc_stereo fc = true -> forall t, In (IStereo t) (ins ++ [IPoll]) -> from_pcl pu <= from_pcl (to_pcl t) -> In (from_pcl (to_pcl t)) (drop_before (from_pcl pu) (f_st s))).
      { intros Hs t Ht A. apply in_app_or in Ht. destruct Ht as [Ht|[Ht|[]]]; [|discriminate]. apply drop_keeps; [|exact A]. apply (K2 Hs t Ht). unfold above. rewrite Ec, Ev. exact A. }
      destruct Ph as (c0 & [= <-] & Pu). cbn [fst] in Pu. specialize (Mono pu u ltac:(lia)).
      destruct (drop_before _ _) as [|y l] eqn:Ed; [|destruct (Z.ltb_spec y (from_pcl u))]; injection E as <-; (split; [intros u' sw' H'; try discriminate; exact (K1 _ _ Ec)|]); intros Hs t Ht A; unfold above in A; cbn [go out f_pc f_prev] in A; rewrite ?Ec, ?Ev in A; cbn [go out f_st].
      * apply (Kd Hs t Ht A).
      * destruct (Kd Hs t Ht ltac:(lia)) as [Z0|Z0]; [lia|exact Z0].
      * apply (Kd Hs t Ht). lia.
    + assert (Kd : forall s2 new', f_pc s2 = PBias u sw new' -> f_st s2 = f_st s -> kept (ins ++ [IPoll]) s2).
      { intros s2 new' E1 E2. split; [intros u' sw' H'; congruence|]. intros Hs t Ht A. apply in_app_or in Ht. destruct Ht as [Ht|[Ht|[]]]; [|discriminate]. rewrite E2. apply (K2 Hs t Ht). unfold above in *. rewrite Ec. rewrite E1 in A. exact A. }
      destruct (f_init s) eqn:Ei.
      * destruct (f_imu s) as [|[]]; [discriminate|]. destruct (_ <? _); [discriminate|]. destruct (select_imu _ _ _) as [[|[] ?]| |]; try discriminate. cbn [rbind] in E. injection E as <-. eapply Kd; reflexivity.
      * destruct (_ <? _); [injection E as <-; eapply kept_same; eauto; [split; auto|discriminate]; intros; congruence|]. destruct (imu_neighbours _ _); try discriminate. cbn [rbind] in E. injection E as <-. eapply Kd; reflexivity.
    + destruct (_ || _); injection E as <-; [eapply kept_same; eauto; [split; auto|discriminate]; intros; congruence|]. split; [intros; discriminate|]. intros Hs t Ht A. apply in_app_or in Ht. destruct Ht as [Ht|[Ht|[]]]; [|discriminate]. cbn [go out f_st]. apply (K2 Hs t Ht). unfold above in *. rewrite Ec. exact A.
    + destruct (if f_init s then _ else _); try discriminate. cbn [rbind] in E. destruct (integrate_imu _ _ _); try discriminate. cbn [rbind] in E. injection E as <-.
      split; [intros; discriminate|]. intros Hs t Ht A. apply in_app_or in Ht. destruct Ht as [Ht|[Ht|[]]]; [|discriminate]. cbn [go out f_st]. apply (K2 Hs t Ht). unfold above in *. rewrite Ec. exact A.
    + destruct (if fc_baro fc then _ else _) as [s1| |] eqn:E1; try discriminate. cbn [rbind] in E. injection E as <-. split; [intros; discriminate|]. intros Hs t Ht A. apply in_app_or in Ht. destruct Ht as [Ht|[Ht|[]]]; [|discriminate]. cbn [f_st].
      assert (f_st s1 = f_st s) as -> by (destruct (fc_baro fc); [destruct (bar_state _ _); try discriminate; cbn [rbind] in E1|]; injection E1 as <-; reflexivity). apply (K2 Hs t Ht). unfold above in *. rewrite Ec. exact A.
Qed.
Lemma kept_all q s : lreach q s -> kept (h_f q) (l_f s).
Proof.
  induction 1 as [|q s a s' H IH F E]; [split; [intros; discriminate|intros _ t []]|]. destruct (lreach_inv _ _ _ _ _ _ Hm _ _ H) as [d V]. pose proof (t_phase _ _ (c_t _ _ _ _ (v_f _ _ _ _ _ _ _ _ _ V))) as Ph.
  destruct a as [i| | |m|g| |l|a]; cbn [LpModel.lstep note] in *.
  - destruct (sensor i); [|discriminate]. destruct (with_f_ok _ _ _ _ E) as (f & Ef & ->). eapply kept_step; eauto.
  - destruct (with_f_ok _ _ _ _ E) as (f & Ef & ->). eapply kept_step; eauto.
  - destruct (nth_error _ _) as [[k t]|]; [|discriminate]. destruct (with_f_ok _ _ _ _ E) as (f & Ef & ->). eapply kept_step; eauto.
  - destruct (next_on s m); [|discriminate]. destruct (sys_step bp c (l_b s) (ADeliver m)); [|discriminate]. cbn in E. injection E as <-. exact IH.
  - destruct (nth_error _ _) as [t|]; [|discriminate]. destruct (existsb _ _); [|discriminate]. destruct (with_r_ok _ _ _ _ _ E) as (r & Er & _ & -> & _). exact IH.
  - destruct (nth_error (cloud_stamps (l_f s)) (l_map s)) as [t|]; [|discriminate]. destruct (nth_error (odoms _) _); [|discriminate]. destruct (with_r_ok _ _ _ _ _ E) as (r & Er & _ & -> & _). exact IH.
  - destruct (works l); [|discriminate]. destruct (with_r_ok _ _ _ _ _ E) as (r & Er & _ & -> & _). exact IH.
  - destruct (internalb a); [|discriminate]. destruct (sys_step bp c (l_b s) a); [|discriminate]. cbn in E. injection E as <-. exact IH.
Qed.
Lemma imu_past n u sw : In (u, sw) (in_clouds (h_f (p n))) -> exists m, (n <= m)%nat /\ forall m', (m <= m')%nat -> from_pcl u + sw <= f_last (l_f (x m')).
Proof.
  intros H. destruct (Himu n u sw H) as (m & t & v & L & Hi & Ht). exists m. split; [exact L|]. intros m' L'. destruct (inv m') as [d V]. pose proof (c_i _ _ _ _ (v_f _ _ _ _ _ _ _ _ _ V)) as I0. rewrite (i_last _ _ I0).
  destruct (hf_grow m m' L') as [o Eo]. enough (fst (t, v) <= lst (in_imu (h_f (p m')))) by (cbn in *; lia). apply lst_max; [apply (i_strict _ _ I0)|]. unfold in_imu. apply in_flat_map. exists (IImu t v). split; [rewrite Eo; apply in_or_app; auto|left; reflexivity].
Qed.
Lemma advances n : f_pc (l_f (x n)) <> PIdle -> Z.of_nat (List.length (out_clouds (f_out (l_f (x n))))) <= int_max -> exists m, (n <= m)%nat /\ next (l_f (x n)) (l_f (x m)).
Proof.
  intros N Hi. destruct (inv n) as [d V]. pose proof (c_t _ _ _ _ (v_f _ _ _ _ _ _ _ _ _ V)) as T. pose proof (t_phase _ _ T) as Ph. pose proof (c_s _ _ _ _ (v_f _ _ _ _ _ _ _ _ _ V)) as Sn. unfold phase_ok in Ph.
  destruct (f_pc (l_f (x n))) as [|u sw|u sw new|u sw new|u sw new|u sw new] eqn:Ec; try congruence; destruct Ph as ([pu psw] & Ev & Ph); pose proof (sn_prev _ _ _ Sn _ Ev) as Hp.
  - assert (Hs : fc_stereo fc = true) by (apply (proj1 (kept_all _ _ (reach n)) _ _ Ec)). destruct (Himg Hs n pu psw Hp) as (m0 & t & L0 & Ht & Hge).
    apply (leaves n m0); [congruence|exact L0|]. intros m s' Lm (S1 & S2 & S3 & S4) E (D1 & _). cbn [fe_step] in E. unfold cloud_poll in E. rewrite S1, Ec, S2, Ev in E.
    assert (Hq : In (from_pcl (to_pcl t)) (drop_before (from_pcl pu) (f_st (l_f (x m))))).
    { apply drop_keeps; [|exact Hge]. destruct (hf_grow m0 m Lm) as [o Eo]. apply (proj2 (kept_all _ _ (reach m)) Hs); [rewrite Eo; apply in_or_app; auto|]. unfold above. rewrite S1, Ec, S2, Ev. exact Hge. }
    destruct (drop_before _ _); [destruct Hq|]. rewrite S1, Ec in D1. destruct (_ <? _); injection E as <-; discriminate.
  - assert (Hu : In (u, sw) (in_clouds (h_f (p n)))) by (apply (sn_cur _ _ _ Sn); rewrite Ec; reflexivity). destruct (imu_past n u sw Hu) as (m0 & L0 & Hl). destruct Ph as (_ & (R1 & _)). unfold rt, rn, rc in R1. cbn [fst snd] in R1.
    assert (Hsw : 0 < sw) by (pose proof (c_sw _ _ _ _ (v_f _ _ _ _ _ _ _ _ _ V)) as X; rewrite Forall_forall in X; apply (X _ Hu)).
    apply (leaves n m0); [congruence|exact L0|]. intros m s' Lm (S1 & S2 & S3 & S4) E (D1 & _). cbn [fe_step] in E. unfold cloud_poll in E. rewrite S1, Ec, S2, Ev in E. rewrite S1, Ec in D1. specialize (Hl m Lm).
    destruct (f_init (l_f (x m))).
    + destruct (f_imu _) as [|[]]; [discriminate|]. destruct (_ <? _); [discriminate|]. destruct (select_imu _ _ _) as [[|[] ?]| |]; try discriminate. cbn [rbind] in E. injection E as <-. discriminate.
    + replace (f_last (l_f (x m)) <? new) with false in E by lia. destruct (imu_neighbours _ _); try discriminate. cbn [rbind] in E. injection E as <-. discriminate.
  - destruct (imu_past n pu psw Hp) as (m1 & L1 & Hl). destruct (awaited_arrives n u sw new Ec) as (m2 & L2 & Hb); [unfold clouds, cloud_stamps; rewrite map_length; exact Hi|].
    apply (leaves n (Nat.max m1 m2)); [congruence|lia|]. intros m s' Lm (S1 & S2 & S3 & S4) E (D1 & _). cbn [fe_step] in E. unfold cloud_poll in E. rewrite S1, Ec, S2, Ev in E. rewrite S1, Ec in D1.
    specialize (Hl m ltac:(lia)). specialize (Hb m ltac:(lia) ltac:(congruence)). replace (f_bias (l_f (x m)) =? f_pst (l_f (x m))) with true in E by lia. replace (f_last (l_f (x m)) <? from_pcl pu + psw) with false in E by lia. cbn in E. injection E as <-. discriminate.
  - apply (leaves n n); [congruence|lia|]. intros m s' Lm (S1 & S2 & S3 & S4) E (D1 & _). cbn [fe_step] in E. unfold cloud_poll in E. rewrite S1, Ec, S2, Ev in E. rewrite S1, Ec in D1.
    destruct (if f_init _ then _ else _); try discriminate. cbn [rbind] in E. destruct (integrate_imu _ _ _); try discriminate. cbn [rbind] in E. injection E as <-. discriminate.
  - apply (leaves n n); [congruence|lia|]. intros m s' Lm (S1 & S2 & S3 & S4) E (D1 & _). cbn [fe_step] in E. unfold cloud_poll in E. rewrite S1, Ec, S2, Ev in E. rewrite S1, Ec in D1.
    destruct (if fc_baro fc then _ else _); try discriminate. cbn [rbind] in E. injection E as <-. discriminate.
Qed.
Lemma callback_returns : forall n, Z.of_nat (List.length (out_clouds (f_out (l_f (x n))))) <= int_max ->
  exists m, (n <= m)%nat /\ f_pc (l_f (x m)) = PIdle /\
    List.length (out_clouds (f_out (l_f (x m)))) = (List.length (out_clouds (f_out (l_f (x n)))) + match f_pc (l_f (x n)) with PIdle | PBaro _ _ _ => 0 | _ => 1 end)%nat.
Proof.
  assert (G : forall k n, (f_rank (f_pc (l_f (x n))) = k)%nat -> (Z.of_nat (List.length (out_clouds (f_out (l_f (x n))))) <= int_max) -> exists m, (n <= m)%nat /\ f_pc (l_f (x m)) = PIdle /\
    List.length (out_clouds (f_out (l_f (x m)))) = (List.length (out_clouds (f_out (l_f (x n)))) + if Nat.leb 2 k then 1 else 0)%nat).
  { induction k as [|k IH]; intros n Ek Hi.
    - exists n. conj; [lia|destruct (f_pc (l_f (x n))); try discriminate; reflexivity|cbn; lia].
    - destruct (advances n) as (m & L & E1 & E2); [intros Z0; rewrite Z0 in Ek; discriminate|exact Hi|]. rewrite Ek in E1, E2. injection E1 as E1.
      destruct k as [|[|k]].
      + exists m. cbn [Nat.eqb Nat.leb] in *. conj; [lia|destruct (f_pc (l_f (x m))); try discriminate; reflexivity|exact E2].
      + (* the cloud is out: the last phase needs no count *)
        assert (Eb : exists u sw new, f_pc (l_f (x m)) = PBaro u sw new) by (destruct (f_pc (l_f (x m))); try discriminate; eauto). destruct Eb as (u & sw & new & Eb). destruct (inv m) as [d V]. pose proof (t_phase _ _ (c_t _ _ _ _ (v_f _ _ _ _ _ _ _ _ _ V))) as Ph. unfold phase_ok in Ph. rewrite Eb in Ph. destruct Ph as ([pu psw] & Ev & _).
        destruct (leaves m m) as (m2 & L2 & E3 & E4); [congruence|lia| |].
        { intros m' s' Lm (S1 & S2 & S3 & S4) E (D1 & _). cbn [fe_step] in E. unfold cloud_poll in E. rewrite S1, Eb, S2, Ev in E. rewrite S1, Eb in D1. destruct (if fc_baro fc then _ else _); try discriminate. cbn [rbind] in E. injection E as <-. discriminate. }
        rewrite Eb in E3, E4. cbn [f_rank Nat.eqb] in E3, E4. exists m2. conj; [lia|destruct (f_pc (l_f (x m2))); try discriminate; reflexivity|]. rewrite E4, E2. cbn [Nat.eqb Nat.leb]. lia.
      + destruct (IH m) as (m2 & L2 & E3 & E4); [symmetry; exact E1|rewrite E2; cbn [Nat.eqb]; rewrite Nat.add_0_r; exact Hi|]. exists m2. conj; [lia|exact E3|]. rewrite E4, E2. cbn [Nat.eqb Nat.leb]. lia. }
  intros n Hi. destruct (G _ n eq_refl Hi) as (m & L & E1 & E2). exists m. conj; [exact L|exact E1|]. rewrite E2. destruct (f_pc (l_f (x n))); reflexivity.
Qed.
End Fair.

(* the same from one assumption of fairness *)
Section All.
Variable bp : Z -> Z -> Z -> Z -> Z.
Variable al_s al_m : Z -> Z -> Z -> Z.
Variable fc : fcfg.
Variable c : config.
Variable s2m : bool.
Variable p : nat -> past.
Variable x : nat -> loop.
Variable acts : nat -> option lact.
Variable time : nat -> Z.
Hypothesis Hm : matching fc c.
Hypothesis Hex : lexecution bp al_s al_m fc c s2m p x acts.
Hypothesis Hfair : lfair bp al_s al_m fc c s2m p x acts.
Hypothesis Htime : timeline x time.
Hypothesis Hreg : c_reg c = true.
Hypothesis Hpool : enough_workers c.
Hypothesis Hft : features_follow c p x.
Notation on f := (f bp al_s al_m fc c s2m p x acts time Hm Hex Htime (fun w => Hfair (GReg w)) Hfair Hreg Hpool Hft).
Theorem fair_odometry_returns n i t : nth_error (cloud_stamps (l_f (x n))) i = Some t -> Z.of_nat i < int_max -> exists m, (n <= m)%nat /\ In (IOdom t) (h_f (p m)).
Proof. exact (on odometry_returns n i t). Qed.
Theorem fair_transform_published n i t : nth_error (cloud_stamps (l_f (x n))) i = Some t -> Z.of_nat i < int_max -> exists m, (n <= m)%nat /\ In t (trans (y_ev (l_b (x m)))).
Proof. exact (on transform_published n i t). Qed.
Theorem fair_cloud_registered n i t : nth_error (cloud_stamps (l_f (x n))) (S i) = Some t -> Z.of_nat (S i) < int_max -> exists m, (n <= m)%nat /\ nth_error (map fst (r_pub Z Z (l_r (x m)))) i = Some t.
Proof. exact (on cloud_registered n i t). Qed.
Theorem fair_awaited_arrives n u sw new : f_pc (l_f (x n)) = PBias u sw new -> Z.of_nat (List.length (cloud_stamps (l_f (x n)))) <= int_max ->
  exists m, (n <= m)%nat /\ forall m', (m <= m')%nat -> f_pc (l_f (x m')) = PBias u sw new -> f_bias (l_f (x m')) = f_pst (l_f (x m')).
Proof. exact (on awaited_arrives n u sw new). Qed.
Theorem fair_callback_returns : polled acts -> imu_follows p -> images_follow fc p -> forall n, Z.of_nat (List.length (out_clouds (f_out (l_f (x n))))) <= int_max ->
  exists m, (n <= m)%nat /\ f_pc (l_f (x m)) = PIdle /\ List.length (out_clouds (f_out (l_f (x m)))) = (List.length (out_clouds (f_out (l_f (x n)))) + match f_pc (l_f (x n)) with PIdle | PBaro _ _ _ => 0 | _ => 1 end)%nat.
Proof. exact (on callback_returns). Qed.
End All.
