(* All threads asleep *)
From Coq Require Import List Lia.
From Verif Require Import Base ImuModel ImuSpec ImuProofs FeModel FeSpec FeBaro FeProofs FeImu FeLive.
From Verif Require Import RegModel RegSpec RegProofs RegMore.
From Verif Require Import GmModel GmReady BeModel BeSpec BeProofs BeAbs BeInv BeSect BeHealthy BeLive LpModel LpSpec LpProofs LpInv LpLive PlModel PlSpec PlProofs.
Import ListNotations.
Local Open Scope Z_scope.

Section Stuck.
Variable bp : Z -> Z -> Z -> Z -> Z.
Variable al_s al_m : Z -> Z -> Z -> Z.
Variable fc : fcfg.
Variable c : config.
Variable s2m : bool.

(* every callback of the back end is idle or would go back to sleep *)
Definition dozing (s : sys) : Prop :=
  y_mutex s = None /\
  (forall t, match pget (y_ctl s) t with
     | CIdle => True
     | CWant m l => prun bp (section c (y_ok s) m l) (y_g s) (y_log s) (y_ev s) = (y_g s, y_log s, y_ev s, ROut (OSleep l))
     | _ => False
     end).
Record dozes (s s' : sys) : Prop := {
  dz_g : y_g s' = y_g s; dz_log : y_log s' = y_log s; dz_ev : y_ev s' = y_ev s; dz_ok : y_ok s' = y_ok s;
  dz_ctl : forall t, pget (y_ctl s') t = pget (y_ctl s) t \/ exists m l, pget (y_ctl s) t = CWant m l /\ pget (y_ctl s') t = CHold m l }.
Lemma dozes_step s s' a s2 : dozing s -> dozes s s' -> match a with ADispatch _ | AShutdown => False | _ => True end -> ser_step bp c s' (ser_of a) = Some s2 -> dozes s s2.
Proof.
  intros (Sm & Sc) P Hi E. pose proof P as [P1 P2 P3 P5 P6]. destruct a as [m|t|t|t|]; try contradiction; cbn [ser_of ser_step] in E.
  - cbn in E. destruct (subscribed c (msg_tid m)); [|discriminate]. injection E as <-. constructor; auto.
  - cbn in E. destruct (pget (y_ctl s') t) as [|m l| | |] eqn:Ec; try discriminate. destruct (y_mutex s'); [discriminate|]. injection E as <-.
    constructor; cbn [y_g y_log y_ev y_ok y_ctl]; auto. intros t'. destruct (tid_dec t' t) as [->|N].
    + rewrite pget_upd_eq. right. exists m, l. split; [|reflexivity]. destruct (P6 t) as [H|(m' & l' & H1 & H2)]; congruence.
    + rewrite pget_upd_ne by exact N. apply P6.
  - destruct (pget (y_ctl s') t) as [| |m l| |] eqn:Ec; try discriminate. injection E as <-.
    assert (Hw : pget (y_ctl s) t = CWant m l).
    { destruct (P6 t) as [H|(m' & l' & H1 & H2)]; [|congruence]. specialize (Sc t). rewrite <- H, Ec in Sc. destruct Sc. }
    pose proof (Sc t) as S1. rewrite Hw in S1. unfold complete. rewrite P5, P1, P2, P3, S1. cbn [finish].
    constructor; cbn [y_g y_log y_ev y_ok y_ctl]; auto. intros t'. destruct (tid_dec t' t) as [->|N].
    + rewrite pget_upd_eq. left. symmetry. exact Hw.
    + rewrite pget_upd_ne by exact N. apply P6.
Qed.
(* a section in progress keeps its thread *)
Lemma settle_busy s t : busy (pget (y_ctl (settle bp s)) t) = true -> busy (pget (y_ctl s) t) = true.
Proof.
  unfold settle. destruct (y_mutex s) as [t0|] eqn:Em; [|auto]. destruct (pget (y_ctl s) t0) as [| | |m q|] eqn:Ec; auto.
  destruct (tid_dec t t0) as [->|N]; [intros _; rewrite Ec; reflexivity|]. intros H. unfold complete in H. destruct (prun bp q (y_g s) (y_log s) (y_ev s)) as [[[g lg] e] x].
  destruct x as [[]|]; cbn [finish throws y_ctl] in H; rewrite ?pget_upd_ne in H by exact N; exact H.
Qed.
Lemma busy_workers s s' : (forall t, busy (pget (y_ctl s) t) = true -> busy (pget (y_ctl s') t) = true) -> (workers s <= workers s')%nat.
Proof.
  intros H. rewrite !workers_sum. pose proof (H TInit) as H1. pose proof (H TImu) as H2. pose proof (H TReg) as H3. pose proof (H TStereo) as H4. pose proof (H TBaro) as H5. cbn [pget] in *.
  assert (G : forall a b, (a = true -> b = true) -> (b2n a <= b2n b)%nat) by (intros [] [] G; cbn; try lia; discriminate (G eq_refl)).
  pose proof (G _ _ H1). pose proof (G _ _ H2). pose proof (G _ _ H3). pose proof (G _ _ H4). pose proof (G _ _ H5). lia.
Qed.

(* registration: the map callback waits *)
Record waiting (r : rst Z Z) : Prop := {
  wt_ok : r_ok Z Z r = true;
  wt_s : r_s Z Z r = SIdle Z Z;
  wt_q : r_qc Z Z r = [] \/ r_qt Z Z r = [];
  wt_m : exists m, match r_m Z Z r with MWant _ _ x | MSleep _ _ x => x = m /\ r_own Z Z r = None | MTest _ _ x => x = m /\ r_own Z Z r = Some ThM | _ => False end }.
Lemma waiting_step l r r' : works l = true -> waiting r -> rstep Z Z al_s al_m s2m l r = Some (Ok r') -> waiting r' /\ r_pub Z Z r' = r_pub Z Z r.
Proof.
  intros Hw W E. destruct W as [W1 W2 W3 [m W4]]. destruct r as [ok own qc qt pv sp mp pb]. cbn [r_ok r_s r_qc r_qt r_m r_own] in *. subst ok sp. destruct l; try discriminate Hw; cbn in E; try discriminate E.
  destruct mp as [|x|x|x|x|x|x y|x y z|x y z]; try contradiction; destruct W4 as [-> ->].
  - injection E as <-. split; [|reflexivity]. constructor; cbn [r_ok r_s r_qc r_qt r_m r_own]; auto. exists m. auto.
  - cbn [andb] in E. assert (Q : (match qt with [] => true | _ => false end || match qc with [] => true | _ => false end)%bool = true) by (destruct W3 as [->| ->]; [destruct qt; reflexivity|reflexivity]). rewrite Q in E. injection E as <-. split; [|reflexivity]. constructor; cbn [r_ok r_s r_qc r_qt r_m r_own]; auto. exists m. auto.
  - injection E as <-. split; [|reflexivity]. constructor; cbn [r_ok r_s r_qc r_qt r_m r_own]; auto. exists m. auto.
Qed.

(* all threads are taken, and every callback that has one waits *)
Record starved (s : loop) : Prop := {
  sv_full : (c_pool c <= pool_busy s)%nat;
  sv_poll : fe_step fc (l_f s) IPoll = Ok (l_f s);
  sv_reg : waiting (l_r s);
  sv_back : dozing (l_b s) }.

Lemma reach_excl p s : matching fc c -> lreach bp al_s al_m fc c s2m p s -> excl bp (l_b s).
Proof.
  intros Hm H. destruct (lreach_inv _ _ _ _ _ _ Hm _ _ H) as [d V]. pose proof (c_t _ _ _ _ (v_f _ _ _ _ _ _ _ _ _ V)) as T. destruct (a_tau fc c Hm s d T) as (tau & M & A & He). pose proof (v_b _ _ _ _ _ _ _ _ _ V tau M A) as Hb.
  exact (reachable_excl _ _ _ (hreach_reach bp c tau _ _ Hb)).
Qed.
Theorem starved_forever p s : matching fc c -> lreach bp al_s al_m fc c s2m p s -> starved s -> forall p' s', plater bp al_s al_m fc c s2m p s p' s' ->
  l_f s' = l_f s /\ r_pub Z Z (l_r s') = r_pub Z Z (l_r s) /\ l_odo s' = l_odo s /\ l_scn s' = l_scn s /\ (forall e, In e (y_ev (l_b s')) -> In e (y_ev (l_b s))) /\ (forall k, In k (opts (y_log (l_b s'))) -> In k (opts (y_log (l_b s)))).
Proof.
  intros Hm R [F P W D] p' s' H.
  assert (G : l_f s' = l_f s /\ r_pub Z Z (l_r s') = r_pub Z Z (l_r s) /\ l_odo s' = l_odo s /\ l_scn s' = l_scn s /\ waiting (l_r s') /\ excl bp (l_b s') /\ dozes (l_b s) (settle bp (l_b s'))).
  { induction H as [|p' s' a s2 H IH Ha E].
    - conj; auto; [eapply reach_excl; eauto|]. destruct D as [Dm _]. rewrite settle_none by exact Dm. constructor; auto.
    - destruct IH as (I1 & I2 & I3 & I4 & I5 & I6 & I7).
      assert (Full : (c_pool c <= pool_busy s')%nat).
      { etransitivity; [exact F|]. unfold pool_busy. rewrite I1.
        assert (Wk : (workers (l_b s) <= workers (l_b s'))%nat).
        { apply busy_workers. intros t Ht. apply settle_busy. destruct (dz_ctl _ _ I7 t) as [->|(m & l & _ & ->)]; [exact Ht|reflexivity]. }
        assert (S1 : s2s_held (l_r s) = false) by (unfold s2s_held; rewrite (wt_s _ W); reflexivity). assert (S2 : s2s_held (l_r s') = false) by (unfold s2s_held; rewrite (wt_s _ I5); reflexivity).
        assert (S3 : s2m_held (l_r s') = true) by (unfold s2m_held; destruct (wt_m _ I5) as [m X]; destruct (r_m Z Z (l_r s')); try contradiction; reflexivity). rewrite S1, S2, S3. pose proof (held_le (s2m_held (l_r s))). cbn [held]. lia. }
      assert (St : starts a = false). { destruct (starts a) eqn:Ea; [|reflexivity]. exfalso. unfold pstep in E. apply Nat.ltb_ge in Full. rewrite Ea, Full in E. discriminate. }
      apply pool_step in E.
      assert (Back : forall b, match b with ADispatch _ | AShutdown => False | _ => True end -> forall y, sys_step bp c (l_b s') b = Some y -> excl bp y /\ dozes (l_b s) (settle bp y)).
      { intros b Hb y Ey. split; [eapply step_excl; eauto|]. destruct (step_settle bp c _ _ _ I6 Ey) as [[_ ->]|X]; [exact I7|]. eapply dozes_step; eauto. }
      destruct a as [i| | |m|g| |l|b]; try discriminate St; cbn [lstep] in E.
      + rewrite I1, P in E. cbn in E. injection E as <-. cbn [l_f l_r l_b l_odo l_scn]. conj; auto.
      + destruct (next_on s' m); [|discriminate]. destruct (sys_step bp c (l_b s') (ADeliver m)) as [y|] eqn:Ey; [|discriminate]. cbn in E. injection E as <-. cbn [l_f l_r l_b l_odo l_scn]. destruct (Back (ADeliver m) I _ Ey). conj; auto.
      + destruct (works l) eqn:El; [|discriminate]. unfold with_r in E. destruct (rstep Z Z al_s al_m s2m l (l_r s')) as [[r| |]|] eqn:Er; cbn in E; try discriminate E. injection E as <-. cbn [l_f l_r l_b l_odo l_scn]. destruct (waiting_step l (l_r s') r El I5 Er) as [X1 X2]. conj; auto; congruence.
      + destruct (internalb b) eqn:Eb; [|discriminate]. destruct (sys_step bp c (l_b s') b) as [y|] eqn:Ey; [|discriminate]. cbn in E. injection E as <-. cbn [l_f l_r l_b l_odo l_scn].
        assert (Hb : match b with ADispatch _ | AShutdown => False | _ => True end) by (destruct b; try discriminate; exact I). destruct (Back _ Hb _ Ey). conj; auto. }
  destruct G as (G1 & G2 & G3 & G4 & _ & _ & G7). conj; auto.
  - intros e He. destruct (settle_ev bp (l_b s')) as [l El]. rewrite (dz_ev _ _ G7) in El. rewrite El. apply in_or_app. auto.
  - intros k Hk. destruct (settle_log bp (l_b s')) as [l El]. rewrite (dz_log _ _ G7) in El. rewrite El, opts_app. apply in_or_app. auto.
Qed.
End Stuck.

(* without s2m/enabled the callback of the local map still runs, and keeps its thread for ever *)
Section Lost.
Variable bp : Z -> Z -> Z -> Z -> Z.
Variable al_s al_m : Z -> Z -> Z -> Z.
Variable fc : fcfg.
Variable c : config.
Record alone (r : rst Z Z) : Prop := {
  an_ok : r_ok Z Z r = true; an_c : r_qc Z Z r = []; an_t : r_qt Z Z r = [];
  an_s : match r_s Z Z r with SIdle _ _ | SWork _ _ _ _ | SEnd _ _ _ => True | _ => False end;
  an_m : match r_m Z Z r with MIdle _ _ | MWant _ _ _ | MTest _ _ _ | MSleep _ _ _ => True | _ => False end }.
Lemma alone_step l r r' : match l with Down _ _ => False | _ => True end -> alone r -> rstep Z Z al_s al_m false l r = Some (Ok r') -> alone r' /\ (s2m_held r = true -> s2m_held r' = true).
Proof.
  intros Hl [A1 A2 A3 A4 A5] E. destruct r as [ok own qc qt pv sp mp pb]. cbn [r_ok r_s r_qc r_qt r_m] in *. subst. destruct l as [x g|x| | |]; try contradiction; cbn in E.
  - destruct sp; try discriminate E. injection E as <-. split; [constructor; cbn; auto|auto].
  - destruct mp; try discriminate E. injection E as <-. split; [constructor; cbn; auto|auto].
  - destruct sp; try discriminate E; try contradiction; [destruct pv|]; injection E as <-; (split; [constructor; cbn; auto|auto]).
  - destruct mp; try discriminate E; try contradiction; [destruct own; [discriminate E|]| |]; injection E as <-; (split; [constructor; cbn; auto|auto]).
Qed.
Lemma alone_loop s a s' : alone (l_r s) -> lstep bp al_s al_m fc c false s a = Some (Ok s') -> alone (l_r s') /\ (s2m_held (l_r s) = true -> s2m_held (l_r s') = true).
Proof.
  intros A E. destruct a as [i| | |m|g| |l|b]; cbn [lstep] in E.
  - destruct (sensor i); [|discriminate]. unfold with_f in E. destruct (fe_step fc (l_f s) i); try discriminate. cbn in E. injection E as <-. auto.
  - unfold with_f in E. destruct (fe_step fc (l_f s) IPoll); try discriminate. cbn in E. injection E as <-. auto.
  - destruct (nth_error _ _) as [[k t]|]; [|discriminate]. unfold with_f in E. destruct (fe_step fc (l_f s) (IOdom t)); try discriminate. cbn in E. injection E as <-. auto.
  - destruct (next_on s m); [|discriminate]. destruct (sys_step bp c (l_b s) (ADeliver m)); [|discriminate]. cbn in E. injection E as <-. auto.
  - destruct (nth_error _ _) as [t|]; [|discriminate]. destruct (existsb _ _); [|discriminate]. destruct (with_r_ok _ _ _ _ _ E) as (x & Ex & -> & _). eapply alone_step; [|exact A|exact Ex]. exact I.
  - destruct (nth_error (cloud_stamps (l_f s)) (l_map s)) as [t|]; [|discriminate]. destruct (nth_error (odoms _) _); [|discriminate]. destruct (with_r_ok _ _ _ _ _ E) as (x & Ex & -> & _). eapply alone_step; [|exact A|exact Ex]. exact I.
  - destruct (works l) eqn:W; [|discriminate]. destruct (with_r_ok _ _ _ _ _ E) as (x & Ex & -> & _). eapply alone_step; [|exact A|exact Ex]. destruct l; try discriminate; exact I.
  - destruct (internalb b); [|discriminate]. destruct (sys_step bp c (l_b s) b); [|discriminate]. cbn in E. injection E as <-. auto.
Qed.
Theorem thread_lost p s p' s' : preach bp al_s al_m fc c false p s -> s2m_held (l_r s) = true -> plater bp al_s al_m fc c false p s p' s' -> s2m_held (l_r s') = true.
Proof.
  intros H Hs L. assert (A : alone (l_r s)).
  { clear Hs L. induction H as [|p s a s2 H IH F E]; [constructor; cbn; auto|]. apply pool_step in E. destruct (alone_loop _ _ _ IH E) as [X _]. exact X. }
  assert (G : alone (l_r s') /\ s2m_held (l_r s') = true); [|apply G].
  induction L as [|p' s' a s2 L IH F E]; [auto|]. destruct IH as [I1 I2]. apply pool_step in E. destruct (alone_loop _ _ _ I1 E). auto.
Qed.
End Lost.
