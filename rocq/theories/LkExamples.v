(* Executions of the node: the race on the data of the deskewing, a mutex left locked by a shutdown, a wait. *)
From Coq Require Import String List Arith Lia Bool Relations.
From Verif Require Import Base LkModel LkSpec LkProofs LkNode.
Import ListNotations.
Local Open Scope nat_scope.
Open Scope string_scope.

(* scripts: thread t begins callback c, goes on (b chooses the first alternative, or another round of a loop), ends *)
Inductive cmd := Bg (t c : nat) | Go (t : nat) (b : bool) | En (t : nat) | Dn.
Definition next (w : world) (t : nat) (th : thread) (k : list stmt) (i : list string) (o : string -> option nat) : world :=
  mkW o (set_thr (w_thr w) t (Some (mkT (t_cb th) k i))) (w_up w).
Definition do (lim : list nat) (w : world) (x : cmd) : option world :=
  match x with
  | Dn => Some (mkW (w_own w) (w_thr w) false)
  | Bg t c =>
      match w_thr w t, nth_error node c with
      | None, Some cb => if forallb (fun u => match w_thr w u with Some th => negb (Nat.eqb (t_cb th) c) | None => true end) lim && existsb (Nat.eqb t) lim
                         then Some (mkW (w_own w) (set_thr (w_thr w) t (Some (mkT c [c_body cb] []))) (w_up w)) else None
      | _, _ => None
      end
  | En t => match w_thr w t with Some th => match t_k th with [] => Some (mkW (w_own w) (set_thr (w_thr w) t None) (w_up w)) | _ => None end | None => None end
  | Go t b =>
      match w_thr w t with
      | None => None
      | Some th =>
          match t_k th with
          | [] => None
          | (Skip | Rd _ _ | Wr _ _ | Sleep) :: k => Some (next w t th k (t_in th) (w_own w))
          | Quit :: k => Some (next w t th (if w_up w then k else []) (t_in th) (w_own w))
          | Seq a b' :: k => Some (next w t th (a :: b' :: k) (t_in th) (w_own w))
          | Alt a b' :: k => Some (next w t th ((if b then a else b') :: k) (t_in th) (w_own w))
          | Loop a :: k => Some (next w t th (if b then a :: Loop a :: k else k) (t_in th) (w_own w))
          | Lock m :: k => match w_own w m with None => Some (next w t th k (t_in th) (set_own (w_own w) m (Some t))) | Some _ => None end
          | Unlock m :: k => match w_own w m with Some o => if Nat.eqb o t then Some (next w t th k (t_in th) (set_own (w_own w) m None)) else None | None => None end
          | Enter y :: k => Some (next w t th k (y :: t_in th) (w_own w))
          | Leave y :: k => Some (next w t th k (remove string_dec y (t_in th)) (w_own w))
          end
      end
  end.
Fixpoint script (lim : list nat) (w : world) (l : list cmd) : option world :=
  match l with [] => Some w | x :: l' => match do lim w x with Some w' => script lim w' l' | None => None end end.

(* only threads of lim are used *)
Definition within (lim : list nat) (w : world) : Prop := forall t, w_thr w t <> None -> In t lim.
Lemma do_ok lim w x w' : within lim w -> reach node anything w -> do lim w x = Some w' -> within lim w' /\ reach node anything w'.
Proof.
  intros L R E.
  assert (K : forall t th k i o, w_thr w t = Some th -> within lim (next w t th k i o)).
  { intros t th k i o Et u Hu. unfold next in Hu. cbn in Hu. destruct (Nat.eq_dec u t) as [->|N]; [apply L; congruence|rewrite set_thr_ne in Hu by exact N; apply L; exact Hu]. }
  destruct x as [t c|t b|t|]; cbn [do] in E.
  - destruct (w_thr w t) eqn:Et; [discriminate|]. destruct (nth_error node c) as [cb|] eqn:Ec; [|discriminate]. destruct (forallb _ lim && existsb (Nat.eqb t) lim) eqn:B; [|discriminate]. injection E as <-. apply andb_true_iff in B. destruct B as [B1 B2]. split.
    + intros u Hu. cbn in Hu. destruct (Nat.eq_dec u t) as [->|N]; [|rewrite set_thr_ne in Hu by exact N; apply L; exact Hu]. apply existsb_exists in B2. destruct B2 as (y & Hy & Ey). apply Nat.eqb_eq in Ey. congruence.
    + eapply r_step; [exact R|exact I|]. eapply s_begin; [exact Et|exact Ec|]. intros _ u uh Hu Hc. assert (In u lim) by (apply L; congruence). pose proof (proj1 (forallb_forall _ _) B1 u H) as X. cbn beta in X. rewrite Hu in X. apply negb_true_iff in X. apply Nat.eqb_neq in X. contradiction.
  - destruct (w_thr w t) as [th|] eqn:Et; [|discriminate]. destruct (t_k th) as [|s k] eqn:Ek; [discriminate|].
    assert (Mv : forall k', moves (w_up w) (s :: k) k' -> reach node anything (next w t th k' (t_in th) (w_own w))).
    { intros k' M. eapply r_step; [exact R|exact I|]. eapply s_move; [exact Et|rewrite Ek; exact M]. }
    destruct s; try (injection E as <-; split; [apply K; exact Et|apply Mv; constructor]; fail).
    + destruct (w_own w m) eqn:Eo; [discriminate|]. injection E as <-. split; [apply K; exact Et|]. eapply r_step; [exact R|exact I|]. eapply s_lock; eauto.
    + destruct (w_own w m) as [o|] eqn:Eo; [|discriminate]. destruct (Nat.eqb_spec o t) as [->|]; [|discriminate]. injection E as <-. split; [apply K; exact Et|]. eapply r_step; [exact R|exact I|]. eapply s_unlock; eauto.
    + injection E as <-. split; [apply K; exact Et|]. apply Mv. destruct (w_up w) eqn:Hu; constructor; reflexivity.
    + injection E as <-. split; [apply K; exact Et|]. eapply r_step; [exact R|exact I|]. eapply s_enter; eauto.
    + injection E as <-. split; [apply K; exact Et|]. eapply r_step; [exact R|exact I|]. eapply s_leave; eauto.
    + injection E as <-. split; [apply K; exact Et|]. apply Mv. destruct b; constructor.
    + injection E as <-. split; [apply K; exact Et|]. apply Mv. destruct b; constructor.
  - destruct (w_thr w t) as [th|] eqn:Et; [|discriminate]. destruct (t_k th) eqn:Ek; [|discriminate]. injection E as <-. split.
    + intros u Hu. cbn in Hu. destruct (Nat.eq_dec u t) as [->|N]; [rewrite set_thr_eq in Hu; congruence|rewrite set_thr_ne in Hu by exact N; apply L; exact Hu].
    + eapply r_step; [exact R|exact I|]. eapply s_end; eauto.
  - injection E as <-. split; [exact L|]. apply r_down. exact R.
Qed.
Lemma script_ok lim : forall l w w', within lim w -> reach node anything w -> script lim w l = Some w' -> reach node anything w'.
Proof.
  induction l as [|x l IH]; intros w w' L R E; cbn in E; [congruence|]. destruct (do lim w x) as [w1|] eqn:E1; [|discriminate]. destruct (do_ok _ _ _ _ L R E1) as [L1 R1]. eapply IH; eauto.
Qed.
Lemma script0 lim l w' : script lim world0 l = Some w' -> reach node anything w'.
Proof. apply script_ok; [intros t H; exfalso; apply H; reflexivity|apply r_start]. Qed.

(* thread t goes on until stop holds of what it does next; bs: its choices *)
Fixpoint until (fuel : nat) (lim : list nat) (w : world) (t : nat) (bs : list bool) (stop : list stmt -> bool) : option world :=
  match w_thr w t with
  | None => None
  | Some th =>
      if stop (t_k th) then Some w else
      match fuel with
      | O => None
      | S n => let c := match t_k th with (Alt _ _ | Loop _) :: _ => true | _ => false end in
               match do lim w (Go t (if c then hd false bs else false)) with Some w' => until n lim w' t (if c then tl bs else bs) stop | None => None end
      end
  end.
Lemma until_ok lim stop t : forall n w bs w', within lim w -> reach node anything w -> until n lim w t bs stop = Some w' -> within lim w' /\ reach node anything w'.
Proof.
  induction n as [|n IH]; intros w bs w' L R E; cbn [until] in E; (destruct (w_thr w t) as [th|] eqn:Et; [|discriminate]; destruct (stop (t_k th)); [injection E as <-; auto|]); [discriminate|].
  destruct (do lim w (Go t _)) as [w1|] eqn:E1 in E; [|discriminate]. destruct (do_ok _ _ _ _ L R E1) as [L1 R1]. eapply IH; eauto.
Qed.
Definition at_line (l : nat) (k : list stmt) : bool := match k with (Rd _ n | Wr _ n) :: _ => Nat.eqb n l | _ => false end.
Definition at_lock (k : list stmt) : bool := match k with Lock _ :: _ => true | _ => false end.
Definition at_end (k : list stmt) : bool := match k with [] => true | _ => false end.
Definition at_quit (k : list stmt) : bool := match k with Quit :: _ => true | _ => false end.
Definition bind {A B} (x : option A) (f : A -> option B) : option B := match x with Some a => f a | None => None end.
Definition fuel := 100.
Definition lim := [0; 1].

Definition sound (x : option world) : Prop := forall w, x = Some w -> within lim w /\ reach node anything w.
Definition and_do (x : option world) (c : cmd) : option world := bind x (fun w => do lim w c).
Definition and_until (n : nat) (x : option world) (t : nat) (bs : list bool) (stop : list stmt -> bool) : option world := bind x (fun w => until n lim w t bs stop).
Lemma sound0 : sound (Some world0).
Proof. intros w E. injection E as <-. split; [intros t H; exfalso; apply H; reflexivity|apply r_start]. Qed.
Lemma sound_do x c : sound x -> sound (and_do x c).
Proof. intros G w E. destruct x as [v|]; [|discriminate E]. destruct (G v eq_refl) as [L R]. exact (do_ok lim v c w L R E). Qed.
Lemma sound_until n x t bs stop : sound x -> sound (and_until n x t bs stop).
Proof. intros G w E. destruct x as [v|]; [|discriminate E]. destruct (G v eq_refl) as [L R]. unfold and_until in E. cbn [bind] in E. exact (until_ok lim stop t n v bs w L R E). Qed.
Lemma sound_reach x w : sound x -> x = Some w -> reach node anything w.
Proof. intros G E. apply (G w E). Qed.

(* thread 0: the point cloud callback of an initialised front end without stereo data reads world_state (480);
   thread 1: the odometry callback writes it (274) *)
Definition racing : option world :=
  and_until fuel (and_do (and_until fuel (and_do (Some world0) (Bg 0 pointcloud_cb)) 0 [true; false; true; false; false; false] (at_line 480)) (Bg 1 1)) 1 [true] (at_line 274).
(* the point cloud callback waits for stereo data; the node shuts down, and the callback returns holding the mutex *)
Definition leaking : option world :=
  and_do (and_until fuel (and_do (and_until fuel (and_do (Some world0) (Bg 0 pointcloud_cb)) 0 [true; true; true] at_quit) Dn) 0 [] at_end) (En 0).
(* thread 0, the IMU callback, holds preintegration_mutex; thread 1, the first point cloud callback, wants it *)
Definition waiting : option world :=
  and_until fuel (and_do (and_until fuel (and_do (Some world0) (Bg 0 3)) 0 [] (at_line 215)) (Bg 1 pointcloud_cb)) 1 [true; false] at_lock.
Lemma racing_sound : sound racing. Proof. unfold racing. apply sound_until, sound_do, sound_until, sound_do, sound0. Qed.
Lemma leaking_sound : sound leaking. Proof. unfold leaking. apply sound_do, sound_until, sound_do, sound_until, sound_do, sound0. Qed.
Lemma waiting_sound : sound waiting. Proof. unfold waiting. apply sound_until, sound_do, sound_until, sound_do, sound0. Qed.

(* nothing in the locking itself keeps the odometry callback from writing what the deskewing reads *)
Theorem race_possible : exists w, reach node anything w /\ w_up w = true /\ race w 1 274 pointcloud_cb 480 "fe.world_state".
Proof.
  assert (X : match racing with Some w => w_up w = true /\ match w_thr w 0, w_thr w 1 with Some a, Some b => t_cb a = pointcloud_cb /\ t_cb b = 1 /\ hd Skip (t_k a) = Rd "fe.world_state" 480 /\ hd Skip (t_k b) = Wr "fe.world_state" 274 | _, _ => False end | None => False end) by (vm_compute; auto 10).
  destruct racing as [w|] eqn:E; [|destruct X]. exists w. split; [exact (sound_reach _ _ racing_sound E)|]. clear E. destruct X as [U X]. split; [exact U|]. destruct (w_thr w 0) as [a|] eqn:Ea; [|destruct X]. destruct (w_thr w 1) as [b|] eqn:Eb; [|destruct X]. destruct X as (Ca & Cb & Ha & Hb).
  constructor. exists 1, 0, b, a, true, false. split; [discriminate|]. split; [exact Eb|]. split; [exact Ea|]. split; [exact Cb|]. split; [exact Ca|]. split; [|split; [|auto]].
  - destruct (t_k b) as [|x k] eqn:Ek; [discriminate|]. cbn in Hb. subst x. exists k. exact Ek.
  - destruct (t_k a) as [|x k] eqn:Ek; [discriminate|]. cbn in Ha. subst x. exists k. exact Ek.
Qed.

(* a callback that returns because of a shutdown can leave its mutex locked *)
Theorem shutdown_leaves_locked : exists w t m, reach node anything w /\ w_up w = false /\ w_thr w t = None /\ w_own w m = Some t.
Proof.
  assert (X : match leaking with Some w => w_up w = false /\ w_thr w 0 = None /\ w_own w ste_m = Some 0 | None => False end) by (vm_compute; auto 10).
  destruct leaking as [w|] eqn:E; [|destruct X]. exists w, 0, ste_m. split; [exact (sound_reach _ _ leaking_sound E)|exact X].
Qed.

(* a thread that has to wait *)
Theorem waiting_thread : exists w, reach node anything w /\ w_up w = true /\ waits w 1 0.
Proof.
  assert (X : match waiting with Some w => w_up w = true /\ match w_thr w 1 with Some b => hd Skip (t_k b) = Lock pre_m /\ w_own w pre_m = Some 0 | _ => False end | None => False end) by (vm_compute; auto 10).
  destruct waiting as [w|] eqn:E; [|destruct X]. exists w. split; [exact (sound_reach _ _ waiting_sound E)|]. clear E. destruct X as [U X]. split; [exact U|]. destruct (w_thr w 1) as [b|] eqn:Eb; [|destruct X]. destruct X as [Hb Ho]. destruct (t_k b) as [|x k] eqn:Ek; [discriminate|]. cbn in Hb. subst x. exists b, pre_m, k. auto.
Qed.

(* the hypothesis of the race freedom: a cloud is being deskewed, and an odometry callback has begun *)
Lemma go_more w t b w' th : do lim w (Go t b) = Some w' -> w_thr w t = Some th -> (forall e, kept_out deskewing odometry_cbs pre_m w t e) -> reach node (kept_out deskewing odometry_cbs pre_m) w ->
  reach node (kept_out deskewing odometry_cbs pre_m) w' /\ exists th', w_thr w' t = Some th' /\ t_cb th' = t_cb th.
Proof.
  intros E Et K R. cbn [do] in E. rewrite Et in E. destruct (t_k th) as [|s k] eqn:Ek; [discriminate|].
  assert (Mv : forall k', moves (w_up w) (s :: k) k' -> reach node (kept_out deskewing odometry_cbs pre_m) (next w t th k' (t_in th) (w_own w))).
  { intros k' M. eapply r_step; [exact R|apply K|]. eapply s_move; [exact Et|rewrite Ek; exact M]. }
  assert (N : forall k i o, exists th', w_thr (next w t th k i o) t = Some th' /\ t_cb th' = t_cb th) by (intros k' i o; unfold next; cbn; rewrite set_thr_eq; eauto).
  destruct s; try (injection E as <-; split; [apply Mv; constructor|apply N]; fail).
  - destruct (w_own w m) eqn:Eo; [discriminate|]. injection E as <-. split; [|apply N]. eapply r_step; [exact R|apply K|]. eapply s_lock; eauto.
  - destruct (w_own w m) as [o|] eqn:Eo; [|discriminate]. destruct (Nat.eqb_spec o t) as [->|]; [|discriminate]. injection E as <-. split; [|apply N]. eapply r_step; [exact R|apply K|]. eapply s_unlock; eauto.
  - injection E as <-. split; [|apply N]. apply Mv. destruct (w_up w) eqn:Hu; constructor; reflexivity.
  - injection E as <-. split; [|apply N]. eapply r_step; [exact R|apply K|]. eapply s_enter; eauto.
  - injection E as <-. split; [|apply N]. eapply r_step; [exact R|apply K|]. eapply s_leave; eauto.
  - injection E as <-. split; [|apply N]. apply Mv. destruct b; constructor.
  - injection E as <-. split; [|apply N]. apply Mv. destruct b; constructor.
Qed.
Lemma until_more t stop : forall n w bs w' th, until n lim w t bs stop = Some w' -> w_thr w t = Some th -> t_cb th = pointcloud_cb -> reach node (kept_out deskewing odometry_cbs pre_m) w ->
  reach node (kept_out deskewing odometry_cbs pre_m) w'.
Proof.
  induction n as [|n IH]; intros w bs w' th E Et C R; cbn [until] in E; rewrite Et in E; destruct (stop (t_k th)); try (injection E as <-; exact R); [discriminate|].
  destruct (do lim w (Go t _)) as [w1|] eqn:E1 in E; [|discriminate].
  assert (K : forall e, kept_out deskewing odometry_cbs pre_m w t e).
  { intros e u v v' Hu Ho. rewrite Et in Hu. injection Hu as <-. rewrite C in Ho. cbn in Ho. destruct Ho as [Ho|[Ho|[]]]; discriminate. }
  destruct (go_more _ _ _ _ _ E1 Et K R) as (R1 & th1 & Et1 & C1). eapply IH; [exact E|exact Et1|congruence|exact R1].
Qed.
Example race_free_met : exists w th0 th1, reach node (kept_out deskewing odometry_cbs pre_m) w /\ w_up w = true /\ w_thr w 0 = Some th0 /\ w_thr w 1 = Some th1 /\
  t_in th0 = [deskewing] /\ accesses th0 "fe.world_state" false 480 /\ In (t_cb th1) odometry_cbs.
Proof.
  assert (X : match and_do (Some world0) (Bg 0 pointcloud_cb) with Some v => match until fuel lim v 0 [true; false; true; false; false; false] (at_line 480) with
    | Some w => w_up w = true /\ w_thr w 1 = None /\ match w_thr w 0 with Some a => t_cb a = pointcloud_cb /\ t_in a = [deskewing] /\ hd Skip (t_k a) = Rd "fe.world_state" 480 | _ => False end | None => False end | None => False end) by (vm_compute; auto 10).
  destruct (and_do (Some world0) (Bg 0 pointcloud_cb)) as [v|] eqn:Ev; [|destruct X]. destruct (until fuel lim v 0 [true; false; true; false; false; false] (at_line 480)) as [w|] eqn:E; [|destruct X].
  destruct X as (U & N1 & X). destruct (w_thr w 0) as [a|] eqn:Ea; [|destruct X]. destruct X as (Ca & Ia & Ha).
  assert (Lw : within lim w).
  { destruct (sound_do _ _ sound0 v Ev) as [Lv Rv]. revert E. generalize fuel. intros n E. exact (proj1 (until_ok lim (at_line 480) 0 n v _ w Lv Rv E)). }
  assert (R0' : reach node (kept_out deskewing odometry_cbs pre_m) v /\ exists th, w_thr v 0 = Some th /\ t_cb th = pointcloud_cb).
  { revert Ev. unfold and_do, bind, do. destruct (nth_error node pointcloud_cb) as [cb|] eqn:Ec; [|discriminate]. cbn [w_thr world0]. intros Ev. destruct (forallb _ lim && existsb (Nat.eqb 0) lim) in Ev; [|discriminate]. injection Ev as <-. split.
    - eapply r_step; [apply r_start|intros th u th' H; discriminate H|]. eapply s_begin; [reflexivity|exact Ec|]. intros _ u uh Hu. discriminate Hu.
    - cbn [w_thr]. rewrite set_thr_eq. eexists. split; reflexivity. }
  destruct R0' as (Rv & th & Et & Ct). revert E. generalize fuel. intros n E. pose proof (until_more _ _ _ _ _ _ _ E Et Ct Rv) as Rw.
  exists (mkW (w_own w) (set_thr (w_thr w) 1 (Some (mkT 1 [c_body (nth 1 node (mkCb "" false Skip))] []))) (w_up w)), a, (mkT 1 [c_body (nth 1 node (mkCb "" false Skip))] []). cbn [w_up w_thr]. rewrite set_thr_eq, set_thr_ne by discriminate. repeat split; auto.
  - eapply r_step; [exact Rw|intros y u th' H; rewrite N1 in H; discriminate H|]. eapply s_begin; [exact N1|reflexivity|]. intros _ u uh Hu Hc. assert (Iu : In u lim) by (apply Lw; congruence). cbn in Iu. destruct Iu as [<-|[<-|[]]]; [rewrite Ea in Hu; injection Hu as <-; rewrite Ca in Hc; discriminate Hc|congruence].
  - destruct (t_k a) as [|x k] eqn:Ek; [discriminate|]. cbn in Ha. subst x. exists k. exact Ek.
  - cbn. auto.
Qed.
