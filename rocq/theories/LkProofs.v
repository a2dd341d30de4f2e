(* A check of programs and what it guarantees *)
From Coq Require Import String List Arith Lia Bool Relations.
From Verif Require Import Base LkModel LkSpec.
Import ListNotations.
Local Open Scope nat_scope.
Open Scope string_scope.

(* what a thread is known to have at a point of its program: mutexes and marks *)
Inductive tok := TM (m : string) | TW (x : string).
Definition tok_dec (a b : tok) : {a = b} + {a <> b}.
Proof. decide equality; apply string_dec. Defined.
Definition has (x : tok) (h : list tok) : bool := if in_dec tok_dec x h then true else false.
Definition del (x : tok) (h : list tok) : list tok := remove tok_dec x h.
Definition same (a b : list tok) : bool := if list_eq_dec tok_dec a b then true else false.

Fixpoint flow (s : stmt) (h : list tok) : option (list tok) :=
  match s with
  | Skip | Rd _ _ | Wr _ _ | Sleep | Quit => Some h
  | Lock m => if has (TM m) h then None else Some (TM m :: h)
  | Unlock m => if has (TM m) h then Some (del (TM m) h) else None
  | Enter x => if has (TW x) h then None else Some (TW x :: h)
  | Leave x => if has (TW x) h then Some (del (TW x) h) else None
  | Seq a b => match flow a h with Some h' => flow b h' | None => None end
  | Alt a b => match flow a h, flow b h with Some h1, Some h2 => if same h1 h2 then Some h1 else None | _, _ => None end
  | Loop a => match flow a h with Some h' => if same h' h then Some h else None | None => None end
  end.

(* the points of interest of a program with what is known there *)
Inductive point := PAcc (f : string) (write : bool) (line : nat) | PLock (m : string) | PSleep | PEnter (x : string) | PQuit.
Fixpoint points (s : stmt) (h : list tok) : list (point * list tok) :=
  match s with
  | Rd f l => [(PAcc f false l, h)]
  | Wr f l => [(PAcc f true l, h)]
  | Lock m => [(PLock m, h)]
  | Sleep => [(PSleep, h)]
  | Enter x => [(PEnter x, h)]
  | Quit => [(PQuit, h)]
  | Seq a b => points a h ++ match flow a h with Some h' => points b h' | None => [] end
  | Alt a b => points a h ++ points b h
  | Loop a => points a h
  | _ => []
  end.
Fixpoint flows (k : list stmt) (h : list tok) : option (list tok) :=
  match k with [] => Some h | s :: k' => match flow s h with Some h' => flows k' h' | None => None end end.
Fixpoint pointss (k : list stmt) (h : list tok) : list (point * list tok) :=
  match k with [] => [] | s :: k' => points s h ++ match flow s h with Some h' => pointss k' h' | None => [] end end.

Lemma has_spec x h : has x h = true <-> In x h.
Proof. unfold has. destruct (in_dec tok_dec x h); split; intros; auto; discriminate. Qed.
Lemma has_no x h : has x h = false <-> ~ In x h.
Proof. unfold has. destruct (in_dec tok_dec x h); split; intros; auto; try discriminate; contradiction. Qed.
Lemma same_spec a b : same a b = true <-> a = b.
Proof. unfold same. destruct (list_eq_dec tok_dec a b); split; intros; auto; try discriminate; contradiction. Qed.
Lemma in_del x y h : In y (del x h) <-> In y h /\ y <> x.
Proof. unfold del. split; [intros H; apply in_remove in H; exact H|intros [H N]; apply in_in_remove; auto]. Qed.
Lemma nodup_del x h : NoDup h -> NoDup (del x h).
Proof.
  induction 1 as [|y h N D IH]; [constructor|]. cbn. destruct (tok_dec x y); [exact IH|]. constructor; [|exact IH]. fold (del x h). rewrite in_del. tauto.
Qed.

Definition good (c : callback) : bool := match flow (c_body c) [] with Some h => same h [] | None => false end.
Definition all_points (P : list callback) : list (nat * callback * (point * list tok)) :=
  flat_map (fun ic => map (fun p => (ic, p)) (points (c_body (snd ic)) [])) (combine (seq 0 (List.length P)) P).

(* pairs of accesses that no mutex keeps apart *)
Definition disjoint (a b : list tok) : bool := forallb (fun x => match x with TM _ => negb (has x b) | TW _ => true end) a.
Definition clash (p q : nat * callback * (point * list tok)) : bool :=
  match fst (snd p), fst (snd q) with
  | PAcc f b _, PAcc g d _ =>
      if b || d then if String.eqb f g then if disjoint (snd (snd p)) (snd (snd q)) then
        negb (Nat.eqb (fst (fst p)) (fst (fst q))) || c_again (snd (fst p))
      else false else false else false
  | _, _ => false
  end.
Definition line_of (p : point) : nat := match p with PAcc _ _ l => l | _ => 0 end.
Definition field_of (p : point) : string := match p with PAcc f _ _ => f | _ => "" end.
Definition summary (p q : nat * callback * (point * list tok)) : nat * nat * nat * nat * string :=
  (fst (fst p), line_of (fst (snd p)), fst (fst q), line_of (fst (snd q)), field_of (fst (snd p))).
(* x, odo, m: as in kept_out; None: without that assumption *)
Definition excused (a : option (string * list nat * string)) (p q : nat * callback * (point * list tok)) : bool :=
  match a with
  | Some (x, odo, m) => has (TW x) (snd (snd p)) && existsb (Nat.eqb (fst (fst q))) odo && has (TM m) (snd (snd q))
  | None => false
  end.
Definition potential (a : option (string * list nat * string)) (P : list callback) : list (nat * nat * nat * nat * string) :=
  let l := all_points P in
  flat_map (fun p => flat_map (fun q => if clash p q then if negb (excused a p q) && negb (excused a q p) then [summary p q] else [] else []) l) l.

Lemma in_all P c cb p : nth_error P c = Some cb -> In p (points (c_body cb) []) -> In (c, cb, p) (all_points P).
Proof.
  intros E H. unfold all_points. apply in_flat_map. exists (c, cb). split; [|apply in_map; exact H].
  assert (G : forall P n, nth_error P c = Some cb -> In ((n + c)%nat, cb) (combine (seq n (List.length P)) P)).
  { clear. induction c as [|c IH]; intros [|x P] n E; cbn in *; try discriminate; [left; injection E as <-; f_equal; lia|right]. replace (n + S c)%nat with (S n + c)%nat by lia. apply IH. exact E. }
  apply (G P 0 E).
Qed.

(* ---- the invariant ---- *)
Record tinv (P : list callback) (w : world) (t : nat) (th : thread) (h : list tok) : Prop := {
  i_cb : exists cb, nth_error P (t_cb th) = Some cb /\ incl (pointss (t_k th) h) (points (c_body cb) []);
  i_fl : exists h', flows (t_k th) h = Some h' /\ (w_up w = true -> h' = []);
  i_nd : NoDup h;
  i_own : forall m, In (TM m) h -> w_own w m = Some t;
  i_in : forall x, In (TW x) h <-> In x (t_in th) }.
Record winv (P : list callback) (w : world) : Prop := {
  v_thr : forall t th, w_thr w t = Some th -> exists h, tinv P w t th h /\ (w_up w = true -> forall m, w_own w m = Some t -> In (TM m) h);
  v_idle : w_up w = true -> forall m t, w_own w m = Some t -> w_thr w t <> None;
  v_one : forall t t' th th' cb, w_thr w t = Some th -> w_thr w t' = Some th' -> t_cb th = t_cb th' -> nth_error P (t_cb th) = Some cb -> c_again cb = false -> t = t' }.

Lemma set_thr_eq f t o : set_thr f t o t = o.
Proof. unfold set_thr. rewrite Nat.eqb_refl. reflexivity. Qed.
Lemma set_thr_ne f t o t' : t' <> t -> set_thr f t o t' = f t'.
Proof. intros N. unfold set_thr. destruct (Nat.eqb_spec t' t); [contradiction|reflexivity]. Qed.
Lemma set_own_eq f m o : set_own f m o m = o.
Proof. unfold set_own. rewrite String.eqb_refl. reflexivity. Qed.
Lemma set_own_ne f m o m' : m' <> m -> set_own f m o m' = f m'.
Proof. intros N. unfold set_own. destruct (String.eqb_spec m' m); [contradiction|reflexivity]. Qed.

(* control steps keep what is known *)
Lemma moves_ok up k k' h h' : moves up k k' -> flows k h = Some h' -> (up = true -> h' = []) ->
  exists h2, flows k' h = Some h2 /\ (up = true -> h2 = []) /\ incl (pointss k' h) (pointss k h).
Proof.
  intros M E Hu. destruct M; cbn [flows pointss flow points] in *.
  - exists h'. repeat split; auto. apply incl_refl.
  - exists h'. repeat split; auto. intros z Hz; right; exact Hz.
  - exists h'. repeat split; auto. intros z Hz; right; exact Hz.
  - exists h'. repeat split; auto. intros z Hz; right; exact Hz.
  - exists h'. repeat split; auto. intros z Hz; right; exact Hz.
  - exists h. repeat split; [congruence|]. intros z [].
  - exists h'. repeat split; auto; [destruct (flow a h); [exact E|discriminate]|]. destruct (flow a h) as [h1|]; [|discriminate]. rewrite <- app_assoc. apply incl_refl.
  - destruct (flow a h) as [h1|]; [|discriminate]. destruct (flow b h) as [h2|]; [|discriminate]. destruct (same h1 h2) eqn:S0; [|discriminate]. apply same_spec in S0. subst h2. exists h'. repeat split; auto.
    intros z Hz. apply in_app_or in Hz. apply in_or_app. destruct Hz; [left; apply in_or_app; auto|right; auto].
  - destruct (flow a h) as [h1|]; [|discriminate]. destruct (flow b h) as [h2|]; [|discriminate]. destruct (same h1 h2) eqn:S0; [|discriminate]. apply same_spec in S0. subst h2. exists h'. repeat split; auto.
    intros z Hz. apply in_app_or in Hz. apply in_or_app. destruct Hz; [left; apply in_or_app; auto|right; auto].
  - destruct (flow a h) as [h1|]; [|discriminate]. destruct (same h1 h) eqn:S0; [|discriminate]. exists h'. repeat split; auto. intros z Hz. apply in_or_app; auto.
  - destruct (flow a h) as [h1|] eqn:Ea; [|discriminate]. destruct (same h1 h) eqn:S0; [|discriminate]. apply same_spec in S0. subst h1. rewrite Ea. replace (same h h) with true by (symmetry; apply same_spec; reflexivity).
    exists h'. repeat split; auto. intros z Hz. apply in_app_or in Hz. destruct Hz as [Hz|Hz]; [apply in_or_app; auto|exact Hz].
Qed.

Section Inv.
Variable P : list callback.
Hypothesis HP : forallb good P = true.

Lemma body_good c cb : nth_error P c = Some cb -> flow (c_body cb) [] = Some [].
Proof.
  intros E. pose proof (proj1 (forallb_forall good P) HP cb (nth_error_In _ _ E)) as G. unfold good in G. destruct (flow (c_body cb) []); [|discriminate]. apply same_spec in G. congruence.
Qed.

Lemma winv0 : winv P world0.
Proof. constructor; cbn; intros; discriminate. Qed.

Lemma one_step w t th th' : winv P w -> w_thr w t = Some th -> t_cb th' = t_cb th ->
  forall t1 t2 th1 th2 cb, set_thr (w_thr w) t (Some th') t1 = Some th1 -> set_thr (w_thr w) t (Some th') t2 = Some th2 -> t_cb th1 = t_cb th2 -> nth_error P (t_cb th1) = Some cb -> c_again cb = false -> t1 = t2.
Proof.
  intros V E Ec t1 t2 th1 th2 cb E1 E2 Hc Hn Ha.
  assert (X : forall u uh, set_thr (w_thr w) t (Some th') u = Some uh -> exists uh', w_thr w u = Some uh' /\ t_cb uh' = t_cb uh).
  { intros u uh Hu. destruct (Nat.eq_dec u t) as [->|N]; [rewrite set_thr_eq in Hu; injection Hu as <-; eauto|rewrite set_thr_ne in Hu by exact N; eauto]. }
  destruct (X _ _ E1) as (a & A1 & A2). destruct (X _ _ E2) as (b & B1 & B2). eapply (v_one _ _ V t1 t2 a b cb); eauto; congruence.
Qed.

Lemma winv_step w t e w' : winv P w -> tstep P w t e w' -> winv P w'.
Proof.
  intros V St. destruct St as [c cb En Ec Ho|th Et Ek|th k Et M|th m k Et Ek Eo|th m k Et Ek Eo|th x k Et Ek|th x k Et Ek].
  - (* a callback begins *)
    constructor; cbn [w_thr w_own w_up].
    + intros u uh Hu. destruct (Nat.eq_dec u t) as [->|N].
      * rewrite set_thr_eq in Hu. injection Hu as <-. exists []. split.
        -- constructor; cbn [t_cb t_k t_in w_own w_up].
           ++ exists cb. split; [exact Ec|]. cbn. rewrite (body_good _ _ Ec), app_nil_r. apply incl_refl.
           ++ exists []. cbn. rewrite (body_good _ _ Ec). auto.
           ++ constructor.
           ++ intros m [].
           ++ tauto.
        -- intros Hup m Hm. exfalso. apply (v_idle _ _ V Hup m t Hm). exact En.
      * rewrite set_thr_ne in Hu by exact N. destruct (v_thr _ _ V u uh Hu) as (h & T & F). exists h. split; [|exact F]. destruct T. constructor; auto.
    + intros Hup m u Hm. destruct (Nat.eq_dec u t) as [->|N]; [rewrite set_thr_eq; discriminate|rewrite set_thr_ne by exact N; apply (v_idle _ _ V Hup m u Hm)].
    + intros t1 t2 th1 th2 cb' E1 E2 Hc Hn Ha. destruct (Nat.eq_dec t1 t) as [->|N1], (Nat.eq_dec t2 t) as [->|N2]; auto.
      * rewrite set_thr_eq in E1. injection E1 as <-. rewrite set_thr_ne in E2 by exact N2. cbn [t_cb] in *. rewrite Ec in Hn. injection Hn as <-. exfalso. exact (Ho Ha _ _ E2 (eq_sym Hc)).
      * rewrite set_thr_eq in E2. injection E2 as <-. rewrite set_thr_ne in E1 by exact N1. cbn [t_cb] in *. rewrite Hc, Ec in Hn. injection Hn as <-. exfalso. exact (Ho Ha _ _ E1 Hc).
      * rewrite set_thr_ne in E1, E2 by assumption. exact (v_one _ _ V _ _ _ _ _ E1 E2 Hc Hn Ha).
  - (* and ends *)
    constructor; cbn [w_thr w_own w_up].
    + intros u uh Hu. destruct (Nat.eq_dec u t) as [->|N]; [rewrite set_thr_eq in Hu; discriminate|]. rewrite set_thr_ne in Hu by exact N. destruct (v_thr _ _ V u uh Hu) as (h & T & F). exists h. split; [|exact F]. destruct T. constructor; auto.
    + intros Hup m u Hm. destruct (Nat.eq_dec u t) as [->|N]; [|rewrite set_thr_ne by exact N; apply (v_idle _ _ V Hup m u Hm)].
      exfalso. destruct (v_thr _ _ V t th Et) as (h & T & F). pose proof (F Hup m Hm) as I0. destruct (i_fl _ _ _ _ _ T) as (h' & E & Z0). rewrite Ek in E. cbn in E. injection E as <-. rewrite (Z0 Hup) in I0. destruct I0.
    + intros t1 t2 th1 th2 cb E1 E2. destruct (Nat.eq_dec t1 t) as [->|N1]; [rewrite set_thr_eq in E1; discriminate|]. destruct (Nat.eq_dec t2 t) as [->|N2]; [rewrite set_thr_eq in E2; discriminate|].
      rewrite set_thr_ne in E1, E2 by assumption. exact (v_one _ _ V _ _ _ _ _ E1 E2).
  - (* control *)
    constructor; cbn [w_thr w_own w_up].
    + intros u uh Hu. destruct (Nat.eq_dec u t) as [->|N].
      * rewrite set_thr_eq in Hu. injection Hu as <-. destruct (v_thr _ _ V t th Et) as (h & T & F). exists h. split; [|exact F]. destruct T as [(cb & C1 & C2) (h' & F1 & F2) D O I0].
        destruct (moves_ok _ _ _ _ _ M F1 F2) as (h2 & G1 & G2 & G3). constructor; cbn [t_cb t_k t_in w_own w_up]; auto; [exists cb; split; [exact C1|eapply incl_tran; eauto]|eauto].
      * rewrite set_thr_ne in Hu by exact N. destruct (v_thr _ _ V u uh Hu) as (h & T & F). exists h. split; [|exact F]. destruct T. constructor; auto.
    + intros Hup m u Hm. destruct (Nat.eq_dec u t) as [->|N]; [rewrite set_thr_eq; discriminate|rewrite set_thr_ne by exact N; apply (v_idle _ _ V Hup m u Hm)].
    + apply (one_step _ _ _ _ V Et). reflexivity.
  - (* lock *)
    constructor; cbn [w_thr w_own w_up].
    + intros u uh Hu. destruct (Nat.eq_dec u t) as [->|N].
      * rewrite set_thr_eq in Hu. injection Hu as <-. destruct (v_thr _ _ V t th Et) as (h & T & F). destruct T as [(cb & C1 & C2) (h' & F1 & F2) D O I0]. rewrite Ek in *. cbn [flows flow pointss points] in F1, C2.
        destruct (has (TM m) h) eqn:Eh; [discriminate|]. apply has_no in Eh. exists (TM m :: h). split.
        -- constructor; cbn [t_cb t_k t_in w_own w_up]; eauto.
           ++ exists cb. split; [exact C1|]. intros z Hz. apply C2. right. exact Hz.
           ++ constructor; auto.
           ++ intros m' [[= <-]|H']; [apply set_own_eq|]. rewrite set_own_ne; [auto|]. intros ->. contradiction.
           ++ intros x. rewrite <- I0. cbn. split; [intros [H'|H']; [discriminate|exact H']|auto].
        -- intros Hup m' Hm'. destruct (string_dec m' m) as [->|Nm]; [left; reflexivity|]. rewrite set_own_ne in Hm' by exact Nm. right. auto.
      * rewrite set_thr_ne in Hu by exact N. destruct (v_thr _ _ V u uh Hu) as (h & T & F). exists h. split.
        -- destruct T. constructor; cbn; auto. intros m' H'. rewrite set_own_ne; [auto|]. intros ->. rewrite (i_own0 _ H') in Eo. discriminate.
        -- intros Hup m' Hm'. destruct (string_dec m' m) as [->|Nm]; [rewrite set_own_eq in Hm'; congruence|rewrite set_own_ne in Hm' by exact Nm; auto].
    + intros Hup m' u Hm. destruct (Nat.eq_dec u t) as [->|N]; [rewrite set_thr_eq; discriminate|rewrite set_thr_ne by exact N]. destruct (string_dec m' m) as [->|Nm]; [rewrite set_own_eq in Hm; congruence|rewrite set_own_ne in Hm by exact Nm; apply (v_idle _ _ V Hup m' u Hm)].
    + apply (one_step _ _ _ _ V Et). reflexivity.
  - (* unlock *)
    constructor; cbn [w_thr w_own w_up].
    + intros u uh Hu. destruct (Nat.eq_dec u t) as [->|N].
      * rewrite set_thr_eq in Hu. injection Hu as <-. destruct (v_thr _ _ V t th Et) as (h & T & F). destruct T as [(cb & C1 & C2) (h' & F1 & F2) D O I0]. rewrite Ek in *. cbn [flows flow pointss points app] in F1, C2.
        destruct (has (TM m) h) eqn:Eh; [|discriminate]. exists (del (TM m) h). split.
        -- constructor; cbn [t_cb t_k t_in w_own w_up]; eauto using nodup_del.
           ++ intros m' H'. apply in_del in H'. destruct H' as [H' Nm]. rewrite set_own_ne by congruence. auto.
           ++ intros x. rewrite <- I0, in_del. split; [tauto|intros H'; split; [exact H'|discriminate]].
        -- intros Hup m' Hm'. destruct (string_dec m' m) as [->|Nm]; [rewrite set_own_eq in Hm'; discriminate|]. rewrite set_own_ne in Hm' by exact Nm. apply in_del. split; [auto|congruence].
      * rewrite set_thr_ne in Hu by exact N. destruct (v_thr _ _ V u uh Hu) as (h & T & F). exists h. split.
        -- destruct T. constructor; cbn; auto. intros m' H'. rewrite set_own_ne; [auto|]. intros ->. rewrite (i_own0 _ H') in Eo. congruence.
        -- intros Hup m' Hm'. destruct (string_dec m' m) as [->|Nm]; [rewrite set_own_eq in Hm'; discriminate|rewrite set_own_ne in Hm' by exact Nm; auto].
    + intros Hup m' u Hm. destruct (Nat.eq_dec u t) as [->|N]; [rewrite set_thr_eq; discriminate|rewrite set_thr_ne by exact N]. destruct (string_dec m' m) as [->|Nm]; [rewrite set_own_eq in Hm; discriminate|rewrite set_own_ne in Hm by exact Nm; apply (v_idle _ _ V Hup m' u Hm)].
    + apply (one_step _ _ _ _ V Et). reflexivity.
  - (* enter *)
    constructor; cbn [w_thr w_own w_up].
    + intros u uh Hu. destruct (Nat.eq_dec u t) as [->|N].
      * rewrite set_thr_eq in Hu. injection Hu as <-. destruct (v_thr _ _ V t th Et) as (h & T & F). destruct T as [(cb & C1 & C2) (h' & F1 & F2) D O I0]. rewrite Ek in *. cbn [flows flow pointss points app] in F1, C2.
        destruct (has (TW x) h) eqn:Eh; [discriminate|]. apply has_no in Eh. exists (TW x :: h). split.
        -- constructor; cbn [t_cb t_k t_in w_own w_up]; eauto.
           ++ exists cb. split; [exact C1|]. intros z Hz. apply C2. right. exact Hz.
           ++ constructor; auto.
           ++ intros m' [H'|H']; [discriminate|auto].
           ++ intros y. cbn. rewrite <- I0. split; (intros [H'|H']; [left; congruence|auto]).
        -- intros Hup m' Hm'. right. auto.
      * rewrite set_thr_ne in Hu by exact N. destruct (v_thr _ _ V u uh Hu) as (h & T & F). exists h. split; [|exact F]. destruct T. constructor; auto.
    + intros Hup m u Hm. destruct (Nat.eq_dec u t) as [->|N]; [rewrite set_thr_eq; discriminate|rewrite set_thr_ne by exact N; apply (v_idle _ _ V Hup m u Hm)].
    + apply (one_step _ _ _ _ V Et). reflexivity.
  - (* leave *)
    constructor; cbn [w_thr w_own w_up].
    + intros u uh Hu. destruct (Nat.eq_dec u t) as [->|N].
      * rewrite set_thr_eq in Hu. injection Hu as <-. destruct (v_thr _ _ V t th Et) as (h & T & F). destruct T as [(cb & C1 & C2) (h' & F1 & F2) D O I0]. rewrite Ek in *. cbn [flows flow pointss points app] in F1, C2.
        destruct (has (TW x) h) eqn:Eh; [|discriminate]. exists (del (TW x) h). split.
        -- constructor; cbn [t_cb t_k t_in w_own w_up]; eauto using nodup_del.
           ++ intros m' H'. apply in_del in H'. destruct H' as [H' _]. auto.
           ++ intros y. rewrite in_del, I0. split; [intros [H' Ny]; apply in_in_remove; [congruence|exact H']|intros H'; apply in_remove in H'; destruct H' as [H' Ny]; split; [exact H'|congruence]].
        -- intros Hup m' Hm'. apply in_del. split; [auto|discriminate].
      * rewrite set_thr_ne in Hu by exact N. destruct (v_thr _ _ V u uh Hu) as (h & T & F). exists h. split; [|exact F]. destruct T. constructor; auto.
    + intros Hup m u Hm. destruct (Nat.eq_dec u t) as [->|N]; [rewrite set_thr_eq; discriminate|rewrite set_thr_ne by exact N; apply (v_idle _ _ V Hup m u Hm)].
    + apply (one_step _ _ _ _ V Et). reflexivity.
Qed.

Lemma winv_reach al w : reach P al w -> winv P w.
Proof.
  induction 1 as [|w t e w' R IH _ St|w R IH]; [apply winv0|eapply winv_step; eauto|].
  constructor; cbn [w_thr w_own w_up]; [|discriminate|apply IH].
  intros t th E. destruct (v_thr _ _ IH t th E) as (h & T & _). exists h. split; [|discriminate]. destruct T as [C (h' & F1 & _) D O I0]. constructor; auto. exists h'. split; [exact F1|discriminate].
Qed.

(* a thread at a point of interest has what is known there *)
Definition point_at (k : list stmt) : option point :=
  match k with Rd f l :: _ => Some (PAcc f false l) | Wr f l :: _ => Some (PAcc f true l) | Lock m :: _ => Some (PLock m) | Sleep :: _ => Some PSleep | Enter x :: _ => Some (PEnter x) | Quit :: _ => Some PQuit | _ => None end.
Lemma at_point w t th p : winv P w -> w_thr w t = Some th -> point_at (t_k th) = Some p ->
  exists cb h, In (t_cb th, cb, (p, h)) (all_points P) /\ nth_error P (t_cb th) = Some cb /\ tinv P w t th h /\ (w_up w = true -> forall m, w_own w m = Some t -> In (TM m) h).
Proof.
  intros V E Ep. destruct (v_thr _ _ V t th E) as (h & T & F). destruct (i_cb _ _ _ _ _ T) as (cb & C1 & C2). exists cb, h. split; [|split; [exact C1|split; [exact T|exact F]]]. apply in_all; [exact C1|]. apply C2.
  destruct (t_k th) as [|[] k]; cbn in Ep; try discriminate; injection Ep as <-; cbn; left; reflexivity.
Qed.

Lemma accesses_at th f b l : accesses th f b l -> point_at (t_k th) = Some (PAcc f b l).
Proof. intros (k & ->). destruct b; reflexivity. Qed.

(* under the assumption, whoever is in the stretch keeps the callback out *)
Definition enters_with (x m : string) : bool := forallb (fun p => match fst (snd p) with PEnter y => negb (String.eqb x y) || has (TM m) (snd (snd p)) | _ => true end) (all_points P).
Definition apart (x : string) (odo : list nat) (m : string) (w : world) : Prop :=
  forall t th t' th', w_thr w t = Some th -> In (t_cb th) odo -> w_own w m = Some t -> w_thr w t' = Some th' -> In x (t_in th') -> t = t'.

Definition allowed (a : option (string * list nat * string)) : world -> nat -> event -> Prop :=
  match a with Some (x, odo, m) => kept_out x odo m | None => anything end.

Lemma apart_reach x odo m w : enters_with x m = true ->
  reach P (kept_out x odo m) w -> w_up w = true -> apart x odo m w.
Proof.
  intros He R. induction R as [|w t e w' R IH Al St|w R IH]; cbn [w_up]; [intros _ t th t' th' E; discriminate| |discriminate].
  intros Hup. assert (Hup0 : w_up w = true) by (destruct St; exact Hup). specialize (IH Hup0). pose proof (winv_reach _ _ R) as V.
  assert (Step1 : forall th th', w_thr w t = Some th -> t_cb th' = t_cb th -> t_in th' = t_in th -> apart x odo m (mkW (w_own w) (set_thr (w_thr w) t (Some th')) (w_up w))).
  { intros th th' Et0 Ec Ei u uh v vh Hu Hc Ho Hv Hx. cbn in *. assert (X : exists uh', w_thr w u = Some uh' /\ In (t_cb uh') odo). { destruct (Nat.eq_dec u t) as [->|N]; [rewrite set_thr_eq in Hu; injection Hu as <-; exists th; split; [exact Et0|rewrite <- Ec; exact Hc]|rewrite set_thr_ne in Hu by exact N; eauto]. }
    assert (Y : exists vh', w_thr w v = Some vh' /\ In x (t_in vh')). { destruct (Nat.eq_dec v t) as [->|N]; [rewrite set_thr_eq in Hv; injection Hv as <-; exists th; split; congruence|rewrite set_thr_ne in Hv by exact N; eauto]. }
    destruct X as (uh' & X1 & X2). destruct Y as (vh' & Y1 & Y2). exact (IH _ _ _ _ X1 X2 Ho Y1 Y2). }
  destruct St as [c cb En Ec Ho|th Et Ek|th k Et M|th m' k Et Ek Eo|th m' k Et Ek Eo|th y k Et Ek|th y k Et Ek].
  - intros u uh v vh Hu Hc Hw Hv Hx. cbn in *. destruct (Nat.eq_dec v t) as [->|Nv]; [rewrite set_thr_eq in Hv; injection Hv as <-; destruct Hx|rewrite set_thr_ne in Hv by exact Nv].
    destruct (Nat.eq_dec u t) as [->|Nu]; [exfalso; apply (v_idle _ _ V Hup0 m t Hw); exact En|rewrite set_thr_ne in Hu by exact Nu]. exact (IH _ _ _ _ Hu Hc Hw Hv Hx).
  - intros u uh v vh Hu Hc Hw Hv Hx. cbn in *. destruct (Nat.eq_dec v t) as [->|Nv]; [rewrite set_thr_eq in Hv; discriminate|rewrite set_thr_ne in Hv by exact Nv].
    destruct (Nat.eq_dec u t) as [->|Nu]; [rewrite set_thr_eq in Hu; discriminate|rewrite set_thr_ne in Hu by exact Nu]. exact (IH _ _ _ _ Hu Hc Hw Hv Hx).
  - apply (Step1 th); auto.
  - intros u uh v vh Hu Hc Hw Hv Hx. cbn in Hu, Hw, Hv.
    assert (Y : exists vh', w_thr w v = Some vh' /\ In x (t_in vh')). { destruct (Nat.eq_dec v t) as [->|N]; [rewrite set_thr_eq in Hv; injection Hv as <-; exists th; split; [exact Et|exact Hx]|rewrite set_thr_ne in Hv by exact N; eauto]. }
    destruct Y as (vh' & Y1 & Y2).
    destruct (string_dec m m') as [<-|Nm].
    + rewrite set_own_eq in Hw. injection Hw as <-. rewrite set_thr_eq in Hu. injection Hu as <-. cbn in Hc. exfalso. exact (Al th v vh' Et Hc eq_refl Y1 Y2).
    + rewrite set_own_ne in Hw by exact Nm. assert (X : exists uh', w_thr w u = Some uh' /\ In (t_cb uh') odo). { destruct (Nat.eq_dec u t) as [->|N]; [rewrite set_thr_eq in Hu; injection Hu as <-; exists th; split; [exact Et|exact Hc]|rewrite set_thr_ne in Hu by exact N; eauto]. }
      destruct X as (uh' & X1 & X2). exact (IH _ _ _ _ X1 X2 Hw Y1 Y2).
  - intros u uh v vh Hu Hc Hw Hv Hx. cbn in Hu, Hw, Hv. destruct (string_dec m m') as [<-|Nm]; [rewrite set_own_eq in Hw; discriminate|]. rewrite set_own_ne in Hw by exact Nm.
    exact (Step1 th (mkT (t_cb th) k (t_in th)) Et eq_refl eq_refl u uh v vh Hu Hc Hw Hv Hx).
  - intros u uh v vh Hu Hc Hw Hv Hx. cbn in Hu, Hw, Hv.
    assert (X : exists uh', w_thr w u = Some uh' /\ In (t_cb uh') odo). { destruct (Nat.eq_dec u t) as [->|N]; [rewrite set_thr_eq in Hu; injection Hu as <-; exists th; split; [exact Et|exact Hc]|rewrite set_thr_ne in Hu by exact N; eauto]. }
    destruct X as (uh' & X1 & X2). destruct (Nat.eq_dec v t) as [->|Nv]; [|rewrite set_thr_ne in Hv by exact Nv; exact (IH _ _ _ _ X1 X2 Hw Hv Hx)].
    rewrite set_thr_eq in Hv. injection Hv as <-. cbn in Hx. destruct Hx as [->|Hx]; [|exact (IH _ _ _ _ X1 X2 Hw Et Hx)].
    destruct (at_point _ _ _ (PEnter x) V Et) as (cb & h & A1 & _ & T & _); [rewrite Ek; reflexivity|]. pose proof (proj1 (forallb_forall _ _) He _ A1) as G. cbn in G. rewrite String.eqb_refl in G. cbn in G. apply has_spec in G. pose proof (i_own _ _ _ _ _ T _ G) as O. congruence.
  - intros u uh v vh Hu Hc Hw Hv Hx. cbn in Hu, Hw, Hv.
    assert (X : exists uh', w_thr w u = Some uh' /\ In (t_cb uh') odo). { destruct (Nat.eq_dec u t) as [->|N]; [rewrite set_thr_eq in Hu; injection Hu as <-; exists th; split; [exact Et|exact Hc]|rewrite set_thr_ne in Hu by exact N; eauto]. }
    destruct X as (uh' & X1 & X2). destruct (Nat.eq_dec v t) as [->|Nv]; [|rewrite set_thr_ne in Hv by exact Nv; exact (IH _ _ _ _ X1 X2 Hw Hv Hx)].
    rewrite set_thr_eq in Hv. injection Hv as <-. cbn in Hx. apply in_remove in Hx. destruct Hx as [Hx _]. exact (IH _ _ _ _ X1 X2 Hw Et Hx).
Qed.

Definition assumed (a : option (string * list nat * string)) : Prop :=
  match a with Some (x, odo, m) => enters_with x m = true | None => True end.

(* every race is among the potential ones *)
Theorem races_found a w c1 l1 c2 l2 f : assumed a -> reach P (allowed a) w -> (w_up w = true \/ a = None) -> race w c1 l1 c2 l2 f -> In (c1, l1, c2, l2, f) (potential a P).
Proof.
  intros Ha R Hup [(t1 & t2 & th1 & th2 & b1 & b2 & N & E1 & E2 & C1 & C2 & A1 & A2 & B)]. pose proof (winv_reach _ _ R) as V.
  destruct (at_point _ _ _ _ V E1 (accesses_at _ _ _ _ A1)) as (cb1 & h1 & I1 & N1 & T1 & _). destruct (at_point _ _ _ _ V E2 (accesses_at _ _ _ _ A2)) as (cb2 & h2 & I2 & N2 & T2 & _).
  unfold potential. cbv zeta. apply in_flat_map. eexists. split; [exact I1|]. apply in_flat_map. eexists. split; [exact I2|].
  assert (Cl : clash (t_cb th1, cb1, (PAcc f b1 l1, h1)) (t_cb th2, cb2, (PAcc f b2 l2, h2)) = true).
  { unfold clash. cbn [fst snd]. rewrite String.eqb_refl. replace (b1 || b2) with true by (symmetry; apply orb_true_iff; exact B). replace (disjoint h1 h2) with true; [|symmetry].
    2:{ unfold disjoint. apply forallb_forall. intros [m|x] Hx; [|reflexivity]. apply negb_true_iff. apply has_no. intros Hy. pose proof (i_own _ _ _ _ _ T1 _ Hx) as O1. pose proof (i_own _ _ _ _ _ T2 _ Hy) as O2. congruence. }
    apply orb_true_iff. destruct (Nat.eqb_spec (t_cb th1) (t_cb th2)) as [Eq|Ne]; [|left; reflexivity]. right. destruct (c_again cb1) eqn:Ec; [reflexivity|]. exfalso. apply N. exact (v_one _ _ V _ _ _ _ _ E1 E2 Eq N1 Ec). }
  assert (Ex : forall t th h cb t' th' h' cb' p p', t <> t' -> w_thr w t = Some th -> w_thr w t' = Some th' -> tinv P w t th h -> tinv P w t' th' h' -> excused a (t_cb th, cb, (p, h)) (t_cb th', cb', (p', h')) = false).
  { intros t th h cb t' th' h' cb' p p' Nt Et Et' Th Th'. destruct a as [[[x odo] m]|]; [|reflexivity]. unfold excused. cbn [fst snd]. destruct (has (TW x) h) eqn:H1; [|reflexivity]. destruct (existsb (Nat.eqb (t_cb th')) odo) eqn:Eo; [|reflexivity]. apply existsb_exists in Eo. destruct Eo as (oo & Eo & Eq). apply Nat.eqb_eq in Eq. subst oo. destruct (has (TM m) h') eqn:H3; [|reflexivity]. exfalso.
    apply has_spec in H1, H3. cbn in Ha. destruct Hup as [Hup|Hup]; [|discriminate]. pose proof (apart_reach x odo m w Ha R Hup) as Ap.
    apply Nt. symmetry. apply (Ap t' th' t th Et' Eo); [apply (i_own _ _ _ _ _ Th' _ H3)|exact Et|apply (i_in _ _ _ _ _ Th); exact H1]. }
  rewrite Cl, (Ex t1 th1 h1 cb1 t2 th2 h2 cb2 _ _ N E1 E2 T1 T2), (Ex t2 th2 h2 cb2 t1 th1 h1 cb1 _ _ (not_eq_sym N) E2 E1 T2 T1). cbn. left. subst c1 c2. reflexivity.
Qed.

Lemma reach_proper al w : reach P al w -> w_up w = true -> proper_use w.
Proof.
  intros R Hup t th m k E. pose proof (winv_reach _ _ R) as V. destruct (v_thr _ _ V t th E) as (h & T & F). destruct (i_fl _ _ _ _ _ T) as (h' & G & _). split; intros Ek; rewrite Ek in G; cbn in G.
  - destruct (has (TM m) h) eqn:Eh; [|discriminate]. apply has_spec in Eh. apply (i_own _ _ _ _ _ T). exact Eh.
  - destruct (has (TM m) h) eqn:Eh; [discriminate|]. apply has_no in Eh. intros O. apply Eh. auto.
Qed.
(* even after a shutdown nothing is given back that is not held *)
Lemma reach_unlock al w t th m k : reach P al w -> w_thr w t = Some th -> t_k th = Unlock m :: k -> w_own w m = Some t.
Proof.
  intros R E Ek. pose proof (winv_reach _ _ R) as V. destruct (v_thr _ _ V t th E) as (h & T & F). destruct (i_fl _ _ _ _ _ T) as (h' & G & _). rewrite Ek in G; cbn in G.
  destruct (has (TM m) h) eqn:Eh; [|discriminate]. apply has_spec in Eh. apply (i_own _ _ _ _ _ T). exact Eh.
Qed.

Lemma reach_end al w t th m : reach P al w -> w_up w = true -> w_thr w t = Some th -> t_k th = [] -> w_own w m <> Some t.
Proof.
  intros R Hup E Ek O. pose proof (winv_reach _ _ R) as V. destruct (v_thr _ _ V t th E) as (h & T & F). destruct (i_fl _ _ _ _ _ T) as (h' & G & Z0). rewrite Ek in G. cbn in G. injection G as <-. pose proof (F Hup m O) as X. rewrite (Z0 Hup) in X. destruct X.
Qed.

(* nobody sleeps with a mutex *)
Definition sleeps_free : bool := forallb (fun p => match fst (snd p) with PSleep => forallb (fun x => match x with TM _ => false | TW _ => true end) (snd (snd p)) | _ => true end) (all_points P).
Lemma reach_sleep al w t th k m : sleeps_free = true -> reach P al w -> w_up w = true -> w_thr w t = Some th -> t_k th = Sleep :: k -> w_own w m <> Some t.
Proof.
  intros Hs R Hup E Ek O. pose proof (winv_reach _ _ R) as V. destruct (at_point _ _ _ PSleep V E) as (cb & h & A1 & _ & T & F); [rewrite Ek; reflexivity|]. pose proof (proj1 (forallb_forall _ _) Hs _ A1) as G. cbn in G.
  pose proof (proj1 (forallb_forall _ _) G _ (F Hup m O)). discriminate.
Qed.

(* mutexes are taken in one order *)
Fixpoint place (l : list string) (m : string) : nat := match l with [] => 0 | x :: l' => if String.eqb x m then 0 else S (place l' m) end.
Definition ordered (o : list string) : bool :=
  forallb (fun p => match fst (snd p) with PLock m => forallb (fun x => match x with TM m' => Nat.ltb (place o m') (place o m) | TW _ => true end) (snd (snd p)) | _ => true end) (all_points P).
Lemma place_le o m : place o m <= List.length o.
Proof. induction o as [|x o IH]; cbn; [lia|]. destruct (String.eqb x m); lia. Qed.

Lemma not_blocked al w t th : reach P al w -> w_up w = true -> w_thr w t = Some th -> (forall m k, t_k th = Lock m :: k -> w_own w m = None) -> can_step P w t.
Proof.
  intros R Hup E Hl. destruct (t_k th) as [|s k] eqn:Ek; [exists th; eexists; eexists; split; [exact E|eapply s_end; eauto]|].
  destruct s; try (exists th; eexists; eexists; split; [exact E|eapply s_move; [exact E|rewrite Ek; constructor]]; fail).
  - exists th; eexists; eexists. split; [exact E|]. eapply s_lock; eauto.
  - exists th; eexists; eexists. split; [exact E|]. eapply s_unlock; eauto. eapply reach_unlock; eauto.
  - exists th; eexists; eexists. split; [exact E|eapply s_move; [exact E|rewrite Ek; constructor; exact Hup]].
  - exists th; eexists; eexists. split; [exact E|eapply s_enter; eauto].
  - exists th; eexists; eexists. split; [exact E|eapply s_leave; eauto].
Qed.

Theorem no_deadlock o al w t th : ordered o = true -> reach P al w -> w_up w = true -> w_thr w t = Some th ->
  exists t', clos_refl_trans nat (waits w) t t' /\ can_step P w t'.
Proof.
  intros Ho R Hup. pose proof (winv_reach _ _ R) as V.
  assert (G : forall n t th, w_thr w t = Some th -> (forall m k, t_k th = Lock m :: k -> List.length o - place o m <= n) -> exists t', clos_refl_trans nat (waits w) t t' /\ can_step P w t').
  { induction n as [|n IH]; intros u uh E Hn.
    all: destruct (t_k uh) as [|s k] eqn:Ek; [exists u; split; [apply rt_refl|apply (not_blocked al w u uh R Hup E); intros m0 k0 E0; congruence]|].
    all: assert (D : (exists m, s = Lock m) \/ forall m, s <> Lock m) by (destruct s; try (right; intros; discriminate); left; eauto).
    all: destruct D as [[m ->]|D]; [|exists u; split; [apply rt_refl|apply (not_blocked al w u uh R Hup E); intros m0 k0 E0; rewrite Ek in E0; injection E0 as -> ->; exfalso; apply (D m0); reflexivity]].
    all: destruct (w_own w m) as [v|] eqn:Eo; [|exists u; split; [apply rt_refl|apply (not_blocked al w u uh R Hup E); intros m0 k0 E0; rewrite Ek in E0; injection E0 as <- <-; exact Eo]].
    all: destruct (w_thr w v) as [vh|] eqn:Ev; [|exfalso; apply (v_idle _ _ V Hup m v Eo); exact Ev].
    all: assert (Wt : waits w u v) by (exists uh, m, k; auto).
    all: assert (Nx : forall m' k', t_k vh = Lock m' :: k' -> place o m < place o m').
    1,3: intros m' k' Ek'; destruct (at_point _ _ _ (PLock m') V Ev) as (cb & h & A1 & _ & T & F); [rewrite Ek'; reflexivity|];
         pose proof (proj1 (forallb_forall _ _) Ho _ A1) as G; cbn in G; pose proof (proj1 (forallb_forall _ _) G _ (F Hup m Eo)) as G2; apply Nat.ltb_lt in G2; exact G2.
    - (* no room left above m *)
      pose proof (Hn m k eq_refl) as Hm. exists v. split; [apply rt_step; exact Wt|]. apply (not_blocked al w v vh R Hup Ev). intros m' k' Ek'. exfalso. pose proof (Nx m' k' Ek'). pose proof (place_le o m'). lia.
    - destruct (IH v vh Ev) as (t' & C & S0); [|exists t'; split; [eapply rt_trans; [apply rt_step; exact Wt|exact C]|exact S0]].
      intros m' k' Ek'. pose proof (Nx m' k' Ek'). pose proof (place_le o m'). pose proof (Hn m k eq_refl). lia. }
  intros E. apply (G (List.length o) t th E). intros. lia.
Qed.

(* which members are protected by which mutexes *)
Definition guarded (prot : list (string * list string)) (x : string) (free : list string) : bool :=
  forallb (fun p => match fst (snd p) with
    | PAcc f b _ => forallb (fun mf => negb (existsb (String.eqb f) (snd mf)) || has (TM (fst mf)) (snd (snd p)) || (negb b && existsb (String.eqb f) free && has (TW x) (snd (snd p)))) prot
    | _ => true end) (all_points P).
Theorem guarded_access prot x free al w t th f b l m fs : guarded prot x free = true -> reach P al w -> w_thr w t = Some th -> accesses th f b l -> In (m, fs) prot -> In f fs ->
  w_own w m = Some t \/ (b = false /\ In f free /\ In x (t_in th)).
Proof.
  intros Hg R E A Hp Hf. pose proof (winv_reach _ _ R) as V. destruct (at_point _ _ _ _ V E (accesses_at _ _ _ _ A)) as (cb & h & I1 & _ & T & _).
  pose proof (proj1 (forallb_forall _ _) Hg _ I1) as G. cbn in G. pose proof (proj1 (forallb_forall _ _) G _ Hp) as G2. cbn in G2.
  assert (Ef : existsb (String.eqb f) fs = true) by (apply existsb_exists; exists f; split; [exact Hf|apply String.eqb_refl]). rewrite Ef in G2. cbn [negb orb] in G2. apply orb_true_iff in G2. destruct G2 as [G2|G2].
  - left. apply has_spec in G2. apply (i_own _ _ _ _ _ T). exact G2.
  - right. apply andb_true_iff in G2. destruct G2 as [G2 G3]. apply andb_true_iff in G2. destruct G2 as [G1 G2]. apply has_spec in G3. apply existsb_exists in G2. destruct G2 as (y & Hy & Ey). apply String.eqb_eq in Ey. subst y.
    split; [destruct b; [discriminate|reflexivity]|]. split; [exact Hy|apply (i_in _ _ _ _ _ T); exact G3].
Qed.
End Inv.
