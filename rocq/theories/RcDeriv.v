(* Second derivatives of the registration costs, in closed form along any directions. *)
From Coq Require Import Reals Lra Lia Psatz.
From Verif Require Import Base Mx Interp Geo RcSpec.
Open Scope R_scope.

(* scalar rules at 0, for functions written with fun *)
Definition sl (f : R -> R) (l : R) : Prop := derivable_pt_lim f 0 l.
Lemma sl_ext f g l : (forall x, f x = g x) -> sl f l -> sl g l.
Proof. intros E H e He. destruct (H e He) as [d D]. exists d. intros h Hh Hd. rewrite <- !E. apply D; assumption. Qed.
(* only the values near 0 matter *)
Lemma sl_near f g l (d : posreal) : (forall x, Rabs x < d -> f x = g x) -> sl f l -> sl g l.
Proof.
  intros E H e He. destruct (H e He) as [d' D]. assert (P : 0 < Rmin d d') by (apply Rmin_glb_lt; [apply cond_pos|apply cond_pos]). exists (mkposreal _ P). cbn. intros h Hh Hd.
  assert (Rabs h < d) by (eapply Rlt_le_trans; [exact Hd|apply Rmin_l]). assert (Rabs h < d') by (eapply Rlt_le_trans; [exact Hd|apply Rmin_r]).
  rewrite <- !E; [apply D; assumption| |rewrite Rplus_0_l; assumption]. rewrite Rabs_R0. apply cond_pos.
Qed.
Lemma sl_eq f l m : l = m -> sl f l -> sl f m. Proof. intros ->. exact (fun x => x). Qed.
Lemma sl_const c : sl (fun _ => c) 0. Proof. apply derivable_pt_lim_const. Qed.
Lemma sl_lin a b : sl (fun x => a + x * b) b.
Proof.
  intros e He. exists (mkposreal 1 Rlt_0_1). intros h Hh _. replace ((a + (0 + h) * b - (a + 0 * b)) / h - b) with 0 by (field; exact Hh). rewrite Rabs_R0. exact He.
Qed.
Lemma sl_plus f g l m : sl f l -> sl g m -> sl (fun x => f x + g x) (l + m). Proof. intros A B. exact (derivable_pt_lim_plus f g 0 l m A B). Qed.
Lemma sl_minus f g l m : sl f l -> sl g m -> sl (fun x => f x - g x) (l - m). Proof. intros A B. exact (derivable_pt_lim_minus f g 0 l m A B). Qed.
Lemma sl_mult f g l m : sl f l -> sl g m -> sl (fun x => f x * g x) (l * g 0 + f 0 * m). Proof. intros A B. exact (derivable_pt_lim_mult f g 0 l m A B). Qed.
Lemma sl_comp (p : R -> R) p' f l : sl f l -> derivable_pt_lim p (f 0) p' -> sl (fun x => p (f x)) (p' * l). Proof. intros A B. exact (derivable_pt_lim_comp f p 0 l p' A B). Qed.

(* vectors, component by component *)
Definition v1 (v : vec3) : R := let '(x, _, _) := v in x.
Definition v2 (v : vec3) : R := let '(_, y, _) := v in y.
Definition v3 (v : vec3) : R := let '(_, _, z) := v in z.
Definition vl (f : R -> vec3) (l : vec3) : Prop := sl (fun x => v1 (f x)) (v1 l) /\ sl (fun x => v2 (f x)) (v2 l) /\ sl (fun x => v3 (f x)) (v3 l).
Lemma vl_eq f l m : l = m -> vl f l -> vl f m. Proof. intros ->. exact (fun x => x). Qed.
Lemma vl_const c : vl (fun _ => c) v0. Proof. repeat split; apply sl_const. Qed.
Lemma vl_move v u : vl (fun x => move v x u) u.
Proof. vsplit. repeat split; cbn; apply sl_lin. Qed.
Ltac comp3 f := (* turn (f x) into its components *)
  let E := fresh in assert (E : forall x, f x = (v1 (f x), v2 (f x), v3 (f x))) by (intros x; destruct (f x) as [[? ?] ?]; reflexivity).
Lemma vcomp (v : vec3) : v = (v1 v, v2 v, v3 v). Proof. destruct v as [[? ?] ?]. reflexivity. Qed.
Lemma v1_add a b : v1 (vadd a b) = v1 a + v1 b. Proof. vsplit. reflexivity. Qed.
Lemma v2_add a b : v2 (vadd a b) = v2 a + v2 b. Proof. vsplit. reflexivity. Qed.
Lemma v3_add a b : v3 (vadd a b) = v3 a + v3 b. Proof. vsplit. reflexivity. Qed.
Lemma v1_sub a b : v1 (vsub a b) = v1 a - v1 b. Proof. vsplit. reflexivity. Qed.
Lemma v2_sub a b : v2 (vsub a b) = v2 a - v2 b. Proof. vsplit. reflexivity. Qed.
Lemma v3_sub a b : v3 (vsub a b) = v3 a - v3 b. Proof. vsplit. reflexivity. Qed.
Lemma v1_scale k b : v1 (vscale k b) = k * v1 b. Proof. vsplit. reflexivity. Qed.
Lemma v2_scale k b : v2 (vscale k b) = k * v2 b. Proof. vsplit. reflexivity. Qed.
Lemma v3_scale k b : v3 (vscale k b) = k * v3 b. Proof. vsplit. reflexivity. Qed.
Lemma v1_cross a b : v1 (vcross a b) = v2 a * v3 b - v3 a * v2 b. Proof. vsplit. reflexivity. Qed.
Lemma v2_cross a b : v2 (vcross a b) = v3 a * v1 b - v1 a * v3 b. Proof. vsplit. reflexivity. Qed.
Lemma v3_cross a b : v3 (vcross a b) = v1 a * v2 b - v2 a * v1 b. Proof. vsplit. reflexivity. Qed.
Lemma dot_comp a b : vdot a b = v1 a * v1 b + v2 a * v2 b + v3 a * v3 b. Proof. vsplit. reflexivity. Qed.

Lemma vl_plus f g l m : vl f l -> vl g m -> vl (fun x => vadd (f x) (g x)) (vadd l m).
Proof.
  intros (A1 & A2 & A3) (B1 & B2 & B3). repeat split.
  - rewrite v1_add. eapply sl_ext; [intros x; symmetry; apply v1_add|]. exact (sl_plus _ _ _ _ A1 B1).
  - rewrite v2_add. eapply sl_ext; [intros x; symmetry; apply v2_add|]. exact (sl_plus _ _ _ _ A2 B2).
  - rewrite v3_add. eapply sl_ext; [intros x; symmetry; apply v3_add|]. exact (sl_plus _ _ _ _ A3 B3).
Qed.
Lemma vl_minus f g l m : vl f l -> vl g m -> vl (fun x => vsub (f x) (g x)) (vsub l m).
Proof.
  intros (A1 & A2 & A3) (B1 & B2 & B3). repeat split.
  - rewrite v1_sub. eapply sl_ext; [intros x; symmetry; apply v1_sub|]. exact (sl_minus _ _ _ _ A1 B1).
  - rewrite v2_sub. eapply sl_ext; [intros x; symmetry; apply v2_sub|]. exact (sl_minus _ _ _ _ A2 B2).
  - rewrite v3_sub. eapply sl_ext; [intros x; symmetry; apply v3_sub|]. exact (sl_minus _ _ _ _ A3 B3).
Qed.
Lemma vl_scale k g l m : sl k l -> vl g m -> vl (fun x => vscale (k x) (g x)) (vadd (vscale l (g 0)) (vscale (k 0) m)).
Proof.
  intros A (B1 & B2 & B3). repeat split.
  - rewrite v1_add, !v1_scale. eapply sl_ext; [intros x; symmetry; apply v1_scale|]. exact (sl_mult _ _ _ _ A B1).
  - rewrite v2_add, !v2_scale. eapply sl_ext; [intros x; symmetry; apply v2_scale|]. exact (sl_mult _ _ _ _ A B2).
  - rewrite v3_add, !v3_scale. eapply sl_ext; [intros x; symmetry; apply v3_scale|]. exact (sl_mult _ _ _ _ A B3).
Qed.
Lemma sl_dot f g l m : vl f l -> vl g m -> sl (fun x => vdot (f x) (g x)) (vdot l (g 0) + vdot (f 0) m).
Proof.
  intros (A1 & A2 & A3) (B1 & B2 & B3). rewrite !dot_comp. eapply sl_ext; [intros x; symmetry; apply dot_comp|].
  eapply sl_eq; [|exact (sl_plus _ _ _ _ (sl_plus _ _ _ _ (sl_mult _ _ _ _ A1 B1) (sl_mult _ _ _ _ A2 B2)) (sl_mult _ _ _ _ A3 B3))]. cbn. ring.
Qed.
Lemma vl_cross f g l m : vl f l -> vl g m -> vl (fun x => vcross (f x) (g x)) (vadd (vcross l (g 0)) (vcross (f 0) m)).
Proof.
  intros (A1 & A2 & A3) (B1 & B2 & B3). repeat split.
  - rewrite v1_add, !v1_cross. eapply sl_ext; [intros x; symmetry; apply v1_cross|]. eapply sl_eq; [|exact (sl_minus _ _ _ _ (sl_mult _ _ _ _ A2 B3) (sl_mult _ _ _ _ A3 B2))]. cbn. ring.
  - rewrite v2_add, !v2_cross. eapply sl_ext; [intros x; symmetry; apply v2_cross|]. eapply sl_eq; [|exact (sl_minus _ _ _ _ (sl_mult _ _ _ _ A3 B1) (sl_mult _ _ _ _ A1 B3))]. cbn. ring.
  - rewrite v3_add, !v3_cross. eapply sl_ext; [intros x; symmetry; apply v3_cross|]. eapply sl_eq; [|exact (sl_minus _ _ _ _ (sl_mult _ _ _ _ A1 B2) (sl_mult _ _ _ _ A2 B1))]. cbn. ring.
Qed.
Lemma move0 v u : move v 0 u = v. Proof. unfold move. vring. Qed.

(* a rotation-like map w with its first and second derivatives in r, linear in p *)
Section Warp.
  Variables (w : vec3 -> vec3 -> vec3) (w1 : vec3 -> vec3 -> vec3 -> vec3) (w2 : vec3 -> vec3 -> vec3 -> vec3 -> vec3) (dom : vec3 -> Prop).
  Hypothesis open : forall r v, dom r -> exists d : posreal, forall y, Rabs y < d -> dom (move r y v).
  Hypothesis D1 : forall r p u k, dom r -> vl (fun y => w (move r y u) (move p y k)) (vadd (w1 r u p) (w r k)).
  Hypothesis D2 : forall r p u v k, dom r -> vl (fun y => w1 (move r y v) u (move p y k)) (vadd (w2 r u v p) (w1 r u k)).
  Hypothesis W0 : forall r, w r v0 = v0.
  Lemma move_v0 v y : move v y v0 = v. Proof. unfold move. vring. Qed.
  Definition res (r t p q : vec3) : vec3 := vsub (vadd (w r p) t) q.
  (* half the second derivative along (ur, ut) and (vr, vt, vp, vq) *)
  Definition hess_point (r t p q ur ut vr vt vp vq : vec3) : R :=
    vdot (vsub (vadd (vadd (w1 r vr p) (w r vp)) vt) vq) (vadd (w1 r ur p) ut) + vdot (res r t p q) (vadd (w2 r ur vr p) (w1 r ur vp)).
  Definition hess_plane (n r t p q ur ut vr vt vp vq : vec3) : R :=
    vdot n (vsub (vadd (vadd (w1 r vr p) (w r vp)) vt) vq) * vdot n (vadd (w1 r ur p) ut) + vdot n (res r t p q) * vdot n (vadd (w2 r ur vr p) (w1 r ur vp)).
  Lemma res_x r t p q ur ut : dom r -> vl (fun x => res (move r x ur) (move t x ut) p q) (vadd (w1 r ur p) ut).
  Proof.
    intros Dr. unfold res. eapply vl_eq; [|eapply vl_minus; [eapply vl_plus; [|apply vl_move]|apply vl_const]].
    2:{ pose proof (D1 r p ur v0 Dr) as H. eapply vl_eq in H; [|rewrite W0; reflexivity]. assert (E : forall y, move p y v0 = p) by (intros; apply move_v0).
        destruct H as (H1 & H2 & H3). repeat split; (eapply sl_ext; [|eassumption]); intros y; cbn; rewrite E; reflexivity. }
    generalize (w1 r ur p). clear. vring.
  Qed.
  Lemma res_y r t p q vr vt vp vq : dom r -> vl (fun y => res (move r y vr) (move t y vt) (move p y vp) (move q y vq)) (vsub (vadd (vadd (w1 r vr p) (w r vp)) vt) vq).
  Proof. intros Dr. unfold res. apply vl_minus; [apply vl_plus; [apply D1; exact Dr|apply vl_move]|apply vl_move]. Qed.
  Lemma grad_y r p ur ut vr vp : dom r -> vl (fun y => vadd (w1 (move r y vr) ur (move p y vp)) ut) (vadd (w2 r ur vr p) (w1 r ur vp)).
  Proof. intros Dr. eapply vl_eq; [|apply vl_plus; [apply D2; exact Dr|apply vl_const]]. generalize (w2 r ur vr p) (w1 r ur vp). clear. vring. Qed.
  Lemma swap_move r x u y v : move (move r x u) y v = move (move r y v) x u. Proof. unfold move. vring. Qed.
  Lemma point_second r t p q ur ut vr vt vp vq : dom r ->
    mixed2 (fun x y => point_cost w (move (move r x ur) y vr) (move (move t x ut) y vt) (move p y vp) (move q y vq)) (2 * hess_point r t p q ur ut vr vt vp vq).
  Proof.
    intros Dr. destruct (open r vr Dr) as [d Hd]. exists d.
    exists (fun y => 2 * vdot (res (move r y vr) (move t y vt) (move p y vp) (move q y vq)) (vadd (w1 (move r y vr) ur (move p y vp)) ut)). split.
    - intros y Ly. pose proof (res_x (move r y vr) (move t y vt) (move p y vp) (move q y vq) ur ut (Hd y Ly)) as H.
      pose proof (sl_dot _ _ _ _ H H) as K. cbv beta in K. rewrite !move0 in K. eapply sl_eq; [|eapply sl_ext; [|exact K]].
      + rewrite !dot_comp. ring.
      + intros x. cbv beta. unfold point_cost, res. rewrite (swap_move r x ur y vr), (swap_move t x ut y vt). reflexivity.
    - pose proof (sl_dot _ _ _ _ (res_y r t p q vr vt vp vq Dr) (grad_y r p ur ut vr vp Dr)) as K. cbv beta in K. rewrite !move0 in K.
      pose proof (sl_mult _ _ _ _ (sl_const 2) K) as M. cbv beta in M. eapply sl_eq; [|exact M]. unfold hess_point. ring.
  Qed.
  Lemma plane_second n r t p q ur ut vr vt vp vq : dom r ->
    mixed2 (fun x y => plane_cost w n (move (move r x ur) y vr) (move (move t x ut) y vt) (move p y vp) (move q y vq)) (2 * hess_plane n r t p q ur ut vr vt vp vq).
  Proof.
    intros Dr. destruct (open r vr Dr) as [d Hd]. exists d.
    exists (fun y => 2 * (vdot n (res (move r y vr) (move t y vt) (move p y vp) (move q y vq)) * vdot n (vadd (w1 (move r y vr) ur (move p y vp)) ut))). split.
    - intros y Ly. pose proof (res_x (move r y vr) (move t y vt) (move p y vp) (move q y vq) ur ut (Hd y Ly)) as H.
      pose proof (sl_dot _ _ _ _ (vl_const n) H) as K. pose proof (sl_mult _ _ _ _ K K) as M. cbv beta in M. rewrite !move0 in M. eapply sl_eq; [|eapply sl_ext; [|exact M]].
      + rewrite !dot_comp. cbn [v1 v2 v3 v0]. ring.
      + intros x. cbv beta. unfold plane_cost, res. rewrite (swap_move r x ur y vr), (swap_move t x ut y vt). reflexivity.
    - pose proof (sl_dot _ _ _ _ (vl_const n) (res_y r t p q vr vt vp vq Dr)) as K1. pose proof (sl_dot _ _ _ _ (vl_const n) (grad_y r p ur ut vr vp Dr)) as K2.
      pose proof (sl_mult _ _ _ _ (sl_const 2) (sl_mult _ _ _ _ K1 K2)) as M. cbv beta in M. rewrite !move0 in M. eapply sl_eq; [|exact M].
      unfold hess_plane. rewrite !dot_comp. cbn [v1 v2 v3 v0]. ring.
  Qed.
End Warp.
