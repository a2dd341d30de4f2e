(* The rotation by a rotation vector, its first and second derivatives; the linearised rotation. *)
From Coq Require Import Reals Lra Lia Psatz.
From Verif Require Import Base Mx Interp Geo RcSpec RcDeriv.
Open Scope R_scope.

Lemma vl_ext f g l : (forall x, f x = g x) -> vl f l -> vl g l.
Proof. intros E (A & B & C). split; [|split]; (eapply sl_ext; [|eassumption]); intros x; cbv beta; rewrite E; reflexivity. Qed.
Section Pt.
  Variable a : R.
  Lemma dp_eq f l m : l = m -> derivable_pt_lim f a l -> derivable_pt_lim f a m. Proof. intros ->. exact (fun x => x). Qed.
  Lemma dp_const c : derivable_pt_lim (fun _ => c) a 0. Proof. apply derivable_pt_lim_const. Qed.
  Lemma dp_id : derivable_pt_lim (fun x => x) a 1. Proof. apply derivable_pt_lim_id. Qed.
  Lemma dp_plus f g l m : derivable_pt_lim f a l -> derivable_pt_lim g a m -> derivable_pt_lim (fun x => f x + g x) a (l + m). Proof. apply derivable_pt_lim_plus. Qed.
  Lemma dp_minus f g l m : derivable_pt_lim f a l -> derivable_pt_lim g a m -> derivable_pt_lim (fun x => f x - g x) a (l - m). Proof. apply derivable_pt_lim_minus. Qed.
  Lemma dp_mult f g l m : derivable_pt_lim f a l -> derivable_pt_lim g a m -> derivable_pt_lim (fun x => f x * g x) a (l * g a + f a * m). Proof. apply derivable_pt_lim_mult. Qed.
  Lemma dp_div f g l m : derivable_pt_lim f a l -> derivable_pt_lim g a m -> g a <> 0 -> derivable_pt_lim (fun x => f x / g x) a ((l * g a - m * f a) / Rsqr (g a)). Proof. apply derivable_pt_lim_div. Qed.
  Lemma dp_sin : derivable_pt_lim (fun x => sin x) a (cos a). Proof. apply derivable_pt_lim_sin. Qed.
  Lemma dp_cos : derivable_pt_lim (fun x => cos x) a (- sin a). Proof. apply derivable_pt_lim_cos. Qed.
End Pt.
Ltac dp := first [ apply dp_const | apply dp_id | apply dp_sin | apply dp_cos
  | eapply dp_plus; [dp|dp] | eapply dp_minus; [dp|dp] | eapply dp_mult; [dp|dp] | eapply dp_div; [dp|dp|] ].

Definition fB a := sin a / a.
Definition fC a := (1 - cos a) / (a * a).
Definition fB1 a := cos a / (a * a) - sin a / (a * a * a).
Definition fC1 a := sin a / (a * a * a) - 2 * (1 - cos a) / (a * a * a * a).
Definition fB2 a := (0 - sin a) / (a * a * a) - 3 * cos a / (a * a * a * a) + 3 * sin a / (a * a * a * a * a).
Definition fC2 a := cos a / (a * a * a * a) - 5 * sin a / (a * a * a * a * a) + 8 * (1 - cos a) / (a * a * a * a * a * a).
Lemma m2 a : a <> 0 -> a * a <> 0. Proof. intros H. apply Rmult_integral_contrapositive_currified; assumption. Qed.
Lemma m3 a : a <> 0 -> a * a * a <> 0. Proof. intros H. apply Rmult_integral_contrapositive_currified; [apply m2|]; assumption. Qed.
Lemma m4 a : a <> 0 -> a * a * a * a <> 0. Proof. intros H. apply Rmult_integral_contrapositive_currified; [apply m3|]; assumption. Qed.
Ltac fin H := first [exact H | apply m2; exact H | apply m3; exact H | apply m4; exact H].
Lemma dB a : a <> 0 -> derivable_pt_lim fB a (a * fB1 a).
Proof. intros H. unfold fB, fB1. eapply dp_eq; [|dp; fin H]. cbv beta. unfold Rsqr. field. exact H. Qed.
Lemma dC a : a <> 0 -> derivable_pt_lim fC a (a * fC1 a).
Proof. intros H. unfold fC, fC1. eapply dp_eq; [|dp; fin H]. cbv beta. unfold Rsqr. field. exact H. Qed.
Lemma dB1 a : a <> 0 -> derivable_pt_lim fB1 a (a * fB2 a).
Proof. intros H. unfold fB1, fB2. eapply dp_eq; [|dp; fin H]. cbv beta. unfold Rsqr. field. exact H. Qed.
Lemma dC1 a : a <> 0 -> derivable_pt_lim fC1 a (a * fC2 a).
Proof. intros H. unfold fC1, fC2. eapply dp_eq; [|dp; fin H]. cbv beta. unfold Rsqr. field. exact H. Qed.
Lemma dcos a : a <> 0 -> derivable_pt_lim (fun x => cos x) a (a * (- fB a)).
Proof. intros H. unfold fB. eapply dp_eq; [|dp]. field. exact H. Qed.

(* the norm along a line *)
Lemma norm_pos r : vnorm r <> 0 -> 0 < vdot r r.
Proof.
  intros H. assert (P : 0 <= vdot r r) by (destruct r as [[x y] z]; cbn; nra). destruct (Rle_lt_or_eq_dec _ _ P) as [L|E]; [exact L|].
  exfalso. apply H. unfold vnorm. rewrite <- E. apply sqrt_0.
Qed.
Lemma norm_nz r : 0 < vdot r r -> vnorm r <> 0.
Proof. intros H E. unfold vnorm in E. apply sqrt_eq_0 in E; lra. Qed.
Lemma norm_line r u : vnorm r <> 0 -> sl (fun x => vnorm (move r x u)) (vdot r u / vnorm r).
Proof.
  intros H. pose proof (norm_pos r H) as P. unfold vnorm.
  pose proof (sl_dot _ _ _ _ (vl_move r u) (vl_move r u)) as D. cbv beta in D. rewrite !move0 in D.
  assert (S : derivable_pt_lim sqrt ((fun x => vdot (move r x u) (move r x u)) 0) (/ (2 * sqrt (vdot r r)))) by (cbv beta; rewrite !move0; apply derivable_pt_lim_sqrt; exact P).
  pose proof (sl_comp sqrt _ _ _ D S) as K. cbv beta in K. eapply sl_eq; [|exact K].
  unfold vnorm in H. rewrite !dot_comp in *. field. exact H.
Qed.
Lemma along f f1 r u : vnorm r <> 0 -> derivable_pt_lim f (vnorm r) (vnorm r * f1) -> sl (fun x => f (vnorm (move r x u))) (f1 * vdot r u).
Proof.
  intros H D. pose proof (norm_line r u H) as N. assert (D' : derivable_pt_lim f ((fun x => vnorm (move r x u)) 0) (vnorm r * f1)) by (cbv beta; rewrite move0; exact D).
  eapply sl_eq; [|exact (sl_comp f _ _ _ N D')]. field. exact H.
Qed.
Lemma open_nz r v : vnorm r <> 0 -> exists d : posreal, forall y, Rabs y < d -> vnorm (move r y v) <> 0.
Proof.
  intros H. assert (C : continuity_pt (fun x => vnorm (move r x v)) 0) by (apply derivable_continuous_pt; exists (vdot r v / vnorm r); apply norm_line; exact H).
  assert (P : 0 < vnorm r) by (assert (0 <= vnorm r) by apply sqrt_pos; lra).
  destruct (C (vnorm r) P) as [d [Hd K]]. exists (mkposreal d Hd). cbn. intros y Ly E.
  destruct (Req_EM_T y 0) as [->|NE]; [rewrite move0 in E; contradiction|].
  specialize (K y). cbn in K. unfold R_dist in K. rewrite E, move0 in K. replace (0 - vnorm r) with (- vnorm r) in K by ring. rewrite Rabs_Ropp, (Rabs_pos_eq (vnorm r)) in K by lra.
  assert (vnorm r < vnorm r); [|lra]. apply K. split; [split; [exact I|intros F; apply NE; symmetry; exact F]|rewrite Rminus_0_r; exact Ly].
Qed.

(* over a, sine and cosine as separate numbers *)
Definition gB a sa := sa / a.
Definition gC a ca := (1 - ca) / (a * a).
Definition gB1 a sa ca := ca / (a * a) - sa / (a * a * a).
Definition gC1 a sa ca := sa / (a * a * a) - 2 * (1 - ca) / (a * a * a * a).
Definition gB2 a sa ca := (0 - sa) / (a * a * a) - 3 * ca / (a * a * a * a) + 3 * sa / (a * a * a * a * a).
Definition gC2 a sa ca := ca / (a * a * a * a) - 5 * sa / (a * a * a * a * a) + 8 * (1 - ca) / (a * a * a * a * a * a).
(* each term carries a factor a^k as sums of vectors: rotation, first derivative along u, second along u and v *)
Definition tw (a sa ca : R) (r p : vec3) : vec3 := vadd (vadd (vscale ca p) (vscale (gB a sa) (vcross r p))) (vscale (gC a ca) (vscale (vdot r p) r)).
Definition tw1 (a sa ca : R) (r u p : vec3) : vec3 :=
  vadd (vadd (vscale (- gB a sa * vdot r u) p)
    (vadd (vscale (gB1 a sa ca * vdot r u) (vcross r p)) (vscale (gB a sa) (vcross u p))))
    (vadd (vscale (gC1 a sa ca * vdot r u) (vscale (vdot r p) r)) (vscale (gC a ca) (vadd (vscale (vdot u p) r) (vscale (vdot r p) u)))).
Definition tw2 (a sa ca : R) (r u v p : vec3) : vec3 :=
  vadd (vadd (vscale (- gB1 a sa ca * vdot r u * vdot r v - gB a sa * vdot u v) p)
    (vadd (vscale (gB2 a sa ca * vdot r u * vdot r v + gB1 a sa ca * vdot u v) (vcross r p))
      (vadd (vscale (gB1 a sa ca * vdot r u) (vcross v p)) (vscale (gB1 a sa ca * vdot r v) (vcross u p)))))
    (vadd (vscale ((gC2 a sa ca * vdot r u * vdot r v + gC1 a sa ca * vdot u v) * vdot r p) r)
      (vadd (vadd (vscale (gC1 a sa ca * vdot r u) (vadd (vscale (vdot v p) r) (vscale (vdot r p) v)))
                  (vscale (gC1 a sa ca * vdot r v) (vadd (vscale (vdot u p) r) (vscale (vdot r p) u))))
            (vscale (gC a ca) (vadd (vscale (vdot u p) v) (vscale (vdot v p) u))))).
Definition ww (r : vec3) := tw (vnorm r) (sin (vnorm r)) (cos (vnorm r)) r.
Definition ww1 (r : vec3) := tw1 (vnorm r) (sin (vnorm r)) (cos (vnorm r)) r.
Definition ww2 (r : vec3) := tw2 (vnorm r) (sin (vnorm r)) (cos (vnorm r)) r.
Lemma turn_ww r p : vnorm r <> 0 -> turn r p = ww r p.
Proof.
  intros H. unfold turn, axis, ww, tw, gB, gC. remember (vnorm r) as a. clear Heqa. vsplit. vred. tup; field; exact H.
Qed.
Lemma D1_turn r p u k : vnorm r <> 0 -> vl (fun y => ww (move r y u) (move p y k)) (vadd (ww1 r u p) (ww r k)).
Proof.
  intros H. set (a := vnorm r).
  pose proof (along _ _ r u H (dcos _ H)) as Kc. pose proof (along _ _ r u H (dB _ H)) as KB. pose proof (along _ _ r u H (dC _ H)) as KC.
  pose proof (vl_move p k) as Mp. pose proof (vl_move r u) as Mr.
  pose proof (vl_plus _ _ _ _ (vl_plus _ _ _ _ (vl_scale _ _ _ _ Kc Mp) (vl_scale _ _ _ _ KB (vl_cross _ _ _ _ Mr Mp))) (vl_scale _ _ _ _ KC (vl_scale _ _ _ _ (sl_dot _ _ _ _ Mr Mp) Mr))) as K.
  cbv beta in K. rewrite !move0 in K. eapply vl_eq; [|exact K]. unfold ww1, ww, tw, tw1. fold a in H |- *. unfold fB, fC, fB1, fC1, gB, gC, gB1, gC1. generalize dependent a. intros a Ha. clear. vring.
Qed.
Lemma D2_turn r p u v k : vnorm r <> 0 -> vl (fun y => ww1 (move r y v) u (move p y k)) (vadd (ww2 r u v p) (ww1 r u k)).
Proof.
  intros H. set (a := vnorm r).
  pose proof (along _ _ r v H (dB _ H)) as KB. pose proof (along _ _ r v H (dC _ H)) as KC. pose proof (along _ _ r v H (dB1 _ H)) as KB1. pose proof (along _ _ r v H (dC1 _ H)) as KC1.
  pose proof (vl_move p k) as Mp. pose proof (vl_move r v) as Mr. pose proof (vl_const u) as Mu.
  pose proof (sl_dot _ _ _ _ Mr Mu) as Ru. pose proof (sl_dot _ _ _ _ Mr Mp) as Rp. pose proof (sl_dot _ _ _ _ Mu Mp) as Up.
  pose proof (sl_mult _ _ _ _ (sl_minus _ _ _ _ (sl_const 0) KB) Ru) as T1.
  pose proof (vl_plus _ _ _ _ (vl_plus _ _ _ _ (vl_scale _ _ _ _ T1 Mp)
     (vl_plus _ _ _ _ (vl_scale _ _ _ _ (sl_mult _ _ _ _ KB1 Ru) (vl_cross _ _ _ _ Mr Mp)) (vl_scale _ _ _ _ KB (vl_cross _ _ _ _ Mu Mp))))
     (vl_plus _ _ _ _ (vl_scale _ _ _ _ (sl_mult _ _ _ _ KC1 Ru) (vl_scale _ _ _ _ Rp Mr))
        (vl_scale _ _ _ _ KC (vl_plus _ _ _ _ (vl_scale _ _ _ _ Up Mr) (vl_scale _ _ _ _ Rp Mu))))) as K.
  cbv beta in K. rewrite !move0 in K.
  eapply vl_eq; [|eapply vl_ext; [|exact K]]; [|intros y; unfold ww1, tw1; unfold Rminus; rewrite Rplus_0_l; reflexivity]. clear K T1 Ru Rp Up Mu Mr Mp KB KC KB1 KC1.
  unfold ww2, ww1, tw2, tw1. fold a in H |- *. unfold fB, fC, fB1, fC1, fB2, fC2, gB, gC, gB1, gC1, gB2, gC2. generalize dependent a. intros a Ha. clear. vring.
Qed.
Lemma ww_v0 r : ww r v0 = v0. Proof. unfold ww, tw. generalize (gB (vnorm r) (sin (vnorm r))) (gC (vnorm r) (cos (vnorm r))) (cos (vnorm r)). vring. Qed.

(* the linearised rotation *)
Definition li1 (r u p : vec3) : vec3 := vcross u p.
Definition li2 (r u v p : vec3) : vec3 := v0.
Lemma open_li (r v : vec3) : True -> exists d : posreal, forall y, Rabs y < d -> True. Proof. exists (mkposreal 1 Rlt_0_1). auto. Qed.
Lemma D1_li r p u k : True -> vl (fun y => turn1 (move r y u) (move p y k)) (vadd (li1 r u p) (turn1 r k)).
Proof.
  intros _. pose proof (vl_plus _ _ _ _ (vl_move p k) (vl_cross _ _ _ _ (vl_move r u) (vl_move p k))) as K. cbv beta in K. rewrite !move0 in K. eapply vl_eq; [|exact K]. unfold li1, turn1. vring.
Qed.
Lemma D2_li r p u v k : True -> vl (fun y => li1 (move r y v) u (move p y k)) (vadd (li2 r u v p) (li1 r u k)).
Proof. intros _. pose proof (vl_cross _ _ _ _ (vl_const u) (vl_move p k)) as K. cbv beta in K. rewrite !move0 in K. eapply vl_eq; [|exact K]. unfold li1, li2. vring. Qed.
Lemma li_v0 r : turn1 r v0 = v0. Proof. unfold turn1. vring. Qed.
