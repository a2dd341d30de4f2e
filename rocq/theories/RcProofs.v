(* The four models return half the second derivatives of their registration cost; the components kept of a transform describe its rotation. *)
From Coq Require Import Reals Lra Lia Psatz List.
From Verif Require Import Base Mx Interp Geo EgModel EgProofs RcGen RcModel RcSpec RcDeriv RcTurn RcPtDx RcPtDz RcPlDx RcPlDz.
Open Scope R_scope.

Lemma mixed2_near f g l : (exists d : posreal, forall y, Rabs y < d -> exists d' : posreal, forall x, Rabs x < d' -> f x y = g x y) -> mixed2 f l -> mixed2 g l.
Proof.
  intros [d E] (d1 & h & A & B). assert (P : 0 < Rmin d d1) by (apply Rmin_glb_lt; apply cond_pos). exists (mkposreal _ P), h. split; [|exact B]. cbn. intros y Ly.
  assert (L1 : Rabs y < d) by (eapply Rlt_le_trans; [exact Ly|apply Rmin_l]). assert (L2 : Rabs y < d1) by (eapply Rlt_le_trans; [exact Ly|apply Rmin_r]).
  destruct (E y L1) as [d' E']. exact (sl_near _ _ _ d' E' (A y L2)).
Qed.
Lemma mixed2_eq f l m : l = m -> mixed2 f l -> mixed2 f m. Proof. intros ->. exact (fun x => x). Qed.
Lemma mixed2_ext f g l : (forall x y, f x y = g x y) -> mixed2 f l -> mixed2 g l.
Proof. intros E. apply mixed2_near. exists (mkposreal 1 Rlt_0_1). intros y _. exists (mkposreal 1 Rlt_0_1). intros x _. apply E. Qed.
(* a mixed second derivative is a single number *)
Lemma mixed2_unique f l m : mixed2 f l -> mixed2 f m -> l = m.
Proof.
  intros (d & g & A & B) (d' & g' & A' & B'). assert (P : 0 < Rmin d d') by (apply Rmin_glb_lt; apply cond_pos).
  assert (B2 : derivable_pt_lim g' 0 l).
  { apply (sl_near g g' l (mkposreal _ P)); [|exact B]. cbn. intros y Ly.
    assert (L1 : Rabs y < d) by (eapply Rlt_le_trans; [exact Ly|apply Rmin_l]). assert (L2 : Rabs y < d') by (eapply Rlt_le_trans; [exact Ly|apply Rmin_r]).
    exact (uniqueness_limite _ _ _ _ (A y L1) (A' y L2)). }
  exact (uniqueness_limite _ _ _ _ B2 B').
Qed.

Lemma mv0 v y : move v y v0 = v. Proof. unfold move. vring. Qed.
Lemma near_turn r u v : vnorm r <> 0 -> exists d : posreal, forall y, Rabs y < d -> exists d' : posreal, forall x, Rabs x < d' -> vnorm (move (move r x u) y v) <> 0.
Proof.
  intros H. destruct (open_nz r v H) as [d Hd]. exists d. intros y Ly. destruct (open_nz (move r y v) u (Hd y Ly)) as [d' Hd']. exists d'. intros x Lx. rewrite swap_move. apply Hd'. exact Lx.
Qed.
Lemma point_turn r t p q ur ut vr vt vp vq : vnorm r <> 0 ->
  mixed2 (fun x y => point_cost turn (move (move r x ur) y vr) (move (move t x ut) y vt) (move p y vp) (move q y vq)) (2 * hess_point ww ww1 ww2 r t p q ur ut vr vt vp vq).
Proof.
  intros H. eapply mixed2_near; [|exact (point_second ww ww1 ww2 (fun r => vnorm r <> 0) (fun r v => open_nz r v) (fun r p u k => D1_turn r p u k) (fun r p u v k => D2_turn r p u v k) ww_v0 r t p q ur ut vr vt vp vq H)].
  destruct (near_turn r ur vr H) as [d E]. exists d. intros y Ly. destruct (E y Ly) as [d' E']. exists d'. intros x Lx. unfold point_cost. rewrite turn_ww by (apply E'; exact Lx). reflexivity.
Qed.
Lemma plane_turn n r t p q ur ut vr vt vp vq : vnorm r <> 0 ->
  mixed2 (fun x y => plane_cost turn n (move (move r x ur) y vr) (move (move t x ut) y vt) (move p y vp) (move q y vq)) (2 * hess_plane ww ww1 ww2 n r t p q ur ut vr vt vp vq).
Proof.
  intros H. eapply mixed2_near; [|exact (plane_second ww ww1 ww2 (fun r => vnorm r <> 0) (fun r v => open_nz r v) (fun r p u k => D1_turn r p u k) (fun r p u v k => D2_turn r p u v k) ww_v0 n r t p q ur ut vr vt vp vq H)].
  destruct (near_turn r ur vr H) as [d E]. exists d. intros y Ly. destruct (E y Ly) as [d' E']. exists d'. intros x Lx. unfold plane_cost. rewrite turn_ww by (apply E'; exact Lx). reflexivity.
Qed.
Lemma norm_sq r : vnorm r * vnorm r = vdot r r.
Proof. unfold vnorm. apply sqrt_sqrt. destruct r as [[x y] z]. cbn. nra. Qed.

(* PointToPointIcpNonlinearModel *)
Lemma point_nonlinear r t c : vnorm r <> 0 -> exists H D, half_dx2 PointNonlinear (components_rt r t) c = Some H /\ half_dzdx PointNonlinear (components_rt r t) c = Some D /\
  half_motion_hessian (point_cost turn) r t (k_p c) (k_q c) H /\ half_cross_hessian (point_cost turn) r t (k_p c) (k_q c) D.
Proof.
  intros NZ. unfold half_dx2, half_dzdx, components_rt. cbn [c_r c_t c_a c_sa c_ca]. pose proof (norm_sq r) as N.
  destruct c as [[[px py] pz] [[qx qy] qz] [[nx ny] nz] pu qu]. cbn [k_p k_q k_n]. destruct r as [[rx ry] rz] eqn:Er, t as [[tx ty] tz] eqn:Et. destruct (Req_EM_T (vnorm (rx, ry, rz)) 0) as [E|_]; [contradiction|].
  assert (Hr : rx * rx = vnorm (rx, ry, rz) * vnorm (rx, ry, rz) - ry * ry - rz * rz) by (rewrite N; cbn; ring).
  eexists. eexists. split; [reflexivity|]. split; [reflexivity|]. split; intros i j Li Lj.
  - rewrite ptp_nl_dx2_entries by assumption. eapply mixed2_eq; [|eapply mixed2_ext; [|exact (point_turn (rx, ry, rz) (tx, ty, tz) (px, py, pz) (qx, qy, qz) (fst_dir i) (snd_dir i) (fst_dir j) (snd_dir j) v0 v0 NZ)]].
    + reflexivity.
    + intros x y. cbv beta. rewrite !mv0. reflexivity.
  - rewrite ptp_nl_dzdx_entries by assumption. eapply mixed2_eq; [|eapply mixed2_ext; [|exact (point_turn (rx, ry, rz) (tx, ty, tz) (px, py, pz) (qx, qy, qz) (fst_dir i) (snd_dir i) v0 v0 (fst_dir j) (snd_dir j) NZ)]].
    + reflexivity.
    + intros x y. cbv beta. rewrite !mv0. reflexivity.
Qed.
(* PointToPlaneIcpNonlinearModel *)
Lemma plane_nonlinear r t c : vnorm r <> 0 -> exists H D, half_dx2 PlaneNonlinear (components_rt r t) c = Some H /\ half_dzdx PlaneNonlinear (components_rt r t) c = Some D /\
  half_motion_hessian (plane_cost turn (k_n c)) r t (k_p c) (k_q c) H /\ half_cross_hessian (plane_cost turn (k_n c)) r t (k_p c) (k_q c) D.
Proof.
  intros NZ. unfold half_dx2, half_dzdx, components_rt. cbn [c_r c_t c_a c_sa c_ca]. pose proof (norm_sq r) as N.
  destruct c as [[[px py] pz] [[qx qy] qz] [[nx ny] nz] pu qu]. cbn [k_p k_q k_n]. destruct r as [[rx ry] rz] eqn:Er, t as [[tx ty] tz] eqn:Et. destruct (Req_EM_T (vnorm (rx, ry, rz)) 0) as [E|_]; [contradiction|].
  assert (Hr : rx * rx = vnorm (rx, ry, rz) * vnorm (rx, ry, rz) - ry * ry - rz * rz) by (rewrite N; cbn; ring).
  eexists. eexists. split; [reflexivity|]. split; [reflexivity|]. split; intros i j Li Lj.
  - rewrite ptpl_nl_dx2_entries by assumption. eapply mixed2_eq; [|eapply mixed2_ext; [|exact (plane_turn (nx, ny, nz) (rx, ry, rz) (tx, ty, tz) (px, py, pz) (qx, qy, qz) (fst_dir i) (snd_dir i) (fst_dir j) (snd_dir j) v0 v0 NZ)]].
    + reflexivity.
    + intros x y. cbv beta. rewrite !mv0. reflexivity.
  - rewrite ptpl_nl_dzdx_entries by assumption. eapply mixed2_eq; [|eapply mixed2_ext; [|exact (plane_turn (nx, ny, nz) (rx, ry, rz) (tx, ty, tz) (px, py, pz) (qx, qy, qz) (fst_dir i) (snd_dir i) v0 v0 (fst_dir j) (snd_dir j) NZ)]].
    + reflexivity.
    + intros x y. cbv beta. rewrite !mv0. reflexivity.
Qed.

Lemma six i : (i < 6)%nat -> i = 0%nat \/ i = 1%nat \/ i = 2%nat \/ i = 3%nat \/ i = 4%nat \/ i = 5%nat. Proof. lia. Qed.
Ltac six H := destruct (six _ H) as [->|[->|[->|[->|[->| ->]]]]].
Ltac entry := cbv [hess_point hess_plane res turn1 li1 li2 fst_dir snd_dir unit3 Nat.ltb Nat.leb Nat.sub v0 vadd vsub vscale vdot vcross vopp pt_lin_dx2 pt_lin_dzdx pl_lin_dx2 pl_lin_dzdx blocks mget vget skew mapply mmul mopp madd mscale mT mI vouter]; ring.
(* PointToPointIcpLinearisedModel *)
Lemma point_linearised r t c : exists H D, half_dx2 PointLinearised (components_rt r t) c = Some H /\ half_dzdx PointLinearised (components_rt r t) c = Some D /\
  half_motion_hessian (point_cost turn1) r t (k_p c) (k_q c) H /\ half_cross_hessian (point_cost turn1) r t (k_p c) (k_q c) D.
Proof.
  unfold half_dx2, half_dzdx, components_rt. cbn [c_r c_t c_a c_sa c_ca].
  destruct c as [[[px py] pz] [[qx qy] qz] [[nx ny] nz] pu qu]. cbn [k_p k_q k_n]. destruct r as [[rx ry] rz], t as [[tx ty] tz].
  eexists. eexists. split; [reflexivity|]. split; [reflexivity|]. split; intros i j Li Lj.
  - eapply mixed2_eq; [|eapply mixed2_ext; [|exact (point_second turn1 li1 li2 (fun _ => True) open_li (fun r p u k => D1_li r p u k) (fun r p u v k => D2_li r p u v k) li_v0 (rx, ry, rz) (tx, ty, tz) (px, py, pz) (qx, qy, qz) (fst_dir i) (snd_dir i) (fst_dir j) (snd_dir j) v0 v0 I)]].
    + f_equal. six Li; six Lj; entry.
    + intros x y. cbv beta. rewrite !mv0. reflexivity.
  - eapply mixed2_eq; [|eapply mixed2_ext; [|exact (point_second turn1 li1 li2 (fun _ => True) open_li (fun r p u k => D1_li r p u k) (fun r p u v k => D2_li r p u v k) li_v0 (rx, ry, rz) (tx, ty, tz) (px, py, pz) (qx, qy, qz) (fst_dir i) (snd_dir i) v0 v0 (fst_dir j) (snd_dir j) I)]].
    + f_equal. six Li; six Lj; entry.
    + intros x y. cbv beta. rewrite !mv0. reflexivity.
Qed.
(* PointToPlaneIcpLinearisedModel *)
Lemma plane_linearised r t c : exists H D, half_dx2 PlaneLinearised (components_rt r t) c = Some H /\ half_dzdx PlaneLinearised (components_rt r t) c = Some D /\
  half_motion_hessian (plane_cost turn1 (k_n c)) r t (k_p c) (k_q c) H /\ half_cross_hessian (plane_cost turn1 (k_n c)) r t (k_p c) (k_q c) D.
Proof.
  unfold half_dx2, half_dzdx, components_rt. cbn [c_r c_t c_a c_sa c_ca].
  destruct c as [[[px py] pz] [[qx qy] qz] [[nx ny] nz] pu qu]. cbn [k_p k_q k_n]. destruct r as [[rx ry] rz], t as [[tx ty] tz].
  eexists. eexists. split; [reflexivity|]. split; [reflexivity|]. split; intros i j Li Lj.
  - eapply mixed2_eq; [|eapply mixed2_ext; [|exact (plane_second turn1 li1 li2 (fun _ => True) open_li (fun r p u k => D1_li r p u k) (fun r p u v k => D2_li r p u v k) li_v0 (nx, ny, nz) (rx, ry, rz) (tx, ty, tz) (px, py, pz) (qx, qy, qz) (fst_dir i) (snd_dir i) (fst_dir j) (snd_dir j) v0 v0 I)]].
    + f_equal. six Li; six Lj; entry.
    + intros x y. cbv beta. rewrite !mv0. reflexivity.
  - eapply mixed2_eq; [|eapply mixed2_ext; [|exact (plane_second turn1 li1 li2 (fun _ => True) open_li (fun r p u k => D1_li r p u k) (fun r p u v k => D2_li r p u v k) li_v0 (nx, ny, nz) (rx, ry, rz) (tx, ty, tz) (px, py, pz) (qx, qy, qz) (fst_dir i) (snd_dir i) v0 v0 (fst_dir j) (snd_dir j) I)]].
    + f_equal. six Li; six Lj; entry.
    + intros x y. cbv beta. rewrite !mv0. reflexivity.
Qed.
