From Coq Require Import Reals Lra Lia List.
From Verif Require Import Base Mx Interp Geo EgModel EgProofs RcGen RcModel RcSpec RcDeriv RcTurn RcProofs DaModel.
Import ListNotations.
Open Scope R_scope.

Ltac ent := cbv [point_dzdx_hand point_dzdx_alt1 point_dzdx_alt2 block4 extra_1 extra_2 plane_dx2_hand plane_dx2_alt plane_dzdx_hand plane_dzdx_alt dATAx dATb row6
  Nat.ltb Nat.leb Nat.sub v0 vadd vsub vscale vdot vcross vopp pt_lin_dx2 pt_lin_dzdx pl_lin_dx2 pl_lin_dzdx blocks mget vget skew mapply mmul mopp madd mscale mT mI vouter]; field.
Ltac v3 := repeat match goal with v : vec3 |- _ => destruct v as [[? ?] ?] end.
Lemma half_cross_scale F r t p q (D E : mx) : half_cross_hessian F r t p q D -> (forall i j, (i < 6)%nat -> (j < 6)%nat -> E i j = D i j) -> half_cross_hessian F r t p q E.
Proof. intros H X i j Li Lj. rewrite X by assumption. apply H; assumption. Qed.
Lemma half_motion_scale F r t p q (D E : mx) : half_motion_hessian F r t p q D -> (forall i j, (i < 6)%nat -> (j < 6)%nat -> E i j = D i j) -> half_motion_hessian F r t p q E.
Proof. intros H X i j Li Lj. rewrite X by assumption. apply H; assumption. Qed.
(* the three forms are twice what is half the mixed derivative of the cost *)
Theorem point_hand r t p q m : In m [point_dzdx_hand r t p q; point_dzdx_alt1 r t p q; point_dzdx_alt2 r t p q] -> half_cross_hessian (point_cost turn1) r t p q (fun i j => / 2 * m i j).
Proof.
  intros I. destruct (point_linearised r t (mkCorr p q v0 v0 v0)) as (H & D & _ & E & _ & C). cbn [k_p k_q] in C. eapply half_cross_scale; [exact C|].
  revert E. unfold half_dzdx, components_rt. cbn [c_r c_t c_a c_sa c_ca k_p k_q k_n]. destruct r as [[rx ry] rz], t as [[tx ty] tz], p as [[px py] pz], q as [[qx qy] qz]. cbn [v0].
  intros [= <-] i j Li Lj. cbn [In] in I. destruct I as [<-|[<-|[<-|[]]]]; six Li; six Lj; ent.
Qed.
Theorem plane_hand r t p q n m : In m [plane_dzdx_hand r t p q n; plane_dzdx_alt r t p q n] -> half_cross_hessian (plane_cost turn1 n) r t p q (fun i j => / 2 * m i j).
Proof.
  intros I. destruct (plane_linearised r t (mkCorr p q n v0 v0)) as (H & D & _ & E & _ & C). cbn [k_p k_q k_n] in C. eapply half_cross_scale; [exact C|].
  revert E. unfold half_dzdx, components_rt. cbn [c_r c_t c_a c_sa c_ca k_p k_q k_n]. destruct r as [[rx ry] rz], t as [[tx ty] tz], p as [[px py] pz], q as [[qx qy] qz], n as [[nx ny] nz].
  intros [= <-] i j Li Lj. cbn [In] in I. destruct I as [<-|[<-|[]]]; six Li; six Lj; ent.
Qed.
Theorem plane_hessian_hand r t p q n m : In m [plane_dx2_hand p n; plane_dx2_alt p n] -> half_motion_hessian (plane_cost turn1 n) r t p q (fun i j => / 2 * m i j).
Proof.
  intros I. destruct (plane_linearised r t (mkCorr p q n v0 v0)) as (H & D & E & _ & C & _). cbn [k_p k_q k_n] in C. eapply half_motion_scale; [exact C|].
  revert E. unfold half_dx2, components_rt. cbn [c_r c_t c_a c_sa c_ca k_p k_q k_n]. destruct r as [[rx ry] rz], t as [[tx ty] tz], p as [[px py] pz], q as [[qx qy] qz], n as [[nx ny] nz].
  intros [= <-] i j Li Lj. cbn [In] in I. destruct I as [<-|[<-|[]]]; six Li; six Lj; ent.
Qed.

(* the three forms of the rotation *)
Theorem rotations r R : In R [rot r; rot_alt r; rot_alt2 r] -> (R = None <-> vnorm r = 0) /\ forall M, R = Some M -> forall p, mapply M p = turn r p.
Proof.
  intros I. unfold rot, rot_alt, rot_alt2, unit_axis in I. destruct (Req_EM_T (vnorm r) 0) as [e|n].
  - cbn in I. assert (R = None) as -> by (repeat destruct I as [I|I]; [auto..|destruct I]). split; [split; auto|discriminate].
  - assert (N : vdot r r = vnorm r * vnorm r) by (symmetry; apply norm_sq). destruct r as [[x y] z]. unfold turn, axis. remember (vnorm (x, y, z)) as a. clear Heqa.
    cbn in N. assert (Hz : z * z = a * a - x * x - y * y) by lra.
    pose proof (sin2_cos2 a) as SC.
    cbn [In] in I. destruct I as [<-|[<-|[<-|[]]]]; (split; [split; [discriminate|contradiction]|]); intros M [= <-] [[u v] w]; cbv [vadd vscale vdot vcross mapply mmul madd mscale skew mI vouter].
    + apply f_equal2; [apply f_equal2|]; field; assumption.
    + apply f_equal2; [apply f_equal2|]; field; assumption.
    + assert (Ex : x / a * (x / a) = 1 - y / a * (y / a) - z / a * (z / a)) by (apply (Rmult_eq_reg_l (a * a)); [field_simplify; [lra|assumption..]|nra]).
      assert (T : / a * x = x / a /\ / a * y = y / a /\ / a * z = z / a) by (repeat split; field; assumption). destruct T as (-> & -> & ->).
      set (X := x / a) in *. set (Y := y / a) in *. set (Z := z / a) in *. clearbody X Y Z.
      apply f_equal2; [apply f_equal2|].
      * transitivity (u + sin a * (Y * w - Z * v) + (1 - cos a) * (X * (Y * v + Z * w) - (Y * Y + Z * Z) * u)); [ring|].
        replace (Y * Y + Z * Z) with (1 - X * X) by lra. ring.
      * transitivity (v + sin a * (Z * u - X * w) + (1 - cos a) * (Y * (X * u + Z * w) - (X * X + Z * Z) * v)); [ring|].
        replace (X * X + Z * Z) with (1 - Y * Y) by lra. ring.
      * transitivity (w + sin a * (X * v - Y * u) + (1 - cos a) * (Z * (X * u + Y * v) - (X * X + Y * Y) * w)); [ring|].
        replace (X * X + Y * Y) with (1 - Z * Z) by lra. ring.
Qed.

(* homogeneous coordinates give the same residuals *)
Theorem homogeneous M t p q n : residual_alt M t p q = (residual M t p q, 0) /\ height_alt M t p q n = height M t p q n.
Proof.
  assert (A : residual_alt M t p q = (residual M t p q, 0)).
  { unfold residual_alt, residual, apply4. cbn [fst snd]. destruct (mapply M p) as [[? ?] ?]. v3. cbv [vadd vsub vscale vdot v0 vopp]. apply f_equal2; [apply f_equal2; [apply f_equal2|]|]; ring. }
  split; [exact A|]. unfold height_alt. cbv zeta. rewrite A. unfold height. cbn [fst snd]. ring.
Qed.
Theorem residual_costs r M t p q n : rot r = Some M ->
  vdot (residual M t p q) (residual M t p q) = point_cost turn r t p q /\ height M t p q n * height M t p q n = plane_cost turn n r t p q.
Proof.
  intros E. assert (T : forall x, mapply M x = turn r x) by (intros x; apply (rotations r (rot r) (or_introl eq_refl)); exact E).
  unfold height, residual, point_cost, plane_cost. rewrite T. cbv zeta. generalize (vsub (vadd (turn r p) t) q). intros e. split; [reflexivity|]. v3. cbv [vdot]. ring.
Qed.

(* the gradient of a squared residual *)
Theorem gradient_point (f : R -> vec3) (d : vec3) i : 
  derivable_pt_lim (fun x => let '(a, _, _) := f x in a) 0 (let '(a, _, _) := d in a) -> derivable_pt_lim (fun x => let '(_, a, _) := f x in a) 0 (let '(_, a, _) := d in a) ->
  derivable_pt_lim (fun x => let '(_, _, a) := f x in a) 0 (let '(_, _, a) := d in a) ->
  derivable_pt_lim (fun x => vdot (f x) (f x)) 0 (grad_point (fun _ => d) (f 0) i).
Proof.
  intros A B C. destruct d as [[d1 d2] d3].
  set (f1 := fun x => let '(a, _, _) := f x in a) in *. set (f2 := fun x => let '(_, a, _) := f x in a) in *. set (f3 := fun x => let '(_, _, a) := f x in a) in *.
  assert (E : forall x, f x = (f1 x, f2 x, f3 x)) by (intros x; unfold f1, f2, f3; destruct (f x) as [[? ?] ?]; reflexivity).
  unfold grad_point. rewrite E. cbn [vdot]. replace (2 * (d1 * f1 0 + d2 * f2 0 + d3 * f3 0)) with (((d1 * f1 0 + f1 0 * d1) + (d2 * f2 0 + f2 0 * d2)) + (d3 * f3 0 + f3 0 * d3)) by ring.
  assert (K : derivable_pt_lim (fun x => f1 x * f1 x + f2 x * f2 x + f3 x * f3 x) 0 ((d1 * f1 0 + f1 0 * d1) + (d2 * f2 0 + f2 0 * d2) + (d3 * f3 0 + f3 0 * d3))).
  { apply (derivable_pt_lim_plus (fun x => f1 x * f1 x + f2 x * f2 x) (fun x => f3 x * f3 x)); [apply (derivable_pt_lim_plus (fun x => f1 x * f1 x) (fun x => f2 x * f2 x))|];
    apply (derivable_pt_lim_mult _ _ 0); assumption. }
  intros eps He. destruct (K eps He) as [dl Hd]. exists dl. intros h Hn Hl. rewrite !E. cbn [vdot]. exact (Hd h Hn Hl).
Qed.
Theorem gradient_plane (h : R -> R) d i : derivable_pt_lim h 0 d -> derivable_pt_lim (fun x => h x * h x) 0 (grad_plane (fun _ => d) (h 0) i).
Proof.
  intros A. unfold grad_plane. replace (2 * (d * h 0)) with (d * h 0 + h 0 * d) by ring. apply (derivable_pt_lim_mult h h 0); exact A.
Qed.

(* every entry of a six by six matrix is written once *)
Theorem file_complete m i j v : In (i, j, v) (file 6 6 m) <-> (i < 6)%nat /\ (j < 6)%nat /\ v = m i j.
Proof.
  unfold file. rewrite in_flat_map. split.
  - intros (k & Ik & I). apply in_map_iff in I. destruct I as (l & [= -> -> <-] & Il). apply in_seq in Ik, Il. repeat split; lia.
  - intros (A & B & ->). exists i. split; [apply in_seq; lia|]. apply in_map_iff. exists j. split; [reflexivity|apply in_seq; lia].
Qed.
Theorem file_once m : NoDup (map fst (file 6 6 m)).
Proof.
  unfold file. cbn. repeat (constructor; [cbn; intuition congruence|]). constructor.
Qed.
