(* The estimators end to end: they evaluate Censi's formula on the derivatives of the whole registration cost. *)
From Coq Require Import Reals Lra Lia Psatz List.
From Verif Require Import Base Mx Interp Geo EgModel EgProofs RcGen RcModel RcSpec RcCov RcDeriv RcTurn RcMat RcPtDx RcPtDz RcPlDx RcPlDz RcProofs RcComp RcEst.
Import ListNotations.
Open Scope R_scope.

Lemma mixed2_plus f g l m : mixed2 f l -> mixed2 g m -> mixed2 (fun x y => f x y + g x y) (l + m).
Proof.
  intros (d & f' & A & B) (d' & g' & A' & B'). assert (P : 0 < Rmin d d') by (apply Rmin_glb_lt; apply cond_pos). exists (mkposreal _ P), (fun y => f' y + g' y). split; [|exact (sl_plus _ _ _ _ B B')].
  cbn. intros y Ly. apply (sl_plus (fun x => f x y) (fun x => g x y)); [apply A|apply A']; (eapply Rlt_le_trans; [exact Ly|]); [apply Rmin_l|apply Rmin_r].
Qed.
Lemma mixed2_still f l : mixed2 f l -> mixed2 (fun x _ => f x 0) 0.
Proof.
  intros (d & g & A & B). exists d, (fun _ => g 0). split; [|apply sl_const]. intros y _. apply A. rewrite Rabs_R0. apply cond_pos.
Qed.
Lemma mixed2_zero : mixed2 (fun _ _ => 0) 0.
Proof. exists (mkposreal 1 Rlt_0_1), (fun _ => 0). split; [intros; apply sl_const|apply sl_const]. Qed.

Lemma one_hessian k r t c : has_angle k (components_rt r t) ->
  half_motion_hessian (cost_of k (k_n c)) r t (k_p c) (k_q c) (hx k (components_rt r t) c) /\ half_cross_hessian (cost_of k (k_n c)) r t (k_p c) (k_q c) (hz k (components_rt r t) c).
Proof.
  intros A. unfold hx, hz. destruct k; cbn [cost_of].
  - destruct (point_linearised r t c) as (H & D & -> & -> & X & Y). split; assumption.
  - destruct (point_nonlinear r t c) as (H & D & -> & -> & X & Y); [apply A; left; reflexivity|]. split; assumption.
  - destruct (plane_linearised r t c) as (H & D & -> & -> & X & Y). split; assumption.
  - destruct (plane_nonlinear r t c) as (H & D & -> & -> & X & Y); [apply A; right; reflexivity|]. split; assumption.
Qed.
Lemma total_hessian k r t l : has_angle k (components_rt r t) -> exists H, hessian k (components_rt r t) l zerom = Some H /\ half_total_hessian k l r t H.
Proof.
  intros A. destruct (hessian_eq k (components_rt r t) l A zerom) as [H [E S]]. exists H. split; [exact E|]. intros i j Li Lj. rewrite S. unfold zerom. rewrite Rplus_0_l. clear E S H.
  induction l as [|c l IH]; cbn [total suml]; [eapply mixed2_eq; [|exact mixed2_zero]; ring|].
  eapply mixed2_eq; [|exact (mixed2_plus _ _ _ _ (proj1 (one_hessian k r t c A) i j Li Lj) IH)]. ring.
Qed.
Lemma total_cross k r t l : has_angle k (components_rt r t) -> exists ds, mixed k (components_rt r t) l = Some ds /\ length ds = length l /\ half_total_cross k l r t (side_by_side ds).
Proof.
  intros A. exists (map (hz k (components_rt r t)) l). split; [apply mixed_eq; exact A|]. split; [apply map_length|]. intros i j Li. revert j. induction l as [|c l IH]; intros j Lj; [cbn in Lj; lia|].
  assert (STILL : forall l, mixed2 (fun x _ => total k l (move r x (fst_dir i)) (move t x (snd_dir i))) 0).
  { clear - A Li. intros l. destruct (total_hessian k r t l A) as (H & _ & T). specialize (T i 0%nat Li ltac:(lia)). apply mixed2_still in T. eapply mixed2_ext; [|exact T]. intros x y. cbv beta. rewrite !move0. reflexivity. }
  cbn [map shift]. destruct (Nat.ltb_spec j 6) as [L|L]; rewrite side_cons.
  - destruct (Nat.ltb_spec j 6) as [_|?]; [|lia]. cbn [total k_n k_p k_q]. eapply mixed2_eq; [|exact (mixed2_plus _ _ _ _ (proj2 (one_hessian k r t c A) i j Li L) (STILL l))]. ring.
  - destruct (Nat.ltb_spec j 6) as [?|_]; [lia|]. cbn [total]. cbn [length] in Lj. specialize (IH (j - 6)%nat ltac:(lia)).
    assert (S1 : mixed2 (fun x _ => cost_of k (k_n c) (move r x (fst_dir i)) (move t x (snd_dir i)) (k_p c) (k_q c)) 0).
    { pose proof (STILL [c]) as T. eapply mixed2_ext; [|exact T]. intros x y. cbn [total]. ring. }
    eapply mixed2_eq; [|exact (mixed2_plus _ _ _ _ S1 IH)]. ring.
Qed.

(* halves or wholes: the formula is the same *)
Lemma inverse_double H hi : inverse_of 6 H hi -> inverse_of 6 (scalem 2 H) (scalem (/ 2) hi).
Proof.
  intros [X Y]. split; intros i j Hi Hj.
  - rewrite <- (X i j Hi Hj). unfold mulm, scalem. apply sum_ext. intros l _. field.
  - rewrite <- (Y i j Hi Hj). unfold mulm, scalem. apply sum_ext. intros l _. field.
Qed.
Lemma formula_half m H D S hi C : inverse_of 6 H hi -> eqm 6 6 C (mulm 6 (mulm 6 hi (mulm m (mulm m D S) (trm D))) hi) -> censi_formula (scalem 2 H) (scalem 2 D) S m C.
Proof.
  intros I E. exists (scalem (/ 2) hi). split; [apply inverse_double; exact I|]. intros i j Hi Hj. rewrite (E i j Hi Hj).
  assert (M : forall a b, mulm m (mulm m (scalem 2 D) S) (trm (scalem 2 D)) a b = 4 * mulm m (mulm m D S) (trm D) a b).
  { intros a b. unfold mulm, scalem, trm. rewrite <- sum_scale. apply sum_ext. intros l _. rewrite (sum_ext m _ (fun k => 2 * (D a k * S k l))) by (intros; ring). rewrite sum_scale. ring. }
  set (M1 := mulm m (mulm m (scalem 2 D) S) (trm (scalem 2 D))) in *. set (M0 := mulm m (mulm m D S) (trm D)) in *.
  unfold mulm. apply sum_ext. intros l _. unfold scalem.
  rewrite (sum_ext 6 (fun a => / 2 * hi i a * M1 a l) (fun a => 2 * (hi i a * M0 a l))) by (intros a _; rewrite M; field). rewrite sum_scale. field.
Qed.
Definition constant_variance (v : R) : mx := fun i j => if Nat.eqb i j then v else 0.
Lemma gram_const m D v i j : mulm m (mulm m D (constant_variance v)) (trm D) i j = v * mulm m D (trm D) i j.
Proof.
  unfold mulm. rewrite <- sum_scale. apply sum_ext. intros l Ll. unfold constant_variance. rewrite (sum_single m (fun k => D i k * (if Nat.eqb k l then v else 0)) l Ll); [rewrite Nat.eqb_refl; ring|]. intros k _ NE. destruct (Nat.eqb_spec k l); [contradiction|ring].
Qed.
Lemma stacked_ray l j : stacked l j = ray l j.
Proof.
  unfold stacked, ray. destruct (nth_error l (j / 6)) as [c|]; [|reflexivity]. assert (M : (j mod 6 < 6)%nat) by (apply Nat.mod_upper_bound; lia).
  assert (E : (j mod 3 = (j mod 6) mod 3)%nat). { rewrite (Nat.div_mod j 6) at 1 by lia. replace (6 * (j / 6) + j mod 6)%nat with (j mod 6 + (2 * (j / 6)) * 3)%nat by lia. apply Nat.mod_add. lia. }
  rewrite E. generalize dependent (j mod 6)%nat. intros m M E. destruct (k_pu c) as [[? ?] ?], (k_qu c) as [[? ?] ?]. six M; reflexivity.
Qed.
Lemma range_sigma_eq l v i j : range_sigma l v i j = independent_ranges l v i j.
Proof. unfold range_sigma, independent_ranges. rewrite !stacked_ray. reflexivity. Qed.

(* the derivatives an estimate is made from *)
Lemma made_from inverse k r t l C (est : mx -> mx -> mx) :
  inverts inverse -> obind (hessian k (components_rt r t) l zerom) (fun h => obind (mixed k (components_rt r t) l) (fun ds => obind (inverse h) (fun hi => Some (est hi (side_by_side ds))))) = Some C ->
  exists H D hi, half_total_hessian k l r t H /\ half_total_cross k l r t D /\ inverse_of 6 H hi /\ symmetric 6 hi /\ C = est hi D.
Proof.
  intros IV E. destruct (hessian k (components_rt r t) l zerom) as [H|] eqn:EH; [|discriminate]. cbn [obind] in E. destruct (mixed k (components_rt r t) l) as [ds|] eqn:EM; [|discriminate]. cbn [obind] in E. destruct (inverse H) as [hi|] eqn:EI; [|discriminate]. injection E as <-.
  destruct (est_parts k (components_rt r t) l H inverse hi IV (ex_intro _ r (ex_intro _ t eq_refl)) EH EI) as (A & S & I & Shi).
  destruct (total_hessian k r t l A) as (H' & E' & T). rewrite EH in E'. injection E' as <-. destruct (total_cross k r t l A) as (ds' & E' & _ & TC). rewrite EM in E'. injection E' as <-.
  exists H, (side_by_side ds), hi. repeat split; try assumption; apply I.
Qed.
Lemma iid_formula inverse k r t l v C : inverts inverse -> censi_iid inverse k (components_rt r t) l v = Some C ->
  exists H D, half_total_hessian k l r t H /\ half_total_cross k l r t D /\ censi_formula (scalem 2 H) (scalem 2 D) (constant_variance v) (6 * length l) C.
Proof.
  intros IV E. destruct (made_from inverse k r t l C (fun hi d => mulm 6 (mulm 6 (scalem v hi) (mulm (6 * length l) d (trm d))) hi) IV E) as (H & D & hi & TH & TD & I & _ & ->).
  exists H, D. split; [exact TH|]. split; [exact TD|]. apply (formula_half _ H D _ hi); [exact I|]. intros i j Hi Hj. rewrite scaled_sandwich.
  pose proof (gram_const (6 * length l) D v) as M. set (M1 := mulm (6 * length l) (mulm (6 * length l) D (constant_variance v)) (trm D)) in *. set (M0 := mulm (6 * length l) D (trm D)) in *.
  unfold mulm. rewrite <- sum_scale. apply sum_ext. intros b _.
  rewrite (sum_ext 6 (fun a => hi i a * M1 a b) (fun a => v * (hi i a * M0 a b))) by (intros a _; rewrite M; ring). rewrite sum_scale. ring.
Qed.
Lemma range_formula inverse k r t l v C : inverts inverse -> censi_range inverse k (components_rt r t) l v = Some C ->
  exists H D, half_total_hessian k l r t H /\ half_total_cross k l r t D /\ censi_formula (scalem 2 H) (scalem 2 D) (independent_ranges l v) (6 * length l) C.
Proof.
  intros IV E. destruct (made_from inverse k r t l C (fun hi d => mulm 6 (mulm 6 hi (mulm (6 * length l) (mulm (6 * length l) d (range_sigma l v)) (trm d))) hi) IV E) as (H & D & hi & TH & TD & I & _ & ->).
  exists H, D. split; [exact TH|]. split; [exact TD|]. apply (formula_half _ H D _ hi); [exact I|].
  apply mulm_ext; [|apply eqm_refl]. apply mulm_ext; [apply eqm_refl|]. apply (mulm_ext 6 (6 * length l) 6); [|apply eqm_refl]. apply (mulm_ext 6 (6 * length l) (6 * length l)); [apply eqm_refl|]. intros i j _ _. apply range_sigma_eq.
Qed.

(* definiteness for the range covariances *)
Lemma inner_block m b s : (b < m)%nat -> sum (3 * m) (fun j => if Nat.eqb b (j / 3) then s j else 0) = sum 3 (fun k => s (3 * b + k)%nat).
Proof.
  intros Lb. rewrite sum_blocks. assert (DV : forall c k, (k < 3)%nat -> ((3 * c + k) / 3 = c)%nat) by (intros c k Hk; symmetry; apply (Nat.div_unique _ 3 c k); lia).
  rewrite (sum_single m _ b Lb).
  - apply sum_ext. intros k Hk. rewrite DV, Nat.eqb_refl by exact Hk. reflexivity.
  - intros c _ NE. apply sum_zero. intros k Hk. rewrite DV by exact Hk. destruct (Nat.eqb_spec b c); [congruence|reflexivity].
Qed.
Lemma range_quad l v y : quad (6 * length l) (range_sigma l v) y = v * sum (2 * length l) (fun b => sum 3 (fun k => stacked l (3 * b + k) * y (3 * b + k)%nat) * sum 3 (fun k => stacked l (3 * b + k) * y (3 * b + k)%nat)).
Proof.
  replace (6 * length l)%nat with (3 * (2 * length l))%nat by lia. set (m := (2 * length l)%nat). set (s := fun j => stacked l j * y j).
  unfold quad. rewrite (sum_ext (3 * m) _ (fun i => v * (s i * sum (3 * m) (fun j => if Nat.eqb (i / 3) (j / 3) then s j else 0)))).
  - rewrite sum_scale. f_equal. rewrite sum_blocks. apply sum_ext. intros b Hb. rewrite <- sum_scale_r. apply sum_ext. intros k Hk.
    replace ((3 * b + k) / 3)%nat with b by (apply (Nat.div_unique _ 3 b k); lia). rewrite (inner_block m b s Hb). reflexivity.
  - intros i _. unfold mulv, range_sigma. rewrite <- !sum_scale. apply sum_ext. intros j _. unfold s. destruct (Nat.eqb (i / 3) (j / 3)); ring.
Qed.
Lemma range_sigma_psd l v : 0 <= v -> psd (6 * length l) (range_sigma l v).
Proof. intros V y. rewrite range_quad. apply Rmult_le_pos; [exact V|]. apply sum_nonneg. intros b _. nra. Qed.
Lemma bias_quad l v b y n : quad n (bias_sigma l v b) y = b * (sum n (fun i => stacked l i * y i) * sum n (fun i => stacked l i * y i)) + v * sum n (fun i => (stacked l i * y i) * (stacked l i * y i)).
Proof.
  unfold quad, bias_sigma. rewrite (sum_ext n _ (fun i => b * ((stacked l i * y i) * sum n (fun j => stacked l j * y j)) + v * ((stacked l i * y i) * (stacked l i * y i)))).
  - rewrite sum_plus, !sum_scale, sum_scale_r. reflexivity.
  - intros i Hi. unfold mulv. rewrite (sum_ext n _ (fun j => b * stacked l i * (stacked l j * y j) + (if Nat.eqb i j then v * (stacked l i * stacked l i) * y j else 0))) by (intros j _; destruct (Nat.eqb i j); ring).
    rewrite sum_plus, sum_scale. rewrite (sum_single n (fun j => if Nat.eqb i j then v * (stacked l i * stacked l i) * y j else 0) i Hi) by (intros j _ NE; destruct (Nat.eqb_spec i j); [congruence|reflexivity]). rewrite Nat.eqb_refl. ring.
Qed.
Lemma bias_sigma_psd l v b n : 0 <= v -> 0 <= b -> psd n (bias_sigma l v b).
Proof. intros V B y. rewrite bias_quad. apply Rplus_le_le_0_compat; apply Rmult_le_pos; try assumption; [nra|]. apply sum_nonneg. intros. nra. Qed.
Lemma range_sigma_sym l v n : symmetric n (range_sigma l v).
Proof. intros i j _ _. unfold range_sigma. rewrite (Nat.eqb_sym (i / 3)). destruct (Nat.eqb (j / 3) (i / 3)); ring. Qed.
Lemma bias_sigma_sym l v b n : symmetric n (bias_sigma l v b).
Proof. intros i j _ _. unfold bias_sigma. rewrite (Nat.eqb_sym i). destruct (Nat.eqb_spec j i) as [->|]; ring. Qed.
Lemma sandwich_cov m hi D S : symmetric 6 hi -> symmetric m S -> psd m S -> let C := mulm 6 (mulm 6 hi (mulm m (mulm m D S) (trm D))) hi in symmetric 6 C /\ psd 6 C.
Proof.
  intros Sh SS P. split; [apply sandwich_sym; [exact Sh|apply rect_sym; exact SS]|]. intros x. rewrite quad_sandwich by exact Sh. rewrite quad_rect. apply P.
Qed.
Lemma range_covariance inverse k r t l v C : inverts inverse -> 0 <= v -> censi_range inverse k (components_rt r t) l v = Some C -> symmetric 6 C /\ psd 6 C.
Proof.
  intros IV V E. destruct (made_from inverse k r t l C (fun hi d => mulm 6 (mulm 6 hi (mulm (6 * length l) (mulm (6 * length l) d (range_sigma l v)) (trm d))) hi) IV E) as (H & D & hi & _ & _ & _ & S & ->).
  apply sandwich_cov; [exact S|apply range_sigma_sym|apply range_sigma_psd; exact V].
Qed.
Lemma bias_covariance inverse k r t l v b C : inverts inverse -> 0 <= v -> 0 <= b -> censi_bias inverse k (components_rt r t) l v b = Some C -> symmetric 6 C /\ psd 6 C.
Proof.
  intros IV V B E. destruct (made_from inverse k r t l C (fun hi d => mulm 6 (mulm 6 hi (mulm (6 * length l) (mulm (6 * length l) d (bias_sigma l v b)) (trm d))) hi) IV E) as (H & D & hi & _ & _ & _ & S & ->).
  apply sandwich_cov; [exact S|apply bias_sigma_sym|apply bias_sigma_psd; assumption].
Qed.
Lemma iid_covariance inverse k r t l v C : inverts inverse -> 0 <= v -> censi_iid inverse k (components_rt r t) l v = Some C -> symmetric 6 C /\ psd 6 C.
Proof. intros IV V E. assert (G : good (components_rt r t)) by (exists r, t; reflexivity). split; [exact (iid_symmetric inverse k _ l v C IV G E)|exact (iid_psd inverse k _ l v C IV G V E)]. Qed.
(* least squares: the inverse of half the second derivative, scaled *)
Lemma lls_formula inverse k r t l v C : inverts inverse -> lls_iid inverse k (components_rt r t) l v = Some C ->
  exists H, half_total_hessian k l r t H /\ eqm 6 6 (mulm 6 C H) (constant_variance v) /\ eqm 6 6 (mulm 6 H C) (constant_variance v) /\ symmetric 6 C.
Proof.
  intros IV E. assert (G : good (components_rt r t)) by (exists r, t; reflexivity). destruct (lls_inv _ _ _ _ _ _ E) as (H & hi & EH & EI & ->). destruct (est_parts k (components_rt r t) l H inverse hi IV G EH EI) as (A & S & I & Shi).
  destruct (total_hessian k r t l A) as (H' & E' & T). rewrite EH in E'. injection E' as <-. exists H. split; [exact T|]. destruct I as [X Y]. split; [|split; [|apply scale_sym; exact Shi]]; intros i j Hi Hj.
  - unfold mulm, scalem. rewrite (sum_ext 6 _ (fun l => v * (hi i l * H l j))) by (intros; ring). rewrite sum_scale. change (sum 6 (fun l => hi i l * H l j)) with (mulm 6 hi H i j). rewrite (Y i j Hi Hj). unfold idm, constant_variance. destruct (Nat.eqb i j); ring.
  - unfold mulm, scalem. rewrite (sum_ext 6 _ (fun l => v * (H i l * hi l j))) by (intros; ring). rewrite sum_scale. change (sum 6 (fun l => H i l * hi l j)) with (mulm 6 H hi i j). rewrite (X i j Hi Hj). unfold idm, constant_variance. destruct (Nat.eqb i j); ring.
Qed.

(* without rotation the nonlinear models give no numbers *)
Lemma no_rotation inverse k m l v b : inverts inverse -> nonlinear k -> motion m -> lin m = mI ->
  censi_iid inverse k (components m) l v = None /\ censi_range inverse k (components m) l v = None /\ censi_bias inverse k (components m) l v b = None /\ lls_iid inverse k (components m) l v = None.
Proof.
  intros IV N M E. destruct (components_motion m M) as (r & EC & _ & Z & _). pose proof (proj2 Z E) as NR. rewrite EC. assert (A0 : c_a (components_rt r (tr m)) = 0) by exact NR.
  assert (K : obind (hessian k (components_rt r (tr m)) l zerom) inverse = None).
  { destruct l as [|c l].
    - cbn. destruct (inverse zerom) as [hi|] eqn:EI; [|reflexivity]. exfalso. pose proof (IV zerom) as K. rewrite EI in K. destruct K as [K _]. specialize (K 0%nat 0%nat ltac:(lia) ltac:(lia)). unfold mulm, zerom, idm in K. cbn in K. lra.
    - rewrite (hessian_none k _ (c :: l) N A0) by discriminate. reflexivity. }
  unfold censi_iid, censi_range, censi_bias, lls_iid. destruct (hessian k (components_rt r (tr m)) l zerom) as [H|]; [|repeat split; reflexivity]. cbn [obind] in *. rewrite K. destruct (mixed k (components_rt r (tr m)) l); repeat split; reflexivity.
Qed.
(* where every residual vanishes the nonlinear Hessian is positive semidefinite *)
Lemma sum6_dot (V : nat -> vec3) x : sum 6 (fun i => x i * sum 6 (fun j => vdot (V j) (V i) * x j)) =
  let s := vadd (vadd (vadd (vscale (x 0%nat) (V 0%nat)) (vscale (x 1%nat) (V 1%nat))) (vadd (vscale (x 2%nat) (V 2%nat)) (vscale (x 3%nat) (V 3%nat)))) (vadd (vscale (x 4%nat) (V 4%nat)) (vscale (x 5%nat) (V 5%nat))) in vdot s s.
Proof. cbv [sum]. destruct (V 0%nat) as [[? ?] ?], (V 1%nat) as [[? ?] ?], (V 2%nat) as [[? ?] ?], (V 3%nat) as [[? ?] ?], (V 4%nat) as [[? ?] ?], (V 5%nat) as [[? ?] ?]. cbn. ring. Qed.
Lemma hx_fit_psd k r t c : has_angle k (components_rt r t) -> nonlinear k -> (k = PointNonlinear -> vadd (turn r (k_p c)) t = k_q c) -> (k = PlaneNonlinear -> vdot (k_n c) (vsub (vadd (turn r (k_p c)) t) (k_q c)) = 0) ->
  psd 6 (hx k (components_rt r t) c).
Proof.
  intros A N F1 F2 x. assert (NZ : vnorm r <> 0) by exact (A N). pose proof (norm_sq r) as N2. unfold hx, half_dx2, components_rt. cbn [c_r c_t c_a c_sa c_ca].
  destruct c as [[[px py] pz] [[qx qy] qz] [[nx ny] nz] pu qu]. cbn [k_p k_q k_n] in *. rewrite (turn_ww r _ NZ) in F1, F2. destruct r as [[rx ry] rz] eqn:Er, t as [[tx ty] tz] eqn:Et.
  assert (Hr : rx * rx = vnorm (rx, ry, rz) * vnorm (rx, ry, rz) - ry * ry - rz * rz) by (rewrite N2; cbn; ring).
  destruct N as [-> | ->]; (destruct (Req_EM_T (vnorm (rx, ry, rz)) 0) as [E|_]; [contradiction|]).
  - specialize (F1 eq_refl). unfold quad. rewrite (sum_ext 6 _ (fun i => x i * sum 6 (fun j => vdot (vadd (ww1 (rx, ry, rz) (fst_dir j) (px, py, pz)) (snd_dir j)) (vadd (ww1 (rx, ry, rz) (fst_dir i) (px, py, pz)) (snd_dir i)) * x j))).
    + rewrite (sum6_dot (fun i => vadd (ww1 (rx, ry, rz) (fst_dir i) (px, py, pz)) (snd_dir i)) x). cbv zeta. apply dot_self_nonneg.
    + intros i Hi. f_equal. unfold mulv. apply sum_ext. intros j Hj. f_equal. rewrite ptp_nl_dx2_entries by assumption. unfold hess_point.
      replace (res (fun _ : vec3 => tw (vnorm (rx, ry, rz)) (sin (vnorm (rx, ry, rz))) (cos (vnorm (rx, ry, rz))) (rx, ry, rz)) (rx, ry, rz) (tx, ty, tz) (px, py, pz) (qx, qy, qz)) with v0.
      * rewrite tw_v0. unfold ww1. generalize (tw1 (vnorm (rx, ry, rz)) (sin (vnorm (rx, ry, rz))) (cos (vnorm (rx, ry, rz))) (rx, ry, rz) (fst_dir j) (px, py, pz)) (tw1 (vnorm (rx, ry, rz)) (sin (vnorm (rx, ry, rz))) (cos (vnorm (rx, ry, rz))) (rx, ry, rz) (fst_dir i) (px, py, pz)) (snd_dir i) (snd_dir j).
        match goal with |- forall _, _ => generalize (vadd (tw2 (vnorm (rx, ry, rz)) (sin (vnorm (rx, ry, rz))) (cos (vnorm (rx, ry, rz))) (rx, ry, rz) (fst_dir i) (fst_dir j) (px, py, pz)) (tw1 (vnorm (rx, ry, rz)) (sin (vnorm (rx, ry, rz))) (cos (vnorm (rx, ry, rz))) (rx, ry, rz) (fst_dir i) v0)) end. clear. intros. vsplit. vred. ring.
      * unfold res. change (tw (vnorm (rx, ry, rz)) (sin (vnorm (rx, ry, rz))) (cos (vnorm (rx, ry, rz))) (rx, ry, rz) (px, py, pz)) with (ww (rx, ry, rz) (px, py, pz)). rewrite F1. clear. vred. tup; ring.
  - specialize (F2 eq_refl). unfold quad. set (V := fun i => vdot (nx, ny, nz) (vadd (ww1 (rx, ry, rz) (fst_dir i) (px, py, pz)) (snd_dir i))).
    rewrite (sum_ext 6 _ (fun i => x i * V i * sum 6 (fun j => V j * x j))).
    + rewrite sum_scale_r. rewrite (sum_ext 6 (fun i => x i * V i) (fun i => V i * x i)) by (intros; ring). nra.
    + intros i Hi. unfold mulv. rewrite Rmult_assoc. f_equal. rewrite <- sum_scale. apply sum_ext. intros j Hj. rewrite <- Rmult_assoc. f_equal. rewrite ptpl_nl_dx2_entries by assumption. unfold hess_plane.
      replace (vdot (nx, ny, nz) (res (fun _ : vec3 => tw (vnorm (rx, ry, rz)) (sin (vnorm (rx, ry, rz))) (cos (vnorm (rx, ry, rz))) (rx, ry, rz)) (rx, ry, rz) (tx, ty, tz) (px, py, pz) (qx, qy, qz))) with 0 by (symmetry; exact F2).
      rewrite tw_v0. unfold V, ww1. generalize (tw1 (vnorm (rx, ry, rz)) (sin (vnorm (rx, ry, rz))) (cos (vnorm (rx, ry, rz))) (rx, ry, rz) (fst_dir j) (px, py, pz)) (tw1 (vnorm (rx, ry, rz)) (sin (vnorm (rx, ry, rz))) (cos (vnorm (rx, ry, rz))) (rx, ry, rz) (fst_dir i) (px, py, pz)) (snd_dir i) (snd_dir j). clear. intros. vsplit. vred. ring.
Qed.
Lemma fit_pd inverse k r t l v C : inverts inverse -> nonlinear k -> 0 < v -> (forall c, In c l -> vadd (turn r (k_p c)) t = k_q c) -> lls_iid inverse k (components_rt r t) l v = Some C -> pd 6 C.
Proof.
  intros IV N V F E. assert (G : good (components_rt r t)) by (exists r, t; reflexivity). destruct (lls_inv _ _ _ _ _ _ E) as (H & hi & EH & EI & ->). destruct (est_parts k (components_rt r t) l H inverse hi IV G EH EI) as (A & S & I & Shi).
  assert (P : psd 6 H).
  { intros x. rewrite (hessian_quad k _ l H x A EH). apply suml_nonneg. intros c Hc. apply hx_fit_psd; [exact A|exact N|intros _; apply F; exact Hc|intros _]. rewrite (F c Hc). destruct (k_q c) as [[? ?] ?], (k_n c) as [[? ?] ?]. cbn. ring. }
  intros x NZ. rewrite quad_scale. apply Rmult_lt_0_compat; [exact V|]. exact (pd_inverse 6 H hi S I (psd_invertible_pd 6 H hi S P I) x NZ).
Qed.
(* and where the nonlinear Hessian is not, least squares gives no covariance *)
Lemma bad_hessian inverse k r t l v H C x : inverts inverse -> 0 < v -> hessian k (components_rt r t) l zerom = Some H -> quad 6 H x < 0 -> lls_iid inverse k (components_rt r t) l v = Some C -> ~ psd 6 C.
Proof.
  intros IV V EH Q E P. assert (G : good (components_rt r t)) by (exists r, t; reflexivity). destruct (lls_inv _ _ _ _ _ _ E) as (H' & hi & EH' & EI & ->). rewrite EH in EH'. injection EH' as <-. destruct (est_parts k (components_rt r t) l H inverse hi IV G EH EI) as (A & S & I & Shi).
  specialize (P (mulv 6 H x)). rewrite quad_scale in P. assert (B : quad 6 hi (mulv 6 H x) = quad 6 H x) by (symmetry; apply (quad_inverse 6 hi H x Shi (inverse_flip _ _ _ I))). rewrite B in P. nra.
Qed.
