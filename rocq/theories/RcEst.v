(* The estimators: sums over the correspondences, symmetry, definiteness. *)
From Coq Require Import Reals Lra Lia Psatz List.
From Verif Require Import Base Mx Interp Geo EgModel EgProofs RcGen RcModel RcSpec RcCov RcDeriv RcTurn RcMat RcPtDx RcPtDz RcPlDx RcPlDz RcProofs RcComp.
Import ListNotations.
Open Scope R_scope.

Fixpoint suml {A} (g : A -> R) (l : list A) : R := match l with [] => 0 | a :: l => g a + suml g l end.
Lemma suml_nonneg {A} (g : A -> R) l : (forall a, In a l -> 0 <= g a) -> 0 <= suml g l.
Proof. induction l as [|a l IH]; intros H; cbn; [lra|]. specialize (H a (or_introl eq_refl)) as Ha. specialize (IH (fun b Hb => H b (or_intror Hb))). lra. Qed.
Lemma suml_zero {A} (g : A -> R) l : (forall a, In a l -> 0 <= g a) -> suml g l = 0 -> forall a, In a l -> g a = 0.
Proof.
  induction l as [|b l IH]; intros H E a Ha; [destruct Ha|]. cbn in E. pose proof (H b (or_introl eq_refl)) as Hb. pose proof (suml_nonneg g l (fun c Hc => H c (or_intror Hc))) as Hl.
  destruct Ha as [->|Ha]; [lra|]. apply IH; [intros c Hc; apply H; right; exact Hc|lra|exact Ha].
Qed.
Lemma suml_ext {A} (g h : A -> R) l : (forall a, In a l -> g a = h a) -> suml g l = suml h l.
Proof. induction l as [|a l IH]; intros H; cbn; [reflexivity|]. rewrite H, IH by (intros; try apply H; cbn; auto). reflexivity. Qed.
Lemma sum_suml {A} n (g : A -> nat -> R) l : sum n (fun i => suml (fun a => g a i) l) = suml (fun a => sum n (g a)) l.
Proof. induction l as [|a l IH]; cbn; [apply sum_zero; reflexivity|]. rewrite sum_plus, IH. reflexivity. Qed.
Lemma suml_scale {A} k (g : A -> R) l : suml (fun a => k * g a) l = k * suml g l.
Proof. induction l as [|a l IH]; cbn; [ring|]. rewrite IH. ring. Qed.

Definition has_angle (k : icp) (f : comps) : Prop := nonlinear k -> c_a f <> 0.
Definition hx (k : icp) (f : comps) (c : corr) : mx := match half_dx2 k f c with Some h => h | None => zerom end.
Definition hz (k : icp) (f : comps) (c : corr) : mx := match half_dzdx k f c with Some h => h | None => zerom end.
Lemma hx_some k f c : has_angle k f -> half_dx2 k f c = Some (hx k f c).
Proof.
  intros A. unfold hx, half_dx2. destruct (c_r f) as [[? ?] ?], (c_t f) as [[? ?] ?], (k_p c) as [[? ?] ?], (k_q c) as [[? ?] ?], (k_n c) as [[? ?] ?].
  destruct k; try reflexivity; (destruct (Req_EM_T (c_a f) 0) as [E|_]; [exfalso; apply A; [unfold nonlinear; auto|exact E]|reflexivity]).
Qed.
Lemma hz_some k f c : has_angle k f -> half_dzdx k f c = Some (hz k f c).
Proof.
  intros A. unfold hz, half_dzdx. destruct (c_r f) as [[? ?] ?], (c_t f) as [[? ?] ?], (k_p c) as [[? ?] ?], (k_q c) as [[? ?] ?], (k_n c) as [[? ?] ?].
  destruct k; try reflexivity; (destruct (Req_EM_T (c_a f) 0) as [E|_]; [exfalso; apply A; [unfold nonlinear; auto|exact E]|reflexivity]).
Qed.
Lemma hx_none k f c : nonlinear k -> c_a f = 0 -> half_dx2 k f c = None.
Proof.
  intros N E. unfold half_dx2. destruct (c_r f) as [[? ?] ?], (c_t f) as [[? ?] ?], (k_p c) as [[? ?] ?], (k_q c) as [[? ?] ?], (k_n c) as [[? ?] ?].
  destruct N as [-> | ->]; (destruct (Req_EM_T (c_a f) 0); [reflexivity|contradiction]).
Qed.
Lemma hessian_eq k f l : has_angle k f -> forall acc, exists H, hessian k f l acc = Some H /\ forall i j, H i j = acc i j + suml (fun c => hx k f c i j) l.
Proof.
  intros A. induction l as [|c l IH]; intros acc; cbn [hessian suml]; [exists acc; split; [reflexivity|intros; ring]|].
  rewrite (hx_some k f c A). cbn [obind]. destruct (IH (addm acc (hx k f c))) as [H [E S]]. exists H. split; [exact E|]. intros i j. rewrite S. unfold addm. cbn. ring.
Qed.
Lemma mixed_eq k f l : has_angle k f -> mixed k f l = Some (map (hz k f) l).
Proof. intros A. induction l as [|c l IH]; cbn [mixed map]; [reflexivity|]. rewrite (hz_some k f c A). cbn [obind]. rewrite IH. reflexivity. Qed.
Lemma hessian_none k f l : nonlinear k -> c_a f = 0 -> l <> [] -> hessian k f l zerom = None.
Proof. intros N E NE. destruct l as [|c l]; [contradiction|]. cbn [hessian]. rewrite (hx_none k f c N E). reflexivity. Qed.
Lemma hessian_sum k f l H : has_angle k f -> hessian k f l zerom = Some H -> forall i j, H i j = suml (fun c => hx k f c i j) l.
Proof. intros A E i j. destruct (hessian_eq k f l A zerom) as [H' [E' S]]. rewrite E in E'. injection E' as <-. rewrite S. unfold zerom. ring. Qed.
Lemma hessian_quad k f l H x : has_angle k f -> hessian k f l zerom = Some H -> quad 6 H x = suml (fun c => quad 6 (hx k f c) x) l.
Proof.
  intros A E. pose proof (hessian_sum k f l H A E) as S. unfold quad. rewrite <- sum_suml. apply sum_ext. intros i _. unfold mulv. rewrite suml_scale. f_equal. rewrite <- sum_suml. apply sum_ext. intros j _.
  rewrite S. rewrite (Rmult_comm _ (x j)), <- suml_scale. apply suml_ext. intros c _. ring.
Qed.

(* the first three and the last three coordinates *)
Definition rotp (x : nat -> R) : vec3 := (x 0%nat, x 1%nat, x 2%nat).
Definition trap (x : nat -> R) : vec3 := (x 3%nat, x 4%nat, x 5%nat).
Ltac open_c c := destruct c as [[[?px ?py] ?pz] [[?qx ?qy] ?qz] [[?nx ?ny] ?nz] ?pu ?qu].
Lemma quad_point f c x : quad 6 (hx PointLinearised f c) x = vdot (vadd (vcross (rotp x) (k_p c)) (trap x)) (vadd (vcross (rotp x) (k_p c)) (trap x)).
Proof.
  unfold hx, half_dx2. destruct (c_r f) as [[? ?] ?], (c_t f) as [[? ?] ?]. open_c c. cbv [k_p k_q k_n].
  cbv [quad mulv sum rotp trap pt_lin_dx2 blocks mget vget skew mapply mmul mopp vopp mT mI vdot vadd vcross Nat.ltb Nat.leb Nat.sub]. ring.
Qed.
Lemma quad_plane f c x : quad 6 (hx PlaneLinearised f c) x = vdot (k_n c) (vadd (vcross (rotp x) (k_p c)) (trap x)) * vdot (k_n c) (vadd (vcross (rotp x) (k_p c)) (trap x)).
Proof.
  unfold hx, half_dx2. destruct (c_r f) as [[? ?] ?], (c_t f) as [[? ?] ?]. open_c c. cbv [k_p k_q k_n].
  cbv [quad mulv sum rotp trap pl_lin_dx2 vouter vscale blocks mget vget skew mapply mmul mopp vopp mT mI vdot vadd vcross Nat.ltb Nat.leb Nat.sub]. ring.
Qed.
Lemma dot_self_nonneg v : 0 <= vdot v v. Proof. destruct v as [[? ?] ?]. cbn. nra. Qed.
Lemma dot_self_zero v : vdot v v = 0 -> v = v0. Proof. destruct v as [[? ?] ?]. cbn. intros H. unfold v0. tup; nra. Qed.
Lemma quad_lin_nonneg k f c x : linearised k -> 0 <= quad 6 (hx k f c) x.
Proof. intros [-> | ->]; [rewrite quad_point; apply dot_self_nonneg|rewrite quad_plane; nra]. Qed.
Lemma lin_angle k f : linearised k -> has_angle k f. Proof. intros [-> | ->] [N | N]; discriminate. Qed.
Lemma lin_psd k f l H : linearised k -> hessian k f l zerom = Some H -> psd 6 H.
Proof. intros L E x. rewrite (hessian_quad k f l H x (lin_angle k f L) E). apply suml_nonneg. intros c _. apply quad_lin_nonneg. exact L. Qed.

(* symmetry of the summands *)
Lemma tw2_swap a sa ca r u v p : tw2 a sa ca r u v p = tw2 a sa ca r v u p.
Proof. unfold tw2. generalize (gB a sa) (gC a ca) (gB1 a sa ca) (gC1 a sa ca) (gB2 a sa ca) (gC2 a sa ca). vring. Qed.
Lemma tw1_v0 a sa ca r u : tw1 a sa ca r u v0 = v0.
Proof. unfold tw1. generalize (gB a sa) (gC a ca) (gB1 a sa ca) (gC1 a sa ca). vring. Qed.
Lemma tw_v0 a sa ca r : tw a sa ca r v0 = v0.
Proof. unfold tw. generalize (gB a sa) (gC a ca). vring. Qed.
Definition good (f : comps) : Prop := exists r t, f = components_rt r t.
Lemma good_angle f r t : f = components_rt r t -> c_a f * c_a f = vdot (c_r f) (c_r f). Proof. intros ->. cbn. apply norm_sq. Qed.
Lemma hx_sym k f c : good f -> has_angle k f -> symmetric 6 (hx k f c).
Proof.
  intros [r [t G]] A i j Li Lj. pose proof (good_angle f r t G) as N. unfold hx, half_dx2. destruct (c_r f) as [[rx ry] rz], (c_t f) as [[tx ty] tz]. open_c c. cbv [k_p k_q k_n].
  destruct k.
  - six Li; six Lj; cbv [pt_lin_dx2 blocks mget vget skew mapply mmul mopp vopp mT mI vdot vadd vcross Nat.ltb Nat.leb Nat.sub]; ring.
  - destruct (Req_EM_T (c_a f) 0) as [E|NE]; [exfalso; apply A; [unfold nonlinear; auto|exact E]|]. rewrite !ptp_nl_dx2_entries by (try assumption; cbn in N; lra).
    unfold hess_point. rewrite !tw1_v0, !tw_v0. rewrite (tw2_swap _ _ _ _ (fst_dir j)).
    generalize (tw1 (c_a f) (c_sa f) (c_ca f) (rx, ry, rz) (fst_dir j) (px, py, pz)) (tw1 (c_a f) (c_sa f) (c_ca f) (rx, ry, rz) (fst_dir i) (px, py, pz)) (tw2 (c_a f) (c_sa f) (c_ca f) (rx, ry, rz) (fst_dir i) (fst_dir j) (px, py, pz)) (snd_dir i) (snd_dir j).
    match goal with |- forall _, _ => generalize (res (fun _ : vec3 => tw (c_a f) (c_sa f) (c_ca f) (rx, ry, rz)) (rx, ry, rz) (tx, ty, tz) (px, py, pz) (qx, qy, qz)) end. clear. intros. vsplit. vred. ring.
  - six Li; six Lj; cbv [pl_lin_dx2 vouter vscale blocks mget vget skew mapply mmul mopp vopp mT mI vdot vadd vcross Nat.ltb Nat.leb Nat.sub]; ring.
  - destruct (Req_EM_T (c_a f) 0) as [E|NE]; [exfalso; apply A; [unfold nonlinear; auto|exact E]|]. rewrite !ptpl_nl_dx2_entries by (try assumption; cbn in N; lra).
    unfold hess_plane. rewrite !tw1_v0, !tw_v0. rewrite (tw2_swap _ _ _ _ (fst_dir j)).
    generalize (tw1 (c_a f) (c_sa f) (c_ca f) (rx, ry, rz) (fst_dir j) (px, py, pz)) (tw1 (c_a f) (c_sa f) (c_ca f) (rx, ry, rz) (fst_dir i) (px, py, pz)) (tw2 (c_a f) (c_sa f) (c_ca f) (rx, ry, rz) (fst_dir i) (fst_dir j) (px, py, pz)) (snd_dir i) (snd_dir j).
    match goal with |- forall _, _ => generalize (res (fun _ : vec3 => tw (c_a f) (c_sa f) (c_ca f) (rx, ry, rz)) (rx, ry, rz) (tx, ty, tz) (px, py, pz) (qx, qy, qz)) end. clear. intros. vsplit. vred. ring.
Qed.
Lemma hessian_sym k f l H : good f -> has_angle k f -> hessian k f l zerom = Some H -> symmetric 6 H.
Proof. intros G A E i j Li Lj. rewrite !(hessian_sum k f l H A E). apply suml_ext. intros c _. apply hx_sym; assumption. Qed.

(* what an estimate is made of *)
Lemma est_parts k f l H inverse hi : inverts inverse -> good f -> hessian k f l zerom = Some H -> inverse H = Some hi -> has_angle k f /\ symmetric 6 H /\ inverse_of 6 H hi /\ symmetric 6 hi.
Proof.
  intros IV G EH EI. assert (A : has_angle k f).
  { intros N E. destruct l as [|c l]; [|rewrite (hessian_none k f (c :: l) N E) in EH by discriminate; discriminate].
    cbn in EH. injection EH as <-. pose proof (IV zerom) as K. rewrite EI in K. destruct K as [K _]. specialize (K 0%nat 0%nat ltac:(lia) ltac:(lia)). unfold mulm, zerom, idm in K. cbn in K. lra. }
  pose proof (hessian_sym k f l H G A EH) as S. pose proof (IV H) as K. rewrite EI in K. split; [exact A|]. split; [exact S|]. split; [exact K|]. exact (inverse_sym 6 H hi S K).
Qed.
Lemma scale_sym k M : symmetric 6 M -> symmetric 6 (scalem k M). Proof. intros S i j Hi Hj. unfold scalem. rewrite (S i j) by assumption. reflexivity. Qed.
Lemma quad_scale n k M x : quad n (scalem k M) x = k * quad n M x.
Proof. unfold quad, mulv, scalem. rewrite <- sum_scale. apply sum_ext. intros i _. rewrite (sum_ext n _ (fun j => k * (M i j * x j))) by (intros; ring). rewrite sum_scale. ring. Qed.

(* lls *)
Lemma lls_inv inverse k f l v C : lls_iid inverse k f l v = Some C -> exists H hi, hessian k f l zerom = Some H /\ inverse H = Some hi /\ C = scalem v hi.
Proof. unfold lls_iid. destruct (hessian k f l zerom) as [H|]; [|discriminate]. cbn. destruct (inverse H) as [hi|] eqn:E; [|discriminate]. intros [= <-]. exists H, hi. auto. Qed.
Lemma lls_symmetric inverse k f l v C : inverts inverse -> good f -> lls_iid inverse k f l v = Some C -> symmetric 6 C.
Proof. intros IV G E. destruct (lls_inv _ _ _ _ _ _ E) as (H & hi & EH & EI & ->). destruct (est_parts k f l H inverse hi IV G EH EI) as (_ & _ & _ & S). apply scale_sym. exact S. Qed.
Lemma lls_pd inverse k f l v C : inverts inverse -> good f -> linearised k -> 0 < v -> lls_iid inverse k f l v = Some C -> pd 6 C.
Proof.
  intros IV G L V E. destruct (lls_inv _ _ _ _ _ _ E) as (H & hi & EH & EI & ->). destruct (est_parts k f l H inverse hi IV G EH EI) as (A & S & I & _).
  assert (P : pd 6 H) by exact (psd_invertible_pd 6 H hi S (lin_psd k f l H L EH) I). intros x NZ. rewrite quad_scale. apply Rmult_lt_0_compat; [exact V|]. exact (pd_inverse 6 H hi S I P x NZ).
Qed.

(* when the linearised problem pins the motion down *)
Definition vecof (u v : vec3) (i : nat) : R := if (i <? 3)%nat then vget u i else vget v (i - 3).
Lemma rot_vecof u v : rotp (vecof u v) = u. Proof. destruct u as [[? ?] ?], v as [[? ?] ?]. reflexivity. Qed.
Lemma tra_vecof u v : trap (vecof u v) = v. Proof. destruct u as [[? ?] ?], v as [[? ?] ?]. reflexivity. Qed.
Lemma vecof_nonzero u v : u <> v0 \/ v <> v0 -> nonzero 6 (vecof u v).
Proof.
  intros N. destruct u as [[u0 u1] u2], v as [[w0 w1] w2]. unfold nonzero.
  destruct (Req_EM_T u0 0) as [E0|E0]; [|exists 0%nat; split; [lia|exact E0]]. destruct (Req_EM_T u1 0) as [E1|E1]; [|exists 1%nat; split; [lia|exact E1]]. destruct (Req_EM_T u2 0) as [E2|E2]; [|exists 2%nat; split; [lia|exact E2]].
  destruct (Req_EM_T w0 0) as [F0|F0]; [|exists 3%nat; split; [lia|exact F0]]. destruct (Req_EM_T w1 0) as [F1|F1]; [|exists 4%nat; split; [lia|exact F1]]. destruct (Req_EM_T w2 0) as [F2|F2]; [|exists 5%nat; split; [lia|exact F2]].
  subst. exfalso. destruct N as [N|N]; apply N; reflexivity.
Qed.
Lemma nonzero_parts x : nonzero 6 x -> rotp x <> v0 \/ trap x <> v0.
Proof.
  intros [i [Li N]]. six Li; [left|left|left|right|right|right]; intros E; unfold rotp, trap, v0 in E; injection E; intros; contradiction.
Qed.
Lemma point_pd f l H : hessian PointLinearised f l zerom = Some H -> (pd 6 H <-> ~ on_a_line l).
Proof.
  intros E. assert (A : has_angle PointLinearised f) by (apply lin_angle; left; reflexivity). split.
  - intros P (u & v & NU & C). assert (Q : 0 < quad 6 H (vecof u (vopp v))) by (apply P; apply vecof_nonzero; left; exact NU). rewrite (hessian_quad _ f l H _ A E) in Q.
    rewrite (suml_ext _ (fun _ => 0 * 0)) in Q; [|intros c Hc; rewrite quad_point, rot_vecof, tra_vecof, (C c Hc); destruct v as [[? ?] ?]; cbn; ring]. rewrite suml_scale in Q. lra.
  - intros N x NZ. pose proof (lin_psd PointLinearised f l H (or_introl eq_refl) E x) as P0. destruct (Rle_lt_or_eq_dec _ _ P0) as [L|Z]; [exact L|]. exfalso. rewrite (hessian_quad _ f l H _ A E) in Z. symmetry in Z.
    pose proof (suml_zero _ l (fun c _ => quad_lin_nonneg _ f c x (or_introl eq_refl)) Z) as K.
    assert (K' : forall c, In c l -> vcross (rotp x) (k_p c) = vopp (trap x)).
    { intros c Hc. specialize (K c Hc). cbv beta in K. rewrite quad_point in K. apply dot_self_zero in K. destruct (vcross (rotp x) (k_p c)) as [[a b] d], (trap x) as [[a' b'] d']. cbn in K |- *. unfold v0 in K. injection K as K1 K2 K3. tup; lra. }
    destruct (nonzero_parts x NZ) as [R|T].
    + apply N. exists (rotp x), (vopp (trap x)). split; [exact R|exact K'].
    + (* trap x <> 0: rotp x is nonzero too unless there are no points *)
      assert (D : rotp x = v0 \/ rotp x <> v0) by (destruct (Req_EM_T (vdot (rotp x) (rotp x)) 0) as [H0|H0]; [left; apply dot_self_zero; exact H0|right; intros F; apply H0; rewrite F; cbn; ring]).
      destruct D as [D|D]; [|apply N; exists (rotp x), (vopp (trap x)); split; [exact D|exact K']].
      destruct l as [|c l]; [apply N; exists (1, 0, 0), v0; split; [intros F; unfold v0 in F; injection F; lra|intros c []]|].
      specialize (K' c (or_introl eq_refl)). rewrite D in K'. apply T. destruct (trap x) as [[a b] d]. destruct (k_p c) as [[p1 p2] p3]. cbn in K'. unfold v0. injection K' as K1 K2 K3. tup; lra.
Qed.
Lemma plane_pd f l H : hessian PlaneLinearised f l zerom = Some H -> (pd 6 H <-> ~ slides l).
Proof.
  intros E. assert (A : has_angle PlaneLinearised f) by (apply lin_angle; right; reflexivity). split.
  - intros P (u & v & NU & C). assert (Q : 0 < quad 6 H (vecof u v)) by (apply P; apply vecof_nonzero; exact NU). rewrite (hessian_quad _ f l H _ A E) in Q.
    rewrite (suml_ext _ (fun _ => 0 * 0)) in Q; [|intros c Hc; rewrite quad_plane, rot_vecof, tra_vecof, (C c Hc); ring]. rewrite suml_scale in Q. lra.
  - intros N x NZ. pose proof (lin_psd PlaneLinearised f l H (or_intror eq_refl) E x) as P0. destruct (Rle_lt_or_eq_dec _ _ P0) as [L|Z]; [exact L|]. exfalso. rewrite (hessian_quad _ f l H _ A E) in Z. symmetry in Z.
    pose proof (suml_zero _ l (fun c _ => quad_lin_nonneg _ f c x (or_intror eq_refl)) Z) as K.
    apply N. exists (rotp x), (trap x). split; [apply nonzero_parts; exact NZ|]. intros c Hc. specialize (K c Hc). cbv beta in K. rewrite quad_plane in K. nra.
Qed.
(* an estimate comes out exactly when the motion is pinned down *)
Lemma lin_defined inverse k f l H : inverts inverse -> good f -> linearised k -> hessian k f l zerom = Some H -> ((exists hi, inverse H = Some hi) <-> pd 6 H).
Proof.
  intros IV G L E. pose proof (hessian_sym k f l H G (lin_angle k f L) E) as S. split.
  - intros [hi EI]. pose proof (IV H) as K. rewrite EI in K. exact (psd_invertible_pd 6 H hi S (lin_psd k f l H L E) K).
  - intros P. destruct (pd_invertible 6 H S P) as [B HB]. pose proof (IV H) as K. destruct (inverse H) as [hi|]; [exists hi; reflexivity|]. exfalso. exact (K B HB).
Qed.
Lemma lls_defined inverse k f l v : inverts inverse -> good f -> linearised k ->
  ((exists C, lls_iid inverse k f l v = Some C) <-> match k with PointLinearised => ~ on_a_line l | _ => ~ slides l end).
Proof.
  intros IV G L. destruct (hessian_eq k f l (lin_angle k f L) zerom) as [H [E _]]. pose proof (lin_defined inverse k f l H IV G L E) as D.
  assert (X : (exists C, lls_iid inverse k f l v = Some C) <-> exists hi, inverse H = Some hi).
  { unfold lls_iid. rewrite E. cbn. destruct (inverse H) as [hi|]; cbn; split; intros [C HC]; try discriminate; eauto. }
  rewrite X, D. destruct L as [-> | ->]; [apply (point_pd f l H E)|apply (plane_pd f l H E)].
Qed.

(* Censi *)
Lemma side_cons d ds i j : side_by_side (d :: ds) i j = if (j <? 6)%nat then d i j else side_by_side ds i (j - 6).
Proof.
  unfold side_by_side. destruct (Nat.ltb_spec j 6) as [L|L].
  - rewrite Nat.div_small, Nat.mod_small by exact L. reflexivity.
  - replace j with ((j - 6) + 1 * 6)%nat at 1 2 by lia. rewrite Nat.div_add, Nat.mod_add by lia. rewrite Nat.add_1_r. reflexivity.
Qed.
Lemma sum_side ds x : sum (6 * length ds) (fun j => mulv 6 (trm (side_by_side ds)) x j * mulv 6 (trm (side_by_side ds)) x j) = suml (fun d => sum 6 (fun j => mulv 6 (trm d) x j * mulv 6 (trm d) x j)) ds.
Proof.
  induction ds as [|d ds IH]; [reflexivity|]. cbn [length suml]. rewrite Nat.mul_succ_r, Nat.add_comm, sum_add. apply f_equal2.
  - apply sum_ext. intros j Hj. assert (E : mulv 6 (trm (side_by_side (d :: ds))) x j = mulv 6 (trm d) x j); [|rewrite E; reflexivity].
    unfold mulv, trm. apply sum_ext. intros i _. rewrite side_cons. apply Nat.ltb_lt in Hj. rewrite Hj. reflexivity.
  - rewrite <- IH. apply sum_ext. intros j Hj.
    assert (E : mulv 6 (trm (side_by_side (d :: ds))) x (6 + j) = mulv 6 (trm (side_by_side ds)) x j); [|rewrite E; reflexivity].
    unfold mulv, trm. apply sum_ext. intros i _. rewrite side_cons. replace (6 + j <? 6)%nat with false by (symmetry; apply Nat.ltb_ge; lia). replace (6 + j - 6)%nat with j by lia. reflexivity.
Qed.
Lemma scaled_sandwich v B M i j : mulm 6 (mulm 6 (scalem v B) M) B i j = v * mulm 6 (mulm 6 B M) B i j.
Proof.
  unfold mulm, scalem. rewrite <- sum_scale. apply sum_ext. intros l _. rewrite (sum_ext 6 (fun l0 => v * B i l0 * M l0 l) (fun l0 => v * (B i l0 * M l0 l))) by (intros; ring). rewrite sum_scale. ring.
Qed.
Lemma iid_inv inverse k f l v C : censi_iid inverse k f l v = Some C -> exists H ds hi, hessian k f l zerom = Some H /\ mixed k f l = Some ds /\ inverse H = Some hi /\
  forall i j, C i j = v * mulm 6 (mulm 6 hi (mulm (6 * length l) (side_by_side ds) (trm (side_by_side ds)))) hi i j.
Proof.
  unfold censi_iid. destruct (hessian k f l zerom) as [H|]; [|discriminate]. cbn [obind]. destruct (mixed k f l) as [ds|]; [|discriminate]. cbn [obind]. destruct (inverse H) as [hi|] eqn:E; [|discriminate]. cbn [obind]. intros [= <-]. exists H, ds, hi. repeat split; try assumption. intros i j. apply scaled_sandwich.
Qed.
Lemma quad_pt n A B x : (forall i j, A i j = B i j) -> quad n A x = quad n B x. Proof. intros E. apply quad_ext; [intros i j _ _; apply E|reflexivity]. Qed.
Lemma iid_quad inverse k f l v C x : inverts inverse -> good f -> censi_iid inverse k f l v = Some C -> exists H hi, hessian k f l zerom = Some H /\ inverse H = Some hi /\
  quad 6 C x = v * suml (fun c => sum 6 (fun j => mulv 6 (trm (hz k f c)) (mulv 6 hi x) j * mulv 6 (trm (hz k f c)) (mulv 6 hi x) j)) l.
Proof.
  intros IV G E. destruct (iid_inv _ _ _ _ _ _ E) as (H & ds & hi & EH & EM & EI & EC). destruct (est_parts k f l H inverse hi IV G EH EI) as (A & S & I & Shi). exists H, hi. split; [exact EH|]. split; [exact EI|].
  rewrite (quad_pt 6 C (scalem v (mulm 6 (mulm 6 hi (mulm (6 * length l) (side_by_side ds) (trm (side_by_side ds)))) hi)) x EC). rewrite quad_scale. f_equal. rewrite quad_sandwich by exact Shi. rewrite quad_gram.
  rewrite (mixed_eq k f l A) in EM. injection EM as <-. rewrite <- (map_length (hz k f) l), sum_side. clear. induction l as [|c l IH]; [reflexivity|]. cbn. f_equal. exact IH.
Qed.
Lemma iid_symmetric inverse k f l v C : inverts inverse -> good f -> censi_iid inverse k f l v = Some C -> symmetric 6 C.
Proof.
  intros IV G E. destruct (iid_inv _ _ _ _ _ _ E) as (H & ds & hi & EH & EM & EI & EC). destruct (est_parts k f l H inverse hi IV G EH EI) as (A & S & I & Shi).
  intros i j Hi Hj. rewrite !EC. f_equal. apply (sandwich_sym 6 hi _ Shi (gram_sym 6 _ _)); assumption.
Qed.
Lemma iid_psd inverse k f l v C : inverts inverse -> good f -> 0 <= v -> censi_iid inverse k f l v = Some C -> psd 6 C.
Proof.
  intros IV G V E x. destruct (iid_quad inverse k f l v C x IV G E) as (H & hi & _ & _ & ->). apply Rmult_le_pos; [exact V|]. apply suml_nonneg. intros c _. apply sum_nonneg. intros j _. nra.
Qed.
(* the part of the mixed derivative in the target point gives back the Hessian *)
Lemma target_part k f c x : linearised k -> (k = PlaneLinearised -> vdot (k_n c) (k_n c) = 1) -> sum 6 (fun j => mulv 6 (trm (hz k f c)) x j * mulv 6 (trm (hz k f c)) x j) >= quad 6 (hx k f c) x.
Proof.
  intros L U. assert (T : sum 3 (fun j => mulv 6 (trm (hz k f c)) x (3 + j) * mulv 6 (trm (hz k f c)) x (3 + j)) = quad 6 (hx k f c) x).
  { destruct L as [-> | ->].
    - rewrite quad_point. unfold hz, half_dzdx. destruct (c_r f) as [[? ?] ?], (c_t f) as [[? ?] ?]. open_c c. cbv [k_p k_q k_n].
      cbv [mulv sum trm rotp trap pt_lin_dzdx blocks mget vget skew mapply mmul madd mopp vopp vsub mT mI vdot vadd vcross Nat.ltb Nat.leb Nat.sub Nat.add]. ring.
    - rewrite quad_plane. specialize (U eq_refl). transitivity (vdot (k_n c) (k_n c) * (vdot (k_n c) (vadd (vcross (rotp x) (k_p c)) (trap x)) * vdot (k_n c) (vadd (vcross (rotp x) (k_p c)) (trap x)))); [|rewrite U; ring].
      unfold hz, half_dzdx. destruct (c_r f) as [[? ?] ?], (c_t f) as [[? ?] ?]. open_c c. cbv [k_p k_q k_n].
      cbv [mulv sum trm rotp trap pl_lin_dzdx vouter vscale mscale blocks mget vget skew mapply mmul madd mopp vopp vsub mT mI vdot vadd vcross Nat.ltb Nat.leb Nat.sub Nat.add]. ring. }
  rewrite <- T. change 6%nat with (3 + 3)%nat at 1. rewrite sum_add. assert (0 <= sum 3 (fun j => mulv 6 (trm (hz k f c)) x j * mulv 6 (trm (hz k f c)) x j)) by (apply sum_nonneg; intros; nra). cbn [plus] in *. lra.
Qed.
Lemma suml_le {A} (g h : A -> R) l : (forall a, In a l -> g a <= h a) -> suml g l <= suml h l.
Proof. induction l as [|a l IH]; intros H; cbn; [lra|]. specialize (H a (or_introl eq_refl)) as Ha. specialize (IH (fun b Hb => H b (or_intror Hb))). lra. Qed.
(* Censi's covariance is at least the least squares one *)
Lemma censi_above_lls inverse k f l v C L : inverts inverse -> good f -> linearised k -> (forall c, In c l -> k = PlaneLinearised -> vdot (k_n c) (k_n c) = 1) -> 0 <= v ->
  censi_iid inverse k f l v = Some C -> lls_iid inverse k f l v = Some L -> forall x, quad 6 L x <= quad 6 C x.
Proof.
  intros IV G LN U V EC EL x. destruct (lls_inv _ _ _ _ _ _ EL) as (H & hi & EH & EI & ->). destruct (iid_quad inverse k f l v C x IV G EC) as (H' & hi' & EH' & EI' & ->).
  rewrite EH in EH'. injection EH' as <-. rewrite EI in EI'. injection EI' as <-. destruct (est_parts k f l H inverse hi IV G EH EI) as (A & S & I & _).
  rewrite quad_scale. apply Rmult_le_compat_l; [exact V|]. rewrite (quad_inverse 6 H hi x S I). rewrite (hessian_quad k f l H _ A EH). apply suml_le. intros c Hc.
  apply Rge_le. apply target_part; [exact LN|apply U; exact Hc].
Qed.
Lemma censi_pd inverse k f l v C : inverts inverse -> good f -> linearised k -> (forall c, In c l -> k = PlaneLinearised -> vdot (k_n c) (k_n c) = 1) -> 0 < v ->
  censi_iid inverse k f l v = Some C -> pd 6 C.
Proof.
  intros IV G LN U V EC x NZ. destruct (iid_inv _ _ _ _ _ _ EC) as (H & ds & hi & EH & _ & EI & _).
  assert (EL : lls_iid inverse k f l v = Some (scalem v hi)) by (unfold lls_iid; rewrite EH; cbn; rewrite EI; reflexivity).
  apply (Rlt_le_trans _ (quad 6 (scalem v hi) x)); [exact (lls_pd inverse k f l v _ IV G LN V EL x NZ)|]. apply (censi_above_lls inverse k f l v C _ IV G LN U); [lra|exact EC|exact EL].
Qed.
