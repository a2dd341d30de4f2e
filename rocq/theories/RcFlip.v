(* A registration for which the nonlinear least squares covariance is none. *)
From Coq Require Import Reals Lra Lia Psatz List Qreals QArith.
From Verif Require Import Base Mx Interp Geo EgModel EgProofs CfgModel NetModel NetSpec CfgSpec CfgProofs RcGen RcModel RcSpec RcCov RcMat RcProofs RcComp RcEst RcMain RcRegModel RcRegSpec RcReg RcTop RcExamples.
Import ListNotations.
Open Scope string_scope.
Open Scope list_scope.
Open Scope R_scope.

(* Nonlinear models: least squares can give a matrix that is no covariance *)
Definition flipped : list corr := let c p := mkCorr p (let '(x, y, z) := p in (x, y, - z)) (1, 0, 0) (1, 0, 0) (1, 0, 0) in
  [c (1, 0, 0); c (-1, 0, 0); c (0, 1, 0); c (0, -1, 0); c (0, 0, 1); c (0, 0, -1)].
Definition flipped_hessian (i : nat) : R := match i with 0%nat | 1%nat => - 16 / (PI * PI) | 2%nat => -4 | _ => 6 end.
Lemma half_turn : components_rt (0, 0, PI) v0 = mkComps (0, 0, PI) v0 PI 0 (-1).
Proof.
  unfold components_rt. assert (E : vnorm (0, 0, PI) = PI) by (unfold vnorm; replace (vdot (0, 0, PI) (0, 0, PI)) with (PI * PI) by (cbn; ring); apply sqrt_square; left; apply PI_RGT_0).
  rewrite E, sin_PI, cos_PI. reflexivity.
Qed.
Lemma flipped_is : exists H, hessian PointNonlinear (components_rt (0, 0, PI) v0) flipped zerom = Some H /\ eqm 6 6 H (fun i j => if Nat.eqb i j then flipped_hessian i else 0).
Proof.
  rewrite half_turn. destruct (hessian_eq PointNonlinear (mkComps (0, 0, PI) v0 PI 0 (-1)) flipped ltac:(intros _; exact PI_neq0) zerom) as (H & EH & E). exists H. split; [exact EH|].
  intros i j Hi Hj. rewrite E. unfold flipped. cbn [suml]. unfold hx, half_dx2. cbn [c_r c_t c_a c_sa c_ca k_p k_q k_n v0]. destruct (Req_EM_T PI 0) as [Z|Z]; [exfalso; exact (PI_neq0 Z)|].
  unfold zerom, flipped_hessian. six Hi; six Hj; cbv [ptp_nl_dx2 Nat.eqb]; field; exact Z.
Qed.

Lemma lls_nonlinear_refuted inverse : inverts inverse -> exists l r t C, ~ on_a_line l /\ lls_iid inverse PointNonlinear (components_rt r t) l 1 = Some C /\ ~ psd 6 C.
Proof.
  intros IV. exists flipped, (0, 0, PI), v0. destruct flipped_is as (H & EH & E). pose proof PI_RGT_0 as P.
  assert (I : inverse_of 6 H (fun i j => if Nat.eqb i j then / flipped_hessian i else 0)).
  { assert (NZ : forall i, flipped_hessian i <> 0). { intros i. assert (Q : - 16 / (PI * PI) < 0) by (unfold Rdiv; assert (0 < / (PI * PI)) by (apply Rinv_0_lt_compat; nra); nra). unfold flipped_hessian. destruct i as [|[|[|i]]]; lra. }
    split; intros i j Hi Hj; unfold mulm.
    - rewrite (sum_single 6 (fun l => H i l * (if Nat.eqb l j then / flipped_hessian l else 0)) j Hj); [|intros l _ NE; destruct (Nat.eqb_spec l j); [contradiction|ring]].
      rewrite (E i j Hi Hj), Nat.eqb_refl. unfold idm. destruct (Nat.eqb_spec i j) as [<-|]; [apply Rinv_r; apply NZ|ring].
    - rewrite (sum_single 6 (fun l => (if Nat.eqb i l then / flipped_hessian i else 0) * H l j) i Hi); [|intros l _ NE; destruct (Nat.eqb_spec i l); [congruence|ring]].
      rewrite (E i j Hi Hj), Nat.eqb_refl. unfold idm. destruct (Nat.eqb_spec i j) as [<-|]; [apply Rinv_l; apply NZ|ring]. }
  pose proof (IV H) as K. destruct (inverse H) as [hi|] eqn:EI; [|exfalso; exact (K _ I)].
  assert (L : lls_iid inverse PointNonlinear (components_rt (0, 0, PI) v0) flipped 1 = Some (scalem 1 hi)) by (unfold lls_iid; rewrite EH; cbn [obind]; rewrite EI; reflexivity).
  exists (scalem 1 hi). split; [|split; [exact L|]].
  - intros ([[a b] c] & [[d e] f] & N & S). pose proof (S _ (or_introl eq_refl)) as S1. pose proof (S _ (or_intror (or_introl eq_refl))) as S2. pose proof (S _ (or_intror (or_intror (or_introl eq_refl)))) as S3. pose proof (S _ (or_intror (or_intror (or_intror (or_introl eq_refl))))) as S4.
    cbn in S1, S2, S3, S4. injection S1 as X1 X2 X3. injection S2 as Y1 Y2 Y3. injection S3 as Z1 Z2 Z3. injection S4 as W1 W2 W3. apply N. unfold v0. tup; lra.
  - apply (bad_hessian inverse PointNonlinear (0, 0, PI) v0 flipped 1 H _ (fun i => if Nat.eqb i 2 then 1 else 0) IV ltac:(lra) EH); [|exact L].
    pose proof (E 2%nat 2%nat ltac:(lia) ltac:(lia)) as E2. cbn in E2. unfold quad, mulv. cbn. rewrite E2. lra.
Qed.
