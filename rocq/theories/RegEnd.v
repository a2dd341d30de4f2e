(* The registration message from its publisher (Registration) to the graph (Optimisation): the covariance that reaches the check. *)
From Coq Require Import ZArith Reals List Bool Lia String.
From Verif Require Import Base GmModel BeModel BeSpec BeInv GmExamples BeHealthy BeMore BeExamples Mx Interp Geo EgModel CvModel CvProofs EgProofs EgPose MsModel MsProofs MsPose.
Import ListNotations.
Open Scope string_scope.
Open Scope list_scope.
Local Open Scope Z_scope.

(* a registration that the graph is ready for: the next state exists at its stamp, and the state before it has a pose *)
Definition reg_ready bp (g : igm) (t : Z) (n : numerics) (k : Z) : Prop := exists g1 a p g2 b,
  gm_step bp g (OIncrement "reg") = (g1, Ok a) /\ q_key "reg" 0 g1 = Ok k /\ q_ts k g1 = Ok t /\ q_get SymX (k - 1) g1 = Ok p /\ gm_step bp g1 (OSetPose k (n_compose n p)) = (g2, Ok b).
(* the between factor is created exactly if the covariance is not valid (and its sigmas have no zero) *)
Theorem reg_factor_iff bp c ok l t tf va ze n g log ev k :
  crts FBetweenPose (snd (fst (fst (prun bp (section c ok (MReg t tf va ze n) l) g log ev)))) = crts FBetweenPose log ++ [k] <-> reg_ready bp g t n k /\ va = false /\ ze = false.
Proof.
  assert (NE : forall x : Z, crts FBetweenPose log = crts FBetweenPose log ++ [x] -> False).
  { intros x E. apply (f_equal (@List.length Z)) in E. rewrite app_length in E. cbn in E. lia. }
  assert (H1 : crts FBetweenPose (log ++ [OIncrement "reg"]) = crts FBetweenPose log) by (rewrite crts_app; cbn; apply app_nil_r).
  unfold reg_ready. cbn [section]. unfold p_reg. cbn [prun].
  destruct (gm_step bp g (OIncrement "reg")) as [g1 [a| |]]; cbn [fst snd]; [|rewrite H1; split; [intros E; destruct (NE _ E)|intros [(? & ? & ? & ? & ? & [=] & _) _]]..].
  unfold rd at 1. cbn [prun]. destruct (q_key "reg" 0 g1) as [k0| |] eqn:Ek; cbn [prun fst snd]; [|rewrite H1; split; [intros E; destruct (NE _ E)|intros [(? & ? & ? & ? & ? & [= <- <-] & E & _) _]; congruence]..].
  unfold rd at 1. cbn [prun]. destruct (q_ts k0 g1) as [tk| |] eqn:Et; cbn [prun fst snd]; [|rewrite H1; split; [intros E; destruct (NE _ E)|intros [(? & ? & ? & ? & ? & [= <- <-] & E & E' & _) _]; congruence]..].
  destruct (Z.eqb_spec tk t) as [<-|NT]; cbn [negb prun fst snd]; [|rewrite H1; split; [intros E; destruct (NE _ E)|intros [(? & ? & ? & ? & ? & [= <- <-] & E & E' & _) _]; congruence]].
  destruct va; [cbn [prun fst snd]; rewrite H1; split; [intros E; destruct (NE _ E)|intros (_ & [=] & _)]|].
  destruct ze; [cbn [prun fst snd]; rewrite H1; split; [intros E; destruct (NE _ E)|intros (_ & _ & [=])]|].
  unfold rd at 1. cbn [prun]. destruct (q_get SymX (k0 - 1) g1) as [p| |] eqn:Ep; cbn [prun fst snd]; [|rewrite H1; split; [intros E; destruct (NE _ E)|intros [(? & ? & ? & ? & ? & [= <- <-] & E & E' & E'' & _) _]; congruence]..].
  destruct (gm_step bp g1 (OSetPose k0 (n_compose n p))) as [g2 [b| |]] eqn:Es; cbn [fst snd].
  2-3: rewrite crts_app; cbn [crts flat_map]; rewrite app_nil_r, H1; split; [intros E; destruct (NE _ E)|intros [(? & ? & ? & ? & ? & [= <- <-] & E & E' & E'' & E3) _]; rewrite E in Ek; injection Ek as <-; rewrite E'' in Ep; injection Ep as <-; congruence].
  assert (H2 : crts FBetweenPose (((log ++ [OIncrement "reg"]) ++ [OSetPose k0 (n_compose n p)]) ++ [OCreate FBetweenPose k0 tf]) = crts FBetweenPose log ++ [k0]).
  { rewrite !crts_app. cbn. rewrite !app_nil_r. reflexivity. }
  assert (RD : crts FBetweenPose log ++ [k0] = crts FBetweenPose log ++ [k] <-> (exists g3 a3 p3 g4 b4, (g1, Ok a) = (g3, Ok a3) /\ q_key "reg" 0 g3 = Ok k /\ q_ts k g3 = Ok tk /\ q_get SymX (k - 1) g3 = Ok p3 /\ gm_step bp g3 (OSetPose k (n_compose n p3)) = (g4, Ok b4)) /\ false = false /\ false = false).
  { split.
    - intros E. apply app_inv_head in E. injection E as <-. split; [|auto]. exists g1, a, p, g2, b. auto.
    - intros [(g3 & a3 & p3 & g4 & b4 & [= <- <-] & E & _) _]. rewrite E in Ek. injection Ek as <-. reflexivity. }
  destruct (gm_step bp g2 (OCreate FBetweenPose k0 tf)) as [g3 [d| |]]; cbn [fst snd]; [|rewrite H2; exact RD..].
  match goal with |- context [prun bp ?q _ _ _] => rewrite (avoids_prun bp FBetweenPose q) end; [rewrite H2; exact RD|].
  unfold p_optimise, p_velocity. av.
Qed.
(* Every finite, symmetric and positive definite estimate leads to a registration callback that throws without adding the factor. *)
Theorem valid_estimate_rejected bp c ok l tf ze n g log ev lidar body transform cov stamp p0 : motion lidar -> motion transform ->
  (forall i j, (i < 6)%nat -> (j < 6)%nat -> exists x, cov i j = Some x) -> symmetric 6 (num (cov6 cov)) -> pd 6 (num (cov6 cov)) ->
  exists msg p, publish_refined_transform lidar body transform cov stamp = Ok msg /\ pcs_from_ros msg p0 = Ok (stamp, p) /\
  exists g' log', prun bp (section c ok (MReg stamp tf (is_valid_covariance (cov6 (rp_cov p)) 0) ze n) l) g log ev = (g', log', ev, RThrow) /\ crts FBetweenPose log' = crts FBetweenPose log.
Proof.
  intros ML MT F S P. destruct (publish_refined lidar body transform cov stamp p0 ML MT) as (msg & p & E & _ & R & _ & _ & _ & _ & _ & V).
  exists msg, p. split; [exact E|]. split; [exact R|]. rewrite V. rewrite (proj2 (valid_covariance_default (cov6 cov)) (conj eq_refl (conj F (conj S P)))). apply reg_valid_throws.
Qed.

(* Every estimate that is not a covariance is used, if the graph is ready for it and no sigma is zero. *)
Theorem invalid_estimate_used bp c ok l tf n g log ev lidar body transform cov stamp p0 k : motion lidar -> motion transform ->
  ~ ((forall i j, (i < 6)%nat -> (j < 6)%nat -> exists x, cov i j = Some x) /\ symmetric 6 (num (cov6 cov)) /\ pd 6 (num (cov6 cov))) -> reg_ready bp g stamp n k ->
  exists msg p, publish_refined_transform lidar body transform cov stamp = Ok msg /\ pcs_from_ros msg p0 = Ok (stamp, p) /\
  crts FBetweenPose (snd (fst (fst (prun bp (section c ok (MReg stamp tf (is_valid_covariance (cov6 (rp_cov p)) 0) false n) l) g log ev)))) = (crts FBetweenPose log ++ [k])%list.
Proof.
  intros ML MT NV RR. destruct (publish_refined lidar body transform cov stamp p0 ML MT) as (msg & p & E & _ & R & _ & _ & _ & _ & _ & V).
  exists msg, p. split; [exact E|]. split; [exact R|]. apply reg_factor_iff. split; [exact RR|]. split; [|reflexivity]. rewrite V. apply not_true_is_false. intros W. apply valid_covariance_default in W. destruct W as (_ & W). apply NV. exact W.
Qed.

(* a state reached by a running system that waits for the registration of time 1 *)
Definition waiting : igm := match run (full 4) [D M0; X TInit; L TInit; D (MU 1); X TImu; L TImu] with Some (s, _) => y_g s | None => igm_init end.
Example waiting_ready : reg_ready bp0 waiting 1 num0 1.
Proof. unfold reg_ready. destruct (gm_step bp0 waiting (OIncrement "reg")) as [g1 r] eqn:E1. vm_compute in E1. injection E1 as <- <-. do 5 eexists. split; [reflexivity|]. repeat split. Qed.
