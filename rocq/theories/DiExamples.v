(* A search that meets its contract, and a pair of clouds that meets the hypotheses. *)
From Coq Require Import Reals Lra Lia Psatz.
From Verif Require Import Base Interp Geo PcModel PcSpec PcProofs PcOps PcGeom PcGeomProofs PcExamples DiModel DiSpec DiProofs.
Local Open Scope R_scope.

Definition sq_dist (q p : vec3) : R := vdot (vsub q p) (vsub q p).
Fixpoint brute (l : list vec3) (q : vec3) : option R :=
  match l with [] => None | p :: l => match brute l q with Some d => Some (Rmin d (sq_dist q p)) | None => Some (sq_dist q p) end end.
Lemma sq_pos q p : 0 <= sq_dist q p. Proof. unfold sq_dist. destruct (vsub q p) as [[x y] z]. cbn. nra. Qed.
Lemma brute_min l q : match brute l q with
  | None => l = nil
  | Some d => 0 <= d /\ (exists p, In p l /\ d = sq_dist q p) /\ forall p, In p l -> d <= sq_dist q p end.
Proof.
  induction l as [|a l IH]; cbn [brute]; [reflexivity|]. destruct (brute l q) as [d|].
  - destruct IH as [P [[p [I E]] F]]. pose proof (sq_pos q a). split; [apply Rmin_glb; assumption|]. split.
    + unfold Rmin. destruct (Rle_dec d (sq_dist q a)); [exists p; cbn; auto|exists a; cbn; auto].
    + intros x [<-|X]; [apply Rmin_r|]. apply Rle_trans with d; [apply Rmin_l|apply F; exact X].
  - subst l. split; [apply sq_pos|]. split; [exists a; cbn; auto|]. intros x [<-|[]]. lra.
Qed.
Lemma brute_ok : search_ok brute.
Proof.
  split.
  - intros l q d E. pose proof (brute_min l q) as H. rewrite E in H. destruct H as [P [[p [I ->]] F]]. split; [exact P|]. split.
    + exists p. split; [exact I|reflexivity].
    + intros x X. apply sqrt_le_1_alt. apply F. exact X.
  - intros l q NE E. pose proof (brute_min l q) as H. rewrite E in H. contradiction.
Qed.
Definition ahead : iso := mkIso mI (10, 0, 0).
Definition look (a b : string) (t : Z) : option iso := if String.eqb b "target" then Some ahead else None.
Example distances_case : search_ok brute /\ codec_ok codecR /\ look "source" "target" 7 = Some ahead /\ rigid ahead /\
  distance_to (map (iapp ahead) [(1, 0, 0); (3, 0, 0)]) (0, 0, 0) 11 /\ look "source" "elsewhere" 7 = None.
Proof.
  conj; try reflexivity; [apply brute_ok|apply codecR_ok|apply orth_I|].
  assert (E1 : forall a, apart_by (0, 0, 0) (a, 0, 0) = Rabs a).
  { intros a. unfold apart_by, vnorm. replace (vdot (vsub (0, 0, 0) (a, 0, 0)) (vsub (0, 0, 0) (a, 0, 0))) with (Rsqr a) by (unfold Rsqr; cbn; ring). apply sqrt_Rsqr_abs. }
  replace (map (iapp ahead) [(1, 0, 0); (3, 0, 0)]) with [(11, 0, 0); (13, 0, 0)] by (cbn; repeat f_equal; ring).
  split.
  - exists (11, 0, 0). split; [cbn; auto|]. rewrite E1. rewrite Rabs_right; lra.
  - intros p [<-|[<-|[]]]; rewrite E1, Rabs_right; lra.
Qed.
Example throws_case : compute_distances codecR brute 0 0 "s" [(0, 0, 0)] [] = Throw.
Proof. apply (distances_stored codecR codecR_ok brute 0 0 "s" [(0, 0, 0)] []); [cbn; lia|]. exists (0, 0, 0). split; [cbn; auto|reflexivity]. Qed.
