(* Concrete runs of the registration model.  Clouds are stamps; an alignment shows what it was given.  *)
From Verif Require Import Base RegModel RegSpec RegProofs RegMore.

(* a transform records the clouds and the guess it was made from *)
Inductive tr := Guess (n : Z) | S2s (c p : Z) (g : tr) | S2m (c m : Z) (g : tr).
Definition ex_exec := rexec Z tr S2s S2m.
Definition ex_labs : list (lab Z tr) :=
  let S := RunS Z tr in let M := RunM Z tr in
  [InS _ _ 1 (Guess 1); S; InM _ _ 1; S; M; M; M;            (* first scan; map 1 arrives early and sleeps *)
   InS _ _ 2 (Guess 2); S; M; M; M; S; S; S; S; S;           (* scan 2, interleaved with the polling         *)
   InS _ _ 3 (Guess 3); S; M; M; M; M; M; M; S; S; M;        (* the map callback takes scan 2                 *)
   S; S; S; InM _ _ 2; M; M; M; M; M; M; M].

Example ex_run_ok : exists st, ex_exec true ex_labs (rinit Z tr) = Some (Ok st) /\
  r_pub _ _ st = [(2, S2m 2 1 (S2s 2 1 (Guess 2))); (3, S2m 3 2 (S2s 3 2 (Guess 3)))] /\ r_m _ _ st = MIdle _ _ /\ r_s _ _ st = SIdle _ _.
Proof. eexists. split; [vm_compute; reflexivity|]. cbn. auto. Qed.

(* the hypotheses of the theorems hold in it *)
Example ex_frames : forall n m p h, nth_error (maps Z tr ex_labs) n = Some m ->
  nth_error (scans Z tr ex_labs) n = Some (p, h) -> m = p.
Proof.
  intros [|[|[|n]]] m p h; cbn; intros H1 H2; try congruence.
Qed.

(* One lost map message and every later refinement starts from a guess in another frame than its map.    *)
Definition ex_lost : list (lab Z tr) :=
  let S := RunS Z tr in let M := RunM Z tr in
  [InS _ _ 1 (Guess 1); S; S; InS _ _ 2 (Guess 2); S; S; S; S; S; S;
   InS _ _ 3 (Guess 3); S; S; S; S; S; S; InM _ _ 2; M; M; M; M; M; M; M].
Lemma lost_map_refuted :
  exists ls st, ex_exec true ls (rinit Z tr) = Some (Ok st) /\
    maps Z tr ls = [2] /\ map fst (scans Z tr ls) = [1; 2; 3] /\
    r_pub _ _ st = [(2, S2m 2 2 (S2s 2 1 (Guess 2)))].
Proof. exists ex_lost. eexists. split; [vm_compute; reflexivity|]. cbn. auto. Qed.

(* shutdown during the wait: the callback returns holding the mutex, and the scan callback can never finish *)
Lemma shutdown_keeps_lock_refuted :
  exists ls st, ex_exec true ls (rinit Z tr) = Some (Ok st) /\ r_m _ _ st = MIdle _ _ /\ r_own _ _ st = Some ThM /\
    forall ls' st', ex_exec true ls' st = Some (Ok st') -> r_own _ _ st' = Some ThM.
Proof.
  pose (ls := let S := RunS Z tr in let M := RunM Z tr in [InM Z tr 1; M; M; M; Down Z tr; M; M; M] : list (lab Z tr)).
  exists ls. eexists. split; [vm_compute; reflexivity|]. cbn. refine (conj eq_refl (conj eq_refl _)).
  intros ls' st'.
  assert (G : forall ls st, r_own _ _ st = Some ThM -> r_ok _ _ st = false ->
            match r_m _ _ st with MIdle _ _ | MWant _ _ _ => True | _ => False end ->
            s_crit _ _ (r_s _ _ st) = false ->
            ex_exec true ls st = Some (Ok st') -> r_own _ _ st' = Some ThM).
  { clear ls. induction ls as [|l ls IH]; intros st Ho Hk Hm Hs He; unfold ex_exec in *; cbn [rexec] in He.
    - injection He as <-. exact Ho.
    - destruct st as [ok own qc qt pv s m pb]. cbn [r_ok r_own r_qc r_qt r_prev r_s r_m r_pub] in *. subst ok own.
      destruct l as [c g|x| | |]; cbn [rstep] in He.
      + destruct s; try discriminate. eapply IH; [| | | |exact He]; auto.
      + destruct m; try discriminate. eapply IH; [| | | |exact He]; auto.
      + destruct s as [|c g|c r|c r|c r|c|c]; try discriminate.
        * destruct pv; (eapply IH; [| | | |exact He]; auto).
        * eapply IH; [| | | |exact He]; auto.
      + destruct m; try discriminate; contradiction.
      + eapply IH; [| | | |exact He]; auto. }
  intros He. eapply G; [| | | |exact He]; reflexivity || exact I.
Qed.

(* scan-to-map off: a map blocks a worker for ever (instance of s2m_off_blocks_worker_refuted)             *)
Example ex_off : exists st, ex_exec false [InM Z tr 1; RunM Z tr; RunM Z tr; RunM Z tr] (rinit Z tr) = Some (Ok st) /\
  r_ok _ _ st = true /\ maps Z tr [InM Z tr 1; RunM Z tr; RunM Z tr; RunM Z tr] <> [].
Proof. eexists. split; [vm_compute; reflexivity|]. cbn. split; [reflexivity | discriminate]. Qed.
