(* Every entry computed by RcGen.ptp_nl_dx2 is the closed-form second derivative. *)
From Coq Require Import Reals Lra Lia.
From Verif Require Import Base Mx Interp Geo RcGen RcSpec RcDeriv RcTurn.
Open Scope R_scope.
Ltac go := cbv [hess_point hess_plane res tw tw1 tw2 gB gC gB1 gC1 gB2 gC2 fst_dir snd_dir unit3 Nat.ltb Nat.leb Nat.sub v0 vadd vsub vscale vdot vcross vopp ptp_nl_dx2].
Lemma ptp_nl_dx2_entries rx ry rz tx ty tz px py pz qx qy qz a sa ca : a <> 0 -> rx * rx = a * a - ry * ry - rz * rz ->
  forall i j, (i < 6)%nat -> (j < 6)%nat ->
  ptp_nl_dx2 rx ry rz tx ty tz px py pz qx qy qz a sa ca i j =
  hess_point (fun _ => tw a sa ca (rx, ry, rz)) (fun _ => tw1 a sa ca (rx, ry, rz)) (fun _ => tw2 a sa ca (rx, ry, rz)) (rx, ry, rz) (tx, ty, tz) (px, py, pz) (qx, qy, qz)
    (fst_dir i) (snd_dir i) (fst_dir j) (snd_dir j) v0 v0.
Proof.
  intros Ha Hr i j Li Lj.
  assert (Ci : i = 0%nat \/ i = 1%nat \/ i = 2%nat \/ i = 3%nat \/ i = 4%nat \/ i = 5%nat) by lia.
  assert (Cj : j = 0%nat \/ j = 1%nat \/ j = 2%nat \/ j = 3%nat \/ j = 4%nat \/ j = 5%nat) by lia. clear Li Lj.
  destruct Ci as [->|[->|[->|[->|[->| ->]]]]]; destruct Cj as [->|[->|[->|[->|[->| ->]]]]]; abstract (go; field [Hr]; exact Ha).
Qed.
