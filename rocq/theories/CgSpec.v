(* What the figure of the covariances is meant to show *)
From Coq Require Import String ZArith List Bool Reals.
From Verif Require Import Base Interp Geo EgModel FgModel CgModel.
Import ListNotations.
Open Scope R_scope.

(* seconds, since the first message or since the epoch *)
Definition moment (zero : bool) (l : list cmsg) (m : cmsg) : R :=
  IZR (cm_sec m) + IZR (cm_nsec m) / 1000000000 - (if zero then match l with [] => 0 | f :: _ => IZR (cm_sec f) + IZR (cm_nsec f) / 1000000000 end else 0).
(* row j, column j of the covariance, sent row by row *)
Definition variance (j : nat) (m : cmsg) : R := nth (6 * j + j) (cm_cov m) 0.
Definition direction (j : nat) : string := nth j ["$x$"; "$y$"; "$z$"; "$r_x$"; "$r_y$"; "$r_z$"]%string ""%string.
(* s is the standard deviation, or zero (not shown on a logarithmic scale) when there is none *)
Definition deviation (v s : R) : Prop := (0 <= v -> 0 <= s /\ s * s = v) /\ (v < 0 -> s = 0).
(* one axes with six curves, named after the directions; each passes through moment and deviation of every message *)
Definition covariances_shown (w : figure) (zero : bool) (l : list cmsg) : Prop :=
  fg_name w = "Covariance"%string /\ exists a, fg_axes w = [a] /\ ax_x a = "t (s)"%string /\ ax_y a = "$\sigma$ (m, rad)"%string /\ ax_title a = "Covariance Sigmas"%string /\
  List.length (ax_curves a) = 6%nat /\ List.length (ax_legend a) = 6%nat /\
  forall j, (j < 6)%nat -> nth_error (ax_legend a) j = Some (direction j) /\ exists s c, nth_error (ax_curves a) j = Some c /\ cv_kind c = Line /\ cv_cols c = [map (moment zero l) l; s] /\
    Forall2 (fun m x => deviation (variance j m) x) l s.
