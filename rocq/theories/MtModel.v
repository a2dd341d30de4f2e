(* The metrics node: serpent/scripts/metrics_node.py (MN).  float is read as R.  A covariance entry may be not a number (None), and so may an
   orientation.  Infinite values are left out. *)
From Coq Require Import ZArith Reals List Bool.
From Verif Require Import Base Interp Geo.
Import ListNotations.
Open Scope R_scope.

(* the names in the order in which they are added, MN 112-195 *)
Inductive metric := VAR_RX | VAR_RY | VAR_RZ | VAR_TX | VAR_TY | VAR_TZ | OUTLIER_MAX | OUTLIER_IDX | CONSISTENT_NORM | CONSISTENT_ANGL | INSTANT_NORM | INSTANT_ANGL.
Record npose := mkNP { np_pos : vec3; np_ori : option quat }.
Record mstate := mkMS { st_path : option (list npose); st_reg : option (list (option R)); st_curr : option (npose * list (option R)); st_prev : option (npose * list (option R)) }.
(* MN 14-17 *)
Definition mstate0 : mstate := mkMS None None None None.
Inductive mevent := EPath (l : list npose) | EPose (p : npose * list (option R)) | EReg (c : list (option R)).
(* MN 36-44.  A callback runs in its own thread; EPose is the two assignments of MN 40 and 41 *)
Definition set_prev (s : mstate) : mstate := mkMS (st_path s) (st_reg s) (st_curr s) (st_curr s).
Definition set_curr (p : npose * list (option R)) (s : mstate) : mstate := mkMS (st_path s) (st_reg s) (Some p) (st_prev s).
Definition mstep (s : mstate) (e : mevent) : mstate :=
  match e with
  | EPath l => mkMS (Some l) (st_reg s) (st_curr s) (st_prev s)
  | EPose p => set_curr p (set_prev s)
  | EReg c => mkMS (st_path s) (Some c) (st_curr s) (st_prev s)
  end.
(* indexing a list that is too short raises IndexError *)
Definition at_ {A} (l : list A) (i : nat) : res A := match nth_error l i with Some x => Ok x | None => Throw end.
(* MN 54-65 *)
Definition var_diag (s : mstate) : res (list (option R)) :=
  match st_reg s with
  | None => Ok (repeat (Some (-1)) 6)
  | Some c => rbind (at_ c 0) (fun rx => rbind (at_ c 7) (fun ry => rbind (at_ c 14) (fun rz => rbind (at_ c 21) (fun tx => rbind (at_ c 28) (fun ty => rbind (at_ c 35) (fun tz => Ok [rx; ry; rz; tx; ty; tz]))))))
  end.
(* MN 72-79: a comparison with not a number is false *)
Fixpoint outlier (i : nat) (c : list (option R)) (m : R) (idx : Z) : R * Z :=
  match c with
  | [] => (m, idx)
  | Some x :: c => if Rlt_dec m x then outlier (S i) c x (Z.of_nat i) else outlier (S i) c m idx
  | None :: c => outlier (S i) c m idx
  end.
(* MN 67-79 *)
Definition var_outlier (s : mstate) : R * Z := match st_curr s with None => (-1, (-1)%Z) | Some (_, c) => outlier 0 c 0 (-1) end.
(* MN 81-109: min(1, x) is 1 if x is not a number; arccos of a number below -1 is not a number *)
Definition qdot4 (p q : quat) : R := let '(a, b, c, d) := p in let '(e, f, g, h) := q in b * f + c * g + d * h + a * e.
Definition rel_pose (p1 p2 : npose) : R * option R :=
  let dot := match np_ori p1, np_ori p2 with Some q1, Some q2 => Rmin 1 (qdot4 q1 q2) | _, _ => 1 end in
  (vnorm (vsub (np_pos p1) (np_pos p2)), if Rlt_dec dot (-1) then None else Some (2 * acos dot)).
(* MN 152-158: poses[-1] and poses[-2] *)
Definition consistent (s : mstate) : res (R * option R) :=
  match st_path s with
  | None => Ok (-1, Some (-1))
  | Some l => match rev l with a :: b :: _ => Ok (rel_pose a b) | _ => Throw end
  end.
(* MN 172-181 *)
Definition instant (s : mstate) : R * option R :=
  match st_curr s, st_prev s with Some (a, _), Some (b, _) => rel_pose a b | _, _ => (-1, Some (-1)) end.
(* MN 111-197, nothing else running meanwhile *)
Definition get_metrics (s : mstate) : res (list (metric * option R)) :=
  rbind (var_diag s) (fun d => let o := var_outlier s in rbind (consistent s) (fun c => let i := instant s in
  Ok (combine [VAR_RX; VAR_RY; VAR_RZ; VAR_TX; VAR_TY; VAR_TZ; OUTLIER_MAX; OUTLIER_IDX; CONSISTENT_NORM; CONSISTENT_ANGL; INSTANT_NORM; INSTANT_ANGL]
    (d ++ [Some (fst o); Some (IZR (snd o)); Some (fst c); snd c; Some (fst i); snd i])))).
