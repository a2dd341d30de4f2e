(* The node that reports statistics of point clouds: pointcloud_tools/src/pointcloud_analyser.cpp (PA), with statistics and check_normals of
   src/pclpointcloud2_utilities.cpp (PU) and min, max, sum, mean, variance of impl/pclpointcloud2_utilities.hpp (PI).  A cloud is given by its fields
   with the value of each point (the bytes are those of PcModel, C42, C72); a value is a number (rounding left out) or NaN (None); infinite values are left out.
   Writing the report (PA 23) cannot fail for known types and is left out. *)
From Coq Require Import String ZArith List Bool Reals.
From Verif Require Import Base Interp Geo EgModel.
Import ListNotations.
Open Scope R_scope.

(* name, whether the datatype is one of the eight known ones, values of the points (of the first element of a field with several) *)
Record afield := mkAF { af_name : string; af_known : bool; af_values : list (option R) }.
(* stamp in nanoseconds, frame, number of points (height times width, taken to be below 2^32) *)
Record acloud := mkAC { ac_seq : Z; ac_stamp : Z; ac_frame : string; ac_points : nat; ac_fields : list afield }.
Record astat := mkAS { as_label : string; as_min : option R; as_max : option R; as_mean : option R; as_var : option R; as_count : nat }.
Record aarray := mkAA { aa_seq : Z; aa_stamp : Z; aa_frame : string; aa_stats : list astat }.

Section Limits.
(* std::numeric_limits<double>::lowest() and max() *)
Variables lowest highest : R.

(* a < b is false for NaN *)
Definition rltb (a b : R) : bool := if Rlt_dec a b then true else false.
Definition oless (a b : option R) : bool := match a, b with Some x, Some y => rltb x y | _, _ => false end.
(* std::max(a, b), std::min(a, b) *)
Definition omax (a b : option R) : option R := if oless a b then b else a.
Definition omin (a b : option R) : option R := if oless b a then b else a.
Definition oplus (a b : option R) : option R := match a, b with Some x, Some y => Some (x + y) | _, _ => None end.
(* PI 587-599, 617-629, 692-701, 606-610, 723-733 after the test for no points *)
Definition col_max (l : list (option R)) : option R := fold_left omax l (Some lowest).
Definition col_min (l : list (option R)) : option R := fold_left omin l (Some highest).
Definition col_sum (l : list (option R)) : option R := fold_left oplus l (Some 0).
Definition over (n : nat) (a : option R) : option R := match a with Some x => Some (x / INR n) | None => None end.
Definition col_mean (n : nat) (l : list (option R)) : option R := over n (col_sum l).
Definition residual (m a : option R) : option R := match a, m with Some x, Some y => Some ((x - y) * (x - y)) | _, _ => None end.
Definition col_var (n : nat) (m : option R) (l : list (option R)) : option R := over n (col_sum (map (residual m) l)).
(* PU 418-427: min throws first for no points, then for an unknown datatype *)
Definition field_statistics (n : nat) (f : afield) : res astat :=
  if Nat.eqb n 0 then Throw else if af_known f then
    let m := col_mean n (af_values f) in Ok (mkAS (af_name f) (col_min (af_values f)) (col_max (af_values f)) m (col_var n m (af_values f)) n)
  else Throw.
Fixpoint fields_statistics (n : nat) (l : list afield) : res (list astat) :=
  match l with [] => Ok [] | f :: l => rbind (field_statistics n f) (fun s => rbind (fields_statistics n l) (fun r => Ok (s :: r))) end.
(* PA 19, PU 429-436: stamps go through whole microseconds *)
Definition statistics (c : acloud) : res aarray :=
  rbind (fields_statistics (ac_points c) (ac_fields c)) (fun s => Ok (mkAA (ac_seq c) (ac_stamp c / 1000 * 1000)%Z (ac_frame c) s)).

(* PU 198-205: the first field of the name *)
Definition find_values (name : string) (c : acloud) : option (list (option R)) :=
  match find (fun f => String.eqb (af_name f) name) (ac_fields c) with Some f => Some (af_values f) | None => None end.
(* PU 60-75 with the default threshold 1e-6: a norm that is NaN is not counted *)
Definition bad_normal (v : option R * option R * option R) : bool :=
  match v with (Some x, Some y, Some z) => rltb (1 / 1000000) (Rabs (vnorm (x, y, z) - 1)) | _ => false end.
Definition check_normals (x y z : list (option R)) : nat := List.length (filter bad_normal (combine (combine x y) z)).
(* what is said of the normals (PA 29-37): nothing, all fine, so many of all are not *)
Inductive remark := Silent | AllFine | Bad (n all : nat).
Definition normals_remark (c : acloud) : remark :=
  match find_values "normal_x" c, find_values "normal_y" c, find_values "normal_z" c with
  | Some x, Some y, Some z => match check_normals x y z with O => AllFine | k => Bad k (ac_points c) end
  | _, _, _ => Silent
  end.
(* PA 16-38 *)
Definition analyse (c : acloud) : res (aarray * remark) := rbind (statistics c) (fun s => Ok (s, normals_remark c)).
(* the node: an exception in the callback ends it (pointcloud_analyser_main.cpp catches none) *)
Fixpoint node (l : list acloud) : list (aarray * remark) :=
  match l with [] => [] | c :: l => match analyse c with Ok o => o :: node l | _ => [] end end.
End Limits.
