(* Repairing the stamps of a recording: snowboard/scripts/repair_ouster_timestamps.py (RT).  Times in nanoseconds, not negative; the range of the
   stored stamps is left out. *)
From Coq Require Import ZArith List Bool String.
Import ListNotations.
Open Scope Z_scope.

(* a message with its topic and the time at which it was recorded; r_stamp is None for a message without a header *)
Record rmsg := mkR { r_topic : string; r_stamp : option Z; r_time : Z; r_body : nat }.
(* RT 18: genpy.Duration(0, 1e8) *)
Definition period : Z := 100000000.
(* Python: a in b for strings *)
Fixpoint within (a b : string) : bool := String.prefix a b || match b with EmptyString => false | String _ b' => within a b' end.
(* RT 35-47 for a topic name; last_timestamp and corrected_count with what is written *)
Fixpoint repair (topic : string) (l : list rmsg) (last : Z) (count : nat) : list rmsg * nat :=
  match l with
  | [] => ([], count)
  | m :: l =>
    if within (r_topic m) topic then
      match r_stamp m with
      | None => let r := repair topic l last count in (m :: fst r, snd r)
      | Some t => let t' := if Z.eqb t 0 then last + period else t in
          let r := repair topic l t' (if Z.eqb t 0 then S count else count) in (mkR (r_topic m) (Some t') (r_time m) (r_body m) :: fst r, snd r)
      end
    else let r := repair topic l last count in (m :: fst r, snd r)
  end.
(* RT 17, 33-34 *)
Definition CLOUDS : string := "/os_cloud_node/points".
Definition repaired (l : list rmsg) : list rmsg := fst (repair CLOUDS l 0 0).
Definition corrected (l : list rmsg) : nat := snd (repair CLOUDS l 0 0).
