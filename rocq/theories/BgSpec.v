(* Specification of reading: which messages of a bag are wanted, which file the k-th entry is about *)
From Coq Require Import String List Bool Arith.
From Verif Require Import Base BgModel.
Import ListNotations.
Open Scope nat_scope.

(* l: the messages of topic t and type ty of the bag, in the order recorded *)
Inductive picks {M} (t ty : string) : list (brec M) -> list M -> Prop :=
| picks_none : picks t ty [] []
| picks_take r b l : br_topic r = t -> br_type r = ty -> picks t ty b l -> picks t ty (r :: b) (br_msg r :: l)
| picks_skip r b l : br_topic r <> t \/ br_type r <> ty -> picks t ty b l -> picks t ty (r :: b) l.
(* the file is there and has such messages, namely l *)
Definition recorded {M} (store : string -> option (list (brec M))) (path t ty : string) (l : list M) : Prop := exists b, store path = Some b /\ picks t ty b l /\ l <> [].

(* directories and file names of one evaluation: as many of both, or one directory for all, or one name in every directory *)
Definition pair_up (dirs files paths : list string) : Prop :=
  (exists d, dirs = [d] /\ paths = map (fun f => (d ++ f)%string) files) \/
  (exists f, files = [f] /\ paths = map (fun d => (d ++ f)%string) dirs) \/
  (List.length dirs = List.length files /\ paths = map (fun x => (fst x ++ snd x)%string) (combine dirs files)).
