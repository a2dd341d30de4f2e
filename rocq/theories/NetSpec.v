(* What a chain of modules should deliver.                                                          *)
From Verif Require Import Base NetModel.

Section NetSpec.
  Variable C S : Type.
  Variable f : S -> C -> res C.

  (* the messages published on a topic, oldest first *)
  Definition on (t : string) (l : list (string * C)) : list C :=
    map snd (filter (fun x => String.eqb (fst x) t) l).

  (* one message through all steps in order *)
  Fixpoint through (ops : list S) (m : C) : res C :=
    match ops with [] => Ok m | o :: ops' => rbind (f o m) (through ops') end.

  (* l can be obtained from l' by leaving messages out *)
  Inductive subseq {A} : list A -> list A -> Prop :=
  | ss_nil l : subseq [] l
  | ss_take x l l' : subseq l l' -> subseq (x :: l) (x :: l')
  | ss_skip x l l' : subseq l l' -> subseq l (x :: l').

  (* the messages the environment publishes *)
  Definition ins (ls : list (lab C)) : list C :=
    flat_map (fun l => match l with In_ _ _ m => [m] | _ => [] end) ls.

  (* modules wired one after the other from topic t to topic t' *)
  Fixpoint linked (t : string) (ns : list (nd S)) (t' : string) : Prop :=
    match ns with
    | [] => t = t'
    | n :: ns' => n_sub S n = t /\ linked (n_pub S n) ns' t'
    end.

  Definition topics (t : string) (ns : list (nd S)) : list string := t :: map (n_pub S) ns.

  (* the environment publishes on t only *)
  Definition feeds (t : string) (ls : list (lab C)) : Prop := forall t' m, In (In_ C t' m) ls -> t' = t.

  (* no callback can start or end *)
  Definition idle (cap : nat) (s : net C S) : Prop :=
    forall i, step C S f cap (Start C i) s = None /\ step C S f cap (Fin C i) s = None.
End NetSpec.
