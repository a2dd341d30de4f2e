(* What is promised of the two services. *)
From Coq Require Import String List ZArith Bool.
From Verif Require Import Base FcModel.
Import ListNotations.
Open Scope Z_scope.
Open Scope list_scope.

Section Spec.
Context {D F : Type}.
(* what the readers and writers of PCL promise: what was written can be read under the same name, except for the header *)
Definition reads_back (decode : string -> F -> option (body D)) (encode : string -> body D -> option F) : Prop :=
  forall p b f, encode p b = Some f -> decode p f = Some b.
(* the number of points of a cloud *)
Definition uint32 (z : Z) : Prop := 0 <= z < 2 ^ 32.
Definition points (b : body D) : Z := b_w D b * b_h D b.
(* at nanosecond now, up to a microsecond *)
Definition stamped_now (now : Z) (c : cloud D) : Prop := c_stamp D c <= now < c_stamp D c + 1000 /\ c_stamp D c mod 1000 = 0.
(* the file of a request holds the cloud b *)
Definition holds (decode : string -> F -> option (body D)) (files : string -> option F) (p : string) (b : body D) : Prop := exists f, files p = Some f /\ decode p f = Some b.
(* the first request for a topic in a history asks for latch *)
Inductive first_latch (t : string) : list (event D F) -> bool -> Prop :=
| fl_here now q h : l_topic q = t -> first_latch t (ELoad D F now q :: h) (l_latch q)
| fl_other now q h b : l_topic q <> t -> first_latch t h b -> first_latch t (ELoad D F now q :: h) b
| fl_save a o l q h b : first_latch t h b -> first_latch t (ESave D F a o l q :: h) b
| fl_files g h b : first_latch t h b -> first_latch t (EFiles D F g :: h) b.
(* c is the last message on the topic *)
Definition last_message (t : string) (l : list (string * cloud D)) (c : cloud D) : Prop :=
  exists l1 l2, l = l1 ++ (t, c) :: l2 /\ forall c', ~ In (t, c') l2.
(* the calls of load that were answered *)
Definition answered (x : event D F * option Z) : bool := match x with (ELoad _ _ _ _, Some _) => true | _ => false end.
(* a message answers a call *)
Definition answers (x : event D F * option Z) (m : string * cloud D) : Prop :=
  match x with (ELoad _ _ now q, Some n) => fst m = l_topic q /\ c_frame D (snd m) = l_frame q /\ stamped_now now (snd m) /\ n = points (c_body D (snd m)) mod 2 ^ 32 | _ => False end.
End Spec.
