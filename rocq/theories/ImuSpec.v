(* Independent description of IMU buffers as functions of time. *)
From Verif Require Import Base ImuModel.

(* the measurement in force at time t: the latest one not after t (zero-order hold) *)
Fixpoint hold (t : Z) (b : list imu) (d : option Z) : option Z :=
  match b with [] => d | (s, v) :: b' => hold t b' (if s <=? t then Some v else d) end.

(* the payload integrated at time t by consecutive steps beginning at [now] *)
Fixpoint applied (now t : Z) (l : list step) : option Z :=
  match l with
  | [] => None
  | (v, d) :: l' => if t <? now then None else if t <? now + d then Some v else applied (now + d) t l'
  end.

Definition total (l : list step) : Z := fold_right (fun x a => snd x + a) 0 l.

(* stamps do not decrease / strictly increase *)
Fixpoint ordered (b : list imu) : Prop :=
  match b with [] => True | x :: b' => (forall y, In y b' -> fst x <= fst y) /\ ordered b' end.
Fixpoint strict (b : list imu) : Prop :=
  match b with [] => True | x :: b' => (forall y, In y b' -> fst x < fst y) /\ strict b' end.
