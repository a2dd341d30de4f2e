(* Specification of the front end's messages. *)
From Coq Require Import ZArith Reals List Bool String Sorted.
From Verif Require Import Base Mx Interp Geo EgModel CvModel MsModel NvModel NvSpec BfModel BfSpec FoModel.
Import ListNotations.
Open Scope R_scope.

(* the IMU messages that came, in order, and the optimised state that came last *)
Definition imus (l : list event) : list rimu := flat_map (fun e => match e with EImu m => [m] | _ => [] end) l.
Definition latest (l : list event) : option (odo * bias) := fold_left (fun a e => match e with EOdometry o bi => Some (o, bi) | _ => a end) l None.
Definition in_order (l : list rimu) : Prop := StronglySorted (fun a c => (ri_time a < ri_time c)%Z) l.
Definition later (t : Z) (l : list rimu) : list rimu := filter (fun m => Z.ltb t (ri_time m)) l.
(* m is the message closest to t, the earlier one of two *)
Definition closest (t : Z) (l : list rimu) (m : rimu) : Prop :=
  In m l /\ forall m', In m' l -> (Z.abs (t - ri_time m) < Z.abs (t - ri_time m'))%Z \/ (Z.abs (t - ri_time m) = Z.abs (t - ri_time m') /\ ri_time m <= ri_time m')%Z.

(* a gyroscope with a bias reads the rate plus the bias *)
Definition reads (reading rate gyro_bias : vec3) : Prop := reading = vadd rate gyro_bias.
(* poses: the body stands at P in the map, a frame at T on the body *)
Definition on_body (P T : iso) : iso := imul P T.
(* motion from one pose to another, seen from the first *)
Definition moved (p q : iso) : iso := imul (iinv p) q.
(* north, east, down to north, west, up *)
Definition ned_to_nwu (v : vec3) : vec3 := let '(n, e, d) := v in (n, - e, - d).
(* the configuration places frame f at T on the body *)
Definition placed (look : string -> string -> Z -> res iso) (cfg : xv) (f : string) (T : iso) : Prop := exists body root, cfg = XStruct [(body, root)] /\ stands look body root f T.
Definition named (cfg : xv) (f id : string) : Prop := exists body root, cfg = XStruct [(body, root)] /\ has_id body root f id.
Definition body_named (cfg : xv) (id : string) : Prop := exists body root, cfg = XStruct [(body, root)] /\ id = declared_id body root.
