(* Rotation with a constant angular velocity, as a law of motion. *)
From Coq Require Import Reals.
From Verif Require Import Base Interp Geo.
Open Scope R_scope.

(* X moves with velocity V at every time *)
Definition moves (X V : R -> vec3) : Prop := forall s, let '(vx, vy, vz) := V s in
  derivable_pt_lim (fun s => fst (fst (X s))) s vx /\ derivable_pt_lim (fun s => snd (fst (X s))) s vy /\ derivable_pt_lim (fun s => snd (X s)) s vz.
(* X is the path of a point, at p at time 0, of a body that turns about the origin with the constant angular velocity w *)
Definition turns (w p : vec3) (X : R -> vec3) : Prop := X 0 = p /\ moves X (fun s => vcross w (X s)).
(* X is the path of a point of a body that turns with the constant angular velocity w about its origin, which itself moves with velocity v *)
Definition travels (w v p : vec3) (X : R -> vec3) : Prop := X 0 = p /\ moves X (fun s => vadd v (vcross w (vsub (X s) (vscale s v)))).
(* the rotation vector r stands for the linear map m: turning for one unit of time with angular velocity r takes p to m p *)
Definition rotation_vector (r : vec3) (m : mat3) : Prop := forall p X, turns r p X -> X 1 = mapply m p.
