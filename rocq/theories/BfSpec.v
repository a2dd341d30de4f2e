(* Specification of body frames: what a configuration tree declares. *)
From Coq Require Import ZArith Reals List Bool String.
From Verif Require Import Base Interp Geo EgModel BfModel.
Import ListNotations.
Open Scope string_scope.
Open Scope list_scope.

(* what an entry declares *)
Definition declared_id (name : string) (v : xv) : string := match member "frame_id" v with Some (XString s) => s | _ => name end.
Definition declared_flag (key : string) (v : xv) : bool := match member key v with Some (XBool b) => b | _ => false end.
Definition declared_dynamic (v : xv) : bool := declared_flag "dynamic" v.
Definition declared_lookup (v : xv) : bool := negb (declared_dynamic v) && declared_flag "lookup_tf" v.
Definition text (v : xv) : list string := match v with XString s => [s] | _ => [] end.
Definition declared_aliases (v : xv) : list string := match member "aliases" v with Some (XArray l) => flat_map text l | _ => [] end.
Definition children (v : xv) : list (string * xv) := match member "frames" v with Some (XStruct l) => l | _ => [] end.
Definition number (key : string) (v : xv) : R := match member key v with Some (XDouble r) => r | _ => 0%R end.
Definition declared_translation (v : xv) : vec3 := match member "translation" v with Some t => (number "x" t, number "y" t, number "z" t) | None => v0 end.
Definition declared_rotation (v : xv) : quat := match member "rotation" v with Some r => (number "w" r, number "x" r, number "y" r, number "z" r) | None => qI end.
(* m is the rotation given by a quaternion of any length; none for the zero quaternion *)
Definition turns (q : quat) (m : mat3) : Prop :=
  (q = (0, 0, 0, 0)%R /\ m = mI) \/ exists u n, qunit u /\ (0 < n)%R /\ (let '(w, x, y, z) := u in q = (n * w, n * x, n * y, n * z)%R) /\ m = qmat u.

Section Tree.
Variable look : string -> string -> Z -> res iso.
Variable body : string.
Variable root : xv.

(* entry v, named f, is declared inside the frame p *)
Inductive declared : string -> string -> xv -> Prop :=
| d_top f v : In (f, v) (children root) -> declared body f v
| d_in p f v g w : declared p f v -> In (g, w) (children v) -> declared f g w.
(* the id of a frame *)
Definition has_id (f id : string) : Prop := (f = body /\ id = declared_id body root) \/ exists p v, declared p f v /\ id = declared_id f v.
(* frame f stands at T relative to its parent p *)
Definition local (p f : string) (v : xv) (t : iso) : Prop :=
  if declared_lookup v then exists a b, has_id p a /\ has_id f b /\ look a b 0%Z = Ok t
  else tr t = declared_translation v /\ turns (declared_rotation v) (lin t).
(* frame f stands at T relative to the body *)
Inductive stands : string -> iso -> Prop :=
| s_body : stands body iid
| s_in p f v t u : declared p f v -> declared_dynamic v = false -> stands p t -> local p f v u -> stands f (imul t u).

(* all entries, parents before children *)
Fixpoint listing (v : xv) (f p : string) {struct v} : list (string * xv * string) :=
  (f, v, p) :: match v with
               | XStruct l => (fix find (l : list (string * xv)) := match l with [] => [] | (k, w) :: r =>
                   if String.eqb "frames" k then
                     match w with XStruct fs => (fix loop (fs : list (string * xv)) := match fs with [] => [] | (n, x) :: q => listing x n f ++ loop q end) fs | _ => [] end
                   else find r end) l
               | _ => [] end.
Definition listings (p : string) : list (string * xv) -> list (string * xv * string) := fix loop fs := match fs with [] => [] | (n, x) :: q => listing x n p ++ loop q end.
Definition entries : list (string * xv * string) := listings body (children root).
Definition names : list string := body :: map (fun e => fst (fst e)) entries.
Definition ids : list string := declared_id body root :: flat_map (fun e => declared_id (fst (fst e)) (snd (fst e)) :: (if declared_dynamic (snd (fst e)) then [] else declared_aliases (snd (fst e)))) entries.

(* types *)
Definition is_string (v : xv) : Prop := exists s, v = XString s.
Definition is_bool (v : xv) : Prop := exists s, v = XBool s.
Definition is_number (v : xv) : Prop := v = XInvalid \/ exists r, v = XDouble r.
Definition if_given (key : string) (v : xv) (P : xv -> Prop) : Prop := forall w, member key v = Some w -> P w.
Definition numbers (keys : list string) (v : xv) : Prop := forall k, In k keys -> if_given k v is_number.
Definition strings (v : xv) : Prop := exists l, v = XArray l /\ Forall is_string l.
Definition struct (v : xv) : Prop := exists l, v = XStruct l.
Definition well_formed (e : string * xv * string) : Prop :=
  let '(f, v, p) := e in
  if_given "frame_id" v is_string /\ if_given "dynamic" v is_bool /\
  if declared_dynamic v then forall k, In k ["aliases"; "lookup_tf"; "translation"; "rotation"; "frames"] -> member k v = None
  else struct v /\ if_given "lookup_tf" v is_bool /\ if_given "aliases" v strings /\ if_given "frames" v struct /\
    if declared_lookup v then exists a b t, has_id p a /\ has_id f b /\ look a b 0%Z = Ok t
    else if_given "translation" v (numbers ["x"; "y"; "z"]) /\ if_given "rotation" v (fun r => r = XInvalid \/ struct r /\ numbers ["w"; "x"; "y"; "z"] r).
End Tree.
