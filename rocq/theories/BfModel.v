(* Body frames: configuration tree, transforms, names.  eigen_ros/src/body_frames.cpp (BF), body_frames_tf.cpp (BT);
   eigen_ext/include/eigen_ext/geometry.hpp.  Every exception (std::runtime_error, std::out_of_range, XmlRpc::XmlRpcException,
   tf2::TransformException) is Throw.  double is read as R. *)
From Coq Require Import ZArith Reals List Bool String.
From Verif Require Import Base Interp Geo EgModel.
Import ListNotations.
Open Scope string_scope.
Open Scope list_scope.

(* XmlRpc::XmlRpcValue; a struct is a std::map, listed in iteration order.  TypeDateTime and TypeBase64 do not occur as parameters *)
Inductive xv := XInvalid | XBool (b : bool) | XInt (z : Z) | XDouble (r : R) | XString (s : string) | XArray (l : list xv) | XStruct (l : list (string * xv)).
(* hasMember and operator[] on a const value: hasMember is false for anything but a struct *)
Definition member (key : string) (v : xv) : option xv := match v with XStruct l => sget key l | _ => None end.

Record frames := mkBF {
  bf_body : string;                     (* body_frame_ *)
  bf_ids : smap string;                 (* frame_ids_map *)
  bf_names : smap string;               (* frames_map: frame_id or alias -> frame *)
  bf_look : smap bool;                  (* lookedup_tf_map *)
  bf_dyn : smap bool;                   (* dynamic_map *)
  bf_al : smap (list string);           (* aliases_map, by frame_id *)
  bf_to : smap iso;                     (* body_to_frame_map *)
  bf_from : smap iso }.                 (* frame_to_body_map *)

(* if (!map.emplace(k, v).second) throw *)
Definition emplace {A} (k : string) (a : A) (m : smap A) : res (smap A) := match sget k m with Some _ => Throw | None => Ok ((k, a) :: m) end.
(* map.at(k) *)
Definition at_ {A} (k : string) (m : smap A) : res A := match sget k m with Some a => Ok a | None => Throw end.

Section Frames.
(* tf_buffer.lookupTransform(target id, source id, time, timeout) followed by from_ros, BF 125-132 *)
Variable look : string -> string -> Z -> res iso.

(* BF 26, 140 *)
Definition node_id (name : string) (v : xv) : res string := match member "frame_id" v with None => Ok name | Some (XString s) => Ok s | Some _ => Throw end.
(* BF 144, 210 *)
Definition flag (key : string) (v : xv) : res bool := match member key v with None => Ok false | Some (XBool b) => Ok b | Some _ => Throw end.
(* operator double& on a value of a struct that is not const: an invalid value becomes 0 *)
Definition as_double (v : xv) : res R := match v with XDouble r => Ok r | XInvalid => Ok 0%R | _ => Throw end.
(* BF 220-228 *)
Definition coordinate (key : string) (v : xv) : res R := match member key v with None => Ok 0%R | Some w => as_double w end.
(* BF 217-229 *)
Definition node_translation (v : xv) : res vec3 :=
  match member "translation" v with
  | None => Ok v0
  | Some t => rbind (coordinate "x" t) (fun x => rbind (coordinate "y" t) (fun y => rbind (coordinate "z" t) (fun z => Ok (x, y, z))))
  end.
(* BF 233-236: operator[] on a copy that is not const.  An invalid value becomes an empty struct, a missing member an invalid value *)
Definition component (key : string) (v : xv) : res R :=
  match v with
  | XStruct l => match sget key l with None => Ok 0%R | Some w => as_double w end
  | XInvalid => Ok 0%R
  | _ => Throw
  end.
(* BF 230-237 *)
Definition node_rotation (v : xv) : res quat :=
  match member "rotation" v with
  | None => Ok qI
  | Some r => rbind (component "w" r) (fun w => rbind (component "x" r) (fun x => rbind (component "y" r) (fun y => rbind (component "z" r) (fun z => Ok (w, x, y, z)))))
  end.
(* Eigen::Quaterniond::normalize: does nothing to zero *)
Definition qnormalise (q : quat) : quat := let '(w, x, y, z) := q in
  let n2 := (x * x + y * y + z * z + w * w)%R in
  if Rlt_dec 0 n2 then let n := sqrt n2 in (w / n, x / n, y / n, z / n)%R else q.
(* BF 125-132 *)
Definition lookup_transform (b : frames) (frame1 frame2 : string) (time : Z) : res iso :=
  rbind (at_ frame1 (bf_ids b)) (fun id1 => rbind (at_ frame2 (bf_ids b)) (fun id2 => look id1 id2 time)).

Definition is_struct (v : xv) : bool := match v with XStruct _ => true | _ => false end.
Definition set_look (b : frames) m := mkBF (bf_body b) (bf_ids b) (bf_names b) m (bf_dyn b) (bf_al b) (bf_to b) (bf_from b).
Definition set_dyn (b : frames) m := mkBF (bf_body b) (bf_ids b) (bf_names b) (bf_look b) m (bf_al b) (bf_to b) (bf_from b).
Definition set_al (b : frames) m := mkBF (bf_body b) (bf_ids b) (bf_names b) (bf_look b) (bf_dyn b) m (bf_to b) (bf_from b).
Definition set_names (b : frames) m := mkBF (bf_body b) (bf_ids b) m (bf_look b) (bf_dyn b) (bf_al b) (bf_to b) (bf_from b).
Definition set_strings (b : frames) i n := mkBF (bf_body b) i n (bf_look b) (bf_dyn b) (bf_al b) (bf_to b) (bf_from b).
Definition set_transforms (b : frames) t f := mkBF (bf_body b) (bf_ids b) (bf_names b) (bf_look b) (bf_dyn b) (bf_al b) t f.

(* BF 116-123 *)
Definition add_frame_strings (f id : string) (b : frames) : res frames :=
  rbind (emplace f id (bf_ids b)) (fun i => rbind (emplace id f (bf_names b)) (fun n => Ok (set_strings b i n))).
(* BF 102-114 *)
Definition add_frame_transforms (f : string) (t t' : iso) (b : frames) : res frames :=
  rbind (emplace f t (bf_to b)) (fun m => rbind (emplace f t' (bf_from b)) (fun m' => Ok (set_transforms b m m'))).
(* BF 204-242 *)
Definition transform_from_node (v : xv) (f parent : string) (b : frames) : res (frames * iso) :=
  if is_struct v then
    rbind (flag "lookup_tf" v) (fun lk =>
    rbind (emplace f lk (bf_look b)) (fun m =>
    let b' := set_look b m in
    if lk then rbind (lookup_transform b' parent f 0) (fun t => Ok (b', t))
    else rbind (node_translation v) (fun t => rbind (node_rotation v) (fun q => Ok (b', to_transform t (qnormalise q))))))
  else Throw.
(* BF 181-190 *)
Fixpoint add_aliases (l : list xv) (f : string) (b : frames) : res (frames * list string) :=
  match l with
  | [] => Ok (b, [])
  | XString s :: r => rbind (emplace s f (bf_names b)) (fun n => rbind (add_aliases r f (set_names b n)) (fun '(b', ss) => Ok (b', s :: ss)))
  | _ :: _ => Throw
  end.
(* BF 175-191 *)
Definition node_aliases (v : xv) (f : string) (b : frames) : res (frames * list string) :=
  match member "aliases" v with
  | None => Ok (b, [])
  | Some (XArray l) => add_aliases l f b
  | Some _ => Throw
  end.
Definition incompatible : list string := ["aliases"; "lookup_tf"; "translation"; "rotation"; "frames"].
(* BF 138-167, 170-194: one entry without its nested frames; None: dynamic *)
Definition enter (f : string) (v : xv) (prepend : iso) (parent : string) (b : frames) : res (frames * option iso) :=
  rbind (node_id f v) (fun id =>
  rbind (add_frame_strings f id b) (fun b1 =>
  rbind (flag "dynamic" v) (fun dyn =>
  rbind (emplace f dyn (bf_dyn b1)) (fun dm =>
  let b2 := set_dyn b1 dm in
  if dyn then
    if existsb (fun k => match member k v with Some _ => true | None => false end) incompatible then Throw
    else rbind (emplace f false (bf_look b2)) (fun lm => rbind (emplace id [] (bf_al b2)) (fun am => Ok (set_al (set_look b2 lm) am, None)))
  else
    rbind (transform_from_node v f parent b2) (fun '(b3, t) =>
    let t' := imul prepend t in
    rbind (add_frame_transforms f t' (iinv t') b3) (fun b4 =>
    rbind (node_aliases v f b4) (fun '(b5, al) =>
    rbind (emplace id al (bf_al b5)) (fun am => Ok (set_al b5 am, Some t'))))))))).
(* BF 134-202: one entry with its nested frames.  begin() of anything but a struct throws *)
Fixpoint process_frame (v : xv) (f : string) (prepend : iso) (parent : string) (b : frames) {struct v} : res frames :=
  rbind (enter f v prepend parent b) (fun '(b', t) =>
  match t with
  | None => Ok b'
  | Some t' =>
      match v with
      | XStruct l =>
          (fix find (l : list (string * xv)) : res frames :=
             match l with
             | [] => Ok b'
             | (k, w) :: r =>
                 if String.eqb "frames" k then
                   match w with
                   | XStruct fs => (fix loop (fs : list (string * xv)) (b : frames) : res frames :=
                       match fs with [] => Ok b | (n, x) :: q => rbind (process_frame x n t' f b) (loop q) end) fs b'
                   | _ => Throw
                   end
                 else find r
             end) l
      | _ => Ok b'
      end
  end).
Definition process_list (prepend : iso) (parent : string) : list (string * xv) -> frames -> res frames :=
  fix loop fs b := match fs with [] => Ok b | (n, x) :: q => rbind (process_frame x n prepend parent b) (loop q) end.
Definition process_frames (fs : option xv) (prepend : iso) (parent : string) (b : frames) : res frames :=
  match fs with None => Ok b | Some (XStruct l) => process_list prepend parent l b | Some _ => Throw end.

(* BF 10-46; the parameter is invalid if absent *)
Definition load (cfg : xv) : res frames :=
  match cfg with
  | XStruct [(body, v)] =>
      rbind (node_id body v) (fun id =>
      rbind (add_frame_strings body id (mkBF body [] [] [] [] [] [] [])) (fun b1 =>
      rbind (add_frame_transforms body iid iid b1) (fun b2 =>
      rbind (emplace body false (bf_look b2)) (fun lm =>
      rbind (emplace body false (bf_dyn b2)) (fun dm =>
      rbind (emplace id [] (bf_al b2)) (fun am =>
      let b3 := set_al (set_dyn (set_look b2 lm) dm) am in
      if is_struct v then process_frames (member "frames" v) iid body b3 else Throw))))))
  | _ => Throw
  end.

(* ---- accessors ---- *)
Definition aliases (b : frames) (id : string) : res (list string) := at_ id (bf_al b).                      (* BF 48-50 *)
Definition body_frame (b : frames) : string := bf_body b.                                                   (* BF 52-54 *)
Definition frame_id (b : frames) (f : string) : res string := at_ f (bf_ids b).                             (* BF 64-66 *)
Definition body_frame_id (b : frames) : res string := frame_id b (body_frame b).                            (* BF 56-58 *)
Definition is_dynamic (b : frames) (f : string) : res bool := at_ f (bf_dyn b).                             (* BF 98-100 *)
Definition lookedup_tf (b : frames) (f : string) : res bool := at_ f (bf_look b).                           (* BF 94-96 *)
Definition frame (b : frames) (id : string) : res string := at_ id (bf_names b).                            (* BF 86-88 *)
Definition has_frame (b : frames) (f : string) : bool := match sget f (bf_ids b) with Some _ => true | None => false end.   (* BF 90-92 *)
Definition frame_list (b : frames) : list string := map fst (bf_ids b).                                     (* BF 78-84; the order of an unordered_map is not specified *)
(* BF 60-62 *)
Definition body_to_frame (b : frames) (f : string) (time : Z) : res iso :=
  rbind (is_dynamic b f) (fun d => if d then lookup_transform b (bf_body b) f time else at_ f (bf_to b)).
(* BF 68-70 *)
Definition frame_to_body (b : frames) (f : string) (time : Z) : res iso :=
  rbind (is_dynamic b f) (fun d => if d then lookup_transform b f (bf_body b) time else at_ f (bf_from b)).
(* BF 72-76: the inner calls use the default time 0 *)
Definition frame_to_frame (b : frames) (f g : string) (time : Z) : res iso :=
  rbind (is_dynamic b f) (fun d1 => rbind (if d1 then Ok true else is_dynamic b g) (fun d =>
  if d then lookup_transform b f g time
  else rbind (frame_to_body b f 0) (fun x => rbind (body_to_frame b g 0) (fun y => Ok (imul x y))))).

(* ---- BT 12-33: the static transforms sent: parent id, child id, transform ---- *)
Definition tf_of_frame (b : frames) (f : string) : res (list (string * string * iso)) :=
  rbind (frame_id b f) (fun id => rbind (body_frame_id b) (fun bid =>
  rbind (if String.eqb id bid then Ok false else rbind (lookedup_tf b f) (fun l => Ok (negb l))) (fun send =>
  rbind (if send then rbind (body_to_frame b f 0) (fun t => Ok [(bid, id, t)]) else Ok []) (fun first =>
  rbind (aliases b id) (fun al => Ok (first ++ map (fun a => (id, a, iid)) al)))))).
Fixpoint tf_of_frames (b : frames) (l : list string) : res (list (string * string * iso)) :=
  match l with [] => Ok [] | f :: r => rbind (tf_of_frame b f) (fun x => rbind (tf_of_frames b r) (fun y => Ok (x ++ y))) end.
Definition static_transforms (b : frames) : res (list (string * string * iso)) := tf_of_frames b (frame_list b).
End Frames.
