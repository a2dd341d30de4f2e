(* What the camera tools are meant to do, without reference to how the operations are carried out. *)
From Coq Require Import ZArith Reals List Bool String.
From Verif Require Import Base Interp Geo BfModel CamModel.
Import ListNotations.
Open Scope Z_scope.

(* A motion of the picture: the 2x2 matrix acting on offsets from the centre; x to the right, y down *)
Record motion2 := M2 { xx : Z; xy : Z; yx : Z; yy : Z }.
Definition still : motion2 := M2 1 0 0 1.
Definition after (b a : motion2) : motion2 :=   (* a first *)
  M2 (xx b * xx a + xy b * yx a) (xx b * xy a + xy b * yy a) (yx b * xx a + yy b * yx a) (yx b * xy a + yy b * yy a).
(* clockwise by k quarter turns: right goes to down, down to left *)
Definition quarters (k : Z) : motion2 :=
  match k mod 4 with 0 => still | 1 => M2 0 (-1) 1 0 | 2 => M2 (-1) 0 0 (-1) | _ => M2 0 1 (-1) 0 end.
Definition mirror (o : flip_option) : motion2 :=
  match o with FLIP_HORIZ => M2 (-1) 0 0 1 | FLIP_VERT => M2 1 0 0 (-1) | FLIP_BOTH => M2 (-1) 0 0 (-1) end.

(* what a user asks for: a rotation clockwise by so many degrees, a flip *)
Inductive command := Turn (degrees : Z) | Mirror (o : flip_option).
Inductive motion_of : command -> motion2 -> Prop :=
| turn_motion k : motion_of (Turn (90 * k)) (quarters k)
| mirror_motion o : motion_of (Mirror o) (mirror o).
(* one after the other *)
Inductive motion_of_all : list command -> motion2 -> Prop :=
| no_motion : motion_of_all [] still
| then_motion c l a b : motion_of c a -> motion_of_all l b -> motion_of_all (c :: l) (after b a).
(* the operation object made for a command *)
Definition made (c : command) : res operation := match c with Turn d => new_rotate d | Mirror o => Ok (new_flip o) end.
Definition all_made (l : list command) (ops : list operation) : Prop := Forall2 (fun c o => made c = Ok o) l ops.

Definition held {A} (p : picture A) (c r : Z) : Prop := 0 <= c < cols p /\ 0 <= r < rows p.
(* a size (width, height) after the motion *)
Definition size_after (m : motion2) (w h w' h' : Z) : Prop :=
  w' = Z.abs (xx m) * w + Z.abs (xy m) * h /\ h' = Z.abs (yx m) * w + Z.abs (yy m) * h.
(* the centre of pixel (c, r) goes to the centre of pixel (c', r'): twice the offsets from the middle of the picture *)
Definition carried (m : motion2) (w h w' h' c r c' r' : Z) : Prop :=
  2 * c' + 1 - w' = xx m * (2 * c + 1 - w) + xy m * (2 * r + 1 - h) /\
  2 * r' + 1 - h' = yx m * (2 * c + 1 - w) + yy m * (2 * r + 1 - h).
(* p' is p moved: every pixel of either has its counterpart *)
Definition moved {A} (m : motion2) (p p' : picture A) : Prop :=
  size_after m (cols p) (rows p) (cols p') (rows p') /\
  (forall c r, held p c r -> exists c' r', held p' c' r' /\
     carried m (cols p) (rows p) (cols p') (rows p') c r c' r' /\ px p' c' r' = px p c r) /\
  (forall c' r', held p' c' r' -> exists c r, held p c r /\
     carried m (cols p) (rows p) (cols p') (rows p') c r c' r' /\ px p' c' r' = px p c r).
Definition same_picture {A} (p p' : picture A) : Prop :=
  cols p = cols p' /\ rows p = rows p' /\ forall c r, held p c r -> px p c r = px p' c r.

Open Scope R_scope.
(* a point (u, v) of the image plane, measured from the top left corner of the picture, goes to (u', v') *)
Definition carried_point (m : motion2) (w h w' h' u v u' v' : R) : Prop :=
  2 * u' - w' = IZR (xx m) * (2 * u - w) + IZR (xy m) * (2 * v - h) /\
  2 * v' - h' = IZR (yx m) * (2 * u - w) + IZR (yy m) * (2 * v - h).
(* the same if integer coordinates are the centres of pixels (the convention of OpenCV and ROS) *)
Definition carried_centre (m : motion2) (w h w' h' u v u' v' : R) : Prop :=
  carried_point m w h w' h' (u + 1 / 2) (v + 1 / 2) (u' + 1 / 2) (v' + 1 / 2).

(* pinhole projection with K *)
Definition project (k : mat3) (p : vec3) : R * R := let '(a, b, c) := mapply k p in (a / c, b / c).
Definition pinhole (k : mat3) : Prop := exists fx fy cx cy, k = ((fx, 0, cx), (0, fy, cy), (0, 0, 1)).
(* the camera moved with its picture: the point in the axes of the new picture *)
Definition seen (m : motion2) (p : vec3) : vec3 :=
  let '(x, y, z) := p in (IZR (xx m) * x + IZR (xy m) * y, IZR (yx m) * x + IZR (yy m) * y, z).
Definition width (i : info) : R := IZR (i_width i).
Definition height (i : info) : R := IZR (i_height i).
Definition only_size_and_K (i i' : info) : Prop :=
  i_head i' = i_head i /\ i_model i' = i_model i /\ i_D i' = i_D i /\ i_R i' = i_R i /\ i_P i' = i_P i.
(* the info describes the moved picture *)
Definition describes_moved (m : motion2) (i i' : info) : Prop :=
  size_after m (i_width i) (i_height i) (i_width i') (i_height i') /\
  pinhole (i_K i') /\
  forall x y z, z <> 0 ->
    carried_point m (width i) (height i) (width i') (height i')
      (fst (project (i_K i) (x, y, z))) (snd (project (i_K i) (x, y, z)))
      (fst (project (i_K i') (seen m (x, y, z)))) (snd (project (i_K i') (seen m (x, y, z)))).

(* ------------------------------------------------------------------------------------------------ *)
(* the configuration of the splitter, setting by setting; l is the content of a struct *)
Open Scope string_scope.
Definition missing (k : string) (l : list (string * xv)) : Prop := sget k l = None \/ sget k l = Some XInvalid.
Definition int_in (k : string) (l : list (string * xv)) (z : Z) : Prop := sget k l = Some (XInt z) \/ (missing k l /\ z = 0%Z).
Definition double_in (k : string) (l : list (string * xv)) (x : R) : Prop := sget k l = Some (XDouble x) \/ (missing k l /\ x = 0).
Definition string_in (k : string) (l : list (string * xv)) (s : string) : Prop := sget k l = Some (XString s) \/ (missing k l /\ s = "").
Definition struct_in (k : string) (l l' : list (string * xv)) : Prop := sget k l = Some (XStruct l') \/ (missing k l /\ l' = []).

(* what the entries under operations ask for *)
Inductive asks : string * xv -> command -> Prop :=
| asks_cw d : asks ("rotate_cw", XInt d) (Turn d)
| asks_acw d : (360 - d <= max_int)%Z -> asks ("rotate_acw", XInt d) (Turn (360 - d))
| asks_horiz : asks ("flip", XString "horiz") (Mirror FLIP_HORIZ)
| asks_vert : asks ("flip", XString "vert") (Mirror FLIP_VERT)
| asks_both : asks ("flip", XString "both") (Mirror FLIP_BOTH).

Definition described (image : xv) (s : split_config) : Prop :=
  exists l region distortion intrinsic entries commands fx fy cx cy k1 k2 t1 t2 k3,
    image = XStruct l /\ sget "region" l = Some (XStruct region) /\
    struct_in "distortion" l distortion /\ struct_in "intrinsic" l intrinsic /\
    (sget "operations" l = Some (XStruct entries) \/ (sget "operations" l = None /\ entries = [])) /\
    Forall2 asks entries commands /\ all_made commands (s_ops s) /\
    string_in "topic" l (s_topic s) /\ string_in "info_topic" l (s_info_topic s) /\ string_in "frame_id" l (s_frame s) /\
    int_in "u" region (rc_u (s_region s)) /\ int_in "v" region (rc_v (s_region s)) /\
    int_in "w" region (rc_w (s_region s)) /\ int_in "h" region (rc_h (s_region s)) /\
    double_in "fx" intrinsic fx /\ double_in "fy" intrinsic fy /\ int_in "cx" intrinsic cx /\ int_in "cy" intrinsic cy /\
    string_in "model" distortion (i_model (s_info s)) /\
    double_in "k1" distortion k1 /\ double_in "k2" distortion k2 /\ double_in "t1" distortion t1 /\
    double_in "t2" distortion t2 /\ double_in "k3" distortion k3 /\
    i_D (s_info s) = [k1; k2; t1; t2; k3] /\
    i_K (s_info s) = ((fx, 0, IZR cx), (0, fy, IZR cy), (0, 0, 1)) /\
    i_P (s_info s) = (i_K (s_info s), v0) /\ i_R (s_info s) = m0 /\ i_head (s_info s) = mkHeader 0 "" /\
    (i_width (s_info s) = rc_w (s_region s) mod 2 ^ 32)%Z /\ (i_height (s_info s) = rc_h (s_region s) mod 2 ^ 32)%Z.

(* ------------------------------------------------------------------------------------------------ *)
(* a rectangle within a picture *)
Open Scope Z_scope.
Definition fits {A} (q : rect) (p : picture A) : Prop :=
  0 <= rc_u q /\ 0 <= rc_v q /\ 0 <= rc_w q /\ 0 <= rc_h q /\ rc_u q + rc_w q <= cols p /\ rc_v q + rc_h q <= rows p.
(* p' shows the rectangle q of p *)
Definition part {A} (q : rect) (p p' : picture A) : Prop :=
  cols p' = rc_w q /\ rows p' = rc_h q /\ forall c r, held p' c r -> px p' c r = px p (rc_u q + c) (rc_v q + r).
(* the operations of a configuration are rotations by multiples of 90 degrees and flips, with this motion in all *)
Definition moves_by (ops : list operation) (m : motion2) : Prop := exists l, all_made l ops /\ motion_of_all l m.
(* what one region of one message is published as *)
Definition published_as {A} (msg : message A) (s : split_config) (m' : message A) (i' : info) : Prop :=
  m_head m' = mkHeader (h_stamp (m_head msg)) (s_frame s) /\ i_head i' = m_head m' /\ m_encoding m' = m_encoding msg /\
  i_width i' = cols (m_pic m') /\ i_height i' = rows (m_pic m') /\
  exists p mo, part (s_region s) (m_pic msg) p /\ moves_by (s_ops s) mo /\ moved mo p (m_pic m') /\
    describes_moved mo (s_info s) i' /\ i_model i' = i_model (s_info s) /\ i_D i' = i_D (s_info s).
