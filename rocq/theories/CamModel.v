(* Camera tools: image operations, image splitter, camera info publisher, change of frame.
   camera_tools/src/image_operations.cpp (IO), split_image.cpp (SI), publish_info.cpp (PI), change_frame_id.cpp (CF).
   double is read as R.  Every exception (std::runtime_error, XmlRpc::XmlRpcException, cv::Exception) is Throw. *)
From Coq Require Import ZArith Reals List Bool String.
From Verif Require Import Base Interp Geo BfModel.
Import ListNotations.
Open Scope string_scope.
Open Scope list_scope.
Open Scope Z_scope.

(* std_msgs::Header without seq *)
Record header := mkHeader { h_stamp : Z; h_frame : string }.
(* cv::Mat / the pixels of sensor_msgs::Image: columns, rows, pixel at column and row.  The pixel type is any type *)
Record picture (A : Type) := mkPic { cols : Z; rows : Z; px : Z -> Z -> A }.
Arguments mkPic {A}. Arguments cols {A}. Arguments rows {A}. Arguments px {A}.
(* sensor_msgs::CameraInfo without binning and roi.  K and R are 3x3, P is 3x4 given as its left 3x3 block and last column *)
Record info := mkInfo { i_head : header; i_height : Z; i_width : Z; i_model : string; i_D : list R;
                        i_K : mat3; i_R : mat3; i_P : mat3 * vec3 }.

(* OpenCV: flip code 1 about the vertical axis, 0 about the horizontal axis, -1 about both; transpose *)
Definition cv_flip {A} (code : Z) (p : picture A) : picture A :=
  mkPic (cols p) (rows p) (fun c r => px p (if code =? 0 then c else cols p - 1 - c) (if 0 <? code then r else rows p - 1 - r)).
Definition cv_transpose {A} (p : picture A) : picture A := mkPic (rows p) (cols p) (fun c r => px p r c).
(* cv::RotateFlags and cv::rotate (modules/core: a transposition followed by a flip) *)
Inductive rotate_flag := ROTATE_90_CLOCKWISE | ROTATE_180 | ROTATE_90_COUNTERCLOCKWISE.
Definition cv_rotate {A} (o : rotate_flag) (p : picture A) : picture A :=
  match o with
  | ROTATE_90_CLOCKWISE => cv_flip 1 (cv_transpose p)
  | ROTATE_180 => cv_flip (-1) p
  | ROTATE_90_COUNTERCLOCKWISE => cv_flip 0 (cv_transpose p)
  end.

(* class Rotate; None: option was never set.  class Flip *)
Inductive operation := Rotate (option : option rotate_flag) | Flip (flip_code : Z).
Inductive flip_option := FLIP_HORIZ | FLIP_VERT | FLIP_BOTH.

(* IO 10-22; Z.rem is the C++ remainder *)
Definition new_rotate (degrees_clockwise : Z) : res operation :=
  let d := Z.rem degrees_clockwise 360 in
  if d <=? 0 then Throw
  else Ok (Rotate (if d =? 90 then Some ROTATE_90_CLOCKWISE
                   else if d =? 180 then Some ROTATE_180
                   else if d =? 270 then Some ROTATE_90_COUNTERCLOCKWISE
                   else None)).
(* IO 68-82 (the default case needs a value outside the enumeration) *)
Definition new_flip (o : flip_option) : operation :=
  match o with FLIP_HORIZ => Flip 1 | FLIP_VERT => Flip 0 | FLIP_BOTH => Flip (-1) end.

(* IO 24-28, 84-88 *)
Definition apply_picture {A} (o : operation) (p : picture A) : res (picture A) :=
  match o with
  | Rotate None => UB
  | Rotate (Some f) => Ok (cv_rotate f p)
  | Flip code => Ok (cv_flip code p)
  end.

(* camera info with another size and K *)
Definition resized (i : info) (height width : Z) (k : mat3) : info :=
  mkInfo (i_head i) height width (i_model i) (i_D i) k (i_R i) (i_P i).
(* IO 30-66, 90-109 *)
Definition apply_info (o : operation) (i : info) : res info :=
  let '((fx, k1, cx), (k3, fy, cy), r3) := i_K i in
  let h := IZR (i_height i) in let w := IZR (i_width i) in
  match o with
  | Rotate None => UB
  | Rotate (Some ROTATE_90_CLOCKWISE) => Ok (resized i (i_width i) (i_height i) ((fy, k1, h - cy), (k3, fx, cx), r3)%R)
  | Rotate (Some ROTATE_90_COUNTERCLOCKWISE) => Ok (resized i (i_width i) (i_height i) ((fy, k1, cy), (k3, fx, w - cx), r3)%R)
  | Rotate (Some ROTATE_180) => Ok (resized i (i_height i) (i_width i) ((fx, k1, w - cx), (k3, fy, h - cy), r3)%R)
  | Flip code =>
      if code =? 1 then Ok (resized i (i_height i) (i_width i) ((fx, k1, w - cx), (k3, fy, cy), r3)%R)
      else if code =? 0 then Ok (resized i (i_height i) (i_width i) ((fx, k1, cx), (k3, fy, h - cy), r3)%R)
      else if code =? -1 then Ok (resized i (i_height i) (i_width i) ((fx, k1, w - cx), (k3, fy, h - cy), r3)%R)
      else Ok i
  end.
(* SI 98-101 *)
Fixpoint apply_all {A} (l : list operation) (p : picture A) (i : info) : res (picture A * info) :=
  match l with
  | [] => Ok (p, i)
  | o :: l' => rbind (apply_picture o p) (fun p' => rbind (apply_info o i) (fun i' => apply_all l' p' i'))
  end.

(* ------------------------------------------------------------------------------------------------ *)
(* SI 14-88                                                                                           *)
Record rect := mkRect { rc_u : Z; rc_v : Z; rc_w : Z; rc_h : Z }.
(* split_image.hpp 17-24 *)
Record split_config := mkSplit { s_topic : string; s_info_topic : string; s_frame : string; s_region : rect; s_info : info; s_ops : list operation }.

(* std::map<std::string, XmlRpcValue> filled from the entries of a file, a later entry of the same name replaces the earlier *)
Fixpoint struct_put (k : string) (v : xv) (m : list (string * xv)) : list (string * xv) :=
  match m with
  | [] => [(k, v)]
  | (k', v') :: m' => match String.compare k k' with
                      | Lt => (k, v) :: m
                      | Eq => (k, v) :: m'
                      | Gt => (k', v') :: struct_put k v m'
                      end
  end.
Definition struct_of (l : list (string * xv)) : xv := XStruct (fold_left (fun m '(k, v) => struct_put k v m) l []).

(* operator[] on a struct that is not const: a missing member becomes an invalid value; an invalid value an empty struct; SI 24-56 *)
Definition entry (key : string) (v : xv) : res xv :=
  match v with
  | XStruct l => Ok (match sget key l with Some w => w | None => XInvalid end)
  | XInvalid => Ok XInvalid
  | _ => Throw
  end.
(* operator int&, operator std::string&, operator double& (as_double): an invalid value becomes 0 or empty *)
Definition as_int (v : xv) : res Z := match v with XInt z => Ok z | XInvalid => Ok 0 | _ => Throw end.
Definition as_string (v : xv) : res string := match v with XString s => Ok s | XInvalid => Ok "" | _ => Throw end.
Definition int_of (key : string) (v : xv) : res Z := rbind (entry key v) as_int.
Definition double_of (key : string) (v : xv) : res R := rbind (entry key v) as_double.
Definition string_of (key : string) (v : xv) : res string := rbind (entry key v) as_string.

Definition max_int : Z := 2147483647.
(* int to uint32 *)
Definition to_uint (z : Z) : Z := z mod 4294967296.

(* SI 65-83: one entry.  The conversions are const: an invalid value is a type error *)
Definition operation_of (e : string * xv) : res operation :=
  if String.eqb (fst e) "rotate_cw" then match snd e with XInt d => new_rotate d | _ => Throw end
  else if String.eqb (fst e) "rotate_acw" then
    match snd e with
    | XInt d => if max_int <? 360 - d then UB else new_rotate (Z.rem (360 - d) 360)
    | _ => Throw
    end
  else if String.eqb (fst e) "flip" then
    match snd e with
    | XString s => if String.eqb s "horiz" then Ok (new_flip FLIP_HORIZ)
                   else if String.eqb s "vert" then Ok (new_flip FLIP_VERT)
                   else if String.eqb s "both" then Ok (new_flip FLIP_BOTH)
                   else Throw
    | _ => Throw
    end
  else Throw.
Fixpoint all_ok {A B} (f : A -> res B) (l : list A) : res (list B) :=
  match l with
  | [] => Ok []
  | a :: l' => rbind (f a) (fun b => rbind (all_ok f l') (fun bs => Ok (b :: bs)))
  end.
(* SI 59-85.  The test of 61 looks at region, which is a struct at this point; begin() of xmlrpcpp reads the map without a type check *)
Definition operations_of (image : xv) : res (list operation) :=
  match member "operations" image with
  | None => Ok []
  | Some (XStruct l) => all_ok operation_of l
  | Some _ => UB
  end.

(* SI 20-85; what advertise() refuses is not modelled *)
Definition parse_image (image : xv) : res split_config :=
  if is_struct image then
    rbind (string_of "topic" image) (fun topic =>
    rbind (entry "region" image) (fun region =>
    if is_struct region then
      rbind (int_of "u" region) (fun u => rbind (int_of "v" region) (fun v => rbind (int_of "w" region) (fun w => rbind (int_of "h" region) (fun h =>
      rbind (string_of "info_topic" image) (fun info_topic =>
      rbind (entry "distortion" image) (fun distortion =>
      rbind (string_of "model" distortion) (fun model =>
      rbind (double_of "k1" distortion) (fun k1 => rbind (double_of "k2" distortion) (fun k2 =>
      rbind (double_of "t1" distortion) (fun t1 => rbind (double_of "t2" distortion) (fun t2 => rbind (double_of "k3" distortion) (fun k3 =>
      rbind (entry "intrinsic" image) (fun intrinsic =>
      rbind (double_of "fx" intrinsic) (fun fx => rbind (int_of "cx" intrinsic) (fun cx =>
      rbind (double_of "fy" intrinsic) (fun fy => rbind (int_of "cy" intrinsic) (fun cy =>
      rbind (string_of "frame_id" image) (fun frame =>
      rbind (operations_of image) (fun ops =>
      let k := ((fx, 0, IZR cx), (0, fy, IZR cy), (0, 0, 1))%R in
      Ok (mkSplit topic info_topic frame (mkRect u v w h)
           (mkInfo (mkHeader 0 "") (to_uint h) (to_uint w) model [k1; k2; t1; t2; k3] k m0 (k, v0)) ops))))))))))))))))))))
    else Throw))
  else Throw.
(* SI 14-88 *)
Definition parse_configuration (images : xv) : res (list split_config) :=
  match images with XArray l => all_ok parse_image l | _ => Throw end.

(* ------------------------------------------------------------------------------------------------ *)
(* SI 90-106                                                                                          *)
Record message (A : Type) := mkMsg { m_head : header; m_encoding : string; m_pic : picture A }.
Arguments mkMsg {A}. Arguments m_head {A}. Arguments m_encoding {A}. Arguments m_pic {A}.
(* what reaches the topics, in order *)
Inductive output (A : Type) := PubImage (topic : string) (m : message A) | PubInfo (topic : string) (i : info).
Arguments PubImage {A}. Arguments PubInfo {A}.

(* cv::Mat::operator()(Rect): CV_Assert that the rectangle lies in the image *)
Definition inside {A} (p : picture A) (q : rect) : bool :=
  (0 <=? rc_u q) && (0 <=? rc_w q) && (rc_u q + rc_w q <=? cols p) && (0 <=? rc_v q) && (0 <=? rc_h q) && (rc_v q + rc_h q <=? rows p).
Definition crop {A} (p : picture A) (q : rect) : res (picture A) :=
  if inside p q then Ok (mkPic (rc_w q) (rc_h q) (fun c r => px p (rc_u q + c) (rc_v q + r))) else Throw.
Definition with_header (i : info) (h : header) : info := mkInfo h (i_height i) (i_width i) (i_model i) (i_D i) (i_K i) (i_R i) (i_P i).
(* SI 94-103 *)
Definition split_one {A} (msg : message A) (s : split_config) : res (message A * info) :=
  rbind (crop (m_pic msg) (s_region s)) (fun p =>
  let h := mkHeader (h_stamp (m_head msg)) (s_frame s) in
  rbind (apply_all (s_ops s) p (with_header (s_info s) h)) (fun '(p', i') => Ok (mkMsg h (m_encoding msg) p', i'))).
(* SI 93-104: what was published before an exception stays published.  toCvShare of a well formed message *)
Fixpoint split {A} (msg : message A) (l : list split_config) : list (output A) * res unit :=
  match l with
  | [] => ([], Ok tt)
  | s :: l' => match split_one msg s with
               | Ok (m, i) => let (o, r) := split msg l' in (PubImage (s_topic s) m :: PubInfo (s_info_topic s) i :: o, r)
               | Throw => ([], Throw)
               | UB => ([], UB)
               end
  end.

(* ------------------------------------------------------------------------------------------------ *)
(* PI 14-31: parameters as read (numbers default 0, distortion model "", coefficients empty) *)
Record lens := mkLens { l_fx : R; l_cx : R; l_fy : R; l_cy : R }.
Definition publish_info_init (model : string) (d : list R) (k p : lens) (baseline : R) : info :=
  mkInfo (mkHeader 0 "") 0 0 model d
    ((l_fx k, 0, l_cx k), (0, l_fy k, l_cy k), (0, 0, 1))%R mI
    (((l_fx p, 0, l_cx p), (0, l_fy p, l_cy p), (0, 0, 1)), (- l_fx p * baseline, 0, 0))%R.
(* PI 34-39: the stored info is changed and published *)
Definition publish_info_callback {A} (i : info) (m : message A) : info :=
  mkInfo (m_head m) (rows (m_pic m)) (cols (m_pic m)) (i_model i) (i_D i) (i_K i) (i_R i) (i_P i).
(* a run of the node: what it publishes *)
Fixpoint publish_info_run {A} (i : info) (l : list (message A)) : list info :=
  match l with [] => [] | m :: l' => let i' := publish_info_callback i m in i' :: publish_info_run i' l' end.

(* CF 23-30 *)
Definition change_frame_id {A} (frame : string) (m : message A) (i : info) : message A * info :=
  (mkMsg (mkHeader (h_stamp (m_head m)) frame) (m_encoding m) (m_pic m),
   with_header i (mkHeader (h_stamp (i_head i)) frame)).
