(* Properties C52, C84-C87: camera tools. Proofs in CamProofs.v, CamMore.v, CamNodes.v; cases and refutations in CamExamples.v. *)
From Coq Require Import ZArith Reals List String Permutation Sorted.
From Verif Require Import Base Interp Geo BfModel CamModel CamSpec CamProofs CamMore CamNodes CamExamples.

(* C52 *)
Theorem C52_operations_follow :
  forall (A : Type) (l : list command) (ops : list operation) (m : motion2) (p : picture A) (i : info),
    all_made l ops ->
    motion_of_all l m ->
    pinhole (i_K i) ->
    exists (p' : picture A) (i' : info), apply_all ops p i = Ok (p', i') /\ moved m p p' /\ describes_moved m i i' /\ only_size_and_K i i'.
Proof. exact (@operations_follow). Qed.
Theorem C52_same_motion_same_result :
  forall (A : Type) (l1 l2 : list command) (ops1 ops2 : list operation) (m : motion2) (p : picture A) (i : info),
    all_made l1 ops1 ->
    all_made l2 ops2 ->
    motion_of_all l1 m ->
    motion_of_all l2 m ->
    exists (p1 p2 : picture A) (i' : info), apply_all ops1 p i = Ok (p1, i') /\ apply_all ops2 p i = Ok (p2, i') /\ same_picture p1 p2.
Proof. exact (@same_motion). Qed.
Theorem C52_no_motion_nothing :
  forall (A : Type) (l : list command) (ops : list operation) (p : picture A) (i : info),
    all_made l ops -> motion_of_all l still -> exists p' : picture A, apply_all ops p i = Ok (p', i) /\ same_picture p' p.
Proof. exact (@no_motion_nothing). Qed.
Theorem C52_size_follows :
  forall (A : Type) (ops : list operation) (p : picture A) (i : info) (p' : picture A) (i' : info),
    apply_all ops p i = Ok (p', i') -> i_width i = cols p -> i_height i = rows p -> i_width i' = cols p' /\ i_height i' = rows p'.
Proof. exact (@size_follows). Qed.
Theorem C52_centre_error :
  forall (A : Type) (l : list command) (ops : list operation) (m : motion2) (p : picture A) (i : info) (p' : picture A) 
      (i' : info) (fx cx fy cy fx' cx' fy' cy' : R),
    all_made l ops ->
    motion_of_all l m ->
    apply_all ops p i = Ok (p', i') ->
    i_K i = (fx, 0%R, cx, (0%R, fy, cy), (0%R, 0%R, 1%R)) ->
    i_K i' = (fx', 0%R, cx', (0%R, fy', cy'), (0%R, 0%R, 1%R)) ->
    let ex := if xx m + xy m =? -1 then 1%R else 0%R in
    let ey := if yx m + yy m =? -1 then 1%R else 0%R in carried_centre m (width i) (height i) (width i') (height i') cx cy (cx' - ex) (cy' - ey).
Proof. exact (@centre_error). Qed.
Theorem C52_centre_refuted :
  exists (p : picture (Z * Z)) (i : info) (p' : picture (Z * Z)) (i' : info) (x : vec3) (c r c' r' : Z),
      apply_picture (Rotate (Some ROTATE_180)) p = Ok p' /\
      apply_info (Rotate (Some ROTATE_180)) i = Ok i' /\
      i_width i = cols p /\
      i_height i = rows p /\
      held p c r /\
      held p' c' r' /\
      px p' c' r' = px p c r /\
      carried (quarters 2) (cols p) (rows p) (cols p') (rows p') c r c' r' /\
      project (i_K i) x = (IZR c, IZR r) /\ project (i_K i') (seen (quarters 2) x) = ((IZR c' + 1)%R, (IZR r' + 1)%R).
Proof. exact (@centre_refuted). Qed.
Theorem C52_projection_matrix_refuted :
  exists i i' : info, i_P i = (i_K i, v0) /\ apply_info (Rotate (Some ROTATE_90_CLOCKWISE)) i = Ok i' /\ i_P i' <> (i_K i', v0).
Proof. exact (@projection_matrix_refuted). Qed.

(* C84: angles *)
Theorem C84_accepted_iff :
  forall d : Z, (exists o : operation, new_rotate d = Ok o) <-> 0 < d /\ d mod 360 <> 0.
Proof. exact (@turn_accepted). Qed.
Theorem C84_refused :
  forall d : Z, ~ (0 < d /\ d mod 360 <> 0) -> new_rotate d = Throw.
Proof. exact (@turn_refused). Qed.
Theorem C84_usable_iff :
  forall (A : Type) (d : Z) (o : operation) (p : picture A) (i : info),
    new_rotate d = Ok o ->
    d mod 90 = 0 /\ (exists (p' : picture A) (i' : info), apply_picture o p = Ok p' /\ apply_info o i = Ok i') \/
    d mod 90 <> 0 /\ apply_picture o p = UB /\ apply_info o i = UB.
Proof. exact (@turn_usable). Qed.
Theorem C84_anticlockwise :
  forall (d : Z) (o : operation), operation_of ("rotate_acw", XInt d) = Ok o -> made (Turn (360 - d)) = Ok o /\ d < 360 /\ d mod 360 <> 0.
Proof. exact (@anticlockwise). Qed.
Theorem C84_anticlockwise_undoes :
  forall (A : Type) (d : Z) (o o' : operation) (p : picture A) (i : info),
    d mod 90 = 0 ->
    operation_of ("rotate_cw", XInt d) = Ok o ->
    operation_of ("rotate_acw", XInt d) = Ok o' -> exists p' : picture A, apply_all [o; o'] p i = Ok (p', i) /\ same_picture p' p.
Proof. exact (@anticlockwise_undoes). Qed.
Theorem C84_zero_refuted :
  exists d : Z, In d [0; 90; 180; 270] /\ operation_of ("rotate_cw", XInt d) = Throw /\ operation_of ("rotate_acw", XInt d) = Throw.
Proof. exact (@zero_refuted). Qed.
Theorem C84_odd_angle_refuted :
  exists (ops : xv) (s : split_config),
      ops = struct_of [("rotate_cw", XInt 45)] /\ parse_image (camera2 ops) = Ok s /\ split wide [s] = ([], UB).
Proof. exact (@odd_angle_refuted). Qed.

(* C85: configuration of the splitter *)
Theorem C85_loads_iff :
  forall (images : xv) (l : list split_config),
    parse_configuration images = Ok l <-> (exists v : list xv, images = XArray v /\ Forall2 described v l).
Proof. exact (@parse_all_iff). Qed.
Theorem C85_undefined_only :
  forall image : xv,
    parse_image image = UB ->
    exists (l : list (string * xv)) (v : xv),
      image = XStruct l /\
      sget "operations" l = Some v /\
      (is_struct v = false \/
       (exists (entries : list (string * xv)) (d : Z), v = XStruct entries /\ In ("rotate_acw", XInt d) entries /\ d < 360 - max_int)).
Proof. exact (@parse_undefined). Qed.
Theorem C85_order_ignored :
  forall l l' : list (string * xv), NoDup (map fst l) -> Permutation l l' -> struct_of l = struct_of l'.
Proof. exact (@order_ignored). Qed.
Theorem C85_last_entry_kept :
  forall (l m : list (string * xv)) (k : string),
    struct_of l = XStruct m -> sget k m = option_map snd (find (fun e : string * xv => (k =? fst e)%string) (rev l)).
Proof. exact (@last_entry). Qed.
Theorem C85_order_fixed :
  forall (l entries : list (string * xv)) (ops : list operation),
    NoDup (map fst l) ->
    struct_of l = XStruct entries ->
    all_ok operation_of entries = Ok ops ->
    Permutation l entries /\
    StronglySorted (fun a b : string * xv => rank a < rank b) entries /\
    Forall2 (fun (e : string * xv) (o : operation) => operation_of e = Ok o) entries ops.
Proof. exact (@order_fixed). Qed.
Theorem C85_order_refuted :
  exists (ops : xv) (o1 o2 : operation) (m1 : message (Z * Z)) (i1 : info) (p p' : picture (Z * Z)) (i : info),
      ops = struct_of [("rotate_cw", XInt 90); ("flip", XString "horiz")] /\
      operation_of ("rotate_cw", XInt 90) = Ok o1 /\
      operation_of ("flip", XString "horiz") = Ok o2 /\
      (exists s : split_config, parse_image (camera2 ops) = Ok s /\ split_one wide s = Ok (m1, i1)) /\
      crop (m_pic wide) {| rc_u := 800; rc_v := 0; rc_w := 800; rc_h := 600 |} = Ok p /\
      apply_all [o1; o2] p small_info = Ok (p', i) /\ ~ same_picture (m_pic m1) p'.
Proof. exact (@order_refuted). Qed.
Theorem C85_operations_list_refuted :
  exists ops : xv, ops = XArray [struct_of [("rotate_cw", XInt 90)]; struct_of [("flip", XString "horiz")]] /\ parse_image (camera2 ops) = UB.
Proof. exact (@operations_list_refuted). Qed.
Theorem C85_number_types_refuted :
  (exists s : split_config, parse_image (with_intrinsic (XDouble 600) (XInt 480)) = Ok s) /\
    parse_image (with_intrinsic (XInt 600) (XInt 480)) = Throw /\ (forall x : R, parse_image (with_intrinsic (XDouble 600) (XDouble x)) = Throw).
Proof. exact (@number_types_refuted). Qed.
Theorem C85_missing_settings_accepted :
  exists s : split_config,
      parse_image (struct_of [("region", struct_of [])]) = Ok s /\
      s_region s = {| rc_u := 0; rc_v := 0; rc_w := 0; rc_h := 0 |} /\ i_K (s_info s) = (0%R, 0%R, 0%R, (0%R, 0%R, 0%R), (0%R, 0%R, 1%R)).
Proof. exact (@missing_settings_accepted). Qed.

(* C86: what the splitter publishes *)
Theorem C86_publishes :
  forall (A : Type) (msg : message A) (l : list split_config),
    Forall works l ->
    Forall (fun s : split_config => fits (s_region s) (m_pic msg)) l ->
    exists o : list (output A), split msg l = (o, Ok tt) /\ publications msg l o.
Proof. exact (@split_publishes). Qed.
Theorem C86_stops :
  forall (A : Type) (msg : message A) (l1 : list split_config) (s : split_config) (l2 : list split_config),
    Forall works l1 ->
    Forall (fun s0 : split_config => fits (s_region s0) (m_pic msg)) l1 ->
    ~ fits (s_region s) (m_pic msg) -> exists o : list (output A), split msg (l1 ++ s :: l2) = (o, Throw) /\ publications msg l1 o.
Proof. exact (@split_stops). Qed.
Theorem C86_rectification_zero :
  forall (image : xv) (s : split_config), parse_image image = Ok s -> i_R (s_info s) = m0.
Proof. exact (@rectification_zero). Qed.

(* C87 *)
Theorem C87_info_per_image :
  forall (A : Type) (model : string) (d : list R) (k p : lens) (baseline : R) (l : list (message A)),
    Forall2
      (fun (m : message A) (i : info) =>
       i_head i = m_head m /\
       i_width i = cols (m_pic m) /\
       i_height i = rows (m_pic m) /\
       i_model i = model /\
       i_D i = d /\
       (forall x y z : R,
        z <> 0%R ->
        project (i_K i) (x, y, z) = ((l_fx k * (x / z) + l_cx k)%R, (l_fy k * (y / z) + l_cy k)%R) /\
        mapply (i_R i) (x, y, z) = (x, y, z) /\
        project_P (i_P i) (x, y, z) = ((l_fx p * ((x - baseline) / z) + l_cx p)%R, (l_fy p * (y / z) + l_cy p)%R))) l
      (publish_info_run (publish_info_init model d k p baseline) l).
Proof. exact (@info_per_image). Qed.
Theorem C87_frame_changed :
  forall (A : Type) (frame : string) (m : message A) (i : info),
    let (m', i') := change_frame_id frame m i in
    h_frame (m_head m') = frame /\
    h_frame (i_head i') = frame /\
    h_stamp (m_head m') = h_stamp (m_head m) /\
    h_stamp (i_head i') = h_stamp (i_head i) /\
    m_encoding m' = m_encoding m /\
    m_pic m' = m_pic m /\ i_width i' = i_width i /\ i_height i' = i_height i /\ i_K i' = i_K i /\ only_size_and_K (with_header i (i_head i')) i'.
Proof. exact (@frame_changed). Qed.

Print Assumptions C52_operations_follow.
Print Assumptions C52_same_motion_same_result.
Print Assumptions C52_no_motion_nothing.
Print Assumptions C52_size_follows.
Print Assumptions C52_centre_error.
Print Assumptions C52_centre_refuted.
Print Assumptions C52_projection_matrix_refuted.
Print Assumptions C84_accepted_iff.
Print Assumptions C84_refused.
Print Assumptions C84_usable_iff.
Print Assumptions C84_anticlockwise.
Print Assumptions C84_anticlockwise_undoes.
Print Assumptions C84_zero_refuted.
Print Assumptions C84_odd_angle_refuted.
Print Assumptions C85_loads_iff.
Print Assumptions C85_undefined_only.
Print Assumptions C85_order_ignored.
Print Assumptions C85_last_entry_kept.
Print Assumptions C85_order_fixed.
Print Assumptions C85_order_refuted.
Print Assumptions C85_operations_list_refuted.
Print Assumptions C85_number_types_refuted.
Print Assumptions C85_missing_settings_accepted.
Print Assumptions C86_publishes.
Print Assumptions C86_stops.
Print Assumptions C86_rectification_zero.
Print Assumptions C87_info_per_image.
Print Assumptions C87_frame_changed.
