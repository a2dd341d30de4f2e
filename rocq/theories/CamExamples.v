(* Camera tools: concrete cases and refutations. *)
From Coq Require Import ZArith Reals Lra Lia List Bool String.
From Verif Require Import Base Interp Geo BfModel CamModel CamSpec CamProofs CamMore CamNodes.
Import ListNotations.
Open Scope string_scope.
Open Scope list_scope.
Open Scope Z_scope.

(* 3 columns, 2 rows, the pixel is its place *)
Definition small : picture (Z * Z) := mkPic 3 2 (fun c r => (c, r)).
Definition small_info : info := mkInfo (mkHeader 5 "cam") 2 3 "plumb_bob" [] ((10, 0, 1), (0, 20, 1 / 2), (0, 0, 1))%R mI (((10, 0, 1), (0, 20, 1 / 2), (0, 0, 1))%R, v0).

Example small_turned : exists p, apply_picture (Rotate (Some ROTATE_90_CLOCKWISE)) small = Ok p /\ cols p = 2 /\ rows p = 3 /\
  px p 0 0 = (0, 1) /\ px p 1 0 = (0, 0) /\ px p 0 2 = (2, 1).
Proof. eexists. split; [reflexivity |]. repeat split. Qed.
(* hypotheses of operations_follow, same_motion and no_motion_nothing *)
Example four_turns : all_made [Turn 90; Turn 90; Turn 90; Turn 450] (repeat (Rotate (Some ROTATE_90_CLOCKWISE)) 4) /\ motion_of_all [Turn 90; Turn 90; Turn 90; Turn 450] still /\ pinhole (i_K small_info).
Proof.
  split; [repeat constructor | split].
  - change still with (after (after (after (after still (quarters 5)) (quarters 1)) (quarters 1)) (quarters 1)).
    apply (then_motion (Turn (90 * 1)) _ (quarters 1)); [constructor |]. apply (then_motion (Turn (90 * 1)) _ (quarters 1)); [constructor |].
    apply (then_motion (Turn (90 * 1)) _ (quarters 1)); [constructor |]. apply (then_motion (Turn (90 * 5)) _ (quarters 5)); constructor.
  - repeat eexists.
Qed.
Example turn_and_flip : motion_of_all [Turn 180; Mirror FLIP_VERT] (mirror FLIP_HORIZ) /\ motion_of_all [Mirror FLIP_HORIZ] (mirror FLIP_HORIZ).
Proof.
  split.
  - change (mirror FLIP_HORIZ) with (after (after still (mirror FLIP_VERT)) (quarters 2)).
    apply (then_motion (Turn (90 * 2)) _ (quarters 2)); [constructor |]. repeat constructor.
  - change (motion_of_all [Mirror FLIP_HORIZ] (after still (mirror FLIP_HORIZ))). repeat constructor.
Qed.

(* the documentation lists 0 among the angles *)
Theorem zero_refuted : exists d, In d [0; 90; 180; 270] /\ operation_of ("rotate_cw", XInt d) = Throw /\ operation_of ("rotate_acw", XInt d) = Throw.
Proof. exists 0. split; [left; reflexivity | split; reflexivity]. Qed.

(* The camera model of OpenCV and ROS puts the centre of the first pixel at (0, 0).  A world point seen at the centre of pixel (c, r) should be
   seen at the centre of the pixel to which that pixel was moved. *)
Theorem centre_refuted : exists (p : picture (Z * Z)) i p' i' x c r c' r',
  apply_picture (Rotate (Some ROTATE_180)) p = Ok p' /\ apply_info (Rotate (Some ROTATE_180)) i = Ok i' /\
  i_width i = cols p /\ i_height i = rows p /\ held p c r /\ held p' c' r' /\ px p' c' r' = px p c r /\
  carried (quarters 2) (cols p) (rows p) (cols p') (rows p') c r c' r' /\
  project (i_K i) x = (IZR c, IZR r) /\ project (i_K i') (seen (quarters 2) x) = (IZR c' + 1, IZR r' + 1)%R.
Proof.
  eexists small, small_info, _, _, (0, 1 / 40, 1)%R, 1, 1, 1, 0. repeat apply conj; try reflexivity; try (unfold held; cbn; lia).
  - unfold small_info, project, mapply, vdot; cbn [i_K]; f_equal; field.
  - unfold small_info, project, mapply, vdot, seen; cbn -[IZR]; f_equal; field.
Qed.

(* P of the splitter is [K | 0] as read, and no longer after a rotation *)
Theorem projection_matrix_refuted : exists i i', i_P i = (i_K i, v0) /\ apply_info (Rotate (Some ROTATE_90_CLOCKWISE)) i = Ok i' /\ i_P i' <> (i_K i', v0).
Proof.
  exists small_info. eexists. split; [reflexivity | split; [reflexivity |]]. cbn. intro H. injection H as H0 H1 H2 H3. lra.
Qed.

(* the second camera of config/split_image_example.yaml, with the given operations *)
Definition camera2 (ops : xv) : xv := struct_of [
  ("topic", XString "/r/camera2/image_raw"); ("frame_id", XString "camera2"); ("info_topic", XString "/r/camera2/camera_info");
  ("region", struct_of [("u", XInt 800); ("v", XInt 0); ("w", XInt 800); ("h", XInt 600)]);
  ("operations", ops);
  ("distortion", struct_of [("model", XString "plumb_bob"); ("k1", XDouble 0%R); ("k2", XDouble 0%R); ("k3", XDouble 0%R); ("t1", XDouble 0%R); ("t2", XDouble 0%R)]);
  ("intrinsic", struct_of [("fx", XDouble 1%R); ("fy", XDouble 1%R); ("cx", XInt 400); ("cy", XInt 300)])].
Definition example_ops : xv := struct_of [("rotate_acw", XInt 90); ("flip", XString "both")].
Definition k2 : mat3 := ((1, 0, 400), (0, 1, 300), (0, 0, 1))%R.
Definition read2 (ops : list operation) : split_config := mkSplit "/r/camera2/image_raw" "/r/camera2/camera_info" "camera2" (mkRect 800 0 800 600)
  (mkInfo (mkHeader 0 "") 600 800 "plumb_bob" [0; 0; 0; 0; 0]%R k2 m0 (k2, v0)) ops.
Definition wide : message (Z * Z) := mkMsg (mkHeader 7 "both") "mono8" (mkPic 1600 600 (fun c r => (c, r))).

Example camera2_read : parse_configuration (XArray [camera2 example_ops]) = Ok [read2 [Flip (-1); Rotate (Some ROTATE_90_COUNTERCLOCKWISE)]].
Proof. reflexivity. Qed.
(* hypotheses of split_publishes *)
Example camera2_works : works (read2 [Flip (-1); Rotate (Some ROTATE_90_COUNTERCLOCKWISE)]) /\ fits (s_region (read2 [])) (m_pic wide).
Proof.
  split; [| unfold fits; cbn; lia]. split; [exists (camera2 example_ops); reflexivity | split; [cbn; unfold max_int; lia |]].
  exists (after (after still (quarters 3)) (mirror FLIP_BOTH)), [Mirror FLIP_BOTH; Turn (90 * 3)]. split; [repeat constructor |]. repeat constructor.
Qed.
Example narrow_stops : ~ fits (s_region (read2 [])) small.
Proof. unfold fits. cbn. lia. Qed.

(* Operations are written in an order; the splitter does not keep it: written "rotate, then flip", the image published is another *)
Theorem order_refuted : exists ops o1 o2 m1 i1 p p' i, ops = struct_of [("rotate_cw", XInt 90); ("flip", XString "horiz")] /\
  operation_of ("rotate_cw", XInt 90) = Ok o1 /\ operation_of ("flip", XString "horiz") = Ok o2 /\
  (exists s, parse_image (camera2 ops) = Ok s /\ split_one wide s = Ok (m1, i1)) /\
  crop (m_pic wide) (mkRect 800 0 800 600) = Ok p /\ apply_all [o1; o2] p small_info = Ok (p', i) /\ ~ same_picture (m_pic m1) p'.
Proof.
  eexists _, _, _, _, _, _, _, _. split; [reflexivity |]. split; [reflexivity |]. split; [reflexivity |].
  split; [eexists; split; [reflexivity | reflexivity] |]. split; [reflexivity |]. split; [reflexivity |].
  intros (_ & _ & H). specialize (H 0 0). cbn in H. assert (X : (1599, 599) = (800, 0)); [| discriminate].
  apply H. unfold held. cbn. lia.
Qed.

(* operations written as a list, to keep their order, pass the check of the type and are then read as a struct *)
Theorem operations_list_refuted : exists ops, ops = XArray [struct_of [("rotate_cw", XInt 90)]; struct_of [("flip", XString "horiz")]] /\ parse_image (camera2 ops) = UB.
Proof. eexists. split; [reflexivity |]. reflexivity. Qed.

(* an angle that is no multiple of 90 degrees loads; the first image is undefined behaviour *)
Theorem odd_angle_refuted : exists ops s, ops = struct_of [("rotate_cw", XInt 45)] /\ parse_image (camera2 ops) = Ok s /\ split wide [s] = ([], UB).
Proof. eexists _, _. split; [reflexivity |]. split; [reflexivity |]. reflexivity. Qed.

(* a focal length without decimal point is refused, and so is a principal point with one *)
Definition with_intrinsic (fx cx : xv) : xv := struct_of [("region", struct_of []); ("intrinsic", struct_of [("fx", fx); ("cx", cx)])].
Theorem number_types_refuted :
  (exists s, parse_image (with_intrinsic (XDouble 600%R) (XInt 480)) = Ok s) /\
  parse_image (with_intrinsic (XInt 600) (XInt 480)) = Throw /\ forall x, parse_image (with_intrinsic (XDouble 600%R) (XDouble x)) = Throw.
Proof. split; [eexists; reflexivity | split; [reflexivity | intro x; reflexivity]]. Qed.
(* missing settings are taken as zero: a focal length of zero *)
Theorem missing_settings_accepted : exists s, parse_image (struct_of [("region", struct_of [])]) = Ok s /\ s_region s = mkRect 0 0 0 0 /\ i_K (s_info s) = ((0, 0, 0), (0, 0, 0), (0, 0, 1))%R.
Proof. eexists. split; [reflexivity | split; reflexivity]. Qed.
(* without any rectification set, R is the zero matrix *)
Theorem rectification_zero image s : parse_image image = Ok s -> i_R (s_info s) = m0.
Proof. intro H. apply parse_iff in H. unfold described in H. decompose [ex and] H. assumption. Qed.

Example two_infos : List.length (publish_info_run (publish_info_init "plumb_bob" [] (mkLens 600 480 400 320)%R (mkLens 600 480 400 320)%R (1 / 10)%R) [wide; wide]) = 2%nat.
Proof. reflexivity. Qed.
