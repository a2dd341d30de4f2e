(* Stereo front end: match filters, keypoint matcher, feature tracker, published features.

   Abbreviations for /repo/serpent/src/front_end/stereo: MF = match_filters.cpp,
   KM = stereo_keypoint_matcher.cpp, FT = stereo_feature_tracker.cpp, FF = stereo_factor_finder.cpp,
   CF = stereo_cost_functions.cpp, WF = window_functions.cpp.

   Numbers: a C++ float or double is read as a rational (Q); comparisons are exact, rounding of
   sums, differences and quotients is not modelled.  Integers (indices, ids, pixel coordinates) are
   mathematical integers: overflow of `int` is not modelled.                                       *)
From Verif Require Import Base.
From Coq Require Export QArith Qabs Qround.
Open Scope Z_scope.

Definition qle (a b : Q) : bool := Qle_bool a b.
Definition qlt (a b : Q) : bool := negb (Qle_bool b a).

(* ---------------------------------------------------------------------------------------------- *)
(* OpenCV values.                                                                                  *)
(* cv::Point2f *)
Record pt := Pt { px : Q; py : Q }.
(* cv::KeyPoint: position and the remaining attributes (size, angle, response, octave, class_id) as
   one opaque value *)
Record kp := Kp { kpt : pt; kattr : Z }.
(* cv::DMatch: queryIdx, trainIdx, distance *)
Record dm := Dm { qi : Z; ti : Z; dd : Q }.
(* cv::Mat holding one channel; [i8u] is type() == CV_8U, [ipix row col] the pixel *)
Record image := Im { icols : Z; irows : Z; i8u : bool; ipix : Z -> Z -> Z }.
(* cv::Point2i and cv::Size as pairs (x, y), (width, height) *)
Notation pti := (Z * Z)%type (only parsing).
Notation size := (Z * Z)%type (only parsing).

(* std::vector::at: throws out of range; a negative int becomes a huge size_t *)
Definition vat {A} (l : list A) (i : Z) : res A :=
  if i <? 0 then Throw
  else match nth_error l (Z.to_nat i) with Some a => Ok a | None => Throw end.
(* std::vector::operator[] and cv::Mat::at in a release build: undefined out of range *)
Definition vix {A} (l : list A) (i : Z) : res A :=
  if i <? 0 then UB
  else match nth_error l (Z.to_nat i) with Some a => Ok a | None => UB end.

(* ---------------------------------------------------------------------------------------------- *)
(* Match filters.                                                                                  *)
(* The loop shared by the three filters (MF 20-26, 51-59, 88-100): keep the matches that pass and
   their positions.                                                                                *)
Fixpoint keep (p : dm -> res bool) (i : Z) (l : list dm) : res (list dm * list Z) :=
  match l with
  | [] => Ok ([], [])
  | m :: l' =>
      rbind (p m) (fun b =>
      rbind (keep p (i + 1) l') (fun '(ms, is) =>
      if b then Ok (m :: ms, i :: is) else Ok (ms, is)))
  end.

(* DistanceMatchFilter::filter (MF 16-28) *)
Definition distance_filter (thr : Q) (l : list dm) : res (list dm * list Z) :=
  keep (fun m => Ok (qle (dd m) thr)) 0 l.

(* StereoMatchFilter::filter (MF 46-61) *)
Definition stereo_test (thr : Q) (a b : kp) : bool :=
  qlt (px (kpt b)) (px (kpt a)) && qle (Qabs (py (kpt a) - py (kpt b))) thr.
Definition stereo_filter (thr : Q) (kq kt : list kp) (l : list dm) : res (list dm * list Z) :=
  keep (fun m => rbind (vat kq (qi m)) (fun a => rbind (vat kt (ti m)) (fun b =>
                 Ok (stereo_test thr a b)))) 0 l.

(* StereoDistanceFilter (MF 75-116, match_filters.hpp 191-217).  The constructor initialises fx_b but
   neither fx nor baseline: None is an indeterminate value. *)
Record sdf := Sdf { s_fx : option Q; s_base : option Q; s_fxb : Q; s_max : Q; s_min : Q }.
Definition sdf_make (fx base mx mn : Q) : sdf := Sdf None None (fx * base)%Q mx mn.
(* set_baseline, set_fx (MF 108-116): reading an indeterminate float is undefined behaviour *)
Definition set_baseline (f : sdf) (b : Q) : res sdf :=
  match s_fx f with
  | Some fx => Ok (Sdf (Some fx) (Some b) (fx * b)%Q (s_max f) (s_min f))
  | None => UB
  end.
Definition set_fx (f : sdf) (fx : Q) : res sdf :=
  match s_base f with
  | Some b => Ok (Sdf (Some fx) (Some b) (fx * b)%Q (s_max f) (s_min f))
  | None => UB
  end.
(* the test at MF 92-95 *)
Definition depth_test (f : sdf) (a b : kp) : bool :=
  let d := (px (kpt a) - px (kpt b))%Q in
  if qlt 0 d then qle (s_min f) (s_fxb f / d) && qle (s_fxb f / d) (s_max f) else false.
(* StereoDistanceFilter::filter (MF 84-102) *)
Definition depth_filter (f : sdf) (kq kt : list kp) (l : list dm) : res (list dm * list Z) :=
  keep (fun m => rbind (vat kq (qi m)) (fun a => rbind (vat kt (ti m)) (fun b =>
                 Ok (depth_test f a b)))) 0 l.

(* ---------------------------------------------------------------------------------------------- *)
(* Windows and cost functions with integer results.                                                *)
(* window_within_image (WF 7-10) *)
Definition window_within_image (im : image) (tl : pti) (w : size) : bool :=
  (0 <=? fst tl) && (fst tl + fst w <=? icols im) && (0 <=? snd tl) && (snd tl + snd w <=? irows im).

(* image.at<unsigned char>(row, col) *)
Definition pixel (im : image) (row col : Z) : res Z :=
  if (0 <=? row) && (row <? irows im) && (0 <=? col) && (col <? icols im)
  then Ok (ipix im row col) else UB.

(* for (i = 0; i < n; ++i) acc = f(i, acc) *)
Fixpoint for_from {A} (n : nat) (i : Z) (f : Z -> A -> res A) (acc : A) : res A :=
  match n with
  | O => Ok acc
  | S n' => rbind (f i acc) (fun acc' => for_from n' (i + 1) f acc')
  end.
Definition for_up {A} (n : Z) (f : Z -> A -> res A) (acc : A) : res A :=
  for_from (Z.to_nat n) 0 f acc.

(* the double loop over a window, adding [g pixel1 pixel2] (CF 15-23, 31-41) *)
Definition window_loop2 (g : Z -> Z -> Z) (im1 im2 : image) (tl1 tl2 : pti) (w : size) (acc : Z) : res Z :=
  for_up (snd w) (fun row =>
    for_up (fst w) (fun col s =>
      rbind (pixel im1 (snd tl1 + row) (fst tl1 + col)) (fun a =>
      rbind (pixel im2 (snd tl2 + row) (fst tl2 + col)) (fun b =>
      Ok (s + g a b))))) acc.

(* sum_of_absolute_differences (CF 10-24): pixel values are small integers, so the double
   accumulator is exact *)
Definition sad (im1 im2 : image) (tl1 tl2 : pti) (w : size) : res Z :=
  if negb (i8u im1) || negb (i8u im2) then Throw
  else window_loop2 (fun a b => Z.abs (a - b)) im1 im2 tl1 tl2 w 0.
(* sum_of_squared_differences (CF 26-42) *)
Definition ssd (im1 im2 : image) (tl1 tl2 : pti) (w : size) : res Z :=
  if negb (i8u im1) || negb (i8u im2) then Throw
  else window_loop2 (fun a b => (a - b) * (a - b)) im1 im2 tl1 tl2 w 0.

(* the loop over one window, adding [g pixel] (WF 13-18, 27-32) *)
Definition window_loop1 (g : Z -> Z) (im : image) (tl : pti) (w : size) (acc : Z) : res Z :=
  for_up (snd w) (fun row =>
    for_up (fst w) (fun col s =>
      rbind (pixel im (snd tl + row) (fst tl + col)) (fun a => Ok (s + g a)))) acc.
(* window_sum (WF 12-20) and window_sum_squares (WF 26-34).  The accumulators `double sum;` and
   `double squares;` are not initialised: [junk] is whatever the stack slot holds. *)
Definition window_sum (junk : Z) (im : image) (tl : pti) (w : size) : res Z :=
  window_loop1 (fun a => a) im tl w junk.
Definition window_sum_squares (junk : Z) (im : image) (tl : pti) (w : size) : res Z :=
  window_loop1 (fun a => a * a) im tl w junk.

(* ---------------------------------------------------------------------------------------------- *)
(* Keypoint matcher.                                                                               *)
(* A double produced by a cost function; None is DBL_MAX or a value never below it (infinity, NaN).
   The initial value std::numeric_limits<double>::max() of `cost` is None. *)
Notation dbl := (option Q) (only parsing).
Definition dlt (a b : dbl) : bool :=
  match a, b with
  | Some x, Some y => qlt x y
  | Some _, None => true
  | None, _ => false
  end.

Inductive mfilter := Unidirectional | Bidirectional | RatioTest.
(* to_matching_filter (KM 7-17) *)
Definition to_matching_filter (s : string) : res mfilter :=
  if String.eqb s "UNIDIRECTIONAL" then Ok Unidirectional
  else if String.eqb s "BIDIRECTIONAL" then Ok Bidirectional
  else if String.eqb s "RATIO_TEST" then Ok RatioTest
  else Throw.

(* A cost function: MatchingCostFunction(reference, search, reference_top_left, search_top_left,
   window).  generate_cost_function may bind data of the reference window, hence the extra image
   and corner in [genfn]. *)
Definition costfn : Type := image -> image -> pti -> pti -> size -> res dbl.
Definition genfn : Type := image -> pti -> costfn.

Record matcher := Mk { m_win : size; m_vert : Q; m_filter : mfilter; m_ratio : Q; m_gen : genfn }.

(* the constructor's checks (KM 25-32) *)
Definition matcher_ok (w : size) (ratio : Q) : bool :=
  negb ((fst w <? 1) || (fst w mod 2 =? 0) || (snd w <? 1) || (snd w mod 2 =? 0))
  && negb (qle ratio 0 || qle 1 ratio).
Definition make_matcher (w : size) (vert : Q) (f : mfilter) (ratio : Q) (g : genfn) : res matcher :=
  if matcher_ok w ratio then Ok (Mk w vert f ratio g) else Throw.

(* SADStereoKeyPointMatcher::generate_cost_function (KM 203-205), SSD (KM 216-218) *)
Definition gen_sad : genfn := fun _ _ im1 im2 a b w => rbind (sad im1 im2 a b w) (fun z => Ok (Some (inject_Z z))).
Definition gen_ssd : genfn := fun _ _ im1 im2 a b w => rbind (ssd im1 im2 a b w) (fun z => Ok (Some (inject_Z z))).

(* top_left (KM 189-192) with half_window_floor (KM 28) *)
Definition top_left (m : matcher) (p : pt) : pti :=
  (Qfloor (px p) - (fst (m_win m) - 1) / 2, Qfloor (py p) - (snd (m_win m) - 1) / 2).

(* cost / second_cost > ratio (KM 90, 160).  A finite cost divided by DBL_MAX is taken not to exceed
   the ratio; DBL_MAX / DBL_MAX = 1 exceeds every admissible ratio; a negative cost divided by zero
   is -infinity. *)
Definition ratio_fails (m : matcher) (cost second : dbl) : bool :=
  match cost, second with
  | Some a, Some b => if Qeq_bool b 0 then false else qlt (m_ratio m) (a / b)
  | Some _, None => false
  | None, _ => true
  end.

(* the admissibility test of one candidate (KM 145-149) *)
Definition admissible (m : matcher) (search_image : image) (right : bool) (ref cand : kp) : bool :=
  qle (Qabs (py (kpt cand) - py (kpt ref))) (m_vert m)
  && (if right then qle (px (kpt cand)) (px (kpt ref)) else qle (px (kpt ref)) (px (kpt cand)))
  && window_within_image search_image (top_left m (kpt cand)) (m_win m).

(* the loop KM 142-159; state (min_cost_index, cost, second_cost) *)
Fixpoint search (m : matcher) (cf : pti -> res dbl) (sim : image) (right : bool) (ref : kp)
    (i : Z) (l : list kp) (st : Z * dbl * dbl) : res (Z * dbl * dbl) :=
  match l with
  | [] => Ok st
  | c :: l' =>
      if admissible m sim right ref c
      then rbind (cf (top_left m (kpt c))) (fun wc =>
             let '(idx, cost, second) := st in
             search m cf sim right ref (i + 1) l'
               (if dlt wc cost then (i, wc, cost) else (idx, cost, second)))
      else search m cf sim right ref (i + 1) l' st
  end.

(* keypoint_index_in_other_image (KM 115-164); [cost0] is the value of the reference argument
   `cost` on entry, returned unchanged when the reference window leaves the image *)
Definition keypoint_index (m : matcher) (ref : kp) (cands : list kp) (imL imR : image) (right : bool)
    (cost0 : dbl) : res (Z * dbl) :=
  if negb ((icols imL =? icols imR) && (irows imL =? irows imR)) then Throw
  else
    let rim := if right then imL else imR in
    let sim := if right then imR else imL in
    let tl := top_left m (kpt ref) in
    if negb (window_within_image rim tl (m_win m)) then Ok (-1, cost0)
    else
      let cf := fun s => m_gen m rim tl rim sim tl s (m_win m) in
      rbind (search m cf sim right ref 0 cands (-1, None, None)) (fun '(idx, cost, second) =>
      match m_filter m with
      | RatioTest => if ratio_fails m cost second then Ok (-1, cost) else Ok (idx, cost)
      | _ => Ok (idx, cost)
      end).

(* one iteration of keypoint_indices_in_other_image (KM 176-184) *)
Definition index_step (m : matcher) (kps others : list kp) (imL imR : image) (right : bool)
    (i : Z) (k : kp) (cost0 : dbl) : res (Z * dbl) :=
  rbind (keypoint_index m k others imL imR right cost0) (fun '(j, cost) =>
  match m_filter m with
  | Bidirectional =>
      if j =? -1 then Ok (j, cost)
      else rbind (vix others j) (fun o =>
           rbind (keypoint_index m o kps imL imR (negb right) None) (fun '(back, _) =>
           if back =? i then Ok (j, cost) else Ok (-1, cost)))
  | _ => Ok (j, cost)
  end).
(* keypoint_indices_in_other_image (KM 166-187); `costs.resize` of an empty vector fills it with
   zeros, which is how the tracker calls it (FT 164) *)
Fixpoint indices_from (m : matcher) (kps others : list kp) (imL imR : image) (right : bool)
    (i : Z) (l : list kp) : res (list (Z * dbl)) :=
  match l with
  | [] => Ok []
  | k :: l' =>
      rbind (index_step m kps others imL imR right i k (Some 0%Q)) (fun r =>
      rbind (indices_from m kps others imL imR right (i + 1) l') (fun rs => Ok (r :: rs)))
  end.
Definition keypoint_indices (m : matcher) (left_kps right_kps : list kp) (imL imR : image) (right : bool)
    : res (list (Z * dbl)) :=
  let kps := if right then left_kps else right_kps in
  let others := if right then right_kps else left_kps in
  indices_from m kps others imL imR right 0 kps.

(* keypoint_in_other_image (KM 35-98): dense search along the row.
   The loop KM 64-74; [n] bounds the number of iterations. *)
Fixpoint dense (cf : pti -> res dbl) (inc : Z) (inside : Z -> bool) (y : Z) (n : nat) (x : Z)
    (st : Z * dbl * dbl) : res (Z * dbl * dbl) :=
  match n with
  | O => Ok st
  | S n' =>
      if inside x
      then rbind (cf (x, y)) (fun wc =>
             let '(bx, cost, second) := st in
             dense cf inc inside y n' (x + inc) (if dlt wc cost then (x, wc, cost) else (bx, cost, second)))
      else Ok st
  end.
(* the reverse loop KM 79-89: true when no other reference window is cheaper *)
Fixpoint reverse_ok (cf : pti -> res dbl) (dec : Z) (inside : Z -> bool) (x0 y : Z) (cost : dbl)
    (n : nat) (x : Z) : res bool :=
  match n with
  | O => Ok true
  | S n' =>
      if inside x
      then rbind (cf (x, y)) (fun wc =>
             if negb (x =? x0) && dlt wc cost then Ok false
             else reverse_ok cf dec inside x0 y cost n' (x - dec))
      else Ok true
  end.
(* The result: the keypoint, the cost and `matched`; None when `matched` is left unassigned
   (KM 51-53). *)
Definition keypoint_in_other (m : matcher) (k : kp) (imL imR : image) (right : bool) (cost0 : dbl)
    : res (kp * dbl * option bool) :=
  if negb ((icols imL =? icols imR) && (irows imL =? irows imR)) then Throw
  else
    let rim := if right then imL else imR in
    let sim := if right then imR else imL in
    let tl := top_left m (kpt k) in
    let w := m_win m in
    if negb (window_within_image rim tl w) then Ok (Kp (Pt 0 0) 0, cost0, None)
    else
      let inc := if right then -1 else 1 in
      let n := S (Z.to_nat (icols imL)) in
      let fits x := x <=? icols imL - fst w in
      let nonneg x := 0 <=? x in
      rbind (dense (fun s => m_gen m rim tl rim sim tl s w) inc (if right then nonneg else fits)
               (snd tl) n (fst tl) (fst tl, None, None)) (fun '(bx, cost, second) =>
      rbind (match m_filter m with
             | Bidirectional =>
                 reverse_ok (fun r => m_gen m rim tl rim sim r (bx, snd tl) w) inc
                   (if right then fits else nonneg) (fst tl) (snd tl) cost n bx
             | RatioTest => Ok (negb (ratio_fails m cost second))
             | Unidirectional => Ok true
             end) (fun matched =>
      Ok (Kp (Pt (inject_Z bx + inject_Z (fst w) / 2) (inject_Z (snd tl) + inject_Z (snd w) / 2)) (kattr k),
          cost, Some matched))).
(* keypoints_in_other_image (KM 100-113): reading an unassigned `match` is undefined *)
Fixpoint keypoints_in_other (m : matcher) (l : list kp) (imL imR : image) (right : bool)
    : res (list (kp * dbl * bool)) :=
  match l with
  | [] => Ok []
  | k :: l' =>
      rbind (keypoint_in_other m k imL imR right (Some 0%Q)) (fun '(k', c, b) =>
      match b with
      | None => UB
      | Some b => rbind (keypoints_in_other m l' imL imR right) (fun r => Ok ((k', c, b) :: r))
      end)
  end.

(* ---------------------------------------------------------------------------------------------- *)
(* Feature tracker.                                                                                *)
(* LRKeyPointMatches (stereo_feature_tracker.hpp) *)
Record lrm := Lrm { kL : list kp; kR : list kp; ms : list dm; ids : list Z }.
Definition lrm0 : lrm := Lrm [] [] [] [].

(* Configuration: stereo_filter's threshold, matcher, the float new_feature_sqr_dist_threshold
   (FT 44), stereo_match_cost_threshold *)
Record tcfg := Tcfg { c_vert : Q; c_match : matcher; c_sqr : Q; c_cost : Q }.

(* State: frame_number_, next_match_id, previous_track_data, previous_images.  roi_mask only
   changes what the detector sees and is part of the detector oracle. *)
Record tst := Tst { t_frame : Z; t_next : Z; t_prev : lrm; t_images : image * image }.
Definition im0 : image := Im 0 0 false (fun _ _ => 0).
(* constructor (FT 33-47) *)
Definition tst0 : tst := Tst (-1) 0 lrm0 (im0, im0).

(* One call of process: the images, the distance filter in force (set_stereo_distance_filter
   replaces it between calls), and the outcomes of the OpenCV calls: the detector (FT 256-260) and
   the sparse optical flow (FT 317: previous image, image, points -> new point and status). *)
Record frame := Frame {
  f_left : image; f_right : image; f_depth : option sdf;
  f_det : image -> list kp;
  f_flow : image -> image -> list pt -> list (pt * Z) }.

(* approximately_near (FT 9-16) *)
Definition near (a b : kp) (sqr : Q) : bool :=
  let dx := (px (kpt b) - px (kpt a))%Q in
  let dy := (py (kpt b) - py (kpt a))%Q in
  qle (dx * dx + dy * dy) sqr.

(* remove_close_keypoints (FT 283-300) *)
Definition remove_close (sqr : Q) (l refs : list kp) : list kp :=
  filter (fun k => negb (existsb (fun r => near r k sqr) refs)) l.

(* track_previous_keypoints (FT 302-360): [fl], [fr] are the flow results of the two images; the
   second loop (FT 336-357).  An empty result matrix stays empty when there are no previous
   keypoints (FT 308). *)
Definition moved (k : kp) (p : pt) : kp := Kp p (kattr k).
Fixpoint hypotheses (prev : lrm) (fl fr : list (pt * Z)) (i : Z) (l : list dm) (acc : lrm) : res lrm :=
  match l with
  | [] => Ok acc
  | m :: l' =>
      rbind (vix fl (qi m)) (fun '(pl, sl) =>
      rbind (if sl =? 1 then rbind (vix fr (ti m)) (fun '(_, sr) => Ok (sr =? 1)) else Ok false) (fun ok =>
      if ok
      then
        rbind (vix (kL prev) (qi m)) (fun k1 =>
        rbind (vix (kR prev) (ti m)) (fun k2 =>
        rbind (vix fr (ti m)) (fun '(pr, _) =>
        rbind (vix (ids prev) i) (fun id =>
        hypotheses prev fl fr (i + 1) l'
          (Lrm (kL acc ++ [moved k1 pl]) (kR acc ++ [moved k2 pr])
               (ms acc ++ [Dm (Z.of_nat (length (kL acc))) (Z.of_nat (length (kR acc))) (dd m)])
               (ids acc ++ [id]))))))
      else hypotheses prev fl fr (i + 1) l' acc))
  end.
Definition track_previous (st : tst) (f : frame) : res lrm :=
  let flow pim im (ks : list kp) := match ks with [] => [] | _ => f_flow f pim im (map kpt ks) end in
  hypotheses (t_prev st)
    (flow (fst (t_images st)) (f_left f) (kL (t_prev st)))
    (flow (snd (t_images st)) (f_right f) (kR (t_prev st)))
    0 (ms (t_prev st)) lrm0.

(* extract_match_ids (FT 274-281) *)
Fixpoint extract_ids (l : list Z) (idx : list Z) : res (list Z) :=
  match idx with
  | [] => Ok []
  | i :: r => rbind (vix l i) (fun a => rbind (extract_ids l r) (fun t => Ok (a :: t)))
  end.
(* extract_matched_keypoints (FT 262-272): keypoints and re-indexed matches *)
Fixpoint extract_kps (l r : list kp) (n : Z) (m : list dm) : res (list kp * list kp * list dm) :=
  match m with
  | [] => Ok ([], [], [])
  | d :: m' =>
      rbind (vix l (qi d)) (fun a => rbind (vix r (ti d)) (fun b =>
      rbind (extract_kps l r (n + 1) m') (fun '(la, lb, lm) =>
      Ok (a :: la, b :: lb, Dm n n (dd d) :: lm))))
  end.
(* create_filtered_new_matches (FT 238-254) with create_match_ids = false.  The cost of a match is
   finite because it is below the threshold. *)
Fixpoint new_matches (thr : Q) (r : list kp) (l : list kp) (mi : list (Z * dbl)) (acc : lrm) : res lrm :=
  match l, mi with
  | [], _ => Ok acc
  | _ :: _, [] => UB
  | k :: l', (j, c) :: mi' =>
      match c with
      | Some q =>
          if qlt q thr && (0 <=? j)
          then rbind (vix r j) (fun b =>
               new_matches thr r l' mi'
                 (Lrm (kL acc ++ [k]) (kR acc ++ [b])
                      (ms acc ++ [Dm (Z.of_nat (length (kL acc))) (Z.of_nat (length (kR acc))) q]) (ids acc)))
          else new_matches thr r l' mi' acc
      | None => new_matches thr r l' mi' acc
      end
  end.
(* append_keypoint_matches (FT 226-236) *)
Fixpoint append_matches (i : Z) (nm : lrm) (l : list dm) (acc : lrm) : res lrm :=
  match l with
  | [] => Ok acc
  | d :: l' =>
      rbind (vix (ids nm) i) (fun id => rbind (vix (kL nm) i) (fun a => rbind (vix (kR nm) i) (fun b =>
      append_matches (i + 1) nm l'
        (Lrm (kL acc ++ [a]) (kR acc ++ [b])
             (ms acc ++ [Dm (Z.of_nat (length (kL acc))) (Z.of_nat (length (kR acc))) (dd d)])
             (ids acc ++ [id])))))
  end.

(* Statistics (stereo_feature_tracker.hpp, struct Statistics): None is an indeterminate value *)
Record tstats := Tstats {
  st_frame : Z; st_max_id : Z; st_longest : Z;
  st_tracked_kp : option (Z * Z); st_tracked : Z;
  st_extracted : Z * Z; st_filtered : option (Z * Z);
  st_new : Z; st_total : Z; st_ids : list Z }.
Definition len {A} (l : list A) : Z := Z.of_nat (length l).

Fixpoint count_from (n : Z) (k : nat) : list Z :=
  match k with O => [] | S k' => n :: count_from (n + 1) k' end.

(* The tracked part of process (FT 96-160): hypotheses, filters, extraction.
   Returns the keypoints left for new matches, the hypotheses' sizes and the track data. *)
Definition tracked_part (c : tcfg) (st : tst) (f : frame) (n1 n2 : list kp)
    : res (list kp * list kp * lrm * lrm) :=
  rbind (if 0 <? t_frame st + 1 then track_previous st f else Ok lrm0) (fun h =>
  let n1' := if 0 <? t_frame st + 1 then remove_close (c_sqr c) n1 (kL h) else n1 in
  let n2' := if 0 <? t_frame st + 1 then remove_close (c_sqr c) n2 (kR h) else n2 in
  rbind (stereo_filter (c_vert c) (kL h) (kR h) (ms h)) (fun '(m1, i1) =>
  rbind (extract_ids (ids h) i1) (fun id1 =>
  rbind (match f_depth f with
         | None => Ok (m1, id1)
         | Some d => rbind (depth_filter d (kL h) (kR h) m1) (fun '(m2, i2) =>
                     rbind (extract_ids id1 i2) (fun id2 => Ok (m2, id2)))
         end) (fun '(m, id) =>
  rbind (extract_kps (kL h) (kR h) 0 m) (fun '(a, b, m') =>
  Ok (n1', n2', h, Lrm a b m' id)))))).

(* The new matches (FT 162-191) *)
Definition new_part (c : tcfg) (f : frame) (n1 n2 : list kp) : res lrm :=
  rbind (keypoint_indices (c_match c) n1 n2 (f_left f) (f_right f) true) (fun mi =>
  rbind (new_matches (c_cost c) n2 n1 mi lrm0) (fun nm =>
  match f_depth f with
  | None => Ok nm
  | Some d => rbind (depth_filter d (kL nm) (kR nm) (ms nm)) (fun '(m, _) =>
              rbind (extract_kps (kL nm) (kR nm) 0 m) (fun '(a, b, m') =>
              Ok (Lrm a b m' (ids nm))))
  end)).

(* process (FT 53-220).  The state is returned also when the call throws: by then frame_number_ and,
   if the matcher throws, previous_track_data have been updated but not previous_images.  The
   drawing of intermediate images is left out.  The images compare equal in size when rows and
   columns do. *)
Definition process (c : tcfg) (st : tst) (f : frame) : tst * res (lrm * tstats) :=
  if negb ((icols (f_left f) =? icols (f_right f)) && (irows (f_left f) =? irows (f_right f)))
  then (st, Throw)
  else
    let fr := t_frame st + 1 in
    let d1 := f_det f (f_left f) in
    let d2 := f_det f (f_right f) in
    match tracked_part c st f d1 d2 with
    | Throw => (Tst fr (t_next st) (t_prev st) (t_images st), Throw)
    | UB => (Tst fr (t_next st) (t_prev st) (t_images st), UB)
    | Ok (n1, n2, h, td) =>
        match new_part c f n1 n2 with
        | Throw => (Tst fr (t_next st) td (t_images st), Throw)
        | UB => (Tst fr (t_next st) td (t_images st), UB)
        | Ok nm =>
            (* FT 193-196 *)
            let nid := count_from (t_next st) (length (ms nm)) in
            let nm' := Lrm (kL nm) (kR nm) (ms nm) (ids nm ++ nid) in
            let next := t_next st + len (ms nm) in
            match append_matches 0 nm' (ms nm') td with
            | Throw => (Tst fr next td (t_images st), Throw)
            | UB => (Tst fr next td (t_images st), UB)
            | Ok out =>
                (Tst fr next out (f_left f, f_right f),
                 Ok (out, Tstats fr (next - 1) (match ids td with i :: _ => i | [] => -1 end)
                            (if 0 <? fr then Some (len (kL h), len (kR h)) else None)
                            (len (ms td)) (len d1, len d2)
                            (if 0 <? fr then Some (len n1, len n2) else None)
                            (len (ms nm)) (len (ms out)) (ids out)))
            end
        end
    end.

(* A StereoFeature message: id, left and right position *)
Record feature := Feat { ft_id : Z; ft_left : pt; ft_right : pt }.
(* to_ros (FF 145-158) *)
Fixpoint to_features (o : lrm) (i : Z) (l : list dm) : res (list feature) :=
  match l with
  | [] => Ok []
  | m :: l' =>
      rbind (vix (kL o) (qi m)) (fun a => rbind (vix (kR o) (ti m)) (fun b =>
      rbind (vix (ids o) i) (fun id =>
      rbind (to_features o (i + 1) l') (fun r => Ok (Feat id (kpt a) (kpt b) :: r)))))
  end.
Definition features (o : lrm) : res (list feature) := to_features o 0 (ms o).

(* A sequence of calls: the list of results *)
Fixpoint track_run (c : tcfg) (st : tst) (l : list frame) : tst * list (res (lrm * tstats)) :=
  match l with
  | [] => (st, [])
  | f :: l' => let '(st', o) := process c st f in
               let '(st'', os) := track_run c st' l' in (st'', o :: os)
  end.

(* from_ros (/repo/serpent/src/back_end/optimisation.cpp 19-26): the map the back end builds from the
   features of one message; [enc] stands for the measurement (left_x, right_x, mean_y) *)
Fixpoint from_features (enc : feature -> Z) (l : list feature) (m : omap Z) : res (omap Z) :=
  match l with
  | [] => Ok m
  | f :: l' => if mmem (ft_id f) m then Throw else from_features enc l' (mput (ft_id f) (enc f) m)
  end.
