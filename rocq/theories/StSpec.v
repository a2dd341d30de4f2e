(* Vocabulary of the statements about the stereo front end, independent of the model's loops. *)
From Verif Require Import Base StModel.

(* ---- match filters ---- *)
(* the positions of a list's elements that satisfy a predicate *)
Fixpoint positions {A} (q : A -> bool) (i : Z) (l : list A) : list Z :=
  match l with
  | [] => []
  | a :: l' => if q a then i :: positions q (i + 1) l' else positions q (i + 1) l'
  end.
(* the match refers to existing keypoints *)
Definition refers {A B} (kq : list A) (kt : list B) (m : dm) : Prop :=
  0 <= qi m < Z.of_nat (length kq) /\ 0 <= ti m < Z.of_nat (length kt).
(* the pair of positions a match refers to *)
Definition ends (kq kt : list kp) (m : dm) : option (pt * pt) :=
  match nth_error kq (Z.to_nat (qi m)), nth_error kt (Z.to_nat (ti m)) with
  | Some a, Some b => Some (kpt a, kpt b)
  | _, _ => None
  end.
Definition good (P : pt -> pt -> Prop) (kq kt : list kp) (m : dm) : Prop :=
  exists a b, ends kq kt m = Some (a, b) /\ P a b.
(* geometric predicates *)
Definition epipolar (thr : Q) (a b : pt) : Prop := (px b < px a)%Q /\ (- thr <= py a - py b <= thr)%Q.
(* the depth fx * baseline / disparity lies in the range *)
Definition in_range (fxb mn mx : Q) (a b : pt) : Prop :=
  (px b < px a)%Q /\ (mn * (px a - px b) <= fxb)%Q /\ (fxb <= mx * (px a - px b))%Q.

(* ---- tracks ---- *)
(* what a consumer of the tracker sees: an id with its left and right keypoint *)
Record track := Tr { tid : Z; tl : kp; tr : kp; td : Q }.

Fixpoint diag (i : Z) (l : list track) : list dm :=
  match l with [] => [] | t :: l' => Dm i i (td t) :: diag (i + 1) l' end.
(* the output whose i-th match links the i-th left with the i-th right keypoint *)
Definition lrm_of (l : list track) : lrm := Lrm (map tl l) (map tr l) (diag 0 l) (map tid l).

(* strictly increasing *)
Fixpoint incr (l : list Z) : Prop :=
  match l with
  | [] => True
  | a :: l' => (forall b, In b l' -> a < b) /\ incr l'
  end.

(* the optical flow returns one point and one status for every point it is given *)
Definition flow_ok (f : frame) : Prop := forall a b l, length (f_flow f a b l) = length l.

(* the successful outputs of a run, with the frame they belong to *)
Definition outs (os : list (res (lrm * tstats))) (i : nat) : option lrm :=
  match nth_error os i with Some (Ok (o, _)) => Some o | _ => None end.

(* ---- matcher ---- *)
(* [c] is a candidate for [ref] when searching to the left (right image) or to the right *)
Definition candidate (m : matcher) (sim : image) (right : bool) (ref c : kp) : Prop :=
  (- m_vert m <= py (kpt c) - py (kpt ref) <= m_vert m)%Q /\
  (if right then (px (kpt c) <= px (kpt ref))%Q else (px (kpt ref) <= px (kpt c))%Q) /\
  window_within_image sim (top_left m (kpt c)) (m_win m) = true.
(* order on costs, None being the largest *)
Definition dle (a b : option Q) : Prop :=
  match a, b with
  | _, None => True
  | Some x, Some y => (x <= y)%Q
  | None, Some _ => False
  end.

(* [r] is the subsequence of [l] of the elements satisfying P, [idx] the positions it came from *)
Definition selects {A} (P : A -> Prop) (l r : list A) (idx : list Z) : Prop :=
  incr idx /\
  (forall i, In i idx <-> 0 <= i /\ exists a, nth_error l (Z.to_nat i) = Some a /\ P a) /\
  Forall2 (fun i a => nth_error l (Z.to_nat i) = Some a) idx r.

(* ---- one frame of the tracker on tracks ---- *)
(* the tracks the flow followed in both images, at their new positions, ids unchanged *)
Fixpoint survivors (l : list track) (fl fr : list (pt * Z)) : list track :=
  match l, fl, fr with
  | t :: l', (p, s) :: fl', (q, r) :: fr' =>
      if (s =? 1) && (r =? 1)
      then Tr (tid t) (Kp p (kattr (tl t))) (Kp q (kattr (tr t))) (td t) :: survivors l' fl' fr'
      else survivors l' fl' fr'
  | _, _, _ => []
  end.
Definition depth_ok (d : option sdf) (a b : kp) : bool :=
  match d with Some f => depth_test f a b | None => true end.
Definition passes (vert : Q) (d : option sdf) (t : track) : bool :=
  stereo_test vert (tl t) (tr t) && depth_ok d (tl t) (tr t).
(* further than the threshold from every reference *)
Definition far (sqr : Q) (refs : list kp) (k : kp) : bool := negb (existsb (fun r => near r k sqr) refs).
(* left keypoints with the right keypoint and cost the matcher chose for them *)
Fixpoint chosen (thr : Q) (n1 : list kp) (mi : list (Z * option Q)) (n2 : list kp) : list (kp * kp * Q) :=
  match n1, mi with
  | k :: n1', (j, Some q) :: mi' =>
      match (if qlt q thr && (0 <=? j) then nth_error n2 (Z.to_nat j) else None) with
      | Some b => (k, b, q) :: chosen thr n1' mi' n2
      | None => chosen thr n1' mi' n2
      end
  | _ :: n1', (_, None) :: mi' => chosen thr n1' mi' n2
  | _, _ => []
  end.
Definition pair_ok (d : option sdf) (p : kp * kp * Q) : bool := let '(a, b, _) := p in depth_ok d a b.
(* consecutive ids for new pairs *)
Fixpoint numbered (n : Z) (l : list (kp * kp * Q)) : list track :=
  match l with [] => [] | (a, b, q) :: l' => Tr n a b q :: numbered (n + 1) l' end.
