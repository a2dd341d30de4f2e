(* What the evaluation scripts are meant to compute. *)
From Coq Require Import Reals List ZArith.
From Verif Require Import Base Interp Geo EgModel MsModel.
Import ListNotations.
Open Scope R_scope.

(* stamps that never go back / always go on *)
Definition in_order {A} (l : list (R * A)) : Prop := forall i j a b, nth_error l i = Some a -> nth_error l j = Some b -> (i <= j)%nat -> fst a <= fst b.
Definition increasing {A} (l : list (R * A)) : Prop := forall i j a b, nth_error l i = Some a -> nth_error l j = Some b -> (i < j)%nat -> fst a < fst b.
(* v is the value of the recorded list at time t: recorded at t, or the given mixture of two neighbours around t *)
Definition value_at {A B} (whole : A -> B) (mixture : A -> A -> R -> B) (l : list (R * A)) (t : R) (v : B) : Prop :=
  (exists a, In (t, a) l /\ v = whole a) \/
  (exists l1 l2 t1 a t2 b c, l = l1 ++ (t1, a) :: (t2, b) :: l2 /\ t1 <= t < t2 /\ t = t1 + c * (t2 - t1) /\ v = mixture a b c).
(* the part of a trajectory that the reference covers *)
Definition covered {A} (l : list (R * A)) (t : R) : Prop := exists a b, In a l /\ In b l /\ fst a <= t <= fst b.
(* the point between two points *)
Definition between_points (a b : vec3) (c : R) : vec3 := vadd (vscale (1 - c) a) (vscale c b).
(* how a motion acts on a recorded pose: quaternion q, translation t *)
Definition moved (t : vec3) (q : quat) (p : mpose) : mpose := mkMP (vadd (mapply (qmat q) (mp_pos p)) t) (qmul q (mp_ori p)).
Definition moved_all (t : vec3) (q : quat) (l : list (R * mpose)) : list (R * mpose) := map (fun e => (fst e, moved t q (snd e))) l.
(* a recorded pose with an orientation *)
Definition oriented (p : mpose) : Prop := qdot (mp_ori p) (mp_ori p) <> 0.
(* contracts: rotm2quat and quatinterp *)
Definition reads_rotation (r2q : mat3 -> quat) : Prop := forall q, qunit q -> qunit (r2q (qmat q)) /\ qmat (r2q (qmat q)) = qmat q.
Definition stays_unit (mixq : quat -> quat -> R -> quat) : Prop := forall p q c, qunit p -> qunit q -> 0 <= c <= 1 -> qunit (mixq p q c).
Definition keeps_ends (mixq : quat -> quat -> R -> quat) : Prop := forall p q, qunit p -> qunit q -> qmat (mixq p q 0) = qmat p /\ qmat (mixq p q 1) = qmat q.
Definition turns_along (mixq : quat -> quat -> R -> quat) : Prop := forall g p q c, qunit g -> qunit p -> qunit q -> 0 <= c <= 1 -> mixq (qmul g p) (qmul g q) c = qmul g (mixq p q c).
(* sum of the distances between consecutive points *)
Fixpoint path_length (l : list vec3) : R := match l with a :: (b :: _) as l' => vnorm (vsub b a) + path_length l' | _ => 0 end.
(* frames i-k+1 .. i contain the id, the one before does not *)
Definition seen_for (frames : list (list Z)) (i : nat) (id : Z) (k : nat) : Prop :=
  (1 <= k <= i + 1)%nat /\ (forall j, (i + 1 - k <= j <= i)%nat -> exists f, nth_error frames j = Some f /\ In id f) /\
  ((k < i + 1)%nat -> forall f, nth_error frames (i - k) = Some f -> ~ In id f).

(* a report of errors: one absolute entry for each covered entry of the trajectory, one relative entry for each two consecutive ones, all against the
   value of the reference at their times *)
Definition reports {A B C E} (whole : A -> B) (mixture : A -> A -> R -> B) (conv : C -> B) (absolute : B -> B -> E) (relative : B -> B -> B -> B -> E)
    (gt : list (R * A)) (l : list (R * C)) (abs : list E) (abs_t : list R) (rel : list E) (rel_t : list R) : Prop :=
  exists f gs, (forall e, In e l -> f e = true <-> covered gt (fst e)) /\
    let kept := filter f l in
    length gs = length kept /\ length abs = length kept /\ length rel = pred (length kept) /\ abs_t = map fst kept /\ rel_t = tl (map fst kept) /\
    (forall i t x g, nth_error kept i = Some (t, x) -> nth_error gs i = Some g -> value_at whole mixture gt t g /\ nth_error abs i = Some (absolute g (conv x))) /\
    (forall i tx x g ty y h, nth_error kept i = Some (tx, x) -> nth_error gs i = Some g -> nth_error kept (S i) = Some (ty, y) -> nth_error gs (S i) = Some h ->
      nth_error rel i = Some (relative g (conv x) h (conv y))).
(* weighted sum of squared distances, the weight falling by gamma from one pair to the next *)
Fixpoint misfit (gamma w : R) (l : list (vec3 * vec3)) : R := match l with [] => 0 | (a, b) :: l' => w * (vnorm (vsub a b)) ^ 2 + misfit gamma (w * gamma) l' end.
(* every component at most m in size *)
Definition within (m : R) (v : vec3) : Prop := let '(x, y, z) := v in Rabs x <= m /\ Rabs y <= m /\ Rabs z <= m.
