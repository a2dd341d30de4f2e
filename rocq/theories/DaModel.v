(* The closed forms in the derivation script degeneracy_analysis/degeneracy_analysis.m (DA), matrices as 3 x 3 blocks.  Symbols read as real numbers.  The
   derivatives that the script leaves to the symbolic toolbox are not modelled. *)
From Coq Require Import List Reals.
Import ListNotations.
From Verif Require Import Base Mx Interp Geo EgModel RcModel.
Open Scope R_scope.

(* DA 79-86 *)
Definition block4 (k : R) (a b c d : mat3) : mx := blocks (mscale k a) (mscale k b) (mscale k c) (mscale k d).
Definition point_dzdx_hand (r t p q : vec3) : mx :=
  block4 2 (madd (mmul (skew p) (skew r)) (skew (vadd (vsub (vcross p r) t) q))) (mopp (skew p)) (madd (skew r) mI) (mopp mI).
Definition point_dzdx_alt1 (r t p q : vec3) : mx :=
  block4 2 (madd (madd (madd (mmul (skew p) (skew r)) (skew (vcross p r))) (mopp (skew t))) (skew q)) (mopp (skew p)) (madd (skew r) mI) (mopp mI).
Definition extra_1 (r p : vec3) : mat3 := let '(rx, ry, rz) := r in let '(px, py, pz) := p in
  ((0, - px * ry, pz * rx), (px * ry, 0, - py * rz), (- pz * rx, py * rz, 0)).
Definition extra_2 (r p : vec3) : mat3 := let '(rx, ry, rz) := r in let '(px, py, pz) := p in
  ((0, - py * rx, px * rz), (py * rx, 0, - pz * ry), (- px * rz, pz * ry, 0)).
Definition point_dzdx_alt2 (r t p q : vec3) : mx :=
  block4 2 (madd (madd (madd (madd (mmul (skew p) (skew r)) (extra_1 r p)) (mopp (extra_2 r p))) (mopp (skew t))) (skew q)) (mopp (skew p)) (madd (skew r) mI) (mopp mI).

(* DA 119-134; a row of six numbers as a pair of vectors *)
Definition row6 (p n : vec3) (i : nat) : R := if Nat.ltb i 3 then vget (vcross p n) i else vget n (i - 3).
Definition plane_dx2_hand (p n : vec3) : mx := fun i j => 2 * (row6 p n i * row6 p n j).
Definition plane_dx2_alt (p n : vec3) : mx := let c := vcross p n in block4 2 (vouter c c) (vouter c n) (vouter n c) (vouter n n).
Definition dATAx (r t p n : vec3) : mx := let c := vcross p n in
  blocks (madd (madd (mscale (- vdot c r) (skew n)) (mopp (mmul (vouter c r) (skew n)))) (mopp (mscale (vdot n t) (skew n)))) (mscale 0 mI) (vouter n (vcross n r)) (mscale 0 mI).
Definition dATb (p q n : vec3) : mx :=
  blocks (madd (mscale (- vdot n q) (skew n)) (mmul (skew n) (madd (vouter p n) (mscale (vdot n p) mI)))) (vouter (vcross p n) n) (mopp (vouter n n)) (vouter n n).
Definition plane_dzdx_hand (r t p q n : vec3) : mx := fun i j => 2 * (dATAx r t p n i j - dATb p q n i j).
Definition plane_dzdx_alt (r t p q n : vec3) : mx := let c := vcross p n in let d := vadd (vcross n r) n in
  block4 2 (madd (mscale (vdot n (vsub (vsub q p) t) - vdot c r) (skew n)) (vouter c d)) (mopp (vouter c n)) (vouter n d) (mopp (vouter n n)).

(* DA 136-152; no number without an angle *)
Definition unit_axis (r : vec3) : option vec3 := if Req_EM_T (vnorm r) 0 then None else Some (let '(x, y, z) := r in (x / vnorm r, y / vnorm r, z / vnorm r)).
Definition rot (r : vec3) : option mat3 := match unit_axis r with None => None | Some (x, y, z) => let c := cos (vnorm r) in let s := sin (vnorm r) in
  Some ((c + x * x * (1 - c), x * y * (1 - c) - z * s, x * z * (1 - c) + y * s),
        (y * x * (1 - c) + z * s, c + y * y * (1 - c), y * z * (1 - c) - x * s),
        (z * x * (1 - c) - y * s, z * y * (1 - c) + x * s, c + z * z * (1 - c))) end.
Definition rot_alt (r : vec3) : option mat3 := match unit_axis r with None => None | Some u => let c := cos (vnorm r) in let s := sin (vnorm r) in
  Some (madd (madd (mscale c mI) (mscale s (skew u))) (mscale (1 - c) (vouter u u))) end.
Definition rot_alt2 (r : vec3) : option mat3 := match unit_axis r with None => None | Some u => let c := cos (vnorm r) in let s := sin (vnorm r) in
  Some (madd (madd mI (mscale s (skew u))) (mmul (mscale (1 - c) (skew u)) (skew u))) end.

(* DA 158, 205: the residuals, and 177, 224: those with homogeneous coordinates *)
Definition residual (M : mat3) (t p q : vec3) : vec3 := vsub (vadd (mapply M p) t) q.
Definition height (M : mat3) (t p q n : vec3) : R := vdot (residual M t p q) n.
Definition apply4 (M : mat3) (t : vec3) (p : vec3 * R) : vec3 * R := (vadd (mapply M (fst p)) (vscale (snd p) t), vdot v0 (fst p) + 1 * snd p).
Definition residual_alt (M : mat3) (t p q : vec3) : vec3 * R := let a := apply4 M t (p, 1) in (vsub (fst a) q, snd a - 1).
Definition height_alt (M : mat3) (t p q n : vec3) : R := let a := residual_alt M t p q in vdot (fst a) n + snd a * 1.

(* DA 49-51, 90-92, 158-160, 205-207: derivatives of the residuals in the motion (one row each for the coordinates), given as what the toolbox returns, and twice their
   product with the residual *)
Definition grad_point (df : nat -> vec3) (f : vec3) (i : nat) : R := 2 * vdot (df i) f.
Definition grad_plane (dh : nat -> R) (h : R) (i : nat) : R := 2 * (dh i * h).

(* DA 57-77 and three more: the file has an entry for every pair counted by the columns (outer) and the rows (inner) *)
Definition file (rows cols : nat) (m : nat -> nat -> R) : list (nat * nat * R) := flat_map (fun i => map (fun j => (i, j, m i j)) (List.seq 0 rows)) (List.seq 0 cols).
