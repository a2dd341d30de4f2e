(* Body frames: what a rotation without w and a translation given as a list amount to, for every configuration. *)
From Coq Require Import ZArith Reals List Bool String Lra.
From Verif Require Import Base Interp Geo EgModel EgProofs BfModel BfSpec BfProofs BfTheorems BfLaws BfCast.
Import ListNotations.
Open Scope string_scope.
Open Scope list_scope.

Lemma step_local look look' body root b p f v time tp tf : load look (XStruct [(body, root)]) = Ok b -> declared body root p f v -> declared_dynamic v = false ->
  body_to_frame look' b p time = Ok tp -> body_to_frame look' b f time = Ok tf -> exists u, tf = imul tp u /\ local look body root p f v u.
Proof.
  intros L D Dy Hp Hf. destruct (load_names look _ b L) as (bo & ro & Ec & _ & _ & _ & _ & _ & _ & Nd & _). injection Ec as <- <-. destruct (load_unique look _ b L) as (bo & ro & Ec & U1 & U2 & _). injection Ec as <- <-.
  destruct (load_transforms look look' _ b L) as (bo & ro & Ec & T & _). injection Ec as <- <-.
  assert (Df : is_dynamic b f = Ok false) by (apply Nd; right; exists p, v; rewrite Dy; auto). apply (T f time tf Df) in Hf. inversion Hf as [E1 E2|p' f' v' t u D' Dy' Sp Lo E1 E2]; subst.
  - exfalso. apply (U1 _ _ _ D). reflexivity.
  - destruct (U2 _ _ _ _ _ D D') as [<- <-]. exists u. split; [|exact Lo]. f_equal. assert (Dp : is_dynamic b p = Ok false). { apply Nd. inversion Sp as [|q f' w t' u' Dq Dw]; subst; [left; auto|right; exists q, w; rewrite Dw; auto]. } apply (T p time t Dp) in Sp. rewrite Sp in Hp. injection Hp as <-. reflexivity.
Qed.
Lemma half_turn x y z m : (x, y, z) <> v0 -> turns (0, x, y, z)%R m -> mmul m m = mI /\ mapply m (x, y, z) = (x, y, z) /\ forall a, vdot (x, y, z) a = 0%R -> mapply m a = vopp a.
Proof.
  intros N [[E _]|([[[w i] j] k] & n & U & P & E & ->)]; [exfalso; apply N; injection E as -> -> ->; reflexivity|]. injection E as E0 -> -> ->. assert (w = 0%R) as -> by (apply (Rmult_eq_reg_l n); lra).
  assert (U' : (i * i + j * j + k * k = 1)%R) by (unfold qunit, qdot in U; lra). clear N U E0. split; [|split].
  - pose proof (qmat_mul (0, i, j, k)%R (0, i, j, k)%R) as Q. rewrite <- Q by (unfold qunit, qdot; lra). replace (qmul (0, i, j, k)%R (0, i, j, k)%R) with (-1, 0, 0, 0)%R by (unfold qmul; tup; lra). unfold qmat, mI. tup; ring.
  - unfold qmat, mapply, vdot. tup; ring.
  - intros [[a b] c] H. unfold vdot in H. assert (H' : (i * a + j * b + k * c = 0)%R) by (apply (Rmult_eq_reg_l n); lra). unfold qmat, mapply, vdot, vopp. tup; apply Rminus_diag_uniq.
    + match goal with |- ?l = 0%R => replace l with (2 * a * (1 - (i * i + j * j + k * k)) + 2 * i * (i * a + j * b + k * c))%R by ring end. rewrite H', U'. ring.
    + match goal with |- ?l = 0%R => replace l with (2 * b * (1 - (i * i + j * j + k * k)) + 2 * j * (i * a + j * b + k * c))%R by ring end. rewrite H', U'. ring.
    + match goal with |- ?l = 0%R => replace l with (2 * c * (1 - (i * i + j * j + k * k)) + 2 * k * (i * a + j * b + k * c))%R by ring end. rewrite H', U'. ring.
Qed.
(* a rotation given without w, of any size, is half a turn about its vector *)
Theorem missing_w look look' body root b p f v r time tp tf : load look (XStruct [(body, root)]) = Ok b -> declared body root p f v -> declared_dynamic v = false -> declared_lookup v = false ->
  member "rotation" v = Some r -> member "w" r = None -> (number "x" r, number "y" r, number "z" r) <> v0 -> body_to_frame look' b p time = Ok tp -> body_to_frame look' b f time = Ok tf ->
  exists u, tf = imul tp u /\ mmul (lin u) (lin u) = mI /\ mapply (lin u) (number "x" r, number "y" r, number "z" r) = (number "x" r, number "y" r, number "z" r) /\
  forall a, vdot (number "x" r, number "y" r, number "z" r) a = 0%R -> mapply (lin u) a = vopp a.
Proof.
  intros L D Dy Dl Hr Hw N Hp Hf. destruct (step_local _ _ _ _ _ _ _ _ _ _ _ L D Dy Hp Hf) as (u & E & Lo). exists u. split; [exact E|]. unfold local in Lo. rewrite Dl in Lo. destruct Lo as [_ Tu]. unfold declared_rotation in Tu. rewrite Hr in Tu. unfold number at 1 in Tu. rewrite Hw in Tu. apply half_turn; assumption.
Qed.
(* a translation given as a list, whatever its numbers, moves nothing *)
Theorem list_translation look look' body root b p f v l time tp tf : load look (XStruct [(body, root)]) = Ok b -> declared body root p f v -> declared_dynamic v = false -> declared_lookup v = false ->
  member "translation" v = Some (XArray l) -> body_to_frame look' b p time = Ok tp -> body_to_frame look' b f time = Ok tf -> exists u, tf = imul tp u /\ tr u = v0.
Proof.
  intros L D Dy Dl Ht Hp Hf. destruct (step_local _ _ _ _ _ _ _ _ _ _ _ L D Dy Hp Hf) as (u & E & Lo). exists u. split; [exact E|]. unfold local in Lo. rewrite Dl in Lo. destruct Lo as [Tu _]. rewrite Tu. unfold declared_translation. rewrite Ht. reflexivity.
Qed.
