(* What the figures of the Jacobians are meant to show. *)
From Coq Require Import String ZArith List Bool Reals.
From Verif Require Import Base Interp Geo EgModel MsModel RoModel BfModel EvModel EcModel EvData FgModel FgSpec.
Import ListNotations.
Open Scope R_scope.

(* what the three windows show of a number *)
Definition measure (k : nat) (x : R) : R := match k with O => x | S O => Rabs x | _ => x * x end.
(* every list of messages has messages, all of dimension d *)
Definition of_dimension (d : nat) (data : list (list (list R))) : Prop := data <> [] /\ forall msgs, In msgs data -> msgs <> [] /\ forall m, In m msgs -> List.length m = d.
(* two rows of cells, one cell for each component, in it the values of every list of messages in the order they came, in the colour of the list *)
Definition jacobian_shows (w : figure) (d k : nat) (label : nat -> option string) (legend : list string) (data : list (list (list R))) (colours : list (Z * Z * Z)) : Prop :=
  List.length (fg_axes w) = d /\
  forall i, (1 <= i <= d)%nat -> exists a l c, the_axes w (Cell 2 c i) a /\ (d <= 2 * c)%nat /\ ax_x a = "idx"%string /\ label i = Some l /\ ax_y a = l /\ ax_legend a = legend /\
    ax_curves a = map (fun mc => mkCurve Line [map INR (seq 1 (List.length (fst mc))); map (fun m => measure k (nth (i - 1) m 0)) (fst mc)] (Colour (snd mc))) (combine data colours).
Definition given_label (labels : list (list string)) (k i : nat) : option string := match nth_error labels k with Some row => nth_error row (i - 1) | None => None end.
