(* Property C128: figures of the Jacobians. Proofs and cases in JgProofs.v, JgDrawn.v. *)
From Coq Require Import String ZArith List Bool Reals.
From Verif Require Import Base Interp Geo EgModel MsModel RoModel BfModel EvModel EcModel EvData FgModel FgSpec FgProofs JgModel JgSpec JgProofs JgDrawn.
Import ListNotations.
Open Scope nat_scope.

(* C128 *)
Theorem C128_exactly :
  forall (save close : bool) (types : list string) (labels : list (list string)) (colours : list (Z * Z * Z)) (names : list string) 
      (d : nat) (data : list (list (list R))),
    0 < d ->
    of_dimension d data ->
    (exists out : jac_outcome, plot_and_save_jacobians save close types labels colours names data = Ok out) <->
    Datatypes.length data <= Datatypes.length colours /\ (forall k i : nat, k < 3 -> 1 <= i <= d -> given_label labels k i <> None).
Proof. exact (@jacobians_exactly). Qed.
Theorem C128_drawn :
  forall (save close : bool) (types : list string) (labels : list (list string)) (colours : list (Z * Z * Z)) (names : list string) 
      (d : nat) (data : list (list (list R))) (out : jac_outcome),
    0 < d ->
    of_dimension d data ->
    plot_and_save_jacobians save close types labels colours names data = Ok out ->
    exists w1 w2 w3 : figure,
      jo_drawn out = [w1; w2; w3] /\
      fg_name w1 = "Jacobian" /\
      fg_name w2 = "Absolute Value Jacobian" /\
      fg_name w3 = "Squared Jacobian" /\
      jacobian_shows w1 d 0 (given_label labels 0) [] data colours /\
      jacobian_shows w2 d 1 (given_label labels 1) [] data colours /\
      jacobian_shows w3 d 2 (given_label labels 2) names data colours /\
      jo_open out = (if close then [w2; w3] else [w1; w2; w3]) /\
      (forall (name ty : string) (w : figure),
       In (name, ty, w) (jo_saved out) <->
       save = true /\ In ty types /\ (name = "jacobian" /\ w = w1 \/ name = "abs_jacobian" /\ w = w2 \/ name = "squared_jacobian" /\ w = w3)).
Proof. exact (@jacobians_drawn). Qed.
Theorem C128_legends_refuted :
  ~
    (forall (labels : list (list string)) (colours : list (Z * Z * Z)) (names : list string) (d : nat) (data : list (list (list R)))
       (out : jac_outcome) (w : figure) (a : axes),
     0 < d ->
     of_dimension d data ->
     plot_and_save_jacobians true true ["png"] labels colours names data = Ok out ->
     In w (jo_drawn out) -> In a (fg_axes w) -> ax_legend a = names).
Proof. exact (@jacobian_legends_refuted). Qed.
Theorem C128_closed_refuted :
  ~
    (forall (types : list string) (labels : list (list string)) (colours : list (Z * Z * Z)) (names : list string) (d : nat)
       (data : list (list (list R))) (out : jac_outcome),
     0 < d -> of_dimension d data -> plot_and_save_jacobians true true types labels colours names data = Ok out -> jo_open out = []).
Proof. exact (@jacobian_closed_refuted). Qed.

Print Assumptions C128_exactly.
Print Assumptions C128_drawn.
Print Assumptions C128_legends_refuted.
Print Assumptions C128_closed_refuted.
