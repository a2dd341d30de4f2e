(* Property C131: figures of summary statistics. Proofs in SgProofs.v; cases and refutations in SgExamples.v. *)
From Coq Require Import String ZArith List Bool Reals.
From Verif Require Import Base Interp Geo EgModel MsModel RoModel BfModel EvModel EcModel EvData FgModel FgSpec FgProofs JgModel JgProofs SgModel SgSpec SgProofs SgExamples.
Import ListNotations.
Open Scope nat_scope.

(* C131 *)
Theorem C131_exactly :
  forall (zero : bool) (colours : list (Z * Z * Z)) (data : list (list smsg)),
    (exists figs : list figure, plot_summary_statistics zero colours data = Ok figs) <->
    (exists (m : smsg) (l : list smsg) (more : list (list smsg)),
       data = (m :: l) :: more /\
       (su_stats m <> [] ->
        Datatypes.length data <= Datatypes.length colours /\
        (forall d : list smsg,
         In d data -> (zero = true -> d <> []) /\ (forall x : smsg, In x d -> Datatypes.length (su_stats m) <= Datatypes.length (su_stats x))))).
Proof. exact (@summary_exactly). Qed.
Theorem C131_drawn :
  forall (zero : bool) (colours : list (Z * Z * Z)) (m : smsg) (l : list smsg) (more : list (list smsg)) (figs : list figure),
    plot_summary_statistics zero colours ((m :: l) :: more) = Ok figs ->
    Datatypes.length figs = Datatypes.length (su_stats m) /\
    (forall (f : nat) (s : sstat),
     nth_error (su_stats m) f = Some s ->
     exists w : figure, nth_error figs f = Some w /\ summary_shows w zero f (ss_label s) ((m :: l) :: more) colours).
Proof. exact (@summary_drawn). Qed.
Theorem C131_reordered_refuted :
  exists (m1 m2 : smsg) (figs : list figure) (w : figure) (a : axes),
      plot_summary_statistics false two_colours [[m1; m2]] = Ok figs /\
      nth_error figs 0 = Some w /\
      fg_name w = "a Statistics" /\
      the_axes w (Cell 2 3 1) a /\
      ax_y a = "Min" /\
      (forall (x : smsg) (s : sstat), In x [m1; m2] -> In s (su_stats x) -> ss_label s = "a" -> ss_min s = 1%R) /\
      map (fun c : curve => nth 1 (cv_cols c) []) (ax_curves a) = [[1%R; 2%R]].
Proof. exact (@reordered_refuted). Qed.
Theorem C131_no_legend_refuted :
  ~
    (forall (zero : bool) (colours : list (Z * Z * Z)) (data : list (list smsg)) (figs : list figure) (w : figure) (a : axes),
     plot_summary_statistics zero colours data = Ok figs -> 2 <= Datatypes.length data -> In w figs -> In a (fg_axes w) -> ax_legend a <> []).
Proof. exact (@no_legend_refuted). Qed.

Print Assumptions C131_exactly.
Print Assumptions C131_drawn.
Print Assumptions C131_reordered_refuted.
Print Assumptions C131_no_legend_refuted.
