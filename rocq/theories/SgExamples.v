(* Cases and refutations: figures of summary statistics. *)
From Coq Require Import String ZArith List Bool Reals Lra Lia.
From Verif Require Import Base Interp Geo EgModel MsModel RoModel BfModel EvModel EcModel EvData FgModel FgSpec FgProofs JgModel JgProofs SgModel SgSpec SgProofs.
Import ListNotations.
Open Scope R_scope.

Definition st (label : string) (x : R) : sstat := mkSS label x (x + 2) (x + 1) (1 / 2) 7.
Definition sm (t : Z) (l : list sstat) : smsg := mkSM t 500000000 l.
Definition two_lists : list (list smsg) := [[sm 3 [st "a" 1; st "b" 2]; sm 4 [st "a" 5; st "b" 6]]; [sm 9 [st "a" 0; st "b" 1]]].
Definition two_colours : list (Z * Z * Z) := [(0, 4470, 7410); (8500, 3250, 980)]%Z.
(* two lists of messages with two statistics each: two windows *)
Example two_case : exists figs, plot_summary_statistics true two_colours two_lists = Ok figs /\ List.length figs = 2%nat.
Proof.
  assert (E : exists figs, plot_summary_statistics true two_colours two_lists = Ok figs).
  { apply summary_exactly. unfold two_lists at 1. eexists. eexists. eexists. split; [reflexivity|]. intros _. split; [cbn; lia|]. intros d [<-|[<-|[]]]; (split; [discriminate|]); intros x X; cbn in X; repeat (destruct X as [<-|X]; [cbn; lia|]); contradiction. }
  destruct E as [figs E]. exists figs. split; [exact E|]. apply summary_drawn in E. apply E.
Qed.
(* too few colours, or an empty list with times from zero: nothing is drawn *)
Example few_colours : plot_summary_statistics true [(0, 4470, 7410)%Z] two_lists = Throw. Proof. reflexivity. Qed.
Example empty_list : plot_summary_statistics true two_colours [[sm 3 [st "a" 1]]; []] = Throw. Proof. reflexivity. Qed.
(* finding: the window is found by position; statistics that come in another order are shown under another label *)
Theorem reordered_refuted : exists m1 m2 figs w a, plot_summary_statistics false two_colours [[m1; m2]] = Ok figs /\ nth_error figs 0 = Some w /\ fg_name w = "a Statistics"%string /\ the_axes w (Cell 2 3 1) a /\ ax_y a = "Min"%string /\
  (forall x s, In x [m1; m2] -> In s (su_stats x) -> ss_label s = "a"%string -> ss_min s = 1) /\ map (fun c => nth 1 (cv_cols c) []) (ax_curves a) = [[1; 2]].
Proof.
  set (m1 := sm 3 [st "a" 1; st "b" 2]). set (m2 := sm 4 [st "b" 2; st "a" 1]).
  assert (E : exists figs, plot_summary_statistics false two_colours [[m1; m2]] = Ok figs).
  { apply summary_exactly. exists m1, [m2], []. split; [reflexivity|]. intros _. split; [cbn; lia|]. intros d [<-|[]]. split; [discriminate|]. intros x [<-|[<-|[]]]; cbn; lia. }
  destruct E as [figs E]. destruct (summary_drawn _ _ _ _ _ _ E) as [_ D]. destruct (D 0%nat (st "a" 1) eq_refl) as (w & W & N & _ & A). destruct (A 1%nat ltac:(lia)) as (a & A1 & _ & A3 & _ & A5).
  exists m1, m2, figs, w, a. split; [exact E|]. split; [exact W|]. split; [exact N|]. split; [exact A1|]. split; [exact A3|]. split.
  - intros x s [<-|[<-|[]]] [<-|[<-|[]]] L; try discriminate L; reflexivity.
  - rewrite A5. reflexivity.
Qed.
(* finding: the lists are told apart by colour only *)
Theorem no_legend_refuted : ~ forall zero colours data figs w a, plot_summary_statistics zero colours data = Ok figs -> (2 <= List.length data)%nat -> In w figs -> In a (fg_axes w) -> ax_legend a <> [].
Proof.
  intros H. destruct two_case as (figs & E & _). destruct (summary_drawn _ _ _ _ _ _ E) as [_ D]. destruct (D 0%nat (st "a" 1) eq_refl) as (w & W & _ & _ & A). destruct (A 1%nat ltac:(lia)) as (a & A1 & _ & _ & A4 & _).
  apply (H _ _ _ _ w a E); [cbn; lia|apply nth_error_In in W; exact W|apply (proj2 (A1 a) eq_refl)|exact A4].
Qed.
