(* Figure of the fields of point clouds: which numbers of fields have a place. *)
From Coq Require Import String ZArith List Bool Reals Lra Lia.
From Verif Require Import Base Interp Geo EgModel MsModel RoModel BfModel EvModel EvData FgModel FgSpec FgProofs.
Import ListNotations.
Local Notation len := List.length.
Open Scope nat_scope.

Lemma grid_fits n : n <= root_down n * root_up n <-> squarish n.
Proof.
  unfold root_down, root_up, squarish. pose proof (Nat.sqrt_spec n (Nat.le_0_l n)) as [L U]. set (s := Nat.sqrt n) in *. destruct (Nat.eqb_spec (s * s) n) as [E|E].
  - split; [intros _; exists s; lia|intros _; lia].
  - split; [intros H; exists s; lia|]. intros (k & K1 & K2). assert (k = s) as -> by nia. lia.
Qed.
Lemma cells_accepted_in r c l : forallb accepted (flat_map (fun x : nat * string => [Subplot r c (fst x); XLabel "t (s)"; YLabel (snd x)]) l) = forallb (fun x => Nat.leb 1 (fst x) && Nat.leb (fst x) (r * c)) l.
Proof. induction l as [|x l IH]; [reflexivity|]. cbn [flat_map app forallb accepted]. rewrite IH. rewrite !andb_true_l. reflexivity. Qed.
Theorem fields_placed fields : (exists figs, plot_pointcloud_frame fields = Ok figs) <-> squarish (len fields).
Proof.
  rewrite <- grid_fits. unfold plot_pointcloud_frame. set (n := len fields). set (r := root_down n). set (c := root_up n).
  assert (A : forallb accepted (cloud_frame fields) = forallb (fun x => Nat.leb 1 (fst x) && Nat.leb (fst x) (r * c)) (combine (seq 1 n) fields)).
  { unfold cloud_frame. cbv zeta. rewrite forallb_app. fold n. fold r. fold c. rewrite cells_accepted_in. reflexivity. }
  assert (B : forallb accepted (cloud_frame fields) = true <-> n <= r * c).
  { rewrite A, forallb_forall. split.
    - intros H. destruct n as [|m] eqn:En; [lia|]. destruct (nth_error fields m) as [f|] eqn:Ef; [|apply nth_error_None in Ef; fold n in Ef; unfold n in En; lia]. assert (X : In (S m, f) (combine (seq 1 (S m)) fields)).
      { apply (nth_error_In _ m). assert (G : forall (l : list nat) (k : list string) a b i, nth_error l i = Some a -> nth_error k i = Some b -> nth_error (combine l k) i = Some (a, b)). { induction l as [|x l IH]; intros [|y k] a b [|i] H1 H2; cbn in *; try discriminate; [congruence|apply IH; assumption]. } apply G; [|exact Ef]. rewrite nth_error_nth' with (d := 0) by (rewrite seq_length; lia). rewrite seq_nth by lia. reflexivity. }
      specialize (H _ X). cbn [fst] in H. apply andb_prop in H. destruct H as [_ H]. apply Nat.leb_le in H. exact H.
    - intros H [i f] Hi. apply in_combine_l in Hi. apply in_seq in Hi. cbn [fst]. apply andb_true_intro. split; apply Nat.leb_le; lia. }
  split.
  - intros [figs H]. apply B. destruct (forallb accepted (cloud_frame fields)) eqn:E; [reflexivity|]. rewrite run_throw in H by exact E. discriminate.
  - intros H. apply B in H. rewrite run_ok by exact H. eexists. reflexivity.
Qed.
Theorem fields_placed_refuted : ~ forall fields, exists figs, plot_pointcloud_frame fields = Ok figs.
Proof. intros H. destruct (H ["x"; "y"; "z"]%string) as [figs E]. discriminate. Qed.
Theorem ticks_when n : 0 < n -> ticks_kept n = [] <-> n < 5.
Proof.
  intros P. unfold ticks_kept, tick_step. split.
  - intros H. destruct (Nat.div (n + 5) 10) as [|k] eqn:E; [apply Nat.div_small_iff in E; lia|]. exfalso. destruct n as [|n]; [lia|]. cbn [seq filter] in H. change (1 - 1) with 0 in H. rewrite Nat.mod_0_l in H by lia. discriminate.
  - intros H. rewrite Nat.div_small by lia. reflexivity.
Qed.
Example four_fields : exists figs, plot_pointcloud_frame ["x"; "y"; "z"; "intensity"]%string = Ok figs /\ squarish 4 /\ squarish 6 /\ ~ squarish 7.
Proof. eexists. split; [reflexivity|]. split; [exists 2; lia|]. split; [exists 2; lia|]. intros (k & K1 & K2). assert (k = 2) by nia. subst. lia. Qed.
