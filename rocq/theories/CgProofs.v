(* Figure of the covariances: proofs and cases *)
From Coq Require Import String ZArith List Bool Reals Lra Lia.
From Verif Require Import Base Interp Geo EgModel MsModel RoModel BfModel EvModel EcModel EvData FgModel FgProofs JgModel JgProofs BgModel BgSpec BgProofs CgModel CgSpec.
Import ListNotations.
Open Scope R_scope.

Definition whole (l : list cmsg) : Prop := forall m, In m l -> List.length (cm_cov m) = 36%nat.
Lemma sigmas_ok l : whole l -> cm_sigmas l = Ok (map (fun m => sigmas (cm_cov m)) l).
Proof.
  induction l as [|m l IH]; intros H; [reflexivity|]. cbn [cm_sigmas]. rewrite (H m (or_introl eq_refl)), Nat.eqb_refl, IH by (intros x X; apply H; right; exact X). reflexivity.
Qed.
Lemma sigmas_inv l r : cm_sigmas l = Ok r -> whole l.
Proof.
  revert r. induction l as [|a l IH]; intros r H m M; [contradiction|]. cbn [cm_sigmas] in H. destruct (Nat.eqb_spec (List.length (cm_cov a)) 36) as [E|]; [|discriminate]. destruct (cm_sigmas l) as [r'| |]; try discriminate.
  destruct M as [<-|M]; [exact E|exact (IH _ eq_refl m M)].
Qed.
Lemma times_ok zero l : (zero = true -> l <> []) -> cm_times zero l = Ok (map (moment zero l) l).
Proof.
  intros H. unfold cm_times. destruct zero; [destruct l as [|m l]; [contradiction (H eq_refl eq_refl)|reflexivity]|]. f_equal. apply map_ext. intros m. unfold moment, cm_stamp. lra.
Qed.
Lemma sigma_is c j : (j < 6)%nat -> deviation (nth (6 * j + j) c 0) (real_part (nth j (sigmas c) None)).
Proof.
  intros J. assert (E : nth j (sigmas c) None = if rltb (nth (j * 6 + j) c 0) 0 then None else Some (sqrt (nth (j * 6 + j) c 0))).
  { do 6 (destruct j as [|j]; [reflexivity|]). lia. }
  rewrite E. replace (j * 6 + j)%nat with (6 * j + j)%nat by lia. set (v := nth (6 * j + j) c 0). unfold rltb. destruct (Rlt_dec v 0) as [N|N]; cbn [real_part].
  - split; [intros; lra|reflexivity].
  - split; [intros P; split; [apply sqrt_pos|apply sqrt_sqrt; exact P]|intros; lra].
Qed.
Definition sigma_axes (t : list R) (s : list (list (option R))) : axes :=
  mkAxes Whole true (map (fun j => mkCurve Line [t; sigma_column j s] (Spec "")) (seq 0 6)) "Covariance Sigmas" "t (s)" "$\sigma$ (m, rad)" "" ["$x$"; "$y$"; "$z$"; "$r_x$"; "$r_y$"; "$r_z$"]%string.
Lemma last_on {A} (g : A -> A) l a : on_nth g (List.length l) (l ++ [a]) = l ++ [g a].
Proof. induction l; cbn; congruence. Qed.
Lemma cmds_run figs cur t s : List.length t = List.length s -> run (sigma_cmds (List.length figs) t s) (mkScreen figs cur) = Ok (mkScreen (figs ++ [mkFigure "Covariance" [sigma_axes t s] Whole]) (List.length figs)).
Proof.
  intros L. rewrite run_ok.
  - f_equal. unfold sigma_cmds, effects. cbn [fold_left effect sc_figs sc_current]. unfold sigma_curve, on_figure. cbn [effect sc_figs sc_current]. unfold on_figure. cbn [sc_figs sc_current]. rewrite !last_on. reflexivity.
  - unfold sigma_cmds, sigma_curve, sigma_column. cbn. rewrite !map_length, <- L, Nat.eqb_refl. reflexivity.
Qed.
Lemma sigma_shown zero l : covariances_shown (mkFigure "Covariance" [sigma_axes (map (moment zero l) l) (map (fun m => sigmas (cm_cov m)) l)] Whole) zero l.
Proof.
  split; [reflexivity|]. eexists. split; [reflexivity|]. repeat (split; [reflexivity|]). intros j J. cbn [sigma_axes ax_legend ax_curves]. split; [unfold direction; do 6 (destruct j as [|j]; [reflexivity|]); lia|].
  exists (sigma_column j (map (fun m => sigmas (cm_cov m)) l)). eexists. split; [rewrite nth_error_map, (nth_error_nth' _ 0%nat) by (rewrite seq_length; exact J); rewrite seq_nth by exact J; reflexivity|]. split; [reflexivity|]. split; [reflexivity|].
  unfold sigma_column. rewrite map_map. induction l as [|m l IH]; constructor; [apply sigma_is; exact J|exact IH].
Qed.

(* the window is added to those there are, and shows the deviations *)
Theorem covariance_window zero l s s' : plot_pose_with_cov zero l s = Ok s' -> exists w, sc_figs s' = sc_figs s ++ [w] /\ covariances_shown w zero l.
Proof.
  unfold plot_pose_with_cov. destruct (cm_sigmas l) as [sg| |] eqn:E; cbn [rbind]; try discriminate. pose proof (sigmas_inv _ _ E) as Wl. rewrite (sigmas_ok l Wl) in E. injection E as <-.
  destruct (cm_times zero l) as [t| |] eqn:T; cbn [rbind]; try discriminate. assert (Z0 : zero = true -> l <> []) by (intros -> ->; discriminate T). rewrite (times_ok zero l Z0) in T. injection T as <-.
  destruct s as [figs cur]. cbn [sc_figs]. rewrite cmds_run by (rewrite !map_length; reflexivity). intros H. injection H as <-. cbn [sc_figs]. eexists. split; [reflexivity|apply sigma_shown].
Qed.
(* exactly when every covariance has 36 numbers and, for times from zero, there is a message *)
Theorem covariance_exactly zero l s : (exists s', plot_pose_with_cov zero l s = Ok s') <-> (forall m, In m l -> List.length (cm_cov m) = 36%nat) /\ (zero = true -> l <> []).
Proof.
  unfold plot_pose_with_cov. split.
  - intros [s' H]. destruct (cm_sigmas l) as [sg| |] eqn:E; try discriminate. cbn [rbind] in H. split; [exact (sigmas_inv _ _ E)|]. intros -> ->. discriminate H.
  - intros [Wl Z0]. rewrite (sigmas_ok l Wl), (times_ok zero l Z0). cbn [rbind]. destruct s as [figs cur]. cbn [sc_figs]. rewrite cmds_run by (rewrite !map_length; reflexivity). eexists. reflexivity.
Qed.
Lemma figure_ok zero l : whole l -> l <> [] -> exists w, covariance_figure zero l = Ok w /\ covariances_shown w zero l.
Proof.
  intros Wl N. unfold covariance_figure. destruct (proj2 (covariance_exactly zero l screen0) (conj Wl (fun _ => N))) as [s' E]. rewrite E. destruct (covariance_window _ _ _ _ E) as (w & F & S). exists w. cbn [rbind]. rewrite F. split; [reflexivity|exact S].
Qed.
(* every file with poses on its topic, every covariance whole, every estimate named: the window saved under the name shows the file's covariances *)
Theorem registration_shown store zero names paths topics :
  (forall k p, nth_error paths k = Some p -> exists t l n, nth_error topics k = Some t /\ recorded store p t "geometry_msgs/PoseWithCovarianceStamped" l /\ (forall m, In m l -> List.length (cm_cov m) = 36%nat) /\ nth_error names k = Some n) ->
  exists s, registration_figures store zero (srow names) (srow paths) (srow topics) = (s, false) /\ List.length s = List.length paths /\
  forall k p, nth_error paths k = Some p -> exists t l n w, nth_error topics k = Some t /\ recorded store p t "geometry_msgs/PoseWithCovarianceStamped" l /\ nth_error names k = Some n /\
    nth_error s k = Some (("registration_covariance_" ++ n)%string, w) /\ covariances_shown w zero l.
Proof.
  intros H. destruct (registration_all store (covariance_figure zero) names paths topics) as (s & E & L & Hs).
  { intros k p P. destruct (H k p P) as (t & l & n & T & R & Wl & N). destruct (figure_ok zero l Wl) as (w & F & _). { destruct R as (b & _ & _ & X). exact X. } exists t, l, w, n. repeat split; assumption. }
  exists s. split; [exact E|]. split; [exact L|]. intros k p P. destruct (Hs k p P) as (t & l & w & n & T & R & F & N & S). exists t, l, n, w. repeat (split; [assumption|]).
  unfold covariance_figure in F. destruct (plot_pose_with_cov zero l screen0) as [s0| |] eqn:E0; try discriminate. destruct (covariance_window _ _ _ _ E0) as (w' & F' & S'). cbn [rbind] in F. rewrite F' in F. cbn in F. injection F as <-. exact S'.
Qed.

(* ---- cases ---- *)
Definition plain (s : Z) (v : R) : cmsg := mkCM s 0 (flat_map (fun i => map (fun j => if Nat.eqb i j then v else 0) (seq 0 6)) (seq 0 6)).
Example window_case : exists s', plot_pose_with_cov true [plain 3 4; plain 4 9] screen0 = Ok s' /\ List.length (sc_figs s') = 1%nat.
Proof.
  destruct (proj2 (covariance_exactly true [plain 3 4; plain 4 9] screen0)) as [s' E]. { split; [|discriminate]. intros m [<-|[<-|[]]]; reflexivity. }
  exists s'. split; [exact E|]. destruct (covariance_window _ _ _ _ E) as (w & F & _). rewrite F. reflexivity.
Qed.
Definition one_file (p : string) : option (list (brec cmsg)) := if String.eqb p "d/b.bag" then Some [mkBR "/t" "geometry_msgs/PoseWithCovarianceStamped" (plain 3 4)]%string else None.
Example registration_met : forall k p, nth_error ["d/b.bag"]%string k = Some p -> exists t l n, nth_error ["/t"]%string k = Some t /\ recorded one_file p t "geometry_msgs/PoseWithCovarianceStamped" l /\ (forall m, In m l -> List.length (cm_cov m) = 36%nat) /\ nth_error ["b"]%string k = Some n.
Proof.
  intros [|[|k]] p H; try discriminate H. injection H as <-. exists "/t"%string, [plain 3 4], "b"%string. split; [reflexivity|]. split; [apply read_bag_is; reflexivity|]. split; [|reflexivity]. intros m [<-|[]]. reflexivity.
Qed.
(* two estimates of one name: two windows, one file name *)
Theorem same_file_refuted : ~ forall store zero names paths topics s, registration_figures store zero (srow names) (srow paths) (srow topics) = (s, false) -> NoDup paths -> NoDup (map fst s).
Proof.
  intros H. set (st := fun p : string => Some [mkBR "/t" "geometry_msgs/PoseWithCovarianceStamped" (plain 3 4)]%string).
  destruct (registration_shown st true ["b"; "b"]%string ["x"; "y"]%string ["/t"; "/t"]%string) as (s & E & L & Hs).
  { intros [|[|[|k]]] p P; try discriminate P; injection P as <-; exists "/t"%string, [plain 3 4], "b"%string; (split; [reflexivity|]); (split; [apply read_bag_is; reflexivity|]); (split; [|reflexivity]); intros m [<-|[]]; reflexivity. }
  assert (N : NoDup (map fst s)). { apply (H _ _ _ _ _ _ E). constructor; [intros [X|[]]; discriminate X|]. constructor; [intros []|constructor]. }
  destruct (Hs 0%nat _ eq_refl) as (t & l & n & w & _ & _ & N0 & S0 & _). destruct (Hs 1%nat _ eq_refl) as (t' & l' & n' & w' & _ & _ & N1 & S1 & _). injection N0 as <-. injection N1 as <-.
  destruct s as [|a [|b s]]; try discriminate. cbn in S0, S1. injection S0 as ->. injection S1 as ->. inversion N as [|? ? X _]. apply X. left. reflexivity.
Qed.
