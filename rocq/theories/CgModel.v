(* Figure of the covariances of the registration (MATLAB): plotting/plot_pose_with_cov.m (PV) on the output of extract_pose_with_covariance_stamped.m
   (PC, EcModel), as used in main.m 247-254.  Drawing commands as in FgModel; semilogy is a Line in axes with a logarithmic scale, which show
   the points above zero only; the colours are the default ones, in the order drawn. *)
From Coq Require Import String ZArith List Bool Reals.
From Verif Require Import Base Interp Geo EgModel MsModel RoModel BfModel EvModel EcModel EvData FgModel BgModel.
Import ListNotations.
Open Scope R_scope.

(* geometry_msgs/PoseWithCovarianceStamped: stamp and the 36 numbers of the covariance; frame and pose are not drawn *)
Record cmsg := mkCM { cm_sec : Z; cm_nsec : Z; cm_cov : list R }.
(* extract_timestamps.m *)
Definition cm_stamp (m : cmsg) : R := IZR (cm_sec m) + IZR (cm_nsec m) / 1000000000.
(* PC 14-18: reshape of other than 36 numbers is an error *)
Fixpoint cm_sigmas (l : list cmsg) : res (list (list (option R))) :=
  match l with [] => Ok [] | m :: l => if Nat.eqb (List.length (cm_cov m)) 36 then rbind (cm_sigmas l) (fun r => Ok (sigmas (cm_cov m) :: r)) else Throw end.
(* the real part, which is what is drawn of a complex number; roots of negative numbers have none *)
Definition real_part (x : option R) : R := match x with Some r => r | None => 0 end.
(* sigmas(:, j + 1) *)
Definition sigma_column (j : nat) (s : list (list (option R))) : list R := map (fun r => real_part (nth j r None)) s.
(* PV 3-7 *)
Definition cm_times (zero : bool) (l : list cmsg) : res (list R) :=
  if zero then match l with [] => Throw | m :: _ => Ok (map (fun x => cm_stamp x - cm_stamp m) l) end else Ok (map cm_stamp l).
(* PV 15, 17-21 *)
Definition sigma_curve (t : list R) (s : list (list (option R))) (j : nat) : cmd := Draw (mkCurve Line [t; sigma_column j s] (Spec "")).
(* PV 9-29; grid left out *)
Definition sigma_cmds (n : nat) (t : list R) (s : list (list (option R))) : list cmd :=
  [NewFigure "Covariance"; SetFigure n; sigma_curve t s 0; HoldOn; sigma_curve t s 1; sigma_curve t s 2; sigma_curve t s 3; sigma_curve t s 4; sigma_curve t s 5;
   Title "Covariance Sigmas"; XLabel "t (s)"; YLabel "$\sigma$ (m, rad)"; Legend ["$x$"; "$y$"; "$z$"; "$r_x$"; "$r_y$"; "$r_z$"]]%string.
(* PC, PV: the windows after it *)
Definition plot_pose_with_cov (zero : bool) (l : list cmsg) (s : screen) : res screen :=
  rbind (cm_sigmas l) (fun sg => rbind (cm_times zero l) (fun t => run (sigma_cmds (List.length (sc_figs s)) t sg) s)).
(* main.m 249-251: the window made; windows made before do not matter (covariance_window in CgProofs) *)
Definition covariance_figure (zero : bool) (l : list cmsg) : res figure := rbind (plot_pose_with_cov zero l screen0) (fun s => nth_res (sc_figs s) 0).
(* main.m 243-261 *)
Definition registration_figures (store : string -> option (list (brec cmsg))) (zero : bool) (names paths topics : sarr) : list (string * figure) * bool :=
  registration store (covariance_figure zero) names paths topics.
