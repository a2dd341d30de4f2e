(* Property C133: figure of the covariances of the registration. Proofs and cases in CgProofs.v. *)
From Coq Require Import String ZArith List Bool Reals.
From Verif Require Import Base Interp Geo EgModel MsModel RoModel BfModel EvModel EcModel EvData FgModel FgProofs JgModel JgProofs BgModel BgSpec BgProofs CgModel CgSpec CgProofs.
Import ListNotations.
Open Scope R_scope.

(* C133 *)
Theorem C133_exactly :
  forall (zero : bool) (l : list cmsg) (s : screen),
    (exists s' : screen, plot_pose_with_cov zero l s = Ok s') <->
    (forall m : cmsg, In m l -> Datatypes.length (cm_cov m) = 36%nat) /\ (zero = true -> l <> []).
Proof. exact (@covariance_exactly). Qed.
Theorem C133_window :
  forall (zero : bool) (l : list cmsg) (s s' : screen),
    plot_pose_with_cov zero l s = Ok s' -> exists w : figure, sc_figs s' = sc_figs s ++ [w] /\ covariances_shown w zero l.
Proof. exact (@covariance_window). Qed.
Theorem C133_registration :
  forall (store : string -> option (list (brec cmsg))) (zero : bool) (names paths topics : list string),
    (forall (k : nat) (p : string),
     nth_error paths k = Some p ->
     exists (t : string) (l : list cmsg) (n : string),
       nth_error topics k = Some t /\
       recorded store p t "geometry_msgs/PoseWithCovarianceStamped" l /\
       (forall m : cmsg, In m l -> Datatypes.length (cm_cov m) = 36%nat) /\ nth_error names k = Some n) ->
    exists s : list (string * figure),
      registration_figures store zero (srow names) (srow paths) (srow topics) = (s, false) /\
      Datatypes.length s = Datatypes.length paths /\
      (forall (k : nat) (p : string),
       nth_error paths k = Some p ->
       exists (t : string) (l : list cmsg) (n : string) (w : figure),
         nth_error topics k = Some t /\
         recorded store p t "geometry_msgs/PoseWithCovarianceStamped" l /\
         nth_error names k = Some n /\ nth_error s k = Some ("registration_covariance_" ^^ n, w) /\ covariances_shown w zero l).
Proof. exact (@registration_shown). Qed.
Theorem C133_same_file_refuted :
  ~
    (forall (store : string -> option (list (brec cmsg))) (zero : bool) (names paths topics : list string) (s : list (string * figure)),
     registration_figures store zero (srow names) (srow paths) (srow topics) = (s, false) -> NoDup paths -> NoDup (map fst s)).
Proof. exact (@same_file_refuted). Qed.

Print Assumptions C133_exactly.
Print Assumptions C133_window.
Print Assumptions C133_registration.
Print Assumptions C133_same_file_refuted.
