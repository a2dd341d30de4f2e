(* Reading of recorded bags (MATLAB): plotting/raw_data_from_rosbags.m (RD), odom_data_from_rosbags.m (OD), jacobian_data_from_rosbags.m (JD),
   stereo_statistics_from_rosbags.m (SD) and the use of RD in main.m 239-276.  Messages are of any type M; rosbag, select and readMessages as
   documented: a bag is the list of its records in the order recorded, a selection keeps this order. *)
From Coq Require Import String List Bool Arith.
From Verif Require Import Base.
Import ListNotations.
Open Scope nat_scope.

(* string arrays: element (r, c) of nr rows and nc columns *)
Record sarr := mkSA { sa_nr : nat; sa_nc : nat; sa_at : nat -> nat -> string }.
(* ["a", "b", ...] and ["a"; "b"; ...]; a single string is a row of one *)
Definition srow (l : list string) : sarr := mkSA 1 (List.length l) (fun _ c => nth c l ""%string).
Definition scol (l : list string) : sarr := mkSA (List.length l) 1 (fun r _ => nth r l ""%string).
(* length(), numel(), linear index k (from 0) *)
Definition slength (a : sarr) : nat := if (sa_nr a =? 0) || (sa_nc a =? 0) then 0 else Nat.max (sa_nr a) (sa_nc a).
Definition snumel (a : sarr) : nat := sa_nr a * sa_nc a.
Definition slinear (a : sarr) (k : nat) : string := sa_at a (k mod sa_nr a) (k / sa_nr a).
Definition sindex (a : sarr) (k : nat) : res string := if k <? snumel a then Ok (slinear a k) else Throw.
(* sizes of a + b: equal, or one of them 1 *)
Definition joint (m n : nat) : res nat := if m =? n then Ok m else if m =? 1 then Ok n else if n =? 1 then Ok m else Throw.
Definition stretch (n i : nat) : nat := if n =? 1 then 0 else i.
Definition splus (a b : sarr) : res sarr :=
  rbind (joint (sa_nr a) (sa_nr b)) (fun nr => rbind (joint (sa_nc a) (sa_nc b)) (fun nc =>
  Ok (mkSA nr nc (fun r c => (sa_at a (stretch (sa_nr a) r) (stretch (sa_nc a) c) ++ sa_at b (stretch (sa_nr b) r) (stretch (sa_nc b) c))%string)))).

Section Bags.
Context {M : Type}.
Record brec := mkBR { br_topic : string; br_type : string; br_msg : M }.
(* the files there are; rosbag(path) of none is an error *)
Variable store : string -> option (list brec).

(* select(bag, "Topic", t, "MessageType", ty), readMessages *)
Definition select_read (t ty : string) (b : list brec) : list M := map br_msg (filter (fun r => String.eqb (br_topic r) t && String.eqb (br_type r) ty) b).
(* RD 4-13: no message is an error *)
Definition read_bag (path t ty : string) : res (list M) :=
  match store path with None => Throw | Some b => match select_read t ty b with [] => Throw | l => Ok l end end.
(* the loop RD 3-14, OD 21-30, JD 7-17, SD 6-16: entries k, k + 1, ... (n of them) *)
Fixpoint read_from (paths : sarr) (topic : nat -> res string) (ty : string) (k n : nat) : res (list (list M)) :=
  match n with
  | O => Ok []
  | S n => rbind (sindex paths k) (fun p => rbind (topic k) (fun t => rbind (read_bag p t ty) (fun l => rbind (read_from paths topic ty (S k) n) (fun r => Ok (l :: r)))))
  end.
(* RD *)
Definition raw_data (paths topics : sarr) (ty : string) : res (list (list M)) := read_from paths (sindex topics) ty 0 (slength paths).
(* OD: the biases (OD 4, 5) are handed on and left out here; the result is names, messages of the ground truth, messages of the estimates *)
Definition odom_read (names : sarr) (gt_dir gt_file gt_topic : string) (dirs files topics : sarr) : res (sarr * list M * list (list M)) :=
  rbind (splus dirs files) (fun paths =>
  rbind (read_bag (gt_dir ++ gt_file)%string gt_topic "nav_msgs/Odometry"%string) (fun g =>
  rbind (read_from paths (sindex topics) "nav_msgs/Odometry"%string 0 (slength paths)) (fun o => Ok (names, g, o)))).
(* JD: one topic for all files *)
Definition jacobian_read (names dirs files : sarr) (topic : string) : res (sarr * list (list M)) :=
  rbind (splus dirs files) (fun paths => rbind (read_from paths (fun _ => Ok topic) "std_msgs/Float64MultiArray"%string 0 (slength paths)) (fun d => Ok (names, d))).
(* SD *)
Definition stereo_read (names dirs files topics : sarr) : res (sarr * list (list M)) :=
  rbind (splus dirs files) (fun paths => rbind (read_from paths (sindex topics) "serpent/StereoTrackerStatistics"%string 0 (slength paths)) (fun d => Ok (names, d))).

(* main.m 247-254: the figure of the covariances of one list, handed to save_and_close_figure under the name of the estimate; the figure is any function of the messages.
   A figure drawn for which there is no name stays open and is left out here. *)
Context {F : Type}.
Variable figure_of : list M -> res F.
(* what was saved, and whether the loop ended without an error *)
Fixpoint save_from (names : sarr) (k : nat) (data : list (list M)) : list (string * F) * bool :=
  match data with
  | [] => ([], true)
  | l :: data =>
    match figure_of l, sindex names k with
    | Ok f, Ok n => let '(s, ok) := save_from names (S k) data in ((("registration_covariance_" ++ n)%string, f) :: s, ok)
    | _, _ => ([], false)
    end
  end.
(* main.m 243-261: what was saved, and whether the warning was given *)
Definition registration (names paths topics : sarr) : list (string * F) * bool :=
  match raw_data paths topics "geometry_msgs/PoseWithCovarianceStamped"%string with
  | Ok data => let '(s, ok) := save_from names 0 data in (s, negb ok)
  | _ => ([], true)
  end.
End Bags.
Arguments brec : clear implicits.
