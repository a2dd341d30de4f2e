(* Launching a shipped platform: serpent/launch/load_parameters.launch (LP) and the launch files of snowboard, ue4_missions
   and simulator_prcp_missions. *)
From Coq Require Import ZArith QArith List Bool String.
From Verif Require Import Base CfgModel BfModel MsnData.
Import ListNotations.
Open Scope string_scope.
Open Scope list_scope.

(* The parameter server as the node sees it: the tree under body_frames, and everything else by key. *)
Record server := mkServer { sv_flat : params; sv_frames : xv }.
(* a struct is kept in the order of std::map *)
Fixpoint put (k : string) (v : xv) (l : list (string * xv)) : list (string * xv) :=
  match l with
  | [] => [(k, v)]
  | (k', w) :: r => match String.compare k k' with Eq => (k, v) :: r | Lt => (k, v) :: l | Gt => (k', w) :: put k v r end
  end.
(* The master sets one leaf: the structs on the way are made where there are none, and kept where there are
   (rosmaster paramserver.py, set_param; roslaunch gives it every leaf of a file on its own, loader.py add_param).
   Contract, stated in DESIGN.md: nothing else of the tree is touched. *)
Fixpoint set_leaf (p : list string) (v t : xv) : xv :=
  match p with
  | [] => v
  | k :: q => let l := match t with XStruct l => l | _ => [] end in
              XStruct (put k (set_leaf q v (match sget k l with Some w => w | None => XInvalid end)) l)
  end.
Definition set_leaves (ls : list (list string * xv)) (t : xv) : xv := fold_left (fun t l => set_leaf (fst l) (snd l) t) ls t.
(* the same for the other parameters: no file has a key below another, so the tree is not needed here *)
Definition store (P : params) (k : string) (v : pval) : params := fun k' => if String.eqb k k' then Some v else P k'.
Definition set_all (kvs : list (string * pval)) (P : params) : params := fold_left (fun P kv => store P (fst kv) (snd kv)) kvs P.

Record platform := mkPlatform {
  pl_robot : list (list string * xv);
  pl_missions : list (list (string * pval));
  pl_files : list (string * pval) }.
(* LP 11-28: robot, mission, filter, format, normal estimation, tuning, debug, threads.  No clear_params: what was there stays. *)
Definition launch (pl : platform) (mission : list (string * pval)) (threads : Z) (sv : server) : server :=
  mkServer (set_all (mission ++ pl_files pl ++ [("threads", VInt threads)]) (sv_flat sv)) (set_leaves (pl_robot pl) (sv_frames sv)).
(* snowboard/launch/serpent.launch 3, 13, 32-39; ue4_missions/launch/serpent.launch 3, 13, 37-44; simulator_prcp_missions/launch/serpent.launch 3, 10, 20-27 *)
Definition default_threads : Z := 8.
Definition snowboard : platform := mkPlatform snowboard_robot [snowboard_ice_rink; snowboard_mammoth_outdoor; snowboard_tunnel] snowboard_files.
Definition ue4 : platform := mkPlatform ue4_robot [ue4_icy_surface] ue4_files.
Definition simulator : platform := mkPlatform simulator_robot
  [simulator_surface_ellipse_1; simulator_surface_ellipse_2; simulator_surface_spiral_1; simulator_surface_spiral_2; simulator_surface_spiral_2_noiseless; simulator_surface_stationary_1; simulator_surface_traverse_1] simulator_files.
Definition platforms : list platform := [snowboard; ue4; simulator].
