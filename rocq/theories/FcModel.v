(* Clouds from and to files: pointcloud_tools/src/pointcloud_file_converter.cpp (FC) and pointcloud_file_converter_open3d.cpp (FO), the two services of one
   node, called one after the other (ros::spin, pointcloud_file_converter_main.cpp).  An exception of a service makes the call fail for the caller; the node
   goes on (roscpp).  pcl::PCLPointCloud2 and sensor_msgs/PointCloud2 are one type for ROS, so that as_pcl_type and is_pcl_type are left out of FC.
   Simplified: topics are valid names (advertise throws for
   others), and two different spellings of one topic are not considered. *)
From Coq Require Import String List ZArith Bool.
From Verif Require Import Base.
Import ListNotations.
Open Scope Z_scope.
Open Scope list_scope.

Section Fc.
(* fields, sizes and bytes of a cloud; contents of a file *)
Variable D F : Type.
(* width and height are uint32 *)
Record body := Body { b_w : Z; b_h : Z; b_data : D }.
(* a message as a subscriber receives it; stamp in nanoseconds *)
Record cloud := Cloud { c_stamp : Z; c_frame : string; c_body : body }.
(* pcl::io::load and save: reader and writer chosen by the name of the file; None: a return code other than 0 *)
Variable decode : string -> F -> option body.
Variable encode : string -> body -> option F.

(* srv/file_to_message.srv, srv/message_to_file.srv (the timeout shows in what arrives) *)
Record load_req := LoadReq { l_path : string; l_topic : string; l_frame : string; l_latch : bool }.
Record save_req := SaveReq { s_path : string; s_topic : string }.
(* the publishers with their latch flag (pointcloud_file_converter.hpp:26), the messages published so far, the files *)
Record st := St { pubs : list (string * bool); sent : list (string * cloud); files : string -> option F }.
Fixpoint find_pub (t : string) (l : list (string * bool)) : option bool :=
  match l with [] => None | (t', b) :: l' => if String.eqb t t' then Some b else find_pub t l' end.
Definition set_file (p : string) (f : option F) (g : string -> option F) : string -> option F := fun p' => if String.eqb p p' then f else g p'.
(* uint32 product *)
Definition count (b : body) : Z := (b_h b * b_w b) mod 2 ^ 32.
(* toPCL keeps microseconds, fromPCL multiplies them by a thousand *)
Definition micro (now : Z) : Z := now / 1000 * 1000.

(* FC 16-49; the reply is the number of points it names, None a failed call *)
Definition load (now : Z) (q : load_req) (s : st) : st * option Z :=
  let s1 := match find_pub (l_topic q) (pubs s) with Some _ => s | None => St (pubs s ++ [(l_topic q, l_latch q)]) (sent s) (files s) end in
  match files s1 (l_path q) with
  | None => (s1, None)
  | Some f => match decode (l_path q) f with
              | None => (s1, None)
              | Some b => (St (pubs s1) (sent s1 ++ [(l_topic q, Cloud (micro now) (l_frame q) b)]) (files s1), Some (count b))
              end
  end.
(* roscpp: who subscribes now receives the last message of a publisher that latches *)
Fixpoint last_on (t : string) (l : list (string * cloud)) : option cloud :=
  match l with [] => None | (t', c) :: l' => match last_on t l' with Some c' => Some c' | None => if String.eqb t t' then Some c else None end end.
Definition latched (s : st) (t : string) : option cloud := match find_pub t (pubs s) with Some true => last_on t (sent s) | _ => None end.
(* ros::topic::waitForMessage: the latched message of this node, or the first that arrives from other nodes within the timeout *)
Definition wait (s : st) (t : string) (arrives : option cloud) (own_first : bool) : option cloud :=
  match latched s t, arrives with
  | Some c, Some c' => Some (if own_first then c else c')
  | Some c, None => Some c
  | None, a => a
  end.
(* FC 51-82; `left`: what a failed write leaves in place of the file *)
Definition save (arrives : option cloud) (own_first : bool) (left : option F) (q : save_req) (s : st) : st * option Z :=
  match wait s (s_topic q) arrives own_first with
  | None => (s, None)
  | Some c => match encode (s_path q) (c_body c) with
              | None => (St (pubs s) (sent s) (set_file (s_path q) left (files s)), None)
              | Some f => (St (pubs s) (sent s) (set_file (s_path q) (Some f) (files s)), Some (count (c_body c)))
              end
  end.
(* FO 42-54, for is_pcl_type: the return code is only printed *)
Definition save_open3d_pcl (arrives : option cloud) (own_first : bool) (left : option F) (q : save_req) (s : st) : st * option Z :=
  match wait s (s_topic q) arrives own_first with
  | None => (s, None)
  | Some c => (St (pubs s) (sent s) (set_file (s_path q) (match encode (s_path q) (c_body c) with Some f => Some f | None => left end) (files s)), Some (count (c_body c)))
  end.

(* what happens to the node: calls, and changes of files by others *)
Inductive event := ELoad (now : Z) (q : load_req) | ESave (arrives : option cloud) (own_first : bool) (left : option F) (q : save_req) | EFiles (g : string -> option F).
Definition step (e : event) (s : st) : st * option Z :=
  match e with ELoad now q => load now q s | ESave a o l q => save a o l q s | EFiles g => (St (pubs s) (sent s) g, None) end.
(* the replies, in order *)
Fixpoint run (h : list event) (s : st) : st * list (event * option Z) :=
  match h with [] => (s, []) | e :: h' => let '(s1, r) := step e s in let '(s2, l) := run h' s1 in (s2, (e, r) :: l) end.
Definition start (g : string -> option F) : st := St [] [] g.
End Fc.
