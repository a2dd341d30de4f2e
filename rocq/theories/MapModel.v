(* Model of serpent's lidar map: serpent/include/serpent/mapping/mapping-inl.hpp and mapping.hpp.
   A pose is an element of a type [P] with composition and inverse (Eigen::Isometry3d /
   eigen_ext Pose products), points are moved by [act]; the element of [pose_cloud] made from a pose
   is [pa] (PCLPointAngleAxis, position and scaled angle-axis).  Time stamps are integers
   (nanoseconds).  Point clouds are the lists of their points in order: the non-coordinate fields of
   a point are part of [Pt] and are left alone by [act].                                          *)
From Verif Require Import Base.

Section Map.
  Variables P Pt PP : Type.
  Variable comp : P -> P -> P.       (* pose product                                             *)
  Variable inv : P -> P.             (* pose inverse                                             *)
  Variable act : P -> Pt -> Pt.      (* pcl::transformPointCloud on one point                    *)
  Variable pa : P -> PP.             (* to_point_angle_axis, mapping-inl.hpp:96,299              *)
  Variable B : P.                    (* body_frames.body_to_frame("lidar"), mapping-inl.hpp:198  *)
  Variable moved : P -> P -> bool.   (* should_add_to_map, mapping-inl.hpp:285-290: displacement
                                        above the translation or the rotation threshold          *)
  Variable knn : list PP -> PP -> nat -> list Z.
                                     (* pcl nearestKSearch on pose_cloud, mapping-inl.hpp:112-116:
                                        the indices it returns                                   *)
  Variable vox : list Pt -> list Pt. (* the voxel grid filter, mapping-inl.hpp:160-166,225,276   *)
  Variable n : nat.                  (* frame_extraction_number (>= 1, mapping-inl.hpp:62-65)    *)

  (* Mapping::Frame (mapping.hpp): pose with its time stamp and the point cloud                   *)
  Record frame := Fr { fr_ts : Z; fr_pose : P; fr_cloud : list Pt }.

  (* The state of a Mapping node: map, pose_cloud (a null pointer in PAST mode), the two indices.  *)
  Record mst := Mst {
    m_map : omap frame;
    m_cloud : option (list PP);
    m_idx : omap Z;     (* pose_cloud_indices: stamp -> position in pose_cloud                     *)
    m_ts : omap Z       (* pose_cloud_timestamps: position in pose_cloud -> stamp                  *)
  }.

  (* std::map::emplace: no effect when the key is present *)
  Definition emplace {A} (k : Z) (a : A) (m : omap A) : omap A := if mmem k m then m else mput k a m.

  (* Frame extraction method, to_frame_extraction_method (mapping-inl.hpp:16-24)                   *)
  Inductive method := NEARBY | PAST.

  (* Constructor, mapping-inl.hpp:42-90: only NEARBY allocates pose_cloud (lines 69-79)            *)
  Definition init (me : method) : mst :=
    Mst [] (match me with NEARBY => Some [] | PAST => None end) [] [].

  (* add_to_map, mapping-inl.hpp:93-102 *)
  Definition add_to_map (st : mst) (ts : Z) (pose : P) (cloud : list Pt) : mst :=
    let mp := emplace ts (Fr ts pose cloud) (m_map st) in
    match m_cloud st with
    | Some pc =>
        let sz := Z.of_nat (length pc) in
        Mst mp (Some (pc ++ [pa pose])) (emplace ts sz (m_idx st)) (emplace sz ts (m_ts st))
    | None => Mst mp None (m_idx st) (m_ts st)
    end.

  (* v.at(i) = a *)
  Fixpoint set_nth {A} (i : nat) (a : A) (l : list A) : list A :=
    match l, i with
    | [], _ => []
    | _ :: l', O => a :: l'
    | x :: l', S i' => x :: set_nth i' a l'
    end.

  (* update_map, mapping-inl.hpp:293-301.  The pose is assigned before pose_cloud is dereferenced. *)
  Definition update_map (st : mst) (ts : Z) (pose : P) : mst * res unit :=
    match mget ts (m_map st) with
    | None => (st, Ok tt)
    | Some f =>
        let st1 := Mst (mput ts (Fr ts pose (fr_cloud f)) (m_map st)) (m_cloud st) (m_idx st) (m_ts st) in
        match m_cloud st with
        | None => (st1, UB)
        | Some pc =>
            match mget ts (m_idx st) with
            | None => (st1, Throw)
            | Some i =>
                if (0 <=? i) && (i <? Z.of_nat (length pc))
                then (Mst (m_map st1) (Some (set_nth (Z.to_nat i) (pa pose) pc)) (m_idx st) (m_ts st), Ok tt)
                else (st1, Throw)
            end
        end
    end.

  (* last_frame, mapping-inl.hpp:169-175: the entry of the map with the largest stamp              *)
  Definition last_frame (mp : omap frame) : option frame :=
    match rev mp with [] => None | (_, f) :: _ => Some f end.

  (* The body of the loop over the poses of the path, mapping-inl.hpp:194-214. [found] is the pose
     of the entry with the stamp of the point cloud, if one was met.                               *)
  Definition path_step (cts : Z) (cloud : list Pt) (st : mst) (found : option P) (e : Z * P)
    : mst * res (option P) :=
    let pose := comp (snd e) B in
    if fst e =? cts then
      (match last_frame (m_map st) with
       | None => add_to_map st cts pose cloud
       | Some f => if moved pose (fr_pose f) then add_to_map st cts pose cloud else st
       end, Ok (Some pose))
    else
      match update_map st (fst e) pose with
      | (st', Ok _) => (st', Ok found)
      | (st', Throw) => (st', Throw)
      | (st', UB) => (st', UB)
      end.

  Fixpoint path_loop (cts : Z) (cloud : list Pt) (path : list (Z * P)) (st : mst) (found : option P)
    : mst * res (option P) :=
    match path with
    | [] => (st, Ok found)
    | e :: path' =>
        match path_step cts cloud st found e with
        | (st', Ok found') => path_loop cts cloud path' st' found'
        | (st', r) => (st', r)
        end
    end.

  (* One frame seen from the lidar frame, MapFrame::transformed_pointcloud, mapping-inl.hpp:30-39:
     transform by lidar_frame.inverse * frame.pose                                                 *)
  Definition seen_from (l : P) (f : frame) : list Pt :=
    map (act (comp (inv l) (fr_pose f))) (fr_cloud f).

  (* extract_nearby_frames, the loop of mapping-inl.hpp:119-126 *)
  Fixpoint gather (st : mst) (ts : Z) (l : P) (idx : list Z) (acc : list Pt) : res (list Pt) :=
    match idx with
    | [] => Ok acc
    | i :: idx' =>
        match mget i (m_ts st) with
        | None => Throw
        | Some s =>
            match mget s (m_map st) with
            | None => Throw
            | Some f => if ts <? fr_ts f then Throw
                        else gather st ts l idx' (acc ++ seen_from l f)
            end
        end
    end.

  (* extract_nearby_frames, mapping-inl.hpp:105-131.  The search is called on pose_cloud, a null
     pointer in PAST mode (never called there: the function pointer is chosen with the mode).      *)
  Definition extract_nearby (st : mst) (ts : Z) (l : P) : res (list Pt) :=
    match m_cloud st with
    | None => UB
    | Some pc =>
        let k := Nat.min n (length pc) in
        let idx := knn pc (pa l) k in
        if Nat.eqb (length idx) k then gather st ts l idx [] else Throw
    end.

  (* extract_past_frames, mapping-inl.hpp:134-158, on the entries of the map in reverse order *)
  (* lines 137-140: skip the newer ones; reading *rend is undefined *)
  Fixpoint skip_newer (ts : Z) (r : list (Z * frame)) : option (list (Z * frame)) :=
    match r with
    | [] => None
    | (s, f) :: r' => if ts <? s then skip_newer ts r' else Some r
    end.

  (* lines 146-156; [r] starts at the current entry, [k] iterations are left *)
  Fixpoint take_past (ts : Z) (l : P) (k : nat) (r : list (Z * frame)) (acc : list Pt) : res (list Pt) :=
    match k, r with
    | O, _ => Ok acc
    | S _, [] => UB
    | S k', (s, f) :: r' =>
        if ts <? fr_ts f then Throw
        else
          let acc' := acc ++ seen_from l f in
          match r' with [] => Ok acc' | _ => take_past ts l k' r' acc' end
    end.

  Definition extract_past (st : mst) (ts : Z) (l : P) : res (list Pt) :=
    match skip_newer ts (rev (m_map st)) with
    | None => UB
    | Some r => take_past ts l n r []
    end.

  Definition extract (me : method) : mst -> Z -> P -> res (list Pt) :=
    match me with NEARBY => extract_nearby | PAST => extract_past end.

  (* One synchronised (point cloud, path) pair *)
  Record call := Call { c_ts : Z; c_cloud : list Pt; c_path : list (Z * P) }.

  (* map_update_callback, mapping-inl.hpp:178-230.  Result: the local map that is published, in the
     lidar frame.  The global map and the pose graph are published by timers/services, below.      *)
  Definition callback (me : method) (vl : bool) (st : mst) (c : call) : mst * res (list Pt) :=
    match c_path c with
    | [] => (st, Throw)                                             (* 184-186 *)
    | _ =>
        match path_loop (c_ts c) (c_cloud c) (c_path c) st None with
        | (st', Ok (Some l)) =>
            (st', match extract me st' (c_ts c) l with
                  | Ok pts => Ok (if vl then vox pts else pts)      (* 224-225 *)
                  | r => r
                  end)
        | (st', Ok None) => (st', Throw)                            (* 215-219 *)
        | (st', Throw) => (st', Throw)
        | (st', UB) => (st', UB)
        end
    end.

  (* A history of calls; a call that throws leaves the state as it is at the throw (the node keeps
     running only if the exception is caught above; the statements hold for both readings).         *)
  Fixpoint run (me : method) (vl : bool) (h : list call) (st : mst) : mst :=
    match h with
    | [] => st
    | c :: h' => run me vl h' (fst (callback me vl st c))
    end.

  (* publish_pose_graph, mapping-inl.hpp:233-253: clouds and poses of all frames, in map order      *)
  Definition pose_graph (st : mst) : list (list Pt) * list (Z * P) :=
    (map (fun e => fr_cloud (snd e)) (m_map st), map (fun e => (fr_ts (snd e), fr_pose (snd e))) (m_map st)).

  (* publish_map, mapping-inl.hpp:256-282.  [vl], [vg] are voxel_grid_enabled_local and _global;
     line 276 tests voxel_grid_enabled_local.                                                       *)
  Definition publish_map (vl vg : bool) (st : mst) : list Pt :=
    let pts := flat_map (fun e => map (act (fr_pose (snd e))) (fr_cloud (snd e))) (m_map st) in
    if vl then vox pts else pts.
End Map.
