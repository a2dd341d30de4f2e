(* Properties C35-C37, C62-C64 (map). Proofs in MapProofs.v and MapPast.v; concrete cases in MapExamples.v. *)
From Verif Require Import Base MapModel MapSpec MapProofs MapPast MapPast2 MapExamples.

(* C35 *)
Theorem C35_keyframe_list :
  forall (P Pt PP : Type) (comp : P -> P -> P) (inv : P -> P) (act : P -> Pt -> Pt) (pa : P -> PP) (B : P) (moved : P -> P -> bool)
      (knn : list PP -> PP -> nat -> list Z) (vox : list Pt -> list Pt) (n : nat) (vl : bool) (h : list (call P Pt)) (K : list (frame P Pt)),
    distinct P Pt h ->
    ref_run P Pt comp B moved [] h K -> agrees P Pt PP pa K (run P Pt PP comp inv act pa B moved knn vox n NEARBY vl h (init P Pt PP NEARBY)).
Proof. exact (@run_agrees_all). Qed.
Theorem C35_keyframe_list_exists :
  forall (P Pt PP : Type) (comp : P -> P -> P) (inv : P -> P) (act : P -> Pt -> Pt) (pa : P -> PP) (B : P) (moved : P -> P -> bool)
      (knn : list PP -> PP -> nat -> list Z) (vox : list Pt -> list Pt) (n : nat) (vl : bool) (h : list (call P Pt)),
    distinct P Pt h ->
    exists K : list (frame P Pt),
      ref_run P Pt comp B moved [] h K /\ agrees P Pt PP pa K (run P Pt PP comp inv act pa B moved knn vox n NEARBY vl h (init P Pt PP NEARBY)).
Proof. exact (@run_agrees). Qed.
Theorem C35_index :
  forall (P Pt PP : Type) (comp : P -> P -> P) (inv : P -> P) (act : P -> Pt -> Pt) (pa : P -> PP) (B : P) (moved : P -> P -> bool)
      (knn : list PP -> PP -> nat -> list Z) (vox : list Pt -> list Pt) (n : nat) (vl : bool) (h : list (call P Pt)),
    distinct P Pt h ->
    let st := run P Pt PP comp inv act pa B moved knn vox n NEARBY vl h (init P Pt PP NEARBY) in
    exists pc : list PP,
      m_cloud P Pt PP st = Some pc /\
      Datatypes.length pc = Datatypes.length (m_map P Pt PP st) /\
      (forall s i : Z, mget s (m_idx P Pt PP st) = Some i <-> mget i (m_ts P Pt PP st) = Some s) /\
      (forall i : Z, (exists s : Z, mget i (m_ts P Pt PP st) = Some s) <-> 0 <= i < Z.of_nat (Datatypes.length pc)) /\
      (forall (s : Z) (f : frame P Pt),
       mget s (m_map P Pt PP st) = Some f ->
       fr_ts P Pt f = s /\ (exists i : Z, mget s (m_idx P Pt PP st) = Some i /\ 0 <= i /\ nth_error pc (Z.to_nat i) = Some (pa (fr_pose P Pt f)))) /\
      (forall i s : Z, mget i (m_ts P Pt PP st) = Some s -> exists f : frame P Pt, mget s (m_map P Pt PP st) = Some f).
Proof. exact (@index_consistent). Qed.
Theorem C35_latest_pose :
  forall (P Pt PP : Type) (comp : P -> P -> P) (inv : P -> P) (act : P -> Pt -> Pt) (pa : P -> PP) (B : P) (moved : P -> P -> bool)
      (knn : list PP -> PP -> nat -> list Z) (vox : list Pt -> list Pt) (n : nat) (vl : bool) (h : list (call P Pt)) (s : Z) 
      (f : frame P Pt),
    distinct P Pt h ->
    mget s (m_map P Pt PP (run P Pt PP comp inv act pa B moved knn vox n NEARBY vl h (init P Pt PP NEARBY))) = Some f ->
    fr_ts P Pt f = s /\ (exists b : P, last_pose P s (flat_map (c_path P Pt) h) = Some b /\ fr_pose P Pt f = comp b B).
Proof. exact (@mapped_pose_latest). Qed.

(* C36 *)
Theorem C36_duplicate_stamp_refuted :
  exists h : list (call Z Z),
      let st := ex_run 5 NEARBY false h (ex_init NEARBY) in
      map (c_ts Z Z) h = [10; 10] /\
      m_map Z Z Z st = [(10, {| fr_ts := 10; fr_pose := 0; fr_cloud := [1] |})] /\
      m_cloud Z Z Z st = Some [0; 7] /\
      last_pose Z 10 (flat_map (c_path Z Z) h) = Some 7 /\ ex_out 5 NEARBY false h (ex_init NEARBY) = [Ok [1]; Ok [-6; -6]].
Proof. exact (@duplicate_stamp_refuted). Qed.
Theorem C36_own_stamp_refuted :
  exists (h : list (call Z Z)) (s b : Z),
      last_pose Z s (flat_map (c_path Z Z) h) = Some b /\
      (exists f : frame Z Z, mget s (m_map Z Z Z (ex_run 5 NEARBY false h (ex_init NEARBY))) = Some f /\ fr_pose Z Z f <> b).
Proof. exact (@own_stamp_not_updated_refuted). Qed.
Theorem C36_past_mode_ub :
  forall (P Pt PP : Type) (comp : P -> P -> P) (inv : P -> P) (act : P -> Pt -> Pt) (pa : P -> PP) (B : P) (moved : P -> P -> bool)
      (knn : list PP -> PP -> nat -> list Z) (vox : list Pt -> list Pt) (n : nat) (vl : bool) (h : list (call P Pt)) (c : call P Pt) 
      (s : Z) (b : P),
    let st := run P Pt PP comp inv act pa B moved knn vox n PAST vl h (init P Pt PP PAST) in
    In (s, b) (c_path P Pt c) ->
    s <> c_ts P Pt c -> mmem s (m_map P Pt PP st) = true -> snd (callback P Pt PP comp inv act pa B moved knn vox n PAST vl st c) = UB.
Proof. exact (@past_names_keyframe). Qed.
Theorem C36_past_mode_refuted :
  exists h : list (call Z Z), orderly Z Z h /\ In UB (ex_out 2 PAST false h (ex_init PAST)).
Proof. exact (@past_mode_null_refuted). Qed.

(* C37 *)
Theorem C37_keyframes :
  forall (P Pt PP : Type) (comp : P -> P -> P) (inv : P -> P) (act : P -> Pt -> Pt) (pa : P -> PP) (B : P) (moved : P -> P -> bool)
      (knn : list PP -> PP -> nat -> list Z) (vox : list Pt -> list Pt) (n : nat) (vl : bool) (h : list (call P Pt)) (K : list (frame P Pt)),
    distinct P Pt h ->
    Forall (fun c : call P Pt => exists b : P, last_pose P (c_ts P Pt c) (c_path P Pt c) = Some b) h ->
    quiet_run P Pt comp B moved [] h K ->
    forall (s : Z) (f : frame P Pt),
    mget s (m_map P Pt PP (run P Pt PP comp inv act pa B moved knn vox n PAST vl h (init P Pt PP PAST))) = Some f <-> In f K /\ fr_ts P Pt f = s.
Proof. exact (@past_history). Qed.
Theorem C37_published :
  forall (P Pt PP : Type) (comp : P -> P -> P) (inv : P -> P) (act : P -> Pt -> Pt) (pa : P -> PP) (B : P) (moved : P -> P -> bool)
      (knn : list PP -> PP -> nat -> list Z) (vox : list Pt -> list Pt) (n : nat) (vl : bool) (h : list (call P Pt)) (K : list (frame P Pt))
      (c : call P Pt) (b : P),
    distinct P Pt (h ++ [c]) ->
    Forall (fun c0 : call P Pt => exists b0 : P, last_pose P (c_ts P Pt c0) (c_path P Pt c0) = Some b0) h ->
    quiet_run P Pt comp B moved [] h K ->
    last_pose P (c_ts P Pt c) (c_path P Pt c) = Some b ->
    let r :=
      snd
        (callback P Pt PP comp inv act pa B moved knn vox n PAST vl (run P Pt PP comp inv act pa B moved knn vox n PAST vl h (init P Pt PP PAST))
           c) in
    (~ quiet P Pt K c -> r = UB) /\
    (quiet P Pt K c ->
     exists K' L : list (frame P Pt),
       ref_path P Pt comp B moved (c_ts P Pt c) (c_cloud P Pt c) K (c_path P Pt c) K' /\
       newest_first P Pt (c_ts P Pt c) K' L /\ r = past_result P Pt comp inv act vox n vl (comp b B) L).
Proof. exact (@past_call). Qed.
Theorem C37_list_unique :
  forall (P Pt : Type) (ts : Z) (K L L' : list (frame P Pt)), newest_first P Pt ts K L -> newest_first P Pt ts K L' -> L = L'.
Proof. exact (@newest_first_unique). Qed.
Theorem C37_never_fails :
  forall (P Pt PP : Type) (comp : P -> P -> P) (inv : P -> P) (act : P -> Pt -> Pt) (pa : P -> PP) (B : P) (moved : P -> P -> bool)
      (knn : list PP -> PP -> nat -> list Z) (vox : list Pt -> list Pt) (n : nat) (vl : bool) (h : list (call P Pt)) (K : list (frame P Pt)),
    orderly P Pt h ->
    quiet_run P Pt comp B moved [] h K ->
    Forall (fun r : res (list Pt) => exists pts : list Pt, r = Ok pts)
      (outcomes P Pt PP comp inv act pa B moved knn vox n PAST vl h (init P Pt PP PAST)).
Proof. exact (@past_in_order). Qed.
Theorem C37_walk_refuted :
  exists h : list (call Z Z),
      distinct Z Z h /\
      Forall (fun c : call Z Z => exists b : Z, c_path Z Z c = [(c_ts Z Z c, b)]) h /\ In UB (ex_out 2 PAST false h (ex_init PAST)).
Proof. exact (@past_walk_refuted). Qed.

(* C62 *)
Theorem C62_local_map :
  forall (P Pt PP : Type) (comp : P -> P -> P) (inv : P -> P) (act : P -> Pt -> Pt) (pa : P -> PP) (B : P) (moved : P -> P -> bool)
      (knn : list PP -> PP -> nat -> list Z) (vox : list Pt -> list Pt) (n : nat) (nearer : PP -> PP -> PP -> Prop) (vl : bool)
      (h : list (call P Pt)) (K : list (frame P Pt)) (c : call P Pt) (b : P),
    knn_ok PP nearer knn ->
    distinct P Pt (h ++ [c]) ->
    ref_run P Pt comp B moved [] h K ->
    last_pose P (c_ts P Pt c) (c_path P Pt c) = Some b ->
    exists K' : list (frame P Pt),
      ref_run P Pt comp B moved [] (h ++ [c]) K' /\
      (let l := comp b B in
       let near := knn (map (fun f : frame P Pt => pa (fr_pose P Pt f)) K') (pa l) (Nat.min n (Datatypes.length K')) in
       Datatypes.length (select P Pt K' near) = Nat.min n (Datatypes.length K') /\
       NoDup (select P Pt K' near) /\
       (forall f : frame P Pt, In f (select P Pt K' near) -> In f K') /\
       snd
         (callback P Pt PP comp inv act pa B moved knn vox n NEARBY vl
            (run P Pt PP comp inv act pa B moved knn vox n NEARBY vl h (init P Pt PP NEARBY)) c) =
       (if existsb (fun f : frame P Pt => c_ts P Pt c <? fr_ts P Pt f) (select P Pt K' near)
        then Throw
        else Ok ((if vl then vox else fun x : list Pt => x) (flat_map (seen_from P Pt comp inv act l) (select P Pt K' near)))) /\
       (forall f g : frame P Pt,
        In f (select P Pt K' near) -> In g K' -> ~ In g (select P Pt K' near) -> nearer (pa l) (pa (fr_pose P Pt f)) (pa (fr_pose P Pt g)))).
Proof. exact (@nearby_history). Qed.
Theorem C62_same_world_points :
  forall (P Pt : Type) (comp : P -> P -> P) (inv : P -> P) (act : P -> Pt -> Pt) (l : P) (f : frame P Pt),
    (forall (p q : P) (x : Pt), act (comp p q) x = act p (act q x)) ->
    (forall (p : P) (x : Pt), act p (act (inv p) x) = x) ->
    map (act l) (seen_from P Pt comp inv act l f) = map (act (fr_pose P Pt f)) (fr_cloud P Pt f).
Proof. exact (@local_in_world). Qed.
Theorem C62_global_map :
  forall (P Pt PP : Type) (comp : P -> P -> P) (inv : P -> P) (act : P -> Pt -> Pt) (pa : P -> PP) (B : P) (moved : P -> P -> bool)
      (knn : list PP -> PP -> nat -> list Z) (vox : list Pt -> list Pt) (n : nat) (vl vg : bool) (h : list (call P Pt)),
    distinct P Pt h ->
    exists K : list (frame P Pt),
      ref_run P Pt comp B moved [] h K /\
      (let st := run P Pt PP comp inv act pa B moved knn vox n NEARBY vl h (init P Pt PP NEARBY) in
       Permutation (publish_map P Pt PP act vox false vg st) (flat_map (fun f : frame P Pt => map (act (fr_pose P Pt f)) (fr_cloud P Pt f)) K) /\
       (exists K' : list (frame P Pt),
          Permutation K' K /\
          StronglySorted (fun f g : frame P Pt => fr_ts P Pt f < fr_ts P Pt g) K' /\
          pose_graph P Pt PP st = (map (fr_cloud P Pt) K', map (fun f : frame P Pt => (fr_ts P Pt f, fr_pose P Pt f)) K'))).
Proof. exact (@published_all). Qed.
Theorem C62_global_map_filtered :
  forall (P Pt PP : Type) (comp : P -> P -> P) (inv : P -> P) (act : P -> Pt -> Pt) (pa : P -> PP) (B : P) (moved : P -> P -> bool)
      (knn : list PP -> PP -> nat -> list Z) (vox : list Pt -> list Pt) (n : nat) (vl : bool) (h : list (call P Pt)) (sl sg : bool),
    distinct P Pt h ->
    exists K K' : list (frame P Pt),
      ref_run P Pt comp B moved [] h K /\
      Permutation K' K /\
      StronglySorted (fun f g : frame P Pt => fr_ts P Pt f < fr_ts P Pt g) K' /\
      (let pts := flat_map (fun f : frame P Pt => map (act (fr_pose P Pt f)) (fr_cloud P Pt f)) K' in
       publish_map P Pt PP act vox sl sg (run P Pt PP comp inv act pa B moved knn vox n NEARBY vl h (init P Pt PP NEARBY)) =
       (if sl then vox pts else pts)).
Proof. exact (@published_filtered). Qed.
Theorem C62_received_cloud :
  forall (P Pt PP : Type) (comp : P -> P -> P) (inv : P -> P) (act : P -> Pt -> Pt) (pa : P -> PP) (B : P) (moved : P -> P -> bool)
      (knn : list PP -> PP -> nat -> list Z) (vox : list Pt -> list Pt) (n : nat) (vl : bool) (h : list (call P Pt)) (s : Z) 
      (f : frame P Pt),
    distinct P Pt h ->
    mget s (m_map P Pt PP (run P Pt PP comp inv act pa B moved knn vox n NEARBY vl h (init P Pt PP NEARBY))) = Some f ->
    exists c : call P Pt, In c h /\ c_ts P Pt c = s /\ c_cloud P Pt c = fr_cloud P Pt f.
Proof. exact (@mapped_cloud_received). Qed.

(* C63 *)
Theorem C63_never_fails :
  forall (P Pt PP : Type) (comp : P -> P -> P) (inv : P -> P) (act : P -> Pt -> Pt) (pa : P -> PP) (B : P) (moved : P -> P -> bool)
      (knn : list PP -> PP -> nat -> list Z) (vox : list Pt -> list Pt) (n : nat) (nearer : PP -> PP -> PP -> Prop) (vl : bool)
      (h : list (call P Pt)),
    knn_ok PP nearer knn ->
    orderly P Pt h ->
    Forall (fun r : res (list Pt) => exists pts : list Pt, r = Ok pts)
      (outcomes P Pt PP comp inv act pa B moved knn vox n NEARBY vl h (init P Pt PP NEARBY)).
Proof. exact (@orderly_never_fails). Qed.
Theorem C63_unnamed_cloud_refused :
  forall (P Pt PP : Type) (comp : P -> P -> P) (inv : P -> P) (act : P -> Pt -> Pt) (pa : P -> PP) (B : P) (moved : P -> P -> bool)
      (knn : list PP -> PP -> nat -> list Z) (vox : list Pt -> list Pt) (n : nat) (vl : bool) (h : list (call P Pt)) (K : list (frame P Pt))
      (c : call P Pt),
    distinct P Pt h ->
    ref_run P Pt comp B moved [] h K ->
    last_pose P (c_ts P Pt c) (c_path P Pt c) = None ->
    exists (st' : mst P Pt PP) (K' : list (frame P Pt)),
      callback P Pt PP comp inv act pa B moved knn vox n NEARBY vl
        (run P Pt PP comp inv act pa B moved knn vox n NEARBY vl h (init P Pt PP NEARBY)) c = (st', Throw) /\
      ref_path P Pt comp B moved (c_ts P Pt c) (c_cloud P Pt c) K (c_path P Pt c) K' /\
      stamps P Pt K' = stamps P Pt K /\ (forall (s : Z) (f : frame P Pt), mget s (m_map P Pt PP st') = Some f <-> In f K' /\ fr_ts P Pt f = s).
Proof. exact (@absent_history). Qed.
Theorem C63_unnamed_cloud_never_published :
  forall (P Pt PP : Type) (comp : P -> P -> P) (inv : P -> P) (act : P -> Pt -> Pt) (pa : P -> PP) (B : P) (moved : P -> P -> bool)
      (knn : list PP -> PP -> nat -> list Z) (vox : list Pt -> list Pt) (n : nat) (me : method) (vl : bool) (st : mst P Pt PP) 
      (c : call P Pt) (pts : list Pt),
    last_pose P (c_ts P Pt c) (c_path P Pt c) = None -> snd (callback P Pt PP comp inv act pa B moved knn vox n me vl st c) <> Ok pts.
Proof. exact (@absent_never_published). Qed.
Theorem C63_out_of_order_refuted :
  exists h : list (call Z Z),
      distinct Z Z h /\
      ex_out 2 NEARBY false h (ex_init NEARBY) = [Ok [1]; Throw] /\
      Datatypes.length (m_map Z Z Z (ex_run 2 NEARBY false h (ex_init NEARBY))) = 2%nat.
Proof. exact (@out_of_order_throws_refuted). Qed.

(* C64 *)
Theorem C64_global_switch_refuted :
  exists st : mst Z Z Z,
      publish_map Z Z Z Z.add (fun _ : list Z => []) false true st <> [] /\
      (forall vl : bool, publish_map Z Z Z Z.add (fun _ : list Z => []) vl true st = publish_map Z Z Z Z.add (fun _ : list Z => []) vl false st).
Proof. exact (@global_switch_refuted). Qed.

Print Assumptions C35_keyframe_list.
Print Assumptions C35_keyframe_list_exists.
Print Assumptions C35_index.
Print Assumptions C35_latest_pose.
Print Assumptions C36_duplicate_stamp_refuted.
Print Assumptions C36_own_stamp_refuted.
Print Assumptions C36_past_mode_ub.
Print Assumptions C36_past_mode_refuted.
Print Assumptions C37_keyframes.
Print Assumptions C37_published.
Print Assumptions C37_list_unique.
Print Assumptions C37_never_fails.
Print Assumptions C37_walk_refuted.
Print Assumptions C62_local_map.
Print Assumptions C62_same_world_points.
Print Assumptions C62_global_map.
Print Assumptions C62_global_map_filtered.
Print Assumptions C62_received_cloud.
Print Assumptions C63_never_fails.
Print Assumptions C63_unnamed_cloud_refused.
Print Assumptions C63_unnamed_cloud_never_published.
Print Assumptions C63_out_of_order_refuted.
Print Assumptions C64_global_switch_refuted.
