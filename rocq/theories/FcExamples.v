From Coq Require Import String List ZArith Bool Lia.
From Verif Require Import Base FcModel FcSpec FcProofs.
Import ListNotations.
Open Scope Z_scope.
Open Scope string_scope.
Open Scope list_scope.

(* files hold the cloud itself; only .pcd files can be read and written *)
Definition B := body Z.
Definition pcd (p : string) : bool := match String.index 0 ".pcd" p with Some _ => true | None => false end.
Definition dec (p : string) (f : B) : option B := if pcd p then Some f else None.
Definition enc (p : string) (b : B) : option B := if pcd p then Some b else None.
Example ex_reads_back : reads_back dec enc.
Proof. intros p b f. unfold enc, dec. destruct (pcd p); [|discriminate]. intros [= ->]. reflexivity. Qed.
Definition small : B := Body Z 3 2 7.
Definition other : B := Body Z 5 1 8.
Definition disk : string -> option B := fun p => if String.eqb p "a.pcd" then Some small else if String.eqb p "b.pcd" then Some other else None.
Definition ask (p t : string) (latch : bool) : load_req := LoadReq p t "map" latch.
Definition go := run Z B dec enc.
Example ex_load_save : let '(s, r) := go [ELoad Z B 1234567 (ask "a.pcd" "cloud" true); ESave Z B None true None (SaveReq "c.pcd" "cloud"); ELoad Z B 2000000 (ask "c.pcd" "again" false)] (start Z B disk) in
  map snd r = [Some 6; Some 6; Some 6] /\ files Z B s "c.pcd" = Some small /\ map (fun m => (fst m, c_stamp Z (snd m))) (sent Z B s) = [("cloud", 1234000); ("again", 2000000)].
Proof. vm_compute. repeat split. Qed.
(* the request asks for a latched message, the call is answered, but who subscribes afterwards receives nothing: an earlier request, here one that failed,
   decided for the topic *)
Theorem latch_refuted : exists h now q g, let '(s, r) := go (h ++ [ELoad Z B now q]) (start Z B g) in
  l_latch q = true /\ option_map snd (nth_error r (length h)) = Some (Some 6) /\ latched Z B s (l_topic q) = None.
Proof. exists [ELoad Z B 1 (ask "missing.pcd" "cloud" false)], 2, (ask "a.pcd" "cloud" true), disk. vm_compute. repeat split. Qed.
(* nor does a request without latch keep its message from later subscribers *)
Theorem no_latch_refuted : exists h now q g c, let '(s, r) := go (h ++ [ELoad Z B now q]) (start Z B g) in
  l_latch q = false /\ latched Z B s (l_topic q) = Some c /\ c_body Z c = other.
Proof. exists [ELoad Z B 1 (ask "a.pcd" "cloud" true)], 2, (ask "b.pcd" "cloud" false), disk. eexists. vm_compute. repeat split. Qed.
(* the number of a large cloud *)
Theorem count_refuted : exists (g : string -> option B) q b s r, holds dec g (l_path q) b /\ uint32 (b_w Z b) /\ uint32 (b_h Z b) /\ load Z B dec 0 q (start Z B g) = (s, Some r) /\ 0 < points b /\ r = 0.
Proof.
  exists (fun _ => Some (Body Z 65536 65536 0)), (ask "a.pcd" "cloud" true), (Body Z 65536 65536 0). eexists. exists 0.
  split; [eexists; split; reflexivity|]. split; [unfold uint32; cbn; lia|]. split; [unfold uint32; cbn; lia|]. split; [vm_compute; reflexivity|]. split; reflexivity.
Qed.
(* the variant with Open3D answers although nothing was written *)
Theorem open3d_refuted : exists (s : st Z B) a q s' n, save_open3d_pcl Z B enc a true None q s = (s', Some n) /\ files Z B s' (s_path q) = None.
Proof. exists (start Z B disk), (Some (Cloud Z 0 "map" small)), (SaveReq "c.txt" "cloud"). eexists. exists 6. split; [vm_compute; reflexivity|reflexivity]. Qed.
