(* Property C122: conversion between files and messages. Proofs in FcProofs.v; cases in FcExamples.v. *)
From Coq Require Import String List ZArith Bool.
From Verif Require Import Base FcModel FcSpec FcProofs FcExamples.
Import ListNotations.
Open Scope Z_scope.
Open Scope list_scope.

(* C122 *)
Theorem C122_load :
  forall (D F : Type) (decode : string -> F -> option (body D)) (now : Z) (q : load_req) (s s' : st D F) (r : option Z),
    load D F decode now q s = (s', r) ->
    files D F s' = files D F s /\
    (forall b : body D,
     holds decode (files D F s) (l_path q) b ->
     r = Some (points b mod 2 ^ 32) /\
     (exists c : cloud D, sent D F s' = sent D F s ++ [(l_topic q, c)] /\ c_body D c = b /\ c_frame D c = l_frame q /\ stamped_now now c)) /\
    ((forall b : body D, ~ holds decode (files D F s) (l_path q) b) -> r = None /\ sent D F s' = sent D F s).
Proof. exact (@load_says). Qed.
Theorem C122_count_exact_iff :
  forall (D : Type) (b : body D), uint32 (b_w D b) -> uint32 (b_h D b) -> points b mod 2 ^ 32 = points b <-> points b < 2 ^ 32.
Proof. exact (@count_exact). Qed.
Theorem C122_one_message_per_answer :
  forall (D F : Type) (decode : string -> F -> option (body D)) (encode : string -> body D -> option F) (h : list (event D F)) (s : st D F),
    exists l : list (string * cloud D),
      sent D F (fst (run D F decode encode h s)) = sent D F s ++ l /\ Forall2 answers (filter answered (snd (run D F decode encode h s))) l.
Proof. exact (@one_message_per_answer). Qed.
Theorem C122_late_subscriber :
  forall (D F : Type) (decode : string -> F -> option (body D)) (encode : string -> body D -> option F) (h : list (event D F))
      (g : string -> option F) (t : string) (c : cloud D),
    latched D F (fst (run D F decode encode h (start D F g))) t = Some c <->
    first_latch t h true /\ last_message t (sent D F (fst (run D F decode encode h (start D F g)))) c.
Proof. exact (@late_subscriber). Qed.
Theorem C122_save :
  forall (D F : Type) (decode : string -> F -> option (body D)) (encode : string -> body D -> option F) (a : option (cloud D)) 
      (o : bool) (l : option F) (q : save_req) (s s' : st D F) (r : option Z),
    save D F encode a o l q s = (s', r) ->
    pubs D F s' = pubs D F s /\
    sent D F s' = sent D F s /\
    (forall p : string, p <> s_path q -> files D F s' p = files D F s p) /\
    (forall n : Z,
     r = Some n ->
     exists c : cloud D,
       wait D F s (s_topic q) a o = Some c /\
       n = points (c_body D c) mod 2 ^ 32 /\ (reads_back decode encode -> holds decode (files D F s') (s_path q) (c_body D c))) /\
    (r = None <->
     wait D F s (s_topic q) a o = None \/ (exists c : cloud D, wait D F s (s_topic q) a o = Some c /\ encode (s_path q) (c_body D c) = None)).
Proof. exact (@save_says). Qed.
Theorem C122_save_waits :
  forall (D F : Type) (s : st D F) (t : string) (a : option (cloud D)) (o : bool),
    (forall c : cloud D, wait D F s t a o = Some c -> a = Some c \/ latched D F s t = Some c) /\
    (wait D F s t a o = None <-> a = None /\ latched D F s t = None).
Proof. exact (@wait_says). Qed.
Theorem C122_round_trip :
  forall (D F : Type) (decode : string -> F -> option (body D)) (encode : string -> body D -> option F) (h : list (event D F))
      (g : string -> option F) (now : Z) (q : load_req) (b : body D) (n : Z) (o : bool) (l : option F) (p : string) (n' : Z) 
      (s1 s2 : st D F),
    reads_back decode encode ->
    first_latch (l_topic q) (h ++ [ELoad D F now q]) true ->
    holds decode (files D F (fst (run D F decode encode h (start D F g)))) (l_path q) b ->
    load D F decode now q (fst (run D F decode encode h (start D F g))) = (s1, Some n) ->
    save D F encode None o l {| s_path := p; s_topic := l_topic q |} s1 = (s2, Some n') -> holds decode (files D F s2) p b /\ n = n'.
Proof. exact (@load_then_save). Qed.
Theorem C122_latch_refuted :
  exists (h : list (event Z B)) (now : Z) (q : load_req) (g : string -> option B),
      let
      '(s, r) := go (h ++ [ELoad Z B now q]) (start Z B g) in
       l_latch q = true /\ option_map snd (nth_error r (Datatypes.length h)) = Some (Some 6) /\ latched Z B s (l_topic q) = None.
Proof. exact (@latch_refuted). Qed.
Theorem C122_no_latch_refuted :
  exists (h : list (event Z B)) (now : Z) (q : load_req) (g : string -> option B) (c : cloud Z),
      let '(s, _) := go (h ++ [ELoad Z B now q]) (start Z B g) in l_latch q = false /\ latched Z B s (l_topic q) = Some c /\ c_body Z c = other.
Proof. exact (@no_latch_refuted). Qed.
Theorem C122_count_refuted :
  exists (g : string -> option B) (q : load_req) (b : body Z) (s : st Z B) (r : Z),
      holds dec g (l_path q) b /\ uint32 (b_w Z b) /\ uint32 (b_h Z b) /\ load Z B dec 0 q (start Z B g) = (s, Some r) /\ 0 < points b /\ r = 0.
Proof. exact (@count_refuted). Qed.
Theorem C122_open3d_refuted :
  exists (s : st Z B) (a : option (cloud Z)) (q : save_req) (s' : st Z B) (n : Z),
      save_open3d_pcl Z B enc a true None q s = (s', Some n) /\ files Z B s' (s_path q) = None.
Proof. exact (@open3d_refuted). Qed.

Print Assumptions C122_load.
Print Assumptions C122_count_exact_iff.
Print Assumptions C122_one_message_per_answer.
Print Assumptions C122_late_subscriber.
Print Assumptions C122_save.
Print Assumptions C122_save_waits.
Print Assumptions C122_round_trip.
Print Assumptions C122_latch_refuted.
Print Assumptions C122_no_latch_refuted.
Print Assumptions C122_count_refuted.
Print Assumptions C122_open3d_refuted.
