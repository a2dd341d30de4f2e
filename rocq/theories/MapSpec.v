(* Reference map for the lidar mapping node, independent of the code's indices: the keyframes in the
   order in which they were added.                                                               *)
From Verif Require Import Base MapModel.

Section MapSpec.
  Variables P Pt PP : Type.
  Variable comp : P -> P -> P.
  Variable inv : P -> P.
  Variable act : P -> Pt -> Pt.
  Variable pa : P -> PP.
  Variable B : P.
  Variable moved : P -> P -> bool.

  Notation frame := (frame P Pt).
  Notation call := (call P Pt).
  Notation Fr := (Fr P Pt).
  Notation fr_ts := (fr_ts P Pt).
  Notation fr_pose := (fr_pose P Pt).
  Notation fr_cloud := (fr_cloud P Pt).

  Definition stamps (K : list frame) : list Z := map fr_ts K.

  (* the keyframe with the largest stamp *)
  Definition newest (K : list frame) (f : frame) : Prop :=
    In f K /\ forall g, In g K -> fr_ts g <= fr_ts f.

  (* a pose message: every keyframe with that stamp takes the new lidar pose *)
  Definition repose (K : list frame) (s : Z) (body : P) : list frame :=
    map (fun f => if fr_ts f =? s then Fr s (comp body B) (fr_cloud f) else f) K.

  (* One path entry while the cloud stamped [cts] is being processed.                              *)
  Inductive ref_entry (cts : Z) (cloud : list Pt) : list frame -> Z * P -> list frame -> Prop :=
  | re_first b : ref_entry cts cloud [] (cts, b) [Fr cts (comp b B) cloud]
  | re_add K b f : newest K f -> moved (comp b B) (fr_pose f) = true ->
      ref_entry cts cloud K (cts, b) (K ++ [Fr cts (comp b B) cloud])
  | re_skip K b f : newest K f -> moved (comp b B) (fr_pose f) = false ->
      ref_entry cts cloud K (cts, b) K
  | re_pose K s b : s <> cts -> ref_entry cts cloud K (s, b) (repose K s b).

  Inductive ref_path (cts : Z) (cloud : list Pt) : list frame -> list (Z * P) -> list frame -> Prop :=
  | rp_nil K : ref_path cts cloud K [] K
  | rp_cons K e K1 es K2 : ref_entry cts cloud K e K1 -> ref_path cts cloud K1 es K2 ->
      ref_path cts cloud K (e :: es) K2.

  Inductive ref_run : list frame -> list call -> list frame -> Prop :=
  | rr_nil K : ref_run K [] K
  | rr_cons K c K1 h K2 : ref_path (c_ts _ _ c) (c_cloud _ _ c) K (c_path _ _ c) K1 -> ref_run K1 h K2 ->
      ref_run K (c :: h) K2.

  (* Histories with distinct stamps: no two clouds share a stamp, and a path mentions the stamp of
     its cloud at most once.                                                                       *)
  Definition once (c : call) : Prop := (count_occ Z.eq_dec (map fst (c_path _ _ c)) (c_ts _ _ c) <= 1)%nat.
  Definition distinct (h : list call) : Prop := NoDup (map (c_ts _ _) h) /\ Forall once h.

  (* The node's maps say the same as the keyframe list [K]:
     - map: the stamp of a keyframe leads to that keyframe, no other stamp is mapped;
     - pose_cloud: the i-th point is made from the pose of the i-th keyframe;
     - the two indices are inverse of each other and number the keyframes in order.                *)
  Record agrees (K : list frame) (st : mst P Pt PP) : Prop := {
    ag_nodup : NoDup (stamps K);
    ag_sorted : msorted (m_map _ _ _ st);
    ag_map : forall f, In f K <-> mget (fr_ts f) (m_map _ _ _ st) = Some f;
    ag_only : forall s f, mget s (m_map _ _ _ st) = Some f -> fr_ts f = s;
    ag_cloud : m_cloud _ _ _ st = Some (map (fun f => pa (fr_pose f)) K);
    ag_ts : forall i, mget i (m_ts _ _ _ st) = if i <? 0 then None else nth_error (stamps K) (Z.to_nat i);
    ag_idx : forall s i, mget s (m_idx _ _ _ st) = Some i <-> (0 <= i /\ nth_error (stamps K) (Z.to_nat i) = Some s)
  }.

  (* The last pose a list of path entries gives to stamp [s] *)
  Fixpoint last_pose (s : Z) (es : list (Z * P)) : option P :=
    match es with
    | [] => None
    | (t, p) :: es' => match last_pose s es' with
                       | Some q => Some q
                       | None => if t =? s then Some p else None
                       end
    end.

  (* Contract of the nearest neighbour search, [nearer q x y] saying that x is at least as near to q
     as y: k distinct indices, none of the
     remaining poses is nearer than a returned one.                                                *)
  Definition knn_ok (nearer : PP -> PP -> PP -> Prop) (knn : list PP -> PP -> nat -> list Z) : Prop :=
    forall pc q k, (k <= length pc)%nat ->
      length (knn pc q k) = k /\ NoDup (knn pc q k) /\
      (forall i, In i (knn pc q k) -> 0 <= i < Z.of_nat (length pc)) /\
      (forall i j x y, In i (knn pc q k) -> 0 <= j -> ~ In j (knn pc q k) ->
        nth_error pc (Z.to_nat i) = Some x -> nth_error pc (Z.to_nat j) = Some y -> nearer q x y).
End MapSpec.
