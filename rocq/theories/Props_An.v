(* Property C134: the node that reports statistics of point clouds. Proofs, cases and refutations in AnProofs.v. *)
From Coq Require Import String ZArith List Bool Reals.
From Verif Require Import Base Interp Geo EgModel AnModel AnSpec AnProofs.
Import ListNotations.
Open Scope R_scope.

(* C134 *)
Theorem C134_exactly :
  forall (lowest highest : R) (c : acloud), (exists o : aarray * remark, analyse lowest highest c = Ok o) <-> can_be_analysed c.
Proof. exact (@analysed_exactly). Qed.
Theorem C134_published :
  forall (lowest highest : R) (c : acloud) (a : aarray) (r : remark),
    proper lowest highest c ->
    analyse lowest highest c = Ok (a, r) ->
    aa_seq a = ac_seq c /\
    aa_frame a = ac_frame c /\
    (0 <= ac_stamp c - aa_stamp a < 1000)%Z /\
    aa_stamp a mod 1000 = 0%Z /\
    Forall2
      (fun (f : afield) (s : astat) =>
       as_label s = af_name f /\
       as_count s = ac_points c /\
       ((exists x : R, In (Some x) (af_values f)) ->
        exists lo hi : R, as_min s = Some lo /\ as_max s = Some hi /\ least_of (af_values f) lo /\ greatest_of (af_values f) hi) /\
       (forall l : list R, af_values f = map Some l -> exists m v : R, as_mean s = Some m /\ as_var s = Some v /\ mean_of l m /\ variance_of l m v) /\
       (In None (af_values f) -> as_mean s = None /\ as_var s = None)) (ac_fields c) (aa_stats a).
Proof. exact (@analysed_published). Qed.
Theorem C134_normals :
  forall (c : acloud) (x y z : list (option R)),
    find_values "normal_x" c = Some x ->
    find_values "normal_y" c = Some y ->
    find_values "normal_z" c = Some z ->
    (normals_remark c = AllFine <->
     (forall (i : nat) (a b d : R),
      nth_error x i = Some (Some a) -> nth_error y i = Some (Some b) -> nth_error z i = Some (Some d) -> Rabs (vnorm (a, b, d) - 1) <= 1 / 1000000)) /\
    (forall k n : nat,
     normals_remark c = Bad k n ->
     k <> 0%nat /\
     n = ac_points c /\
     (exists at_ : list nat,
        NoDup at_ /\
        Datatypes.length at_ = k /\
        (forall i : nat,
         In i at_ <->
         (exists a b d : R,
            nth_error x i = Some (Some a) /\
            nth_error y i = Some (Some b) /\ nth_error z i = Some (Some d) /\ 1 / 1000000 < Rabs (vnorm (a, b, d) - 1))))).
Proof. exact (@normals_said). Qed.
Theorem C134_serves :
  forall (lowest highest : R) (l : list acloud),
    Forall can_be_analysed l ->
    Datatypes.length (node lowest highest l) = Datatypes.length l /\
    Forall2 (fun (c : acloud) (o : aarray * remark) => analyse lowest highest c = Ok o) l (node lowest highest l).
Proof. exact (@node_serves). Qed.
Theorem C134_stops :
  forall (lowest highest : R) (before : list acloud) (c : acloud) (after : list acloud),
    Forall can_be_analysed before -> ~ can_be_analysed c -> node lowest highest (before ++ c :: after) = node lowest highest before.
Proof. exact (@node_stops). Qed.
Theorem C134_empty_cloud_refuted :
  forall lowest highest : R,
    ~
    (forall (l : list acloud) (c : acloud),
     In c l -> can_be_analysed c -> exists o : aarray * remark, In o (node lowest highest l) /\ analyse lowest highest c = Ok o).
Proof. exact (@empty_cloud_refuted). Qed.
Theorem C134_nan_mean_refuted :
  ~
    (forall (lowest highest : R) (n : nat) (f : afield) (s : astat),
     field_statistics lowest highest n f = Ok s ->
     Datatypes.length (af_values f) = n -> (exists x : R, In (Some x) (af_values f)) -> exists m : R, as_mean s = Some m).
Proof. exact (@nan_mean_refuted). Qed.
Theorem C134_nan_only_refuted :
  forall lowest highest : R,
    lowest < highest ->
    ~
    (forall (n : nat) (f : afield) (s : astat) (lo hi : R),
     field_statistics lowest highest n f = Ok s -> Datatypes.length (af_values f) = n -> as_min s = Some lo -> as_max s = Some hi -> lo <= hi).
Proof. exact (@nan_only_refuted). Qed.
Theorem C134_nan_normals_refuted :
  ~
    (forall (c : acloud) (x y z : list (option R)),
     find_values "normal_x" c = Some x ->
     find_values "normal_y" c = Some y ->
     find_values "normal_z" c = Some z -> normals_remark c = AllFine -> forall (i : nat) (a : option R), nth_error x i = Some a -> a <> None).
Proof. exact (@nan_normals_refuted). Qed.
Theorem C134_stamp_refuted :
  forall lowest highest : R, ~ (forall (c : acloud) (a : aarray) (r : remark), analyse lowest highest c = Ok (a, r) -> aa_stamp a = ac_stamp c).
Proof. exact (@stamp_refuted). Qed.

Print Assumptions C134_exactly.
Print Assumptions C134_published.
Print Assumptions C134_normals.
Print Assumptions C134_serves.
Print Assumptions C134_stops.
Print Assumptions C134_empty_cloud_refuted.
Print Assumptions C134_nan_mean_refuted.
Print Assumptions C134_nan_only_refuted.
Print Assumptions C134_nan_normals_refuted.
Print Assumptions C134_stamp_refuted.
