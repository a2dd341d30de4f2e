(* What the front end's inputs and outputs are about, independent of its state. *)
From Verif Require Import Base ImuModel ImuSpec FeModel.

(* inputs *)
Definition in_imu (l : list fin) : list imu := flat_map (fun i => match i with IImu t v => [(t, v)] | _ => [] end) l.
Definition in_baro (l : list fin) : list (Z * Z) := flat_map (fun i => match i with IBaro t p => [(t, p)] | _ => [] end) l.
Definition in_clouds (l : list fin) : list (Z * Z) := flat_map (fun i => match i with ICloud u sw => [(u, sw)] | _ => [] end) l.

(* outputs *)
Definition out_inits (o : list fout) : list Z := flat_map (fun x => match x with OInit t => [t] | _ => [] end) o.
Definition out_spans (o : list fout) : list (Z * Z) := flat_map (fun x => match x with OArray a b _ => [(a, b)] | _ => [] end) o.
Definition out_clouds (o : list fout) : list (Z * (Z * Z)) := flat_map (fun x => match x with OCloud u c _ _ => [(u, c)] | _ => [] end) o.
Definition out_baros (o : list fout) : list (Z * src) := flat_map (fun x => match x with OBaro t s => [(t, s)] | _ => [] end) o.
Definition out_rates (o : list fout) : list Z := flat_map (fun x => match x with ORate t => [t] | _ => [] end) o.

(* consecutive pairs *)
Fixpoint pairs (l : list Z) : list (Z * Z) := match l with x :: ((y :: _) as l') => (x, y) :: pairs l' | _ => [] end.
Fixpoint up (l : list Z) : Prop := match l with [] => True | x :: l' => (forall y, In y l' -> x < y) /\ up l' end.

(* payloads of the measurements after [last], each with the time since its predecessor *)
Fixpoint since (last : Z) (b : list imu) : list step :=
  match b with [] => [] | (t, v) :: b' => if last <? t then (v, t - last) :: since t b' else since last b' end.

(* ---- contract of the environment ---- *)
Definition announced (o : list fout) : list Z := out_inits o ++ map snd (out_spans o).

(* what an input must satisfy, given the inputs so far and the state it meets *)
Definition calm (c : fcfg) (ins : list fin) (s : fe) (i : fin) : Prop :=
  match i with
  | IImu t _ => forall m, In m (in_imu ins) -> fst m < t                        (* stamps increase *)
  | IBaro t _ => forall m, In m (in_baro ins) -> fst m < t
  | ICloud u sw => (forall m, In m (in_clouds ins) -> fst m < u) /\ 0 < sw
  | IStereo _ => True
  | IOdom t => In t (announced (f_out s)) /\ (forall x, In x (out_clouds (f_out s)) -> from_pcl (fst x) <= t) /\
               exists m, In m (in_imu ins) /\ t <= fst m                        (* a state not older than the newest cloud, IMU data past it *)
  | IPoll =>
      match f_pc s, f_prev s with
      | PChosen u sw new, Some (pu, psw) =>
          (exists m, In m (in_imu ins) /\ fst m < from_pcl pu) /\               (* IMU data before the first cloud *)
          (f_init s = true ->
             (exists m, In m (in_imu ins) /\ f_pst s < fst m < new) /\          (* between any two states *)
             (exists m, In m (in_imu ins) /\ new <= fst m))                     (* and timely *)
      | PSkew u sw new, Some (pu, psw) =>                                       (* none exactly at the ends of the sweep *)
          forall m, In m (in_imu ins) -> fst m <> from_pcl pu /\ fst m <> from_pcl pu + psw
      | PBaro u sw new, Some _ => fc_baro c = true -> in_baro ins <> []         (* barometer started *)
      | _, _ => True
      end
  end.
Fixpoint calm_run (c : fcfg) (ins : list fin) (s : fe) (l : list fin) : Prop :=
  match l with
  | [] => True
  | i :: l' => calm c ins s i /\ match fe_step c s i with Ok s' => calm_run c (ins ++ [i]) s' l' | _ => True end
  end.

(* integration [steps] from a to b follows the received measurements h *)
Definition follows (h : list imu) (a b : Z) (steps : list step) : Prop :=
  total steps = b - a /\ forall t, a <= t < b -> exists v, applied a t steps = Some v /\ hold t h None = Some v.
(* what the published arrays and clouds say about the measurements; p: the time of the previous state *)
Fixpoint contents (h : list imu) (p : option Z) (o : list fout) : Prop :=
  match o with
  | [] => True
  | OArray a b l :: o' => (exists steps, integrate_imu l a b = Ok steps /\ follows h a b steps) /\ contents h p o'
  | OCloud u c l1 l2 :: o' =>
      match p with Some a => follows h a (from_pcl (fst c)) l1 | None => l1 = [] end /\
      follows h (from_pcl (fst c)) (from_pcl (fst c) + snd c) l2 /\ contents h (Some (from_pcl u)) o'
  | _ :: o' => contents h p o'
  end.
