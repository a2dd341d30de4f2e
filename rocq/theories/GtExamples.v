(* Cases and refutations: the graph beside the IMU integrator. *)
From Coq Require Import ZArith Reals List Bool Lia Lra.
From Verif Require Import Base Mx Interp Geo EgModel CvModel MsModel NvModel NvSpec NvProofs NvExamples GtModel GtSpec GtProofs.
Import ListNotations.
Open Scope Z_scope.

(* twenty-three measurements, one a second *)
Definition msgs (n : nat) : list rimu := map (fun i => msg (Z.of_nat (S i) * sec)) (seq 1 n).
Example ex_msgs_ok : ~ stalls true (ri_time (msg sec)) (msgs 23) /\ (forall m, In m (msgs 23) -> ri_time m <> 0) /\ (length (msgs 23) / 10 = 2)%nat.
Proof.
  split; [unfold msgs; cbn [map seq stalls]; intros H; repeat (destruct H as [[H|[_ H]]|H]; [vm_compute in H; discriminate H|vm_compute in H; discriminate H|]); exact H|]. split; [|reflexivity].
  intros m M. apply in_map_iff in M. destruct M as (i & <- & _). unfold sec. cbn [msg ri_time]. lia.
Qed.
Example ex_graph : exists g outs, g_all R true toy_add toy_predict toy_cov iid v0 (1, 0, 0)%R 0%R (fun _ _ => true) (gstate0 R 0%R) (msg sec :: msgs 23) = Ok (g, outs) /\
  length (g_of g) = 5%nat /\ map fst (g_ov g) = [X 0; V 0; B 0; X 1; V 1; B 1; X 2; V 2; B 2].
Proof.
  destruct ex_msgs_ok as (A & C & D). destruct (graph_built R true toy_add toy_predict toy_cov iid v0 (1, 0, 0)%R 0%R (fun _ _ => true) (msg sec) (msgs 23)) as (g & outs & R & _ & _ & G); try reflexivity; try assumption; [discriminate|discriminate|].
  destruct G as [G1 G2]; [cbn; lia|]. exists g, outs. split; [exact R|]. rewrite G1, G2, D. split; reflexivity.
Qed.
Example ex_group_time : total (group (timed (ri_time (msg sec)) (msgs 23)) 1) = 10%R.
Proof. rewrite group_time by (cbn; lia). unfold stamp. cbn [nth msgs map seq ri_time msg Nat.mul Nat.add]. unfold sec. cbn. lra. Qed.

Section Z.
Variable pim : Type.
Variable strict : bool.
Variable add : pim -> vec3 -> vec3 -> R -> pim.
Variable predict : pim -> nav -> nav.
Variable pcov : pim -> mx.
Variable imu_body : iso.
Variable position velocity : vec3.
Variable p0 : pim.
Variable solvable : list (factor pim) -> values -> bool.
(* finding: a first message with stamp 0 leaves the node waiting for a first message; the next one sets the first state again, which throws.  The node without the graph goes on *)
Theorem zero_first m0 m1 l : ri_time m0 = 0 ->
  g_all pim strict add predict pcov imu_body position velocity p0 solvable (gstate0 pim p0) (m0 :: m1 :: l) = Throw /\
  integrate_all pim strict add predict pcov imu_body position velocity (istate0 pim p0) (m0 :: m1 :: l) = integrate_all pim strict add predict pcov imu_body position velocity (istate0 pim p0) (m1 :: l).
Proof.
  intros Z0. split.
  - cbn [g_all]. unfold g_step at 1, integrate at 1. cbn. rewrite Z0. reflexivity.
  - cbn [integrate_all]. unfold integrate at 1 2 3. cbn [is_time istate0 Z.eqb rbind fst snd is_pim is_path]. rewrite Z0. cbn [Z.eqb rbind fst snd]. destruct (integrate_all _ _ _ _ _ _ _ _ _ l) as [[s o]| |]; reflexivity.
Qed.
End Z.
Theorem zero_first_refuted : exists m0 l s outs, integrate_all R true toy_add toy_predict toy_cov iid v0 (1, 0, 0)%R (istate0 R 0%R) (m0 :: l) = Ok (s, outs) /\ length outs = 1%nat /\
  g_all R true toy_add toy_predict toy_cov iid v0 (1, 0, 0)%R 0%R (fun _ _ => true) (gstate0 R 0%R) (m0 :: l) = Throw.
Proof.
  exists (msg 0), [msg sec; msg (2 * sec)].
  destruct (zero_first R true toy_add toy_predict toy_cov iid v0 (1, 0, 0)%R 0%R (fun _ _ => true) (msg 0) (msg sec) [msg (2 * sec)] eq_refl) as [A C]. rewrite C.
  destruct (integrated R true toy_add toy_predict toy_cov iid v0 (1, 0, 0)%R 0%R (msg sec) [msg (2 * sec)]) as [_ D]; [discriminate|intros m [<-|[]]; discriminate|].
  destruct D as (s & outs & D1 & D2 & _); [cbn; unfold sec; lia|]. exists s, outs. split; [exact D1|]. split; [exact D2|exact A].
Qed.
