(* Cases and refutations: repaired stamps. *)
From Coq Require Import String ZArith List Bool Lia.
From Verif Require Import RpModel RpSpec RpProofs.
Import ListNotations.
Open Scope Z_scope.

Definition cl (t : Z) : rmsg := mkR "/os_cloud_node/points" (Some t) 5 1.
Definition im (t : Z) : rmsg := mkR "/os_cloud_node/imu" (Some t) 6 2.
Example ex_repaired : stamps (repaired [cl 1000000000; im 0; cl 0; cl 0; cl 1300000000]) = [1000000000; 1100000000; 1200000000; 1300000000] /\ corrected [cl 1000000000; im 0; cl 0; cl 0; cl 1300000000] = 2%nat.
Proof. split; reflexivity. Qed.
Example ex_clear : clear_topics [cl 1000000000; im 0; cl 0].
Proof. intros m [<-|[<-|[<-|[]]]] H; try reflexivity. exfalso. apply within_iff in H. vm_compute in H. discriminate. Qed.
Example ex_room : room period [1000000000; 0; 1300000000].
Proof.
  split.
  - intros a s k t b H Ns Nt. destruct a as [|a1 [|a2 [|a3 a]]]; cbn in H.
    + injection H as <- H. destruct k as [|[|k]]; cbn in H.
      * injection H; intros; congruence.
      * injection H; intros; subst. unfold period. lia.
      * discriminate.
    + injection H as _ <- H. congruence.
    + injection H as _ _ <- H. destruct k; discriminate.
    + injection H as _ _ _ H. destruct a; discriminate.
  - intros k t b H Nt. cbn in H. discriminate.
Qed.
(* true stamps that come early: the repaired ones go back *)
Theorem goes_back_refuted : exists l, clear_topics l /\ (forall a x y b, filter (fun s => negb (Z.eqb s 0)) (stamps l) = a ++ x :: y :: b -> x < y) /\ ~ increasing (stamps (repaired l)).
Proof.
  exists [cl 1000000000; cl 0; cl 0; cl 1150000000]. split; [intros m [<-|[<-|[<-|[<-|[]]]]] _; reflexivity|]. split.
  - intros a x y b H. cbn in H. destruct a as [|? [|? a]]; [injection H; intros; lia|injection H; intros; discriminate|]. injection H as _ _ H. destruct a; discriminate.
  - intros I. specialize (I [1000000000; 1100000000] 1200000000 1150000000 [] eq_refl). lia.
Qed.
(* a topic whose name stands in that of the clouds is altered too, and its stamps are taken for those of clouds *)
Theorem other_topic_refuted : exists m l, r_topic m <> "/os_cloud_node/points"%string /\ repaired [m] <> [m] /\ stamps (repaired (m :: l)) <> stamps (repaired l).
Proof.
  exists (mkR "/os_cloud_node" (Some 0) 5 3), [cl 0]. split; [discriminate|]. split; [vm_compute; discriminate|]. vm_compute. discriminate.
Qed.
(* the first stamps, if missing, count from zero, far from the true ones *)
Theorem leading_refuted : exists l, clear_topics l /\ stamps l = [0; 1600000000000000000] /\ stamps (repaired l) = [100000000; 1600000000000000000].
Proof. exists [cl 0; cl 1600000000000000000]. split; [intros m [<-|[<-|[]]] _; reflexivity|]. split; reflexivity. Qed.
