(* Proofs: distances between clouds. *)
From Coq Require Import Reals Lra Lia Psatz.
From Verif Require Import Base Interp Geo PcModel PcSpec PcProofs PcOps PcGeom PcGeomProofs DiModel DiSpec.
Local Open Scope Z_scope.

Definition FX : field := mkF "x" 0 FLOAT32 1. Definition FY : field := mkF "y" 4 FLOAT32 1.
Definition FZ : field := mkF "z" 8 FLOAT32 1. Definition FD : field := mkF "distance" 12 FLOAT32 1.
Definition made (seq stamp : Z) (frame : string) (n : Z) : cloud :=
  mkC seq stamp frame 1 n [FX; FY; FZ; FD] 0 16 (u32 (16 * n)) (vresize [] (u32 (16 * n))) 0.
Lemma set_up_eq seq stamp frame n : u32 n = n -> set_up seq stamp frame n = Ok (made seq stamp frame n).
Proof.
  intros E. unfold set_up. change (add_fields blank FIELDS FLOAT32 1) with (Ok (mkC 0 0 "" 0 0 [FX; FY; FZ; FD] 0 16 0 [] 0)). cbn [rbind c_fields c_big c_ps c_data].
  rewrite E. rewrite Z.mul_1_r. unfold made, u32. rewrite Z.mod_mod by lia. reflexivity.
Qed.
Lemma zlen_fresh n : 0 <= n -> zlen (vresize [] n) = n.
Proof. intros H. unfold vresize, zlen. rewrite firstn_nil. cbn [app]. rewrite repeat_length. cbn [length]. lia. Qed.
Lemma made_wf seq stamp frame n : 0 <= n -> 16 * n < 4294967296 -> wf (made seq stamp frame n).
Proof.
  intros A B. assert (E : u32 (16 * n) = 16 * n) by (unfold u32; apply Z.mod_small; lia). unfold made. rewrite E.
  constructor; cbn [c_h c_w c_ps c_rs c_data c_fields]; unfold npts; cbn [c_h c_w]; try lia.
  - rewrite zlen_fresh by lia. lia.
  - intros f I. repeat destruct I as [<-|I]; [..|destruct I]; cbn; lia.
Qed.
Lemma fields_scalar c f : c_ps c = 16 -> In f [FX; FY; FZ; FD] -> scalar c f.
Proof. intros P I. unfold scalar. rewrite P. repeat destruct I as [<-|I]; [..|destruct I]; cbn; lia. Qed.

Section K.
Variable K : codec R.
Hypothesis KO : codec_ok K.
Variable nearest : list vec3 -> vec3 -> option R.

(* the four values stored in a point *)
Definition row_is (p : bytes) (v : vec3) (r : R) : Prop :=
  stored K FX FY FZ p = rounded K FX FY FZ v /\ pvalue K FD p = cast K FLOAT32 r.

Lemma step_ok src tgt c i p : wf c -> c_ps c = 16 -> 0 <= i < npts c -> nth_error src (Z.to_nat i) = Some p ->
  (nearest tgt p = None -> distance_step K nearest FX FY FZ FD src tgt i c = Throw) /\
  (forall d, nearest tgt p = Some d -> exists c', distance_step K nearest FX FY FZ FD src tgt i c = Ok c' /\ same_shape c c' /\ row_is (point c' i) p (sqrt d) /\
     forall j, 0 <= j < npts c -> j <> i -> point c' j = point c j).
Proof.
  intros W P H E. unfold distance_step. rewrite E.
  destruct (write3 K KO c FX FY FZ i p W) as [c1 [A1 [A2 [A3 [A4 [A5 A6]]]]]]; try exact H; try (apply fields_scalar; [exact P|cbn; auto; fail]); try (unfold scalars_apart, clear_of; cbn; lia).
  destruct p as [[x y] z].
  assert (B : forall k : cloud -> res cloud, rbind (set_field_data K FX c i x) (fun c => rbind (set_field_data K FY c i y) (fun c => rbind (set_field_data K FZ c i z) k)) = k c1).
  { intros k. unfold set_field_data. cbn [f_ty FX FY FZ known]. change (known FLOAT32) with true. cbv iota.
    destruct (write_field K FX c i x) as [a| |]; cbn [rbind] in *; try discriminate. destruct (write_field K FY a i y) as [b| |]; cbn [rbind] in *; try discriminate.
    rewrite A1. reflexivity. }
  rewrite B. split; [intros ->; reflexivity|]. intros d ->.
  pose proof (npts_shape c c1 A2) as N1. pose proof (ps_shape c c1 A2) as P1.
  destruct (write_step K KO c1 FD i (sqrt d) A3) as [c2 [C1 [C2 [C3 [C4 [C5 C6]]]]]]; [apply fields_scalar; [lia|cbn; auto]|lia|].
  exists c2. unfold set_field_data. change (known (f_ty FD)) with true. cbv iota. conj.
  - exact C1.
  - apply (same_shape_trans _ _ _ A2 C2).
  - split; [|exact C4]. etransitivity; [|exact A4]. unfold stored. tup; (apply (pvalue_keep K c1 c2 FD _ i); [apply fields_scalar; [lia|cbn; auto]|unfold scalars_apart, clear_of; cbn; lia|exact C5]).
  - intros j J NE. rewrite C6 by lia. apply A6; assumption.
Qed.

Theorem distances_stored seq stamp frame src tgt : 16 * Z.of_nat (length src) < 4294967296 ->
  (compute_distances K nearest seq stamp frame src tgt = Throw <-> exists q, In q src /\ nearest tgt q = None) /\
  ((forall q, In q src -> nearest tgt q <> None) -> exists d, compute_distances K nearest seq stamp frame src tgt = Ok d /\ wf d /\
     c_seq d = seq /\ c_stamp d = stamp /\ c_frame d = frame /\ c_h d = 1 /\ c_w d = Z.of_nat (length src) /\ c_fields d = [FX; FY; FZ; FD] /\ c_ps d = 16 /\
     forall i q, nth_error src i = Some q -> exists r, nearest tgt q = Some r /\ row_is (point d (Z.of_nat i)) q (sqrt r)).
Proof.
  intros B. set (n := Z.of_nat (length src)) in *. assert (N : 0 <= n) by lia. assert (E : u32 n = n) by (unfold u32; apply Z.mod_small; lia).
  set (d0 := made seq stamp frame n). pose proof (made_wf seq stamp frame n N B) as W. fold d0 in W.
  assert (UNF : compute_distances K nearest seq stamp frame src tgt = for_points (length src) 0 (distance_step K nearest FX FY FZ FD src tgt) d0).
  { unfold compute_distances. fold n. rewrite set_up_eq by exact E. reflexivity. }
  rewrite UNF. assert (NP : npts d0 = n) by (unfold npts, d0, made; cbn [c_h c_w]; lia).
  set (at_ := fun i : Z => nth (Z.to_nat i) src v0). set (good := fun i : Z => match nearest tgt (at_ i) with Some _ => true | None => false end).
  assert (AT : forall i, 0 <= i < n -> nth_error src (Z.to_nat i) = Some (at_ i)) by (intros i H; apply nth_error_nth'; lia).
  destruct (for_points_throw d0 good (fun i _ p => exists r, nearest tgt (at_ i) = Some r /\ row_is p (at_ i) (sqrt r)) (distance_step K nearest FX FY FZ FD src tgt) W) with (k := length src) (i := 0) (c := d0)
    as [[j [A1 [A2 A3]]]|[A1 [d [A2 [A3 [A4 _]]]]]].
  - intros i c Hi SH PC. rewrite NP in *. pose proof (npts_shape d0 c SH) as NC. pose proof (ps_shape d0 c SH) as PSC.
    destruct (step_ok src tgt c i (at_ i)) as [R1 R2]; [apply (wf_shape d0); assumption|exact PSC|lia|apply AT; exact Hi|].
    unfold good. destruct (nearest tgt (at_ i)) as [r|] eqn:NE; [|apply R1; reflexivity].
    destruct (R2 r eq_refl) as [c' [D1 [D2 [D3 D4]]]]. exists c'. conj; [exact D1|exact D2|exists r; split; [reflexivity|exact D3]|]. intros j J NJ. apply D4; [lia|exact NJ].
  - lia.
  - lia.
  - apply same_shape_refl.
  - reflexivity.
  - rewrite NP in A1. assert (NO : nearest tgt (at_ j) = None) by (unfold good in A2; destruct (nearest tgt (at_ j)); [discriminate|reflexivity]).
    assert (IN : In (at_ j) src) by (apply (nth_error_In src (Z.to_nat j)); apply AT; exact A1). split.
    + split; [intros _; exists (at_ j); split; assumption|intros _; exact A3].
    + intros F. exfalso. apply (F (at_ j)); assumption.
  - rewrite NP in *. split.
    + rewrite A2. split; [discriminate|]. intros [q [I NO]]. exfalso. apply In_nth_error in I. destruct I as [m M]. assert (ML : (m < length src)%nat) by (apply nth_error_Some; congruence).
      specialize (A1 (Z.of_nat m) ltac:(lia)). unfold good in A1. pose proof (AT (Z.of_nat m) ltac:(lia)) as AM. rewrite Nat2Z.id in AM. rewrite M in AM. injection AM; intros QE. rewrite <- QE, NO in A1. discriminate.
    + intros _. pose proof (shape_fields d0 d A3) as [S1 [S2 [S3 [S4 [S5 [S6 [_ [S7 _]]]]]]]]. exists d. assert (WD : wf d) by (apply (wf_shape d0); assumption).
      unfold d0, made in S1, S2, S3, S4, S5, S6, S7. cbn [c_seq c_stamp c_frame c_h c_w c_fields c_ps] in S1, S2, S3, S4, S5, S6, S7. conj; try assumption.
      intros i q Q. assert (ML : (i < length src)%nat) by (apply nth_error_Some; congruence). destruct (A4 (Z.of_nat i) ltac:(lia)) as [r [Hr HR]].
      pose proof (AT (Z.of_nat i) ltac:(lia)) as AM. rewrite Nat2Z.id, Q in AM. injection AM; intros QE. rewrite <- QE in Hr, HR. exists r. split; assumption.
Qed.

(* with a correct search: the published cloud holds each source point with its distance to the target, measured in either frame *)
Variable lookup : string -> string -> Z -> option iso.
Lemma distance_moved t l q r : rigid t -> distance_to (map (iapp t) l) q r <-> distance_to l (iapp (iinv t) q) r.
Proof.
  intros T. assert (D : forall p, apart_by q (iapp t p) = apart_by (iapp (iinv t) q) p).
  { intros p. unfold apart_by. rewrite <- (iapp_inv t q T) at 1. apply rigid_dist. exact T. }
  unfold distance_to. split.
  - intros [[p [I E]] F]. apply in_map_iff in I. destruct I as [x [<- I]]. split; [exists x; split; [exact I|rewrite E; apply D]|]. intros y Y. rewrite <- D. apply F. apply in_map. exact Y.
  - intros [[p [I E]] F]. split; [exists (iapp t p); split; [apply in_map; exact I|rewrite E; symmetry; apply D]|]. intros y Y. apply in_map_iff in Y. destruct Y as [x [<- Y]]. rewrite D. apply F. exact Y.
Qed.
Theorem distances_published seq stamp frame src tframe tgt t : search_ok nearest -> 16 * Z.of_nat (length src) < 4294967296 -> tgt <> [] ->
  lookup frame tframe stamp = Some t -> rigid t ->
  exists d, callback K nearest lookup seq stamp frame src tframe tgt = Ok d /\ wf d /\ c_stamp d = stamp /\ c_frame d = frame /\ npts d = Z.of_nat (length src) /\
    map f_name (c_fields d) = ["x"; "y"; "z"; "distance"]%string /\
    forall i q, nth_error src i = Some q -> exists r, row_is (point d (Z.of_nat i)) q r /\ distance_to (map (iapp t) tgt) q r /\ distance_to tgt (iapp (iinv t) q) r.
Proof.
  intros [SO1 SO2] B NE L T. unfold callback. rewrite L. destruct (distances_stored seq stamp frame src (map (iapp t) tgt) B) as [_ H].
  destruct H as [d [A1 [A2 [A3 [A4 [A5 [A6 [A7 [A8 [A9 A10]]]]]]]]]].
  - intros q _. apply SO2. destruct tgt; [contradiction|discriminate].
  - exists d. conj; try assumption.
    + unfold npts. rewrite A6, A7. lia.
    + rewrite A8. reflexivity.
    + intros i q Q. destruct (A10 i q Q) as [r [R1 R2]]. exists (sqrt r). pose proof (proj2 (SO1 _ _ _ R1)) as D. conj; [exact R2|exact D|apply distance_moved; assumption].
Qed.
Theorem no_transform_throws seq stamp frame src tframe tgt : lookup frame tframe stamp = None -> callback K nearest lookup seq stamp frame src tframe tgt = Throw.
Proof. intros H. unfold callback. rewrite H. reflexivity. Qed.
Theorem empty_source_published seq stamp frame tframe tgt t : lookup frame tframe stamp = Some t ->
  exists d, callback K nearest lookup seq stamp frame [] tframe tgt = Ok d /\ npts d = 0 /\ c_data d = [].
Proof. intros H. unfold callback. rewrite H. eexists. split; [reflexivity|]. split; reflexivity. Qed.
(* finding: the byte size of the output is computed in 32 bits; with 2^28 points it is 0 and the first write is outside the buffer *)
Theorem too_many_points_refuted seq stamp frame src tgt : Z.of_nat (length src) = 268435456 -> compute_distances K nearest seq stamp frame src tgt = UB.
Proof.
  intros B. unfold compute_distances. rewrite B. rewrite set_up_eq by reflexivity. unfold made. change (u32 (16 * 268435456)) with 0. change (vresize [] 0) with (@nil Z). cbn [rbind].
  destruct src as [|[[x y] z] src]; [cbn in B; lia|]. cbn [length for_points]. reflexivity.
Qed.
End K.
Theorem node_starts m s t : starts m s t = true <-> (m = None \/ m = Some "POINT_TO_POINT"%string) /\ (s = None \/ s = Some "PointXYZ"%string) /\ (t = None \/ t = Some "PointXYZ"%string).
Proof.
  unfold starts. rewrite !andb_true_iff. destruct m as [m|], s as [s|], t as [t|]; rewrite ?String.eqb_eq; split; intros H; repeat split; try tauto; try (destruct H as [[? ?] ?]; subst; auto; fail);
  destruct H as [[|] [[|] [|]]]; congruence.
Qed.
