(* Concrete clouds: the hypotheses of the theorems on point clouds are met, and the findings are witnessed. *)
From Coq Require Import Reals Lra Lia Psatz.
From Verif Require Import Base Interp Geo PcModel PcSpec PcProofs PcOps PcGeom PcGeomProofs PcFormat.
Local Open Scope Z_scope.

(* ---- two codecs that satisfy codec_ok ---- *)
Fixpoint le_enc (n : nat) (v : Z) : bytes := match n with O => [] | S n => v mod 256 :: le_enc n (v / 256) end.
Fixpoint le_dec (b : bytes) : Z := match b with [] => 0 | x :: b => x mod 256 + 256 * le_dec b end.
Definition modulus (ty : Z) : Z := 2 ^ (8 * fsize ty).
Definition signed (ty : Z) : bool := negb ((ty =? UINT8) || (ty =? UINT16) || (ty =? UINT32)).
Definition wrap (ty : Z) (v : Z) : Z := let m := modulus ty in let u := v mod m in if signed ty && (m / 2 <=? u) then u - m else u.
(* little endian integers, two's complement; the floating point types hold integers of the same size *)
Definition codecZ : codec Z :=
  mkK Z (fun ty b => wrap ty (le_dec b)) (fun ty v => le_enc (Z.to_nat (fsize ty)) v) wrap.
Definition codecR : codec R :=
  mkK R (fun ty b => IZR (wrap ty (le_dec b))) (fun ty v => le_enc (Z.to_nat (fsize ty)) (Int_part v)) (fun ty v => IZR (wrap ty (Int_part v))).

Lemma le_enc_len n : forall v, length (le_enc n v) = n. Proof. induction n as [|n IH]; intros v; cbn; [reflexivity|]. rewrite IH. reflexivity. Qed.
Lemma le_dec_enc n : forall v, le_dec (le_enc n v) = v mod 2 ^ (8 * Z.of_nat n).
Proof.
  induction n as [|n IH]; intros v; cbn [le_enc le_dec]; [rewrite Z.mod_1_r; reflexivity|]. rewrite IH, Z.mod_mod by lia.
  replace (8 * Z.of_nat (S n)) with (8 + 8 * Z.of_nat n) by lia. rewrite Z.pow_add_r by lia. change (2 ^ 8) with 256. rewrite Z.rem_mul_r by lia. reflexivity.
Qed.
Lemma le_dec_range b : 0 <= le_dec b < 2 ^ (8 * Z.of_nat (length b)).
Proof.
  induction b as [|x b IH]; cbn [le_dec length]; [cbn; lia|]. replace (8 * Z.of_nat (S (length b))) with (8 + 8 * Z.of_nat (length b)) by lia. rewrite Z.pow_add_r by lia. change (2 ^ 8) with 256.
  pose proof (Z.mod_pos_bound x 256 ltac:(lia)). lia.
Qed.
Lemma fsize_known ty : known ty = true -> fsize ty = 1 \/ fsize ty = 2 \/ fsize ty = 4 \/ fsize ty = 8.
Proof.
  intros H. unfold known in H. assert (ty = 1 \/ ty = 2 \/ ty = 3 \/ ty = 4 \/ ty = 5 \/ ty = 6 \/ ty = 7 \/ ty = 8) as C by lia.
  destruct C as [->|[->|[->|[->|[->|[->|[->| ->]]]]]]]; cbn; auto.
Qed.
Lemma modulus_pos ty : known ty = true -> 2 <= modulus ty. Proof. intros H. unfold modulus. destruct (fsize_known ty H) as [->|[->|[->| ->]]]; vm_compute; discriminate. Qed.
Lemma wrap_mod ty v : known ty = true -> wrap ty (v mod modulus ty) = wrap ty v.
Proof. intros H. pose proof (modulus_pos ty H). unfold wrap. rewrite Z.mod_mod by lia. reflexivity. Qed.
Lemma wrap_idem ty v : known ty = true -> wrap ty (wrap ty v) = wrap ty v.
Proof.
  intros H. pose proof (modulus_pos ty H) as M. assert (wrap ty v mod modulus ty = v mod modulus ty) as E.
  { unfold wrap. destruct (signed ty && (modulus ty / 2 <=? v mod modulus ty)).
    - rewrite <- (Z.mod_add (v mod modulus ty - modulus ty) 1) by lia. replace (v mod modulus ty - modulus ty + 1 * modulus ty) with (v mod modulus ty) by lia. apply Z.mod_mod. lia.
    - apply Z.mod_mod. lia. }
  rewrite <- (wrap_mod ty (wrap ty v)) by exact H. rewrite E. apply wrap_mod. exact H.
Qed.
Lemma wrap_le ty v : known ty = true -> wrap ty (le_dec (le_enc (Z.to_nat (fsize ty)) v)) = wrap ty v.
Proof. intros H. rewrite le_dec_enc. pose proof (fsize_pos ty H). rewrite Z2Nat.id by lia. apply wrap_mod. exact H. Qed.
Lemma codecZ_ok : codec_ok codecZ.
Proof.
  constructor; cbn [codecZ enc dec cast].
  - intros ty v H. unfold zlen. rewrite le_enc_len. pose proof (fsize_pos ty H). lia.
  - intros ty v H. rewrite wrap_le by exact H. apply wrap_idem. exact H.
  - intros ty b H _. apply wrap_idem. exact H.
Qed.
Lemma Int_IZR z : Int_part (IZR z) = z.
Proof. unfold Int_part. rewrite <- (tech_up (IZR z) (z + 1)); [lia| |]; rewrite plus_IZR; lra. Qed.
Lemma codecR_ok : codec_ok codecR.
Proof.
  constructor; cbn [codecR enc dec cast].
  - intros ty v H. unfold zlen. rewrite le_enc_len. pose proof (fsize_pos ty H). lia.
  - intros ty v H. rewrite Int_IZR, wrap_le by exact H. rewrite wrap_idem by exact H. reflexivity.
  - intros ty b H _. rewrite Int_IZR, wrap_idem by exact H. reflexivity.
Qed.
Lemma wrap64 v : - 2 ^ 63 <= v < 2 ^ 63 -> wrap FLOAT64 v = v.
Proof.
  intros B. unfold wrap. change (signed FLOAT64) with true. cbn [andb]. change (modulus FLOAT64) with (2 ^ 64). change (2 ^ 64 / 2) with (2 ^ 63).
  destruct (Z_lt_le_dec v 0).
  - rewrite <- (Z.mod_add v 1) by discriminate. rewrite Z.mod_small by lia. destruct (Z.leb_spec (2 ^ 63) (v + 1 * 2 ^ 64)); lia.
  - rewrite Z.mod_small by lia. destruct (Z.leb_spec (2 ^ 63) v); lia.
Qed.
Lemma wrap_range ty v : known ty = true -> - 2 ^ 63 <= wrap ty v < 2 ^ 63.
Proof.
  intros H. unfold wrap. assert (known ty = true) as H' by exact H. pose proof (modulus_pos ty H) as M. pose proof (Z.mod_pos_bound v (modulus ty) ltac:(lia)) as B.
  assert (MD : 2 * (modulus ty / 2) = modulus ty) by (unfold modulus; destruct (fsize_known ty H) as [->|[->|[->| ->]]]; reflexivity).
  destruct (Z_le_gt_dec (modulus ty) (2 ^ 63)) as [L|G]; [destruct (signed ty && _); lia|].
  assert (ty = 8) as -> by (unfold known in H; assert (ty = 1 \/ ty = 2 \/ ty = 3 \/ ty = 4 \/ ty = 5 \/ ty = 6 \/ ty = 7 \/ ty = 8) as C by lia; destruct C as [->|[->|[->|[->|[->|[->|[->| ->]]]]]]]; try reflexivity; vm_compute in G; discriminate).
  change (signed 8) with true. cbn [andb]. change (modulus 8) with (2 ^ 64) in *. change (2 ^ 64 / 2) with (2 ^ 63). destruct (Z.leb_spec (2 ^ 63) (v mod 2 ^ 64)); lia.
Qed.
Lemma codecR_widening : widening codecR.
Proof.
  intros ty b H _. cbn [codecR dec cast]. rewrite !Int_IZR. rewrite wrap64 by (apply wrap_range; exact H). rewrite wrap_idem by exact H. reflexivity.
Qed.

(* ---- a cloud: 2 rows of 2 points; x y z t range of four bytes each ---- *)
Definition fx := mkF "x" 0 FLOAT32 1. Definition fy := mkF "y" 4 FLOAT32 1. Definition fz := mkF "z" 8 FLOAT32 1.
Definition ft (ty : Z) := mkF "t" 12 ty 1. Definition fr (ty : Z) := mkF "range" 16 ty 1.
Definition pt (x y z t r : Z) : bytes := le_enc 4 x ++ le_enc 4 y ++ le_enc 4 z ++ le_enc 4 t ++ le_enc 4 r.
Definition pts4 : bytes := pt 1 2 3 0 1000 ++ pt (-4) 5 6 1000000 2000 ++ pt 7 8 9 2000000 3000 ++ pt 1 1 1 3000000 4000.
Definition ex (ty : Z) : cloud := mkC 0 5000 "sensor" 2 2 [fx; fy; fz; ft ty; fr ty] 0 20 40 pts4 1.
Lemma in5 {A} (P : A -> Prop) a b c d e : P a -> P b -> P c -> P d -> P e -> forall f, In f [a; b; c; d; e] -> P f.
Proof. intros Pa Pb Pc Pd Pe f [<-|[<-|[<-|[<-|[<-|[]]]]]]; assumption. Qed.
Lemma ex_wf ty : fsize ty = 4 -> wf (ex ty).
Proof.
  intros H. constructor; try (vm_compute; congruence); try reflexivity; [left; reflexivity|].
  unfold ex. cbn [c_fields c_ps]. apply in5; unfold f_end, fwidth; cbn [f_off f_cnt f_ty fx fy fz ft fr]; rewrite ?H; cbn; lia.
Qed.

(* C41 *)
Example add_fields_case : fits (ex UINT32) ["a"; "b"]%string UINT16 3 /\ c_ps (ex UINT32) = last_end (c_fields (ex UINT32)) /\
  match add_fields (ex UINT32) ["a"; "b"]%string UINT16 3 with Ok d => c_ps d = 32 /\ point d 1 = point (ex UINT32) 1 ++ zeros 12 | _ => False end.
Proof. split; [vm_compute; repeat split; congruence|]. split; [reflexivity|]. vm_compute. split; reflexivity. Qed.
(* the same cloud with sixteen bytes of padding at the end of the point *)
Definition pad : cloud := mkC 0 5000 "sensor" 1 1 [fx; fy; fz] 0 32 32 (le_enc 32 1) 1.
Lemma pad_wf : wf pad.
Proof. constructor; try (vm_compute; congruence); try reflexivity; [left; reflexivity|]. intros f [<-|[<-|[<-|[]]]]; vm_compute; repeat split; discriminate. Qed.
Theorem add_fields_refuted : exists src names ty cnt, wf src /\ names <> [] /\ 0 < cnt /\ known ty = true /\ fits src names ty cnt /\ add_fields src names ty cnt = UB.
Proof. exists pad, ["ux"; "uy"; "uz"]%string, FLOAT32, 1. conj; try reflexivity; try discriminate; [exact pad_wf|vm_compute; repeat split; congruence]. Qed.

(* C42 *)
Example set_get_case : scalar (ex UINT32) (ft UINT32) /\ 0 <= 2 < npts (ex UINT32) /\
  rbind (set_field_data codecZ (ft UINT32) (ex UINT32) 2 77) (fun c => field_data codecZ INT8 (ft UINT32) c 2) = Ok 77.
Proof. split; [vm_compute; repeat split; congruence|]. split; [vm_compute; split; congruence|reflexivity]. Qed.

(* C43 *)
Example filter_case : match filter_max codecZ UINT32 (fun v => v <=? 1500000) (ex UINT32) (ft UINT32) with
  Ok d => points d = [pt 1 2 3 0 1000; pt (-4) 5 6 1000000 2000] /\ c_w d = 2 | _ => False end.
Proof. vm_compute. split; reflexivity. Qed.

(* conversions *)
Example convert_case : match cast_field_with_scale codecZ (fun v => v / 1000) FLOAT32 (ex UINT32) "t" with
  Ok d => map (fun i => value codecZ d (ft FLOAT32) i) [0; 1; 2; 3] = [0; 1000; 2000; 3000] | _ => False end.
Proof. vm_compute. reflexivity. Qed.
(* a field that already has the type is not scaled *)
Theorem scale_skipped_refuted : exists c name f mul, wf c /\ find_field (c_fields c) name = Some f /\ f_ty f = FLOAT32 /\
  cast_field_with_scale codecZ mul FLOAT32 c name = Ok c /\ exists i, 0 <= i < npts c /\ value codecZ c f i <> cast codecZ FLOAT32 (mul (cast codecZ FLOAT64 (value codecZ c f i))).
Proof.
  exists (ex FLOAT32), "t"%string, (ft FLOAT32), (fun v => v / 1000). conj; try reflexivity; [apply ex_wf; reflexivity|]. exists 1. split; [vm_compute; split; congruence|vm_compute; discriminate].
Qed.

(* the formatter *)
Definition cfg_o : fmt_cfg := mkFC OUSTER true true "lidar". Definition cfg_c : fmt_cfg := mkFC CUSTOM true false "lidar".
Definition fmtZ := format codecZ (fun v => v / 1000) (fun v => v / 1000) (fun v => v <=? 2000).
Example format_ouster_case : match fmtZ cfg_o true (ex UINT32) with
  Ok (true, Some d) => points d = [pt 1 2 3 0 1; pt (-4) 5 6 1000 2; pt 7 8 9 2000 3] /\ c_frame d = "lidar"%string /\ clear_of (ft UINT32) (f_off (fr UINT32)) 4 | _ => False end.
Proof. vm_compute. conj; try reflexivity. left. discriminate. Qed.
Definition named (s : string) : cloud := with_fields (ex FLOAT32) [fx; fy; fz; mkF s 12 FLOAT32 1; fr UINT32].
Example format_custom_case : match fmtZ cfg_c false (named "t") with Ok (false, Some d) => points d = [pt 1 2 3 0 1000] | _ => False end.
Proof. vm_compute. reflexivity. Qed.
Example format_rename_case : match fmtZ cfg_c false (named "time") with Ok (false, Some d) => points d = [pt 1 2 3 0 1000] /\ find_field (c_fields d) "t" = Some (ft FLOAT32) | _ => False end.
Proof. vm_compute. split; reflexivity. Qed.
Example format_throw_case : fmtZ cfg_c false (named "stamp") = Throw. Proof. reflexivity. Qed.
Example format_run_case : match format_run codecZ (fun v => v / 1000) (fun v => v / 1000) (fun v => v <=? 2000) cfg_o false [ex UINT32; ex INT32] with Ok [None; Some _] => True | _ => False end.
Proof. vm_compute. exact I. Qed.

(* C44 *)
Definition q0 : quat := (3 / 5, 0, 0, 4 / 5)%R. Definition t0 : vec3 := (1, 0, 0)%R.
Example deskew_case : exact_rotation (1 / 1000) q0 /\ near_identity (1 / 1000) t0 q0 = false /\ disjoint [fx; fy; fz; ft FLOAT32] /\
  scalar (ex FLOAT32) fx /\ scalar (ex FLOAT32) fy /\ scalar (ex FLOAT32) fz /\ scalar (ex FLOAT32) (ft FLOAT32).
Proof.
  conj; try (vm_compute; repeat split; congruence).
  - split; [unfold qunit, qdot, q0; field|]. left. unfold qdot, qI, q0. replace (1 * (3 / 5) + 0 * 0 + 0 * 0 + 0 * (4 / 5))%R with (3 / 5)%R by field. rewrite Rabs_right; lra.
  - unfold near_identity. destruct (Rle_dec _ _) as [L|]; [|reflexivity]. exfalso. revert L.
    assert (M : (Rmin (frob2 (qmat q0) + vdot t0 t0 + 1) 4 <= 4)%R) by apply Rmin_r. set (m := Rmin _ _) in *. clearbody m. unfold frob2, madd, mopp, qmat, q0, t0, mI, vdot, vadd, vopp. cbn. lra.
  - repeat constructor; vm_compute; congruence || (left; discriminate) || (right; discriminate).
Qed.
(* a reference time before the stamp is taken to be far in the future: more than 500000 years *)
Theorem early_reference_refuted : forall dt stamp d, (0 < dt)%R -> 0 < d <= stamp -> stamp < 18446744073709551616 ->
  new_fraction dt (stamp - d) stamp = ((18446744073709551616 - IZR d) / 1000000 / dt)%R /\ (new_fraction dt (stamp - d) stamp > 0)%R.
Proof.
  intros dt stamp d DT D S. assert (E : u64 (stamp - d - stamp) = 18446744073709551616 - d).
  { unfold u64. replace (stamp - d - stamp) with (- d) by lia. rewrite <- (Z.mod_add (- d) 1) by discriminate. rewrite Z.mod_small; lia. }
  unfold new_fraction. rewrite E, minus_IZR. split; [reflexivity|]. assert (IZR d < IZR 18446744073709551616)%R by (apply IZR_lt; lia).
  unfold Rdiv. apply Rmult_gt_0_compat; [apply Rmult_gt_0_compat; lra|]. apply Rinv_0_lt_compat. exact DT.
Qed.
(* a scan without motion keeps its point times, although a scan with motion loses them *)
Theorem times_kept_refuted : exists src new_time, wf src /\ forall K eps prec dt, (0 < prec)%R ->
  deskew K eps prec v0 qI dt new_time src = Ok (with_stamp src new_time) /\ (exists i, 0 <= i < npts src /\ value codecZ (with_stamp src new_time) (ft FLOAT32) i <> 0).
Proof.
  exists (ex FLOAT32), 5000. split; [apply ex_wf; reflexivity|]. intros K eps prec dt P. split; [|exists 1; vm_compute; repeat split; congruence].
  apply deskew_identity. unfold near_identity. destruct (Rle_dec _ _) as [|N]; [reflexivity|]. exfalso. apply N. rewrite qmat_I.
  replace (frob2 (madd mI (mopp mI)) + vdot v0 v0)%R with 0%R by (unfold frob2, madd, mopp, mI, vdot, vadd, vopp, v0; cbn; ring).
  apply Rmult_le_pos; [apply Rle_0_sqr|]. apply Rmin_glb; [unfold frob2, mI, vdot, v0; cbn; lra|lra].
Qed.
(* unit vectors *)
Example unit_case : fits (ex FLOAT32) ["ux"; "uy"; "uz"]%string FLOAT32 1 /\ c_ps (ex FLOAT32) = last_end (c_fields (ex FLOAT32)) /\
  has_field (ex FLOAT32) "ux" = false /\ vec_of codecR FLOAT32 fx fy fz (point (ex FLOAT32) 0) <> v0.
Proof.
  split; [vm_compute; repeat split; congruence|]. conj; try reflexivity. unfold vec_of, v0. intros E. injection E as E _ _. cbn [codecR cast] in E. apply eq_IZR in E. revert E. unfold pvalue. cbn [codecR dec]. rewrite Int_IZR.
  vm_compute. discriminate.
Qed.
(* statistics *)
Example statistics_case : forall x, In x (column codecR FLOAT64 (ex FLOAT32) fx) -> (-4 <= x <= 7)%R.
Proof.
  assert (E : column codecR FLOAT64 (ex FLOAT32) fx = map IZR [1; -4; 7; 1]).
  { assert (H : forall l, map (fun i => cast codecR FLOAT64 (value codecR (ex FLOAT32) fx i)) l = map IZR (map (fun i => cast codecZ FLOAT64 (value codecZ (ex FLOAT32) fx i)) l)).
    { induction l as [|a l IH]; [reflexivity|]. cbn [map]. rewrite IH. f_equal. unfold value. cbn [codecR codecZ cast dec]. rewrite Int_IZR. reflexivity. }
    unfold column. rewrite H. f_equal. }
  rewrite E. cbn. intros x [<-|[<-|[<-|[<-|[]]]]]; lra.
Qed.
