(* Proofs: deskew, unit vectors, statistics. *)
From Coq Require Import Reals Lra Lia Psatz.
From Verif Require Import Base Interp Geo PcModel PcSpec PcProofs PcOps PcGeom.
Open Scope R_scope.

(* ---- the motion during the scan ---- *)
(* a rotation that slerp treats exactly: not within eps of the identity without being it *)
Definition exact_rotation (eps : R) (q : quat) : Prop := qunit q /\ (Rabs (qdot qI q) < 1 - eps \/ q = qI \/ q = qneg qI).
Lemma slerp_id eps x : 0 < eps -> slerp eps x qI qI = qI.
Proof.
  intros E. unfold slerp. assert (D : qdot qI qI = 1) by (unfold qdot, qI; ring). rewrite D. rewrite Rabs_R1.
  destruct (Rle_dec (1 - eps) 1); [|lra]. destruct (Rlt_dec 1 0); [lra|]. unfold qlin, qI. tup; ring.
Qed.
Lemma slerp_negid eps x : 0 < eps -> slerp eps x qI (qneg qI) = qI.
Proof.
  intros E. unfold slerp. assert (D : qdot qI (qneg qI) = - (1)) by (unfold qdot, qneg, qI; ring). rewrite D. rewrite Rabs_Ropp, Rabs_R1.
  destruct (Rle_dec (1 - eps) 1); [|lra]. destruct (Rlt_dec (- (1)) 0); [|lra]. unfold qlin, qneg, qI. tup; ring.
Qed.
Lemma slerp_exact_unit eps x q : 0 < eps -> exact_rotation eps q -> qunit (slerp eps x qI q).
Proof.
  intros E [U [H|[-> | ->]]]; [apply slerp_unit; try assumption; exact qunit_I|rewrite slerp_id by exact E; exact qunit_I|rewrite slerp_negid by exact E; exact qunit_I].
Qed.
Lemma pose_rigid eps t q x : 0 < eps -> exact_rotation eps q -> rigid (pose_at eps t q x).
Proof. intros E H. apply rigid_to_transform, slerp_exact_unit; assumption. Qed.
Lemma pose_start eps t q : 0 < eps -> exact_rotation eps q -> pose_at eps t q 0 = iid.
Proof.
  intros E [U _]. unfold pose_at, to_transform, iid. destruct (slerp_ends eps qI q E qunit_I U) as [A _]. rewrite A, qmat_I. f_equal. vring.
Qed.
Lemma pose_end eps t q : 0 < eps -> exact_rotation eps q -> pose_at eps t q 1 = mkIso (qmat q) t.
Proof.
  intros E [U _]. unfold pose_at, to_transform. destruct (slerp_ends eps qI q E qunit_I U) as [_ [A|A]]; rewrite A; rewrite ?qmat_neg; f_equal; vring.
Qed.
(* constant angular rate: the rotation over x + y is the rotation over x followed by the rotation over y *)
Lemma slerp_form eps x q : Rabs (qdot qI q) < 1 - eps -> 0 < eps -> qunit q ->
  let '(w, a, b, c) := q in let th := acos (Rabs w) in let s := (if Rlt_dec w 0 then - (sin (x * th) / sin th) else sin (x * th) / sin th) in
  sin th <> 0 /\ sin th * sin th = a * a + b * b + c * c /\ slerp eps x qI q = (cos (x * th), s * a, s * b, s * c).
Proof.
  intros H E U. destruct q as [[[w a] b] c]. unfold qunit in U. cbn in U. unfold slerp. assert (D : qdot qI (w, a, b, c) = w) by (unfold qdot, qI; ring). rewrite D in *.
  destruct (Rle_dec (1 - eps) (Rabs w)) as [G|_]; [lra|]. pose proof (Rabs_pos w) as AP. assert (RB : -1 <= Rabs w <= 1) by lra.
  set (th := acos (Rabs w)). assert (CT : cos th = Rabs w) by (apply cos_acos; exact RB). assert (TB : 0 <= th <= PI) by (apply acos_bound).
  assert (SQ : sin th * sin th = 1 - w * w). { pose proof (sin2_cos2 th) as Q. unfold Rsqr in Q. rewrite CT in Q. rewrite <- Rabs_mult in Q. rewrite Rabs_pos_eq in Q by apply Rle_0_sqr. lra. }
  assert (S1 : sin th <> 0). { intros Z. rewrite Z in SQ. assert (Rabs w * Rabs w = 1) by (rewrite <- Rabs_mult, Rabs_pos_eq by apply Rle_0_sqr; lra). nra. }
  split; [exact S1|]. split; [nra|]. unfold qlin, qI.
  assert (FD : sin ((1 - x) * th) = sin th * cos (x * th) - cos th * sin (x * th)) by (replace ((1 - x) * th) with (th - x * th) by ring; apply sin_minus).
  destruct (Rlt_dec w 0) as [N|N]; tup; try ring.
  - rewrite FD, CT. rewrite Rabs_left by exact N. field. exact S1.
  - rewrite FD, CT. rewrite Rabs_pos_eq by lra. field. exact S1.
Qed.
Lemma slerp_additive eps x y q : 0 < eps -> exact_rotation eps q -> slerp eps (x + y) qI q = qmul (slerp eps x qI q) (slerp eps y qI q).
Proof.
  intros E [U [H|[-> | ->]]]; [|rewrite !slerp_id by exact E; unfold qmul, qI; tup; ring|rewrite !slerp_negid by exact E; unfold qmul, qI; tup; ring].
  pose proof (slerp_form eps x q H E U) as A. pose proof (slerp_form eps y q H E U) as B. pose proof (slerp_form eps (x + y) q H E U) as C.
  destruct q as [[[w a] b] c]. cbv zeta in A, B, C. set (th := acos (Rabs w)) in *. destruct A as [S1 [SQ A]]. destruct B as [_ [_ B]]. destruct C as [_ [_ C]].
  rewrite A, B, C. unfold qmul. rewrite Rmult_plus_distr_r, cos_plus, sin_plus.
  set (sx := sin (x * th)) in *. set (sy := sin (y * th)) in *. set (cx := cos (x * th)) in *. set (cy := cos (y * th)) in *. clearbody sx sy cx cy.
  assert (N : (sx / sin th * a) * (sy / sin th * a) + (sx / sin th * b) * (sy / sin th * b) + (sx / sin th * c) * (sy / sin th * c) = sx * sy).
  { replace (sx / sin th * a * (sy / sin th * a) + sx / sin th * b * (sy / sin th * b) + sx / sin th * c * (sy / sin th * c)) with (sx * sy * ((a * a + b * b + c * c) / (sin th * sin th))) by (field; exact S1).
    rewrite <- SQ. field. exact S1. }
  destruct (Rlt_dec w 0); tup; try (field; exact S1).
  - replace (cx * cy - - (sx / sin th) * a * (- (sy / sin th) * a) - - (sx / sin th) * b * (- (sy / sin th) * b) - - (sx / sin th) * c * (- (sy / sin th) * c))
      with (cx * cy - ((sx / sin th * a) * (sy / sin th * a) + (sx / sin th * b) * (sy / sin th * b) + (sx / sin th * c) * (sy / sin th * c))) by ring. rewrite N. reflexivity.
  - replace (cx * cy - (sx / sin th) * a * ((sy / sin th) * a) - (sx / sin th) * b * ((sy / sin th) * b) - (sx / sin th) * c * ((sy / sin th) * c))
      with (cx * cy - ((sx / sin th * a) * (sy / sin th * a) + (sx / sin th * b) * (sy / sin th * b) + (sx / sin th * c) * (sy / sin th * c))) by ring. rewrite N. reflexivity.
Qed.

(* ---- loops that may throw ---- *)
Lemma for_points_throw (c0 : cloud) (good : Z -> bool) (Rel : Z -> bytes -> bytes -> Prop) step : wf c0 ->
  (forall i c, (0 <= i < npts c0)%Z -> same_shape c0 c -> point c i = point c0 i ->
     if good i then exists c', step i c = Ok c' /\ same_shape c c' /\ Rel i (point c i) (point c' i) /\ forall j, (0 <= j < npts c0)%Z -> j <> i -> point c' j = point c j
     else step i c = Throw) ->
  forall k i c, Z.of_nat k = (npts c0 - i)%Z -> (0 <= i)%Z -> same_shape c0 c -> (forall j, (i <= j < npts c0)%Z -> point c j = point c0 j) ->
  (exists j, (i <= j < npts c0)%Z /\ good j = false /\ for_points k i step c = Throw) \/
  ((forall j, (i <= j < npts c0)%Z -> good j = true) /\ exists c', for_points k i step c = Ok c' /\ same_shape c c' /\
    (forall j, (i <= j < npts c0)%Z -> Rel j (point c0 j) (point c' j)) /\ (forall j, (0 <= j < i)%Z -> point c' j = point c j)).
Proof.
  intros W ST. induction k as [|k IH]; intros i c KE I0 SH PC; cbn [for_points].
  - right. split; [intros j H; lia|]. exists c. conj; [reflexivity|apply same_shape_refl|intros j H; lia|reflexivity].
  - assert (HI : (0 <= i < npts c0)%Z) by lia. pose proof (ST i c HI SH (PC i ltac:(lia))) as S1. destruct (good i) eqn:G.
    + destruct S1 as [c1 [Q1 [Q2 [Q3 Q4]]]]. rewrite Q1. cbn [rbind].
      destruct (IH (i + 1)%Z c1 ltac:(lia) ltac:(lia) (same_shape_trans _ _ _ SH Q2)) as [[j [A [B C]]]|[A [c2 [P1 [P2 [P3 P4]]]]]].
      * intros j H. rewrite Q4 by lia. apply PC. lia.
      * left. exists j. conj; [lia|lia|exact B|exact C].
      * right. split; [intros j H; destruct (Z.eq_dec j i) as [->|NE]; [exact G|apply A; lia]|].
        exists c2. conj; [exact P1|apply (same_shape_trans _ _ _ Q2 P2)| |].
        -- intros j H. destruct (Z.eq_dec j i) as [->|NE]; [|apply P3; lia]. rewrite P4 by lia. rewrite <- (PC i) by lia. exact Q3.
        -- intros j H. rewrite P4 by lia. apply Q4; lia.
    + left. exists i. rewrite S1. conj; [lia|lia|exact G|reflexivity].
Qed.

Definition vec3_dec (v : vec3) : {v = v0} + {v <> v0}.
Proof. repeat decide equality; apply Req_EM_T. Defined.
Section K.
Variable K : codec R.
Hypothesis KO : codec_ok K.

Lemma write_step c f i v : wf c -> scalar c f -> (0 <= i < npts c)%Z ->
  exists c', write_field K f c i v = Ok c' /\ same_shape c c' /\ wf c' /\
    pvalue K f (point c' i) = cast K (f_ty f) v /\
    (forall o n, (0 <= o -> 0 <= n -> o + n <= c_ps c -> clear_of f o n -> slice (point c' i) o n = slice (point c i) o n)%Z) /\
    forall j, (0 <= j < npts c)%Z -> j <> i -> point c' j = point c j.
Proof.
  intros W S H. pose proof (set_get K KO c f i v W S H) as [c' [Q1 [Q2 [Q3 [Q4 [_ Q5]]]]]].
  unfold set_field_data in Q1. rewrite (proj1 S) in Q1. exists c'. pose proof W as W'. destruct W'. destruct (shape_fields c c' Q2) as [_ [_ [_ [E1 [E2 [_ [_ [E3 _]]]]]]]].
  assert (S'' : scalar c' f) by (unfold scalar; rewrite E3; exact S).
  conj; [exact Q1|exact Q2|exact Q3| | |].
  - rewrite <- (value_point K c' f i) by (lia || (rewrite ?E3; assumption)). exact Q4.
  - intros o n A B C D. rewrite <- !slice_point by (lia || (rewrite ?E3; lia)). apply Q5; try lia. right. exact D.
  - intros j A B. unfold point. specialize (Q5 j 0%Z (c_ps c) A ltac:(lia) ltac:(lia) ltac:(lia) (or_introl B)). rewrite !Z.add_0_r in Q5. rewrite E3. rewrite E3 in Q5. exact Q5.
Qed.
(* scalar g does not overlap scalar f *)
Definition scalars_apart (f g : field) : Prop := clear_of f (f_off g) (fsize (f_ty g)).
Lemma apart_sym f g : scalars_apart f g -> scalars_apart g f. Proof. unfold scalars_apart, clear_of. lia. Qed.
Lemma pvalue_keep c c' f g i : scalar c g -> scalars_apart f g ->
  (forall o n, (0 <= o -> 0 <= n -> o + n <= c_ps c -> clear_of f o n -> slice (point c' i) o n = slice (point c i) o n)%Z) -> pvalue K g (point c' i) = pvalue K g (point c i).
Proof. intros [A [B C]] AP H. unfold pvalue. rewrite H; [reflexivity|lia|pose proof (fsize_pos _ A); lia|lia|exact AP]. Qed.
Lemma scalar_shape c c' f : same_shape c c' -> scalar c f -> scalar c' f.
Proof. intros S H. destruct (shape_fields c c' S) as [_ [_ [_ [_ [_ [_ [_ [E _]]]]]]]]. unfold scalar. rewrite E. exact H. Qed.
Lemma npts_shape c c' : same_shape c c' -> npts c' = npts c.
Proof. intros S. destruct (shape_fields c c' S) as [_ [_ [_ [A [B _]]]]]. unfold npts. rewrite A, B. reflexivity. Qed.
Lemma ps_shape c c' : same_shape c c' -> c_ps c' = c_ps c.
Proof. intros S. destruct (shape_fields c c' S) as [_ [_ [_ [_ [_ [_ [_ [E _]]]]]]]]. exact E. Qed.

(* three scalars of a point as a vector, read as double / float *)
Definition vec_of (T : Z) (fx fy fz : field) (p : bytes) : vec3 := (cast K T (pvalue K fx p), cast K T (pvalue K fy p), cast K T (pvalue K fz p)).
Definition rounded (fx fy fz : field) (v : vec3) : vec3 := let '(x, y, z) := v in (cast K (f_ty fx) x, cast K (f_ty fy) y, cast K (f_ty fz) z).
Definition stored (fx fy fz : field) (p : bytes) : vec3 := (pvalue K fx p, pvalue K fy p, pvalue K fz p).
(* nothing else in the point was touched *)
Definition untouched (ps : Z) (fs : list field) (p p' : bytes) : Prop :=
  forall o n, (0 <= o)%Z -> (0 <= n)%Z -> (o + n <= ps)%Z -> (forall f, In f fs -> clear_of f o n) -> slice p' o n = slice p o n.

Lemma write3 c fx fy fz i v : wf c -> scalar c fx -> scalar c fy -> scalar c fz -> scalars_apart fx fy -> scalars_apart fx fz -> scalars_apart fy fz -> (0 <= i < npts c)%Z ->
  exists c', (let '(x, y, z) := v in rbind (write_field K fx c i x) (fun c => rbind (write_field K fy c i y) (fun c => write_field K fz c i z))) = Ok c' /\
    same_shape c c' /\ wf c' /\ stored fx fy fz (point c' i) = rounded fx fy fz v /\
    (forall o n, (0 <= o -> 0 <= n -> o + n <= c_ps c -> clear_of fx o n -> clear_of fy o n -> clear_of fz o n -> slice (point c' i) o n = slice (point c i) o n)%Z) /\
    forall j, (0 <= j < npts c)%Z -> j <> i -> point c' j = point c j.
Proof.
  destruct v as [[x y] z]. intros W SX SY SZ XY XZ YZ H.
  destruct (write_step c fx i x W SX H) as [c1 [A1 [A2 [A3 [A4 [A5 A6]]]]]].
  pose proof (npts_shape c c1 A2) as N1. pose proof (ps_shape c c1 A2) as P1.
  destruct (write_step c1 fy i y A3 (scalar_shape c c1 fy A2 SY) ltac:(lia)) as [c2 [B1 [B2 [B3 [B4 [B5 B6]]]]]].
  pose proof (same_shape_trans _ _ _ A2 B2) as S2. pose proof (npts_shape c c2 S2) as N2. pose proof (ps_shape c c2 S2) as P2.
  destruct (write_step c2 fz i z B3 (scalar_shape c c2 fz S2 SZ) ltac:(lia)) as [c3 [C1 [C2 [C3 [C4 [C5 C6]]]]]].
  exists c3. rewrite A1. cbn [rbind]. rewrite B1. cbn [rbind]. rewrite C1. conj.
  - reflexivity.
  - apply (same_shape_trans _ _ _ S2 C2).
  - exact C3.
  - unfold stored, rounded. tup.
    + rewrite (pvalue_keep c2 c3 fz fx i) by (try assumption; try (apply (scalar_shape c c2); assumption); try (apply apart_sym; assumption)).
      rewrite (pvalue_keep c1 c2 fy fx i) by (try assumption; try (apply (scalar_shape c c1); assumption); try (apply apart_sym; assumption)). exact A4.
    + rewrite (pvalue_keep c2 c3 fz fy i) by (try assumption; try (apply (scalar_shape c c2); assumption); try (apply apart_sym; assumption)). exact B4.
    + exact C4.
  - intros o n O N ON X Y Z. rewrite C5 by (lia || assumption). rewrite B5 by (lia || assumption). apply A5; assumption.
  - intros j J NE. rewrite C6 by lia. rewrite B6 by lia. apply A6; assumption.
Qed.

(* ---- C44: deskew ---- *)
Lemma deskew_step_ok eps dt t q new fx fy fz ft c i : wf c -> scalar c fx -> scalar c fy -> scalar c fz -> scalar c ft ->
  scalars_apart fx fy -> scalars_apart fx fz -> scalars_apart fy fz -> scalars_apart fx ft -> scalars_apart fy ft -> scalars_apart fz ft -> (0 <= i < npts c)%Z ->
  exists c', deskew_step K eps dt t q new fx fy fz ft i c = Ok c' /\ same_shape c c' /\
    (stored fx fy fz (point c' i) = rounded fx fy fz (iapp (imul new (pose_at eps t q (cast K FLOAT64 (pvalue K ft (point c i)) / dt))) (vec_of FLOAT64 fx fy fz (point c i))) /\
     pvalue K ft (point c' i) = cast K (f_ty ft) 0 /\ untouched (c_ps c) [fx; fy; fz; ft] (point c i) (point c' i)) /\
    forall j, (0 <= j < npts c)%Z -> j <> i -> point c' j = point c j.
Proof.
  intros W SX SY SZ STT XY XZ YZ XT YT ZT H. pose proof W as W'. destruct W'. unfold deskew_step.
  rewrite !(read_ok K) by assumption. cbn [rbind]. rewrite !(value_point K c) by (lia || assumption).
  change (cast K FLOAT64 (pvalue K fx (point c i)), cast K FLOAT64 (pvalue K fy (point c i)), cast K FLOAT64 (pvalue K fz (point c i))) with (vec_of FLOAT64 fx fy fz (point c i)).
  generalize (iapp (imul new (pose_at eps t q (cast K FLOAT64 (pvalue K ft (point c i)) / dt))) (vec_of FLOAT64 fx fy fz (point c i))). intros v. destruct (write3 c fx fy fz i v W SX SY SZ XY XZ YZ H) as [c1 [A1 [A2 [A3 [A4 [A5 A6]]]]]].
  destruct v as [[x' y'] z']. pose proof (npts_shape c c1 A2) as N1. pose proof (ps_shape c c1 A2) as P1.
  destruct (write_step c1 ft i 0 A3 (scalar_shape c c1 ft A2 STT) ltac:(lia)) as [c2 [B1 [B2 [B3 [B4 [B5 B6]]]]]].
  exists c2. conj.
  - assert (AS : forall (a : cloud -> res cloud), rbind (write_field K fx c i x') (fun c => rbind (write_field K fy c i y') (fun c => rbind (write_field K fz c i z') a)) =
      rbind (rbind (write_field K fx c i x') (fun c => rbind (write_field K fy c i y') (fun c => write_field K fz c i z'))) a).
    { intros a. destruct (write_field K fx c i x') as [d| |]; cbn [rbind]; try reflexivity. destruct (write_field K fy d i y'); reflexivity. }
    rewrite AS, A1. cbn [rbind]. exact B1.
  - apply (same_shape_trans _ _ _ A2 B2).
  - rewrite <- A4. unfold stored. tup; apply (pvalue_keep c1 c2 ft _ i); try (apply (scalar_shape c c1); assumption); try (apply apart_sym; assumption); exact B5.
  - exact B4.
  - intros o n O N ON CL. rewrite B5 by (rewrite ?P1; try assumption; apply CL; cbn; auto). apply A5; try assumption; apply CL; cbn; auto.
  - intros j J NE. rewrite B6 by lia. apply A6; assumption.
Qed.
(* reading a field as double and storing it again gives it back: every field type is exactly representable in double *)
Definition widening : Prop := forall ty b, known ty = true -> zlen b = fsize ty -> cast K ty (cast K FLOAT64 (dec K ty b)) = dec K ty b.
(* no two of the scalars share a byte *)
Definition disjoint (fs : list field) : Prop := ForallOrdPairs scalars_apart fs.
Lemma disjoint4 a b c d : disjoint [a; b; c; d] -> scalars_apart a b /\ scalars_apart a c /\ scalars_apart a d /\ scalars_apart b c /\ scalars_apart b d /\ scalars_apart c d.
Proof.
  intros H. inversion H as [|? ? H1 H2]; subst. inversion H2 as [|? ? H3 H4]; subst. inversion H4 as [|? ? H5 H6]; subst.
  rewrite Forall_forall in H1, H3, H5. conj; [apply H1|apply H1|apply H1|apply H3|apply H3|apply H5]; cbn; auto.
Qed.
Lemma wf_stamp c t : wf c -> wf (with_stamp c t).
Proof. intros W. destruct W. constructor; assumption. Qed.

(* where the points of a deskewed cloud are: position p' seen from the sensor at the new time is position p seen at the time of measurement *)
Theorem deskew_spec eps prec t q dt new_time src fx fy fz ft : 0 < eps -> exact_rotation eps q -> near_identity prec t q = false -> 0 < dt -> wf src ->
  find_field (c_fields src) "x" = Some fx -> find_field (c_fields src) "y" = Some fy -> find_field (c_fields src) "z" = Some fz -> find_field (c_fields src) "t" = Some ft ->
  scalar src fx -> scalar src fy -> scalar src fz -> scalar src ft -> disjoint [fx; fy; fz; ft] ->
  exists d, deskew K eps prec t q dt new_time src = Ok d /\ same_shape (with_stamp src new_time) d /\
    forall i, (0 <= i < npts src)%Z ->
      let s := cast K FLOAT64 (value K src ft i) in
      (exists p', iapp (pose_at eps t q (new_fraction dt new_time (c_stamp src))) p' = iapp (pose_at eps t q (s / dt)) (vec_of FLOAT64 fx fy fz (point src i)) /\
                  stored fx fy fz (point d i) = rounded fx fy fz p') /\
      (s / dt = new_fraction dt new_time (c_stamp src) -> widening -> stored fx fy fz (point d i) = stored fx fy fz (point src i)) /\
      value K d ft i = cast K (f_ty ft) 0 /\ untouched (c_ps src) [fx; fy; fz; ft] (point src i) (point d i).
Proof.
  intros E ER NI DT W FX FY FZ FT SX SY SZ STT DJ. unfold deskew. rewrite NI. destruct (Rle_dec dt 0); [lra|].
  unfold get_field. cbn [with_stamp c_fields]. rewrite FX, FY, FZ, FT. cbn [rbind]. rewrite (proj1 SX), (proj1 SY), (proj1 SZ), (proj1 STT). cbn [andb].
  set (dest := with_stamp src new_time). assert (WD : wf dest) by (apply wf_stamp; exact W). rewrite (size_points_wf dest WD).
  set (N := pose_at eps t q (new_fraction dt new_time (c_stamp src))). assert (RN : rigid N) by (apply pose_rigid; assumption).
  destruct (disjoint4 _ _ _ _ DJ) as [A1 [A2 [A3 [A4 [A5 A6]]]]]. assert (N0 : (0 <= npts dest)%Z) by (destruct WD; unfold npts; nia).
  destruct (for_points_spec (npts dest) dest
    (fun i p p2 => stored fx fy fz p2 = rounded fx fy fz (iapp (imul (iinv N) (pose_at eps t q (cast K FLOAT64 (pvalue K ft p) / dt))) (vec_of FLOAT64 fx fy fz p)) /\
       pvalue K ft p2 = cast K (f_ty ft) 0 /\ untouched (c_ps src) [fx; fy; fz; ft] p p2)
    (deskew_step K eps dt t q (iinv N) fx fy fz ft) WD ltac:(lia)) with (k := Z.to_nat (npts dest)) (i := 0%Z) (c := dest) as [d [Q1 [Q2 [Q3 _]]]].
  - intros i c Hi SH. pose proof (npts_shape dest c SH) as NC. pose proof (ps_shape dest c SH) as PC.
    destruct (deskew_step_ok eps dt t q (iinv N) fx fy fz ft c i) as [c' [B1 [B2 [B3 B4]]]]; try assumption; try (apply (scalar_shape dest c); assumption).
    + apply (wf_shape dest); assumption.
    + lia.
    + exists c'. rewrite PC in B3. change (c_ps dest) with (c_ps src) in B3. rewrite NC in B4. conj; try assumption; apply B3.
  - lia.
  - lia.
  - apply same_shape_refl.
  - exists d. split; [exact Q1|]. split; [exact Q2|]. intros i Hi. cbv zeta. assert (WS := W). destruct WS.
    destruct (Q3 i ltac:(change (npts dest) with (npts src); lia)) as [B1 [B2 B3]]. change (point dest i) with (point src i) in B1, B3.
    rewrite (value_point K src ft i) by (lia || assumption). pose proof (ps_shape dest d Q2) as PD. change (c_ps dest) with (c_ps src) in PD.
    assert (SCD : scalar d ft) by (apply (scalar_shape dest d); assumption). rewrite (value_point K d ft i) by (lia || (rewrite PD; assumption) || assumption).
    conj; [|intros EQ WI|exact B2|exact B3].
    + eexists. split; [|exact B1]. rewrite iapp_mul. apply iapp_inv. exact RN.
    + rewrite B1, EQ. fold N. rewrite imul_inv_l by exact RN. rewrite iapp_id. unfold rounded, vec_of, stored.
      assert (ZP : zlen (point src i) = c_ps src) by (apply zlen_point; assumption).
      assert (Wd : forall f, scalar src f -> cast K (f_ty f) (cast K FLOAT64 (pvalue K f (point src i))) = pvalue K f (point src i)).
      { intros f [G1 [G2 G3]]. unfold pvalue. apply WI; [exact G1|]. apply zlen_slice; [lia|pose proof (fsize_pos _ G1); lia|lia]. }
      rewrite !Wd by assumption. reflexivity.
Qed.
Theorem deskew_identity eps prec t q dt new_time src : near_identity prec t q = true -> deskew K eps prec t q dt new_time src = Ok (with_stamp src new_time).
Proof. intros H. unfold deskew. rewrite H. reflexivity. Qed.
Theorem deskew_throws eps prec t q dt new_time src : near_identity prec t q = false ->
  dt <= 0 \/ has_field src "x" = false \/ has_field src "y" = false \/ has_field src "z" = false \/ has_field src "t" = false -> deskew K eps prec t q dt new_time src = Throw.
Proof.
  intros NI H. unfold deskew. rewrite NI. destruct (Rle_dec dt 0); [reflexivity|]. destruct H as [H|H]; [contradiction|]. unfold get_field, has_field in *. cbn [with_stamp c_fields] in *.
  destruct (find_field (c_fields src) "x"); cbn [rbind]; [|reflexivity]. destruct (find_field (c_fields src) "y"); cbn [rbind]; [|reflexivity].
  destruct (find_field (c_fields src) "z"); cbn [rbind]; [|reflexivity]. destruct (find_field (c_fields src) "t"); cbn [rbind]; [|reflexivity]. destruct H as [H|[H|[H|H]]]; discriminate.
Qed.

(* ---- unit vectors ---- *)
Lemma normalise_spec v : (vnorm v = 0 -> safe_normalise v = Throw) /\ (vnorm v <> 0 -> exists u, safe_normalise v = Ok u /\ vnorm u = 1 /\ vscale (vnorm v) u = v).
Proof.
  unfold safe_normalise. split; intros H; destruct (Req_EM_T (vnorm v) 0) as [Z|Z]; try contradiction; [reflexivity|]. eexists. split; [reflexivity|].
  assert (P : 0 <= vnorm v) by apply sqrt_pos. assert (P1 : 0 < vnorm v) by lra. split.
  - assert (Q : vdot (vscale (/ vnorm v) v) (vscale (/ vnorm v) v) = / vnorm v * / vnorm v * vdot v v) by vring.
    unfold vnorm at 1. rewrite Q. assert (S : vdot v v = vnorm v * vnorm v). { unfold vnorm. rewrite sqrt_sqrt; [reflexivity|]. destruct v as [[x y] z]. cbn. nra. }
    rewrite S. replace (/ vnorm v * / vnorm v * (vnorm v * vnorm v)) with 1 by (field; exact Z). apply sqrt_1.
  - destruct v as [[x y] z]. cbn [vscale]. set (n := vnorm (x, y, z)) in *. tup; field; exact Z.
Qed.
Lemma vnorm_zero v : vnorm v = 0 <-> v = v0.
Proof.
  split; [|intros ->; unfold vnorm, vdot, v0; replace (0 * 0 + 0 * 0 + 0 * 0) with 0 by ring; apply sqrt_0].
  intros H. destruct v as [[x y] z]. unfold vnorm in H. cbn in H. apply sqrt_eq_0 in H; [|nra]. unfold v0. tup; nra.
Qed.
Lemma unit_step_ok fx fy fz ux uy uz c i : wf c -> scalar c fx -> scalar c fy -> scalar c fz -> scalar c ux -> scalar c uy -> scalar c uz ->
  scalars_apart ux uy -> scalars_apart ux uz -> scalars_apart uy uz -> (0 <= i < npts c)%Z ->
  let v := vec_of FLOAT32 fx fy fz (point c i) in
  (v = v0 -> unit_step K fx fy fz ux uy uz i c = Throw) /\
  (v <> v0 -> exists c' u, unit_step K fx fy fz ux uy uz i c = Ok c' /\ same_shape c c' /\
     (vnorm u = 1 /\ vscale (vnorm v) u = v /\ stored ux uy uz (point c' i) = rounded ux uy uz u /\ untouched (c_ps c) [ux; uy; uz] (point c i) (point c' i)) /\
     forall j, (0 <= j < npts c)%Z -> j <> i -> point c' j = point c j).
Proof.
  intros W SX SY SZ SU SV SW XY XZ YZ H. cbv zeta. pose proof W as W'. destruct W'. unfold unit_step. rewrite !(read_ok K) by assumption. cbn [rbind]. rewrite !(value_point K c) by (lia || assumption).
  change (cast K FLOAT32 (pvalue K fx (point c i)), cast K FLOAT32 (pvalue K fy (point c i)), cast K FLOAT32 (pvalue K fz (point c i))) with (vec_of FLOAT32 fx fy fz (point c i)).
  generalize (vec_of FLOAT32 fx fy fz (point c i)). intros v. destruct (normalise_spec v) as [A B]. split; intros Z.
  - apply vnorm_zero in Z. rewrite A by exact Z. reflexivity.
  - destruct B as [u [B1 [B2 B3]]]; [intros E; apply vnorm_zero in E; contradiction|]. rewrite B1. cbn [rbind].
    destruct (write3 c ux uy uz i u W SU SV SW XY XZ YZ H) as [c' [Q1 [Q2 [Q3 [Q4 [Q5 Q6]]]]]]. exists c', u. destruct u as [[a b] e]. conj; try assumption.
    intros o n O N ON CL. apply Q5; try assumption; apply CL; cbn; auto.
Qed.
Lemma find_app fs gs name : find_field (fs ++ gs) name = match find_field fs name with Some f => Some f | None => find_field gs name end.
Proof. induction fs as [|a fs IH]; cbn; [reflexivity|]. destruct (String.eqb (f_name a) name); [reflexivity|exact IH]. Qed.
Theorem unit_vectors_spec src fx fy fz : wf src -> fits src ["ux"; "uy"; "uz"]%string FLOAT32 1 -> c_ps src = last_end (c_fields src) ->
  find_field (c_fields src) "x" = Some fx -> find_field (c_fields src) "y" = Some fy -> find_field (c_fields src) "z" = Some fz ->
  scalar src fx -> scalar src fy -> scalar src fz ->
  has_field src "ux" = false -> has_field src "uy" = false -> has_field src "uz" = false ->
  let pos i := vec_of FLOAT32 fx fy fz (point src i) in
  (add_unit_vectors K src = Throw <-> exists i, (0 <= i < npts src)%Z /\ pos i = v0) /\
  ((forall i, (0 <= i < npts src)%Z -> pos i <> v0) ->
   exists d ux uy uz, add_unit_vectors K src = Ok d /\ wf d /\ c_fields d = c_fields src ++ [ux; uy; uz] /\
     f_name ux = "ux"%string /\ f_name uy = "uy"%string /\ f_name uz = "uz"%string /\ f_ty ux = FLOAT32 /\ f_ty uy = FLOAT32 /\ f_ty uz = FLOAT32 /\
     c_h d = c_h src /\ c_w d = c_w src /\ c_stamp d = c_stamp src /\ c_frame d = c_frame src /\
     forall i, (0 <= i < npts src)%Z ->
       (exists u, vnorm u = 1 /\ vscale (vnorm (pos i)) u = pos i /\ stored ux uy uz (point d i) = rounded ux uy uz u) /\
       forall f, In f (c_fields src) -> fbytes d f i = fbytes src f i).
Proof.
  intros W F PK FX FY FZ SX SY SZ NX NY NZ pos.
  assert (LE : (c_ps src <= new_step src ["ux"; "uy"; "uz"]%string FLOAT32 1)%Z) by (unfold new_step; cbn; lia).
  destruct (add_fields_ok src ["ux"; "uy"; "uz"]%string FLOAT32 1 W ltac:(lia) ltac:(discriminate) F LE) as [d [Q1 [Q2 [_ [Q4 [Q5 [Q6 [Q7 [Q8 [Q9 [Q10 Q11]]]]]]]]]]].
  set (o := last_end (c_fields src)) in *. cbn [new_fields] in Q10. change (fsize FLOAT32 * 1)%Z with 4%Z in Q10.
  set (ux := mkF "ux" o FLOAT32 1) in *. set (uy := mkF "uy" (o + 4) FLOAT32 1) in *. set (uz := mkF "uz" (o + 4 + 4) FLOAT32 1) in *.
  pose proof (last_end_bounds src W) as LB. fold o in LB. pose proof Q2 as W2. destruct W2. pose proof W as W1. destruct W1.
  assert (IU : forall g, In g [ux; uy; uz] -> In g (c_fields d)) by (intros g I; rewrite Q10; apply in_or_app; right; exact I).
  assert (SU : forall g, In g [ux; uy; uz] -> scalar d g).
  { intros g I. destruct (wf_fields g (IU g I)) as [A [B C]]. assert (T : f_ty g = FLOAT32 /\ f_cnt g = 1%Z) by (destruct I as [<-|[<-|[<-|[]]]]; split; reflexivity). destruct T as [T1 T2].
    unfold f_end, fwidth in C. rewrite T1, T2 in C. unfold scalar. rewrite T1. change (fsize FLOAT32) with 4%Z in *. conj; [reflexivity|lia|lia]. }
  assert (PSD : (c_ps src <= c_ps d)%Z). { destruct (wf_fields ux (IU ux ltac:(cbn; auto))) as [_ [_ C]]. unfold f_end, fwidth in C. cbn in C. lia. }
  assert (SO : forall f, scalar src f -> scalar d f) by (intros f [A [B C]]; unfold scalar; conj; [exact A|exact B|lia]).
  assert (PR : forall i f, (0 <= i < npts src)%Z -> scalar src f -> pvalue K f (point d i) = pvalue K f (point src i)).
  { intros i f Hi [A [B C]]. unfold pvalue. rewrite Q11 by exact Hi. rewrite slice_app_l; [reflexivity|exact B|pose proof (fsize_pos _ A); lia|rewrite zlen_point by assumption; lia]. }
  assert (PV : forall i, (0 <= i < npts src)%Z -> vec_of FLOAT32 fx fy fz (point d i) = pos i) by (intros i Hi; unfold pos, vec_of; rewrite !PR by assumption; reflexivity).
  assert (ND : npts d = npts src) by (unfold npts; rewrite Q6, Q7; reflexivity).
  assert (UNF : add_unit_vectors K src = for_points (Z.to_nat (npts d)) 0 (unit_step K fx fy fz ux uy uz) d).
  { unfold add_unit_vectors. rewrite Q1. cbn [rbind]. unfold get_field. unfold has_field in NX, NY, NZ.
    rewrite Q10, !find_app, FX, FY, FZ. cbn [rbind].
    destruct (find_field (c_fields src) "ux"); [discriminate|]. destruct (find_field (c_fields src) "uy"); [discriminate|]. destruct (find_field (c_fields src) "uz"); [discriminate|].
    cbn [find_field f_name ux uy uz String.eqb Ascii.eqb Bool.eqb rbind]. rewrite (proj1 SX), (proj1 SY), (proj1 SZ). cbn [f_ty andb]. rewrite size_points_wf by assumption. reflexivity. }
  rewrite UNF. set (good := fun i => if vec3_dec (pos i) then false else true).
  assert (G1 : forall i, good i = false <-> pos i = v0) by (intros i; unfold good; destruct (vec3_dec (pos i)); split; intros; congruence).
  destruct (for_points_throw d good (fun i p p2 => (exists u, vnorm u = 1 /\ vscale (vnorm (pos i)) u = pos i /\ stored ux uy uz p2 = rounded ux uy uz u) /\ untouched (c_ps d) [ux; uy; uz] p p2)
    (unit_step K fx fy fz ux uy uz) Q2) with (k := Z.to_nat (npts d)) (i := 0%Z) (c := d) as [[j [A [B C]]]|[A [d2 [P1 [P2 [P3 _]]]]]].
  - intros i c Hi SH PC. pose proof (npts_shape d c SH) as NC. pose proof (ps_shape d c SH) as PSC.
    destruct (unit_step_ok fx fy fz ux uy uz c i) as [R1 R2]; try (apply (scalar_shape d c); [exact SH|first [apply SO; assumption|apply SU; cbn; auto; fail]]); try (unfold scalars_apart, clear_of; cbn; lia).
    + apply (wf_shape d); assumption.
    + rewrite PC, PV in R1, R2 by lia. destruct (good i) eqn:GI.
      * destruct R2 as [c' [u [D1 [D2 [D3 D4]]]]]; [intros Z; apply G1 in Z; congruence|]. exists c'. rewrite NC in D4. destruct D3 as [D5 [D6 [D7 D8]]]. rewrite PSC in D8. rewrite PC. conj; [exact D1|exact D2|exists u; conj; assumption|exact D8|]. intros j J NE. apply D4; assumption.
      * apply R1. apply G1. exact GI.
  - assert (0 <= npts d)%Z by (unfold npts; nia). lia.
  - lia.
  - apply same_shape_refl.
  - reflexivity.
  - apply G1 in B. split.
    + split; [intros _; exists j; split; [lia|exact B]|intros _; exact C].
    + intros NZ'. exfalso. apply (NZ' j); [lia|exact B].
  - split.
    + rewrite P1. split; [discriminate|]. intros [i [Hi Z]]. apply G1 in Z. rewrite A in Z by lia. discriminate.
    + intros _. pose proof (shape_fields d d2 P2) as [_ [S2 [S3 [S4 [S5 [S6 [_ [S7 _]]]]]]]]. exists d2, ux, uy, uz. conj; try reflexivity; try congruence.
      * apply (wf_shape d); assumption.
      * intros i Hi. destruct (P3 i ltac:(lia)) as [P4 P5]. split; [exact P4|]. intros f I. destruct (wf_fields0 f I) as [B1 [B2 B3]]. pose proof (fsize_nonneg (f_ty f)). assert (0 <= fwidth f)%Z by (unfold fwidth; nia).
        rewrite !fbytes_point by (try assumption; lia). unfold f_end in B3.
        rewrite P5; [|lia|lia|lia|].
        -- rewrite Q11 by exact Hi. apply slice_app_l; [lia|lia|rewrite zlen_point by assumption; lia].
        -- intros g Ig. right. destruct Ig as [<-|[<-|[<-|[]]]]; cbn; lia.
Qed.

(* ---- statistics ---- *)
Lemma fold_max_spec l : forall a, (forall x, In x l -> x <= fold_left std_max l a) /\ a <= fold_left std_max l a /\ (fold_left std_max l a = a \/ In (fold_left std_max l a) l).
Proof.
  induction l as [|b l IH]; intros a; cbn [fold_left]; [conj; [intros x []|lra|left; reflexivity]|]. destruct (IH (std_max a b)) as [A [B C]].
  assert (D : a <= std_max a b /\ b <= std_max a b /\ (std_max a b = a \/ std_max a b = b)) by (unfold std_max; destruct (Rlt_dec a b); conj; try lra; auto).
  destruct D as [D1 [D2 D3]]. conj; [intros x [<-|I]; [lra|apply A; exact I]|lra|]. destruct C as [C|C]; [|right; right; exact C]. rewrite C. destruct D3 as [D3|D3]; [left; exact D3|right; left; symmetry; exact D3].
Qed.
Lemma fold_min_spec l : forall a, (forall x, In x l -> fold_left std_min l a <= x) /\ fold_left std_min l a <= a /\ (fold_left std_min l a = a \/ In (fold_left std_min l a) l).
Proof.
  induction l as [|b l IH]; intros a; cbn [fold_left]; [conj; [intros x []|lra|left; reflexivity]|]. destruct (IH (std_min a b)) as [A [B C]].
  assert (D : std_min a b <= a /\ std_min a b <= b /\ (std_min a b = a \/ std_min a b = b)) by (unfold std_min; destruct (Rlt_dec b a); conj; try lra; auto).
  destruct D as [D1 [D2 D3]]. conj; [intros x [<-|I]; [lra|apply A; exact I]|lra|]. destruct C as [C|C]; [|right; right; exact C]. rewrite C. destruct D3 as [D3|D3]; [left; exact D3|right; left; symmetry; exact D3].
Qed.
(* the greatest / least element of a list *)
Definition greatest (l : list R) (m : R) : Prop := In m l /\ forall x, In x l -> x <= m.
Definition least (l : list R) (m : R) : Prop := In m l /\ forall x, In x l -> m <= x.
Lemma column_ne T c f : npts c <> 0%Z -> wf c -> column K T c f <> [].
Proof. intros N W E. assert (L := column_length K T c f). rewrite E in L. cbn in L. assert (0 <= npts c)%Z by (destruct W; unfold npts; nia). lia. Qed.
Theorem field_max_spec T lowest c f : wf c -> scalar c f -> (forall x, In x (column K T c f) -> lowest <= x) ->
  (npts c = 0%Z -> field_max K T lowest c f = Throw) /\ (npts c <> 0%Z -> exists m, field_max K T lowest c f = Ok m /\ greatest (column K T c f) m).
Proof.
  intros W S LO. unfold field_max. rewrite extreme_ok by assumption. destruct (npts c =? 0)%Z eqn:E; split; intros N; try (exfalso; lia); [reflexivity|].
  eexists. split; [reflexivity|]. destruct (fold_max_spec (column K T c f) lowest) as [A [B C]]. split; [|exact A]. destruct C as [C|C]; [|exact C].
  destruct (column K T c f) as [|b l] eqn:EC; [exfalso; apply (column_ne T c f N W EC)|]. assert (b = fold_left std_max (b :: l) lowest) as Q; [|rewrite <- Q; left; reflexivity].
  apply Rle_antisym; [apply A; left; reflexivity|rewrite C; apply LO; left; reflexivity].
Qed.
Theorem field_min_spec T highest c f : wf c -> scalar c f -> (forall x, In x (column K T c f) -> x <= highest) ->
  (npts c = 0%Z -> field_min K T highest c f = Throw) /\ (npts c <> 0%Z -> exists m, field_min K T highest c f = Ok m /\ least (column K T c f) m).
Proof.
  intros W S LO. unfold field_min. rewrite extreme_ok by assumption. destruct (npts c =? 0)%Z eqn:E; split; intros N; try (exfalso; lia); [reflexivity|].
  eexists. split; [reflexivity|]. destruct (fold_min_spec (column K T c f) highest) as [A [B C]]. split; [|exact A]. destruct C as [C|C]; [|exact C].
  destruct (column K T c f) as [|b l] eqn:EC; [exfalso; apply (column_ne T c f N W EC)|]. assert (b = fold_left std_min (b :: l) highest) as Q; [|rewrite <- Q; left; reflexivity].
  apply Rle_antisym; [rewrite C; apply LO; left; reflexivity|apply A; left; reflexivity].
Qed.
Definition rsum (l : list R) : R := fold_right Rplus 0 l.
Lemma fold_sum (g : R -> R) (l : list R) : forall a, fold_left (fun acc v => acc + g v) l a = a + rsum (map g l).
Proof. induction l as [|b l IH]; intros a; cbn [fold_left map rsum fold_right]; [ring|]. rewrite IH. unfold rsum. ring. Qed.
Lemma rsum_bounds l a b : (forall x, In x l -> a <= x <= b) -> a * INR (length l) <= rsum l <= b * INR (length l).
Proof.
  induction l as [|x l IH]; intros H; [cbn; lra|]. assert (Q := IH (fun y I => H y (or_intror I))). specialize (H x (or_introl eq_refl)). cbn [rsum fold_right]. change (length (x :: l)) with (S (length l)). rewrite S_INR. unfold rsum in Q. lra.
Qed.
Lemma rsum_sq_nonneg m l : 0 <= rsum (map (fun v => (v - m) * (v - m)) l).
Proof. induction l as [|x l IH]; cbn [map rsum fold_right]; [lra|]. unfold rsum in IH. pose proof (Rle_0_sqr (x - m)) as Q. unfold Rsqr in Q. lra. Qed.
Lemma rsum_sq_zero m l : rsum (map (fun v => (v - m) * (v - m)) l) = 0 <-> forall x, In x l -> x = m.
Proof.
  split.
  - induction l as [|x l IH]; cbn [map rsum fold_right]; [intros _ y []|]. intros H. pose proof (rsum_sq_nonneg m l) as N. unfold rsum in N. pose proof (Rle_0_sqr (x - m)) as Q. unfold Rsqr in Q.
    intros y [<-|I]; [assert (Z : (x - m) * (x - m) = 0) by lra; apply Rmult_integral in Z; lra|]. apply IH; [unfold rsum; lra|exact I].
  - induction l as [|x l IH]; intros H; cbn [map rsum fold_right]; [reflexivity|]. rewrite (H x) by (left; reflexivity). unfold rsum in IH. rewrite IH by (intros y I; apply H; right; exact I). ring.
Qed.
Lemma rsum_sq_expand m l : rsum (map (fun v => (v - m) * (v - m)) l) = rsum (map (fun v => v * v) l) - 2 * m * rsum l + INR (length l) * (m * m).
Proof. induction l as [|x l IH]; [cbn; ring|]. change (length (x :: l)) with (S (length l)). rewrite S_INR. cbn [map rsum fold_right]. unfold rsum in IH. rewrite IH. ring. Qed.
(* statistics of a field: throws exactly on an empty cloud; otherwise least, greatest, mean and population variance *)
Theorem statistics_spec lowest highest c f : wf c -> scalar c f -> (forall x, In x (column K FLOAT64 c f) -> lowest <= x <= highest) ->
  let l := column K FLOAT64 c f in
  (statistics K lowest highest c f = Throw <-> npts c = 0%Z) /\
  (npts c <> 0%Z -> exists s, statistics K lowest highest c f = Ok s /\ s_label s = f_name f /\ s_count s = npts c /\ least l (s_min s) /\ greatest l (s_max s) /\
     s_mean s * IZR (npts c) = rsum l /\ s_min s <= s_mean s <= s_max s /\
     s_var s * IZR (npts c) = rsum (map (fun v => (v - s_mean s) * (v - s_mean s)) l) /\ 0 <= s_var s /\ (s_var s = 0 <-> s_min s = s_max s) /\
     s_var s * IZR (npts c) = rsum (map (fun v => v * v) l) - s_mean s * s_mean s * IZR (npts c)).
Proof.
  intros W S B l. assert (N0 : (0 <= npts c)%Z) by (destruct W; unfold npts; nia).
  destruct (field_min_spec FLOAT64 highest c f W S (fun x I => proj2 (B x I))) as [A1 A2]. destruct (field_max_spec FLOAT64 lowest c f W S (fun x I => proj1 (B x I))) as [_ B2].
  assert (MAIN : npts c <> 0%Z -> exists s, statistics K lowest highest c f = Ok s /\ s_label s = f_name f /\ s_count s = npts c /\ least l (s_min s) /\ greatest l (s_max s) /\
     s_mean s * IZR (npts c) = rsum l /\ s_min s <= s_mean s <= s_max s /\
     s_var s * IZR (npts c) = rsum (map (fun v => (v - s_mean s) * (v - s_mean s)) l) /\ 0 <= s_var s /\ (s_var s = 0 <-> s_min s = s_max s) /\
     s_var s * IZR (npts c) = rsum (map (fun v => v * v) l) - s_mean s * s_mean s * IZR (npts c)).
  { intros N. destruct (A2 N) as [mn [C1 C2]]. destruct (B2 N) as [mx [D1 D2]]. unfold statistics. rewrite C1. cbn [rbind]. rewrite D1. cbn [rbind].
    unfold field_mean, field_sum, field_variance. rewrite !(fold_all_ok K) by assumption. cbn [rbind]. rewrite !(size_points_wf c W). destruct (npts c =? 0)%Z eqn:EN; [lia|].
    rewrite (fold_all_ok K) by assumption. cbn [rbind]. eexists. split; [reflexivity|]. cbn [s_label s_min s_max s_mean s_var s_count]. fold l.
    assert (PN : 0 < IZR (npts c)) by (apply IZR_lt; lia). assert (LN : INR (length l) = IZR (npts c)) by (unfold l; rewrite column_length, INR_IZR_INZ; f_equal; lia).
    assert (SM : fold_left Rplus l 0 = rsum l). { assert (Q := fold_sum (fun v => v) l 0). rewrite map_id, Rplus_0_l in Q. exact Q. }
    rewrite SM. rewrite (fold_sum (fun v => (v - rsum l / IZR (npts c)) * (v - rsum l / IZR (npts c)))), Rplus_0_l.
    set (m := rsum l / IZR (npts c)). assert (ME : m * IZR (npts c) = rsum l) by (unfold m; field; lra). set (ss := rsum (map (fun v => (v - m) * (v - m)) l)).
    assert (SP : 0 <= ss) by apply rsum_sq_nonneg. assert (VE : ss / IZR (npts c) * IZR (npts c) = ss) by (field; lra).
    assert (MB : mn <= m <= mx). { destruct (rsum_bounds l mn mx) as [X Y]; [intros x I; split; [apply C2; exact I|apply D2; exact I]|]. rewrite LN in X, Y. rewrite <- ME in X, Y. split; [apply (Rmult_le_reg_r (IZR (npts c)))|apply (Rmult_le_reg_r (IZR (npts c)))]; assumption. }
    conj; try reflexivity; try assumption; try lra.
    - unfold Rdiv. apply Rmult_le_pos; [exact SP|]. left. apply Rinv_0_lt_compat. exact PN.
    - split; intros Z.
      + assert (Z0 : ss = 0) by (rewrite <- VE, Z; ring). unfold ss in Z0. rewrite (rsum_sq_zero m l) in Z0. rewrite (Z0 mn) by apply C2. symmetry. apply Z0. apply D2.
      + assert (Z0 : ss = 0) by (unfold ss; apply rsum_sq_zero; intros x I; pose proof (proj2 C2 x I); pose proof (proj2 D2 x I); lra). rewrite Z0. unfold Rdiv. ring.
    - rewrite VE. unfold ss. rewrite rsum_sq_expand, LN, <- ME. ring. }
  split; [|exact MAIN]. split.
  - intros H. destruct (Z.eq_dec (npts c) 0) as [E|N]; [exact E|]. destruct (MAIN N) as [s [Q _]]. rewrite Q in H. discriminate.
  - intros H. unfold statistics. rewrite A1 by exact H. reflexivity.
Qed.
End K.
