(* Proofs: reading and writing fields, conversions, filtering, folds, the formatter. *)
From Verif Require Import Base PcModel PcSpec PcProofs.
Local Open Scope Z_scope.

Lemma same_shape_refl c : same_shape c c. Proof. split; reflexivity. Qed.
Lemma same_shape_trans a b c : same_shape a b -> same_shape b c -> same_shape a c.
Proof. intros [A B] [C D]. split; [rewrite C; exact A|lia]. Qed.
Lemma same_shape_data c d : zlen d = zlen (c_data c) -> same_shape c (with_data c d).
Proof. intros H. split; [reflexivity|exact H]. Qed.
Lemma shape_fields c c' : same_shape c c' -> c_seq c' = c_seq c /\ c_stamp c' = c_stamp c /\ c_frame c' = c_frame c /\ c_h c' = c_h c /\ c_w c' = c_w c /\
  c_fields c' = c_fields c /\ c_big c' = c_big c /\ c_ps c' = c_ps c /\ c_rs c' = c_rs c /\ c_dense c' = c_dense c.
Proof. intros [H _]. destruct c, c'. unfold with_data in H. cbn in *. injection H. intros. subst. conj; reflexivity. Qed.
Lemma wf_shape c c' : same_shape c c' -> wf c -> wf c'.
Proof.
  intros S W. pose proof (shape_fields c c' S) as [_ [_ [_ [H1 [H2 [H3 [_ [H4 [H5 _]]]]]]]]]. destruct S as [_ L]. destruct W.
  constructor; unfold npts in *; rewrite ?H1, ?H2, ?H3, ?H4, ?H5, ?L; assumption.
Qed.

Lemma idx_apart i j p : i <> j -> 0 <= p -> i * p + p <= j * p \/ j * p + p <= i * p.
Proof. intros N P. destruct (Z_lt_ge_dec i j); [left|right]; nia. Qed.
Lemma nth_map_seq {A} (g : nat -> A) n m d : (m < n)%nat -> nth m (map g (seq 0 n)) d = g m.
Proof. intros H. rewrite (nth_indep _ d (g 0%nat)) by (rewrite map_length, seq_length; exact H). rewrite map_nth, seq_nth by exact H. reflexivity. Qed.
Section V.
Context {V : Type} (K : codec V) (KO : codec_ok K).

Lemma scalar_bound c f i : wf c -> scalar c f -> 0 <= i < npts c ->
  0 <= i * c_ps c + f_off f /\ i * c_ps c + f_off f < zlen (c_data c) /\ i * c_ps c + f_off f + fsize (f_ty f) <= zlen (c_data c).
Proof. intros W [A [B C]] H. pose proof (fsize_pos _ A). destruct W. pose proof (idx_bound i (npts c) (c_ps c) H wf_ps). lia. Qed.
Lemma read_ok out c f i : wf c -> scalar c f -> 0 <= i < npts c -> read_field K out f c i = Ok (cast K out (value K c f i)).
Proof. intros W S H. destruct (scalar_bound c f i W S H) as [A [B C]]. unfold read_field. rewrite rd_ok by assumption. reflexivity. Qed.
Lemma write_ok c f i v : wf c -> scalar c f -> 0 <= i < npts c ->
  write_field K f c i v = Ok (with_data c (splice (c_data c) (i * c_ps c + f_off f) (enc K (f_ty f) (cast K (f_ty f) v)))).
Proof. intros W S H. destruct (scalar_bound c f i W S H) as [A [B C]]. unfold write_field. pose proof (enc_size K KO (f_ty f) (cast K (f_ty f) v) (proj1 S)). rewrite wr_ok by lia. reflexivity. Qed.

(* C42 *)
Theorem set_get c f i v : wf c -> scalar c f -> 0 <= i < npts c ->
  exists c', set_field_data K f c i v = Ok c' /\ same_shape c c' /\ wf c' /\
    value K c' f i = cast K (f_ty f) v /\ (forall out, field_data K out f c' i = Ok (cast K out (cast K (f_ty f) v))) /\
    forall j o n, 0 <= j < npts c -> 0 <= o -> 0 <= n -> o + n <= c_ps c -> j <> i \/ clear_of f o n ->
      slice (c_data c') (j * c_ps c' + o) n = slice (c_data c) (j * c_ps c + o) n.
Proof.
  intros W S H. unfold set_field_data, field_data. rewrite (proj1 S). rewrite write_ok by assumption. destruct (scalar_bound c f i W S H) as [A [B C]].
  set (b := enc K (f_ty f) (cast K (f_ty f) v)). assert (ZB : zlen b = fsize (f_ty f)) by (apply (enc_size K KO); exact (proj1 S)).
  set (p := i * c_ps c + f_off f) in *. set (c' := with_data c (splice (c_data c) p b)).
  assert (SH : same_shape c c') by (apply same_shape_data; apply zlen_splice; lia). assert (W' : wf c') by (apply (wf_shape c); assumption).
  assert (VA : value K c' f i = cast K (f_ty f) v).
  { unfold value, c'. cbn [c_data with_data c_ps]. fold p. rewrite <- ZB. rewrite slice_splice_same by lia. apply (dec_enc K KO). exact (proj1 S). }
  exists c'. conj; try assumption; try reflexivity.
  - intros out. assert (S' : scalar c' f) by exact S. assert (H' : 0 <= i < npts c') by exact H. rewrite read_ok by assumption. rewrite VA. reflexivity.
  - intros j o n Hj Ho Hn Hon D. unfold c'. cbn [c_data with_data c_ps]. destruct W. pose proof (idx_bound j (npts c) (c_ps c) Hj wf_ps). pose proof (idx_bound i (npts c) (c_ps c) H wf_ps).
    destruct S as [S1 [S2 S3]]. pose proof (fsize_pos _ S1).
    apply slice_splice_out; try lia. rewrite ZB. unfold p. destruct (Z.eq_dec j i) as [->|NE].
    + destruct D as [D|D]; [contradiction|]. unfold clear_of in D. lia.
    + destruct (idx_apart j i (c_ps c) NE wf_ps); lia.
Qed.
Theorem get_ok c f i out : wf c -> scalar c f -> 0 <= i < npts c -> field_data K out f c i = Ok (cast K out (value K c f i)).
Proof. intros W S H. unfold field_data. rewrite (proj1 S). apply read_ok; assumption. Qed.
Theorem get_unknown c f i out : known (f_ty f) = false -> field_data K out f c i = Throw.
Proof. intros H. unfold field_data. rewrite H. reflexivity. Qed.
End V.

(* ---- loops that rewrite each point on its own ---- *)
Lemma for_points_spec (n : Z) (c0 : cloud) (R : Z -> bytes -> bytes -> Prop) step : wf c0 -> n <= npts c0 ->
  (forall i c, 0 <= i < n -> same_shape c0 c -> exists c', step i c = Ok c' /\ same_shape c c' /\ R i (point c i) (point c' i) /\
     forall j, 0 <= j < npts c0 -> j <> i -> point c' j = point c j) ->
  forall k i c, Z.of_nat k = n - i -> 0 <= i -> same_shape c0 c ->
  exists c', for_points k i step c = Ok c' /\ same_shape c c' /\
    (forall j, i <= j < n -> R j (point c j) (point c' j)) /\ (forall j, 0 <= j < npts c0 -> ~ (i <= j < n) -> point c' j = point c j).
Proof.
  intros W N ST. induction k as [|k IH]; intros i c KE I0 SH; cbn [for_points].
  - exists c. conj; [reflexivity|apply same_shape_refl|intros j H; lia|reflexivity].
  - destruct (ST i c ltac:(lia) SH) as [c1 [Q1 [Q2 [Q3 Q4]]]]. rewrite Q1. cbn [rbind].
    destruct (IH (i + 1) c1 ltac:(lia) ltac:(lia) (same_shape_trans _ _ _ SH Q2)) as [c2 [P1 [P2 [P3 P4]]]].
    exists c2. conj; [exact P1|apply (same_shape_trans _ _ _ Q2 P2)| |].
    + intros j H. destruct (Z.eq_dec j i) as [->|NE]; [rewrite P4 by lia; exact Q3|]. rewrite <- (Q4 j) by lia. apply P3. lia.
    + intros j H1 H2. rewrite P4 by lia. apply Q4; lia.
Qed.

(* a scalar inside a point *)
Definition pvalue {V} (K : codec V) (f : field) (p : bytes) : V := dec K (f_ty f) (slice p (f_off f) (fsize (f_ty f))).
Lemma value_point {V} (K : codec V) c f i : 0 <= i -> 0 <= c_ps c -> scalar c f -> value K c f i = pvalue K f (point c i).
Proof. intros A B [C [D E]]. unfold value, pvalue, point. pose proof (fsize_pos _ C). rewrite slice_slice; [reflexivity|nia|lia|lia|lia]. Qed.
Lemma slice_point c i o n : 0 <= i -> 0 <= c_ps c -> 0 <= o -> 0 <= n -> o + n <= c_ps c -> slice (c_data c) (i * c_ps c + o) n = slice (point c i) o n.
Proof. intros A B C D E. unfold point. rewrite slice_slice; [reflexivity|nia|lia|lia|lia]. Qed.
Lemma find_in fs name f : find_field fs name = Some f -> In f fs /\ f_name f = name.
Proof. induction fs as [|a fs IH]; cbn; [discriminate|]. destruct (String.eqb (f_name a) name) eqn:E; [intros [= <-]; apply String.eqb_eq in E; auto|]. intros H. destruct (IH H). auto. Qed.

Section V2.
Context {V : Type} (K : codec V) (KO : codec_ok K).

(* overwriting scalar f' of point i with a function of scalar f of the same point *)
Lemma rewrite_step c f f' via g i : wf c -> scalar c f -> scalar c f' -> 0 <= i < npts c ->
  exists c', rbind (read_field K via f c i) (fun v => write_field K f' c i (g v)) = Ok c' /\ same_shape c c' /\
    pvalue K f' (point c' i) = cast K (f_ty f') (g (cast K via (pvalue K f (point c i)))) /\
    (forall o n, 0 <= o -> 0 <= n -> o + n <= c_ps c -> clear_of f' o n -> slice (point c' i) o n = slice (point c i) o n) /\
    forall j, 0 <= j < npts c -> j <> i -> point c' j = point c j.
Proof.
  intros W S S' H. rewrite (read_ok K) by assumption. cbn [rbind]. pose proof (set_get K KO c f' i (g (cast K via (value K c f i))) W S' H) as [c' [Q1 [Q2 [Q3 [Q4 [_ Q5]]]]]].
  unfold set_field_data in Q1. rewrite (proj1 S') in Q1. exists c'. pose proof W as W'. destruct W'. destruct (shape_fields c c' Q2) as [_ [_ [_ [E1 [E2 [_ [_ [E3 _]]]]]]]].
  assert (S'' : scalar c' f') by (unfold scalar; rewrite E3; exact S').
  conj; [exact Q1|exact Q2| | |].
  - rewrite <- (value_point K c' f' i) by (lia || (rewrite ?E3; assumption)). rewrite Q4. rewrite (value_point K c f i) by (lia || assumption). reflexivity.
  - intros o n A B C D. rewrite <- !slice_point by (lia || (rewrite ?E3; lia)). apply Q5; try lia. right. exact D.
  - intros j A B. unfold point. specialize (Q5 j 0 (c_ps c) A ltac:(lia) ltac:(lia) ltac:(lia) (or_introl B)). rewrite !Z.add_0_r in Q5. rewrite E3. rewrite E3 in Q5. exact Q5.
Qed.

(* the loops of cast_field, cast_field_with_scale, scale_field *)
Lemma rewrite_loop c f f' via g : wf c -> scalar c f -> scalar c f' ->
  exists c', for_points (Z.to_nat (size_points c)) 0 (fun i c => rbind (read_field K via f c i) (fun v => write_field K f' c i (g v))) c = Ok c' /\ same_shape c c' /\ wf c' /\
    forall i, 0 <= i < npts c -> value K c' f' i = cast K (f_ty f') (g (cast K via (value K c f i))) /\
      forall o n, 0 <= o -> 0 <= n -> o + n <= c_ps c -> clear_of f' o n -> slice (c_data c') (i * c_ps c + o) n = slice (c_data c) (i * c_ps c + o) n.
Proof.
  intros W S S'. rewrite (size_points_wf c W). assert (N0 : 0 <= npts c) by (destruct W; unfold npts; nia).
  destruct (for_points_spec (npts c) c
    (fun i p q => pvalue K f' q = cast K (f_ty f') (g (cast K via (pvalue K f p))) /\ forall o n, 0 <= o -> 0 <= n -> o + n <= c_ps c -> clear_of f' o n -> slice q o n = slice p o n)
    (fun i c => rbind (read_field K via f c i) (fun v => write_field K f' c i (g v))) W ltac:(lia)) with (k := Z.to_nat (npts c)) (i := 0) (c := c) as [c' [Q1 [Q2 [Q3 _]]]].
  - intros i c1 Hi SH. destruct (shape_fields c c1 SH) as [_ [_ [_ [E1 [E2 [_ [_ [E3 _]]]]]]]]. assert (W1 : wf c1) by (apply (wf_shape c); assumption).
    assert (NP : npts c1 = npts c) by (unfold npts; rewrite E1, E2; reflexivity).
    destruct (rewrite_step c1 f f' via g i W1) as [c2 [P1 [P2 [P3 [P4 P5]]]]]; [unfold scalar; rewrite E3; exact S|unfold scalar; rewrite E3; exact S'|lia|].
    exists c2. rewrite E3 in P4. rewrite NP in P5. conj; try assumption.
  - lia.
  - lia.
  - apply same_shape_refl.
  - exists c'. destruct (shape_fields c c' Q2) as [_ [_ [_ [E1 [E2 [_ [_ [E3 _]]]]]]]]. assert (W1 : wf c') by (apply (wf_shape c); assumption). conj; [exact Q1|exact Q2|exact W1|].
    intros i Hi. destruct (Q3 i Hi) as [A B]. destruct W. split.
    + rewrite (value_point K c') by (lia || (unfold scalar; rewrite E3; exact S')). rewrite A. rewrite (value_point K c) by (lia || assumption). reflexivity.
    + intros o n O N ON CL. rewrite slice_point by lia. rewrite <- E3. rewrite slice_point by lia. apply B; assumption.
Qed.

Lemma scalar_of_field c f : wf c -> In f (c_fields c) -> known (f_ty f) = true -> 1 <= f_cnt f -> scalar c f.
Proof. intros W I KN C. destruct W. destruct (wf_fields f I) as [A [B D]]. pose proof (fsize_pos _ KN). unfold f_end, fwidth in D. split; [exact KN|]. nia. Qed.
Lemma wf_upd c name g : wf c -> (forall f, f_off (g f) = f_off f /\ f_cnt (g f) = f_cnt f /\ fsize (f_ty (g f)) = fsize (f_ty f)) -> wf (with_fields c (upd_field (c_fields c) name g)).
Proof.
  intros W G. destruct W. constructor; cbn [c_h c_w c_ps c_rs c_data c_fields with_fields]; try assumption.
  intros f I. assert (Q : In f (c_fields c) \/ exists f0, In f0 (c_fields c) /\ f = g f0).
  { clear - I. induction (c_fields c) as [|a fs IH]; cbn in I; [contradiction|]. destruct (String.eqb (f_name a) name); destruct I as [<-|I].
    - right. exists a. split; [left; reflexivity|reflexivity].
    - left. right. exact I.
    - left. left. reflexivity.
    - destruct (IH I) as [H|[f0 [H1 H2]]]; [left; right; exact H|right; exists f0; split; [right; exact H1|exact H2]]. }
  destruct Q as [Q|[f0 [Q1 Q2]]]; [apply wf_fields; exact Q|]. subst f. destruct (G f0) as [A [B D]]. specialize (wf_fields f0 Q1). unfold f_end, fwidth in *. rewrite A, B, D. exact wf_fields.
Qed.

(* conversion of a field: cast_field, cast_field_with_scale *)
Lemma convert_ok ty via g c name f : wf c -> known ty = true -> find_field (c_fields c) name = Some f -> 1 <= f_cnt f -> known (f_ty f) = true ->
  fsize (f_ty f) = fsize ty -> f_ty f <> ty ->
  exists c', let f' := mkF (f_name f) (f_off f) ty (f_cnt f) in
    convert_field K ty via g c name = Ok c' /\ wf c' /\ same_shape (with_fields c (upd_field (c_fields c) name (fun _ => f'))) c' /\
    forall i, 0 <= i < npts c -> value K c' f' i = cast K ty (g (cast K via (value K c f i))) /\
      forall o n, 0 <= o -> 0 <= n -> o + n <= c_ps c -> clear_of f o n -> slice (c_data c') (i * c_ps c + o) n = slice (c_data c) (i * c_ps c + o) n.
Proof.
  intros W KT FF CN KN FS NE. unfold convert_field, get_field, same_depth. rewrite FF. cbn [rbind]. rewrite KN. cbn [rbind]. rewrite FS, Z.eqb_refl. cbn [negb].
  destruct (f_ty f =? ty) eqn:E; [lia|]. set (f' := mkF (f_name f) (f_off f) ty (f_cnt f)). set (c1 := with_fields c (upd_field (c_fields c) name (fun _ => f'))).
  destruct (find_in _ _ _ FF) as [IN NM]. pose proof (scalar_of_field c f W IN KN CN) as SC.
  assert (W1 : wf c1).
  { destruct W. constructor; cbn [c1 c_h c_w c_ps c_rs c_data c_fields with_fields]; try assumption.
    intros h I. assert (Q : In h (c_fields c) \/ h = f').
    { clear - I. induction (c_fields c) as [|a fs IH]; cbn in I; [contradiction|]. destruct (String.eqb (f_name a) name); destruct I as [<-|I]; [right; reflexivity|left; right; exact I|left; left; reflexivity|]. destruct (IH I) as [H|H]; [left; right; exact H|right; exact H]. }
    destruct Q as [Q| ->]; [apply wf_fields; exact Q|]. specialize (wf_fields f IN). unfold f_end, fwidth in *. cbn [f' f_off f_cnt f_ty]. rewrite <- FS. exact wf_fields. }
  assert (S1 : scalar c1 f) by exact SC. assert (S2 : scalar c1 f') by (destruct SC as [A [B D]]; unfold scalar; cbn [f' f_ty f_off c1 c_ps with_fields]; rewrite <- FS; auto).
  destruct (rewrite_loop c1 f f' via g W1 S1 S2) as [c' [Q1 [Q2 [Q3 Q4]]]]. exists c'. conj; [exact Q1|exact Q3|exact Q2|].
  intros i Hi. destruct (Q4 i Hi) as [A B]. split; [exact A|]. intros o n O N ON CL. apply B; try assumption. unfold clear_of in *. cbn [f' f_ty f_off]. rewrite <- FS. exact CL.
Qed.
Lemma convert_throws ty via g c name : find_field (c_fields c) name = None \/ (exists f, find_field (c_fields c) name = Some f /\ (known (f_ty f) = false \/ fsize (f_ty f) <> fsize ty)) ->
  convert_field K ty via g c name = Throw.
Proof.
  unfold convert_field, get_field, same_depth. intros [H|[f [H [A|A]]]]; rewrite H; cbn [rbind]; [reflexivity|rewrite A; reflexivity|].
  destruct (known (f_ty f)); cbn [rbind]; [|reflexivity]. destruct (fsize ty =? fsize (f_ty f)) eqn:E; [lia|reflexivity].
Qed.
(* the conversion is skipped, scaling included, when the field already has the type *)
Lemma convert_same ty via g c name f : find_field (c_fields c) name = Some f -> f_ty f = ty -> known ty = true -> convert_field K ty via g c name = Ok c.
Proof. intros H E KN. unfold convert_field, get_field, same_depth. rewrite H. cbn [rbind]. rewrite E, KN. cbn [rbind]. rewrite !Z.eqb_refl. reflexivity. Qed.

(* scale_field *)
Lemma scale_ok mul c name f : wf c -> find_field (c_fields c) name = Some f -> known (f_ty f) = true -> 1 <= f_cnt f ->
  exists c', scale_field K mul c name = Ok c' /\ wf c' /\ same_shape c c' /\
    forall i, 0 <= i < npts c -> value K c' f i = cast K (f_ty f) (mul (cast K FLOAT64 (value K c f i))) /\
      forall o n, 0 <= o -> 0 <= n -> o + n <= c_ps c -> clear_of f o n -> slice (c_data c') (i * c_ps c + o) n = slice (c_data c) (i * c_ps c + o) n.
Proof.
  intros W FF KN CN. unfold scale_field, get_field, scale_field_at. rewrite FF. cbn [rbind]. rewrite KN. destruct (find_in _ _ _ FF) as [IN _].
  pose proof (scalar_of_field c f W IN KN CN) as SC. destruct (rewrite_loop c f f FLOAT64 mul W SC SC) as [c' [A [B [C D]]]]. exists c'. conj; assumption.
Qed.

(* ---- C43: filter_max ---- *)
Definition keep (T : Z) (le : V -> bool) (f : field) (p : bytes) : bool := le (cast K T (pvalue K f p)).
Lemma filter_loop_ok T le src f : wf src -> scalar src f -> 0 < c_ps src ->
  forall k i w dst, Z.of_nat k = npts src - i -> 0 <= w <= i -> zlen dst = zlen (c_data src) ->
  let kept := filter (keep T le f) (map (fun j => point src (i + Z.of_nat j)) (seq 0 k)) in
  exists dst', filter_loop K k i T le f src w dst = Ok (w + Z.of_nat (length kept), dst') /\ zlen dst' = zlen dst /\
    (forall j, 0 <= j < w -> slice dst' (j * c_ps src) (c_ps src) = slice dst (j * c_ps src) (c_ps src)) /\
    (forall m, (m < length kept)%nat -> slice dst' ((w + Z.of_nat m) * c_ps src) (c_ps src) = nth m kept []).
Proof.
  intros W SC PP. pose proof W as W'. destruct W'. induction k as [|k IH]; intros i w dst KE WB ZD; cbn [filter_loop].
  - cbn. exists dst. rewrite Z.add_0_r. conj; try reflexivity. intros m H. cbn in H. lia.
  - assert (HI : 0 <= i < npts src) by lia. rewrite (read_ok K) by assumption. cbn [rbind].
    assert (EV : le (cast K T (value K src f i)) = keep T le f (point src i)) by (unfold keep; rewrite (value_point K src f i) by (lia || assumption); reflexivity).
    rewrite EV. pose proof (idx_bound i (npts src) (c_ps src) HI wf_ps) as BI.
    assert (MS : map (fun j => point src (i + Z.of_nat j)) (seq 0 (S k)) = point src i :: map (fun j => point src (i + 1 + Z.of_nat j)) (seq 0 k)).
    { cbn [seq map]. rewrite Z.add_0_r. f_equal. rewrite <- seq_shift, map_map. apply map_ext. intros a. f_equal. lia. }
    rewrite MS. cbn [filter]. destruct (keep T le f (point src i)) eqn:KP.
    + rewrite rd_ok by lia. cbn [rbind]. fold (point src i). assert (ZP : zlen (point src i) = c_ps src) by (apply zlen_point; assumption).
      assert (BW : 0 <= w * c_ps src /\ w * c_ps src + c_ps src <= npts src * c_ps src) by (apply idx_bound; lia).
      rewrite (u32_id (w * c_ps src)) by lia. rewrite wr_ok by lia. cbn [rbind]. rewrite (u32_id (w + 1)) by lia.
      set (dst1 := splice dst (w * c_ps src) (point src i)). assert (ZD1 : zlen dst1 = zlen dst) by (apply zlen_splice; lia).
      destruct (IH (i + 1) (w + 1) dst1 ltac:(lia) ltac:(lia) ltac:(lia)) as [d [Q1 [Q2 [Q3 Q4]]]].
      exists d. cbn [length]. rewrite Q1. conj; [do 2 f_equal; lia|lia| |].
      * intros j Hj. rewrite Q3 by lia. unfold dst1. pose proof (idx_bound j (npts src) (c_ps src) ltac:(lia) wf_ps). apply slice_splice_out; try lia. destruct (idx_apart j w (c_ps src) ltac:(lia) wf_ps); nia.
      * intros m Hm. destruct m as [|m]; cbn [nth].
        -- rewrite Z.add_0_r. rewrite Q3 by lia. unfold dst1. transitivity (slice (splice dst (w * c_ps src) (point src i)) (w * c_ps src) (zlen (point src i))); [rewrite ZP; reflexivity|apply slice_splice_same; lia].
        -- rewrite <- Q4 by lia. f_equal. f_equal. lia.
    + destruct (IH (i + 1) w dst ltac:(lia) ltac:(lia) ZD) as [d [Q1 [Q2 [Q3 Q4]]]]. exists d. conj; assumption.
Qed.
Theorem filter_max_spec T le src f : wf src -> scalar src f ->
  exists d, filter_max K T le src f = Ok d /\ wf d /\ points d = filter (fun p => le (cast K T (pvalue K f p))) (points src) /\
    c_h d = 1 /\ c_w d = Z.of_nat (length (filter (fun p => le (cast K T (pvalue K f p))) (points src))) /\ c_rs d = c_ps d * c_w d /\ zlen (c_data d) = c_h d * c_rs d /\
    c_fields d = c_fields src /\ c_ps d = c_ps src /\ c_stamp d = c_stamp src /\ c_frame d = c_frame src /\ c_big d = c_big src /\ c_dense d = 0.
Proof.
  intros W SC. unfold filter_max. rewrite (proj1 SC). rewrite (size_points_wf src W), (size_bytes_wf src W). pose proof W as W'. destruct W'.
  assert (PP : 0 < c_ps src) by (destruct SC as [A [B C]]; pose proof (fsize_pos _ A); lia). assert (N0 : 0 <= npts src) by (unfold npts; nia).
  rewrite vresize_nil. assert (ZZ : zlen (zeros (zlen (c_data src))) = zlen (c_data src)) by (apply zlen_zeros; apply zlen_nonneg).
  destruct (filter_loop_ok T le src f W SC PP (Z.to_nat (npts src)) 0 0 (zeros (zlen (c_data src))) ltac:(lia) ltac:(lia) ZZ) as [d [Q1 [Q2 [_ Q4]]]].
  rewrite Q1. cbn [rbind fst snd]. assert (PE : map (fun j => point src (0 + Z.of_nat j)) (seq 0 (Z.to_nat (npts src))) = points src).
  { unfold points, indices. rewrite map_map. apply map_ext. intros a. reflexivity. }
  rewrite PE in *. unfold keep in *. set (kept := filter (fun p => le (cast K T (pvalue K f p))) (points src)) in *.
  assert (LK : Z.of_nat (length kept) <= npts src).
  { assert (length kept <= length (points src))%nat by (unfold kept; clear; induction (points src) as [|a l IH]; cbn; [lia|]; destruct (le _); cbn; lia).
    unfold points, indices in H. rewrite !map_length, seq_length in H. lia. }
  rewrite Z.add_0_l. set (w := Z.of_nat (length kept)) in *. assert (0 <= w) by lia. assert (BW : 0 <= c_ps src * w <= npts src * c_ps src) by nia.
  unfold row_step. rewrite (u32_id (c_ps src * w)) by lia. rewrite Z.mul_1_l. rewrite (u32_id (c_ps src * w)) by lia.
  rewrite vresize_shrink by lia. eexists. split; [reflexivity|]. cbn [c_h c_w c_fields c_ps c_stamp c_frame c_big c_dense c_rs c_data].
  assert (ZS : zlen (slice d 0 (c_ps src * w)) = c_ps src * w) by (apply zlen_slice; lia).
  conj; try reflexivity; try lia.
  - constructor; unfold npts; cbn [c_h c_w c_fields c_ps c_rs c_data]; try assumption; try lia.
  - unfold points at 1, npts. cbn [c_h c_w]. rewrite Z.mul_1_l. unfold indices. rewrite map_map. apply (nth_ext _ _ [] []).
    + rewrite map_length, seq_length. lia.
    + intros m Hm. rewrite map_length, seq_length in Hm. rewrite nth_map_seq by exact Hm. unfold point. cbn [c_data c_ps]. rewrite slice_slice by nia. rewrite Z.add_0_l. rewrite <- Q4 by lia. reflexivity.
Qed.
Theorem filter_max_unknown T le src f : known (f_ty f) = false -> filter_max K T le src f = Throw.
Proof. intros H. unfold filter_max. rewrite H. reflexivity. Qed.

(* ---- folds ---- *)
Lemma fold_field_ok T op f c : wf c -> scalar c f -> forall k i acc, Z.of_nat k = npts c - i -> 0 <= i ->
  fold_field K k i T op f c acc = Ok (fold_left op (map (fun j => cast K T (value K c f (i + Z.of_nat j))) (seq 0 k)) acc).
Proof.
  intros W SC. induction k as [|k IH]; intros i acc KE I0; cbn [fold_field]; [reflexivity|]. rewrite (read_ok K) by (assumption || lia). cbn [rbind]. rewrite IH by lia.
  cbn [seq map fold_left]. rewrite Z.add_0_r. do 2 f_equal. rewrite <- seq_shift, map_map. apply map_ext. intros a. do 2 f_equal. lia.
Qed.
(* the values of a field, in order *)
Definition column (T : Z) (c : cloud) (f : field) : list V := map (fun i => cast K T (value K c f i)) (indices (npts c)).
Lemma fold_all_ok T op init c f : wf c -> scalar c f -> fold_all K T op init c f = Ok (fold_left op (column T c f) init).
Proof.
  intros W SC. unfold fold_all. rewrite (proj1 SC). rewrite (size_points_wf c W). assert (0 <= npts c) by (destruct W; unfold npts; nia).
  rewrite fold_field_ok by (assumption || lia). unfold column, indices. rewrite map_map. reflexivity.
Qed.
Lemma column_length T c f : length (column T c f) = Z.to_nat (npts c).
Proof. unfold column, indices. rewrite !map_length, seq_length. reflexivity. Qed.
Lemma empty_wf c : wf c -> empty c = (npts c =? 0). Proof. intros W. unfold empty. rewrite size_points_wf by assumption. reflexivity. Qed.
Theorem extreme_ok T op limit c f : wf c -> scalar c f ->
  field_extreme K T op limit c f = if npts c =? 0 then Throw else Ok (fold_left op (column T c f) limit).
Proof. intros W SC. unfold field_extreme. rewrite empty_wf by assumption. destruct (npts c =? 0); [reflexivity|]. apply fold_all_ok; assumption. Qed.
End V2.
