(* Proofs about point clouds as bytes. *)
From Verif Require Import Base PcModel PcSpec.
Local Open Scope Z_scope.
Ltac conj := repeat match goal with |- _ /\ _ => split end.

(* ---- slices of byte vectors ---- *)
Lemma zlen_app a b : zlen (a ++ b) = zlen a + zlen b. Proof. unfold zlen. rewrite app_length. lia. Qed.
Lemma zlen_nonneg a : 0 <= zlen a. Proof. unfold zlen. lia. Qed.
Lemma nth_firstn_lt {A} (l : list A) d k n : (k < n)%nat -> nth k (firstn n l) d = nth k l d.
Proof. revert k n. induction l as [|a l IH]; intros k n H; [rewrite firstn_nil; reflexivity|]. destruct n as [|n]; [lia|]. destruct k as [|k]; cbn; [reflexivity|]. apply IH. lia. Qed.
Lemma nth_skipn_add {A} (l : list A) d k n : nth k (skipn n l) d = nth (n + k) l d.
Proof. revert l. induction n as [|n IH]; intros l; [reflexivity|]. destruct l as [|a l]; cbn; [destruct k; reflexivity|]. apply IH. Qed.
Lemma list_ext (a b : bytes) : length a = length b -> (forall k, (k < length a)%nat -> nth k a 0 = nth k b 0) -> a = b.
Proof. intros L H. apply (nth_ext a b 0 0); [exact L|]. exact H. Qed.

Lemma slice_length d i n : 0 <= i -> 0 <= n -> i + n <= zlen d -> length (slice d i n) = Z.to_nat n.
Proof. unfold zlen, slice. intros A B C. rewrite firstn_length, skipn_length. lia. Qed.
Lemma zlen_slice d i n : 0 <= i -> 0 <= n -> i + n <= zlen d -> zlen (slice d i n) = n.
Proof. intros A B C. unfold zlen at 1. rewrite slice_length by assumption. lia. Qed.
Lemma nth_slice d i n k : (k < Z.to_nat n)%nat -> nth k (slice d i n) 0 = nth (Z.to_nat i + k) d 0.
Proof. intros H. unfold slice. rewrite nth_firstn_lt by exact H. apply nth_skipn_add. Qed.
Lemma splice_length d i b : 0 <= i -> i + zlen b <= zlen d -> length (splice d i b) = length d.
Proof. unfold splice, zlen. intros A B. rewrite !app_length, firstn_length, skipn_length. lia. Qed.
Lemma zlen_splice d i b : 0 <= i -> i + zlen b <= zlen d -> zlen (splice d i b) = zlen d.
Proof. intros A B. unfold zlen. rewrite splice_length by assumption. reflexivity. Qed.
Lemma nth_splice d i b k : 0 <= i -> i + zlen b <= zlen d ->
  nth k (splice d i b) 0 = if (i <=? Z.of_nat k) && (Z.of_nat k <? i + zlen b) then nth (k - Z.to_nat i) b 0 else nth k d 0.
Proof.
  unfold splice, zlen. intros A B.
  assert (L : length (firstn (Z.to_nat i) d) = Z.to_nat i) by (rewrite firstn_length; lia).
  destruct (i <=? Z.of_nat k) eqn:E1; cbn [andb].
  - rewrite app_nth2 by lia. rewrite L. destruct (Z.of_nat k <? i + Z.of_nat (length b)) eqn:E2.
    + rewrite app_nth1 by lia. reflexivity.
    + rewrite app_nth2 by lia. rewrite nth_skipn_add. f_equal. lia.
  - rewrite app_nth1 by lia. apply nth_firstn_lt. lia.
Qed.
Lemma slice_slice d i m a n : 0 <= i -> 0 <= a -> 0 <= n -> a + n <= m -> slice (slice d i m) a n = slice d (i + a) n.
Proof.
  intros A B C D. unfold slice. rewrite skipn_firstn_comm, firstn_firstn, Nat.min_l by lia.
  assert (P : forall (l : bytes) x y, skipn x (skipn y l) = skipn (y + x) l).
  { intros l x y. revert l. induction y as [|y IH]; intros l; [reflexivity|]. destruct l as [|h l]; [cbn; destruct x; reflexivity|]. cbn. apply IH. }
  rewrite P. f_equal. f_equal. lia.
Qed.
Lemma slice_all d : slice d 0 (zlen d) = d.
Proof. unfold slice, zlen. cbn. rewrite Nat2Z.id. apply firstn_all. Qed.
Lemma slice_splice_in d i b a n : 0 <= i -> i + zlen b <= zlen d -> 0 <= a -> 0 <= n -> a <= i -> i + zlen b <= a + n -> a + n <= zlen d ->
  slice (splice d i b) a n = splice (slice d a n) (i - a) b.
Proof.
  intros A B C D E F G. assert (zlen (slice d a n) = n) as ZL by (apply zlen_slice; lia).
  apply list_ext.
  - rewrite slice_length by (rewrite ?zlen_splice; lia). rewrite splice_length by lia. rewrite slice_length by lia. reflexivity.
  - intros k H. rewrite slice_length in H by (rewrite ?zlen_splice; lia).
    rewrite nth_slice by exact H. rewrite !nth_splice by lia. rewrite nth_slice by exact H.
    destruct (i <=? Z.of_nat (Z.to_nat a + k)) eqn:E1, (Z.of_nat (Z.to_nat a + k) <? i + zlen b) eqn:E2, (i - a <=? Z.of_nat k) eqn:E3, (Z.of_nat k <? i - a + zlen b) eqn:E4; cbn [andb]; try lia; try reflexivity; f_equal; lia.
Qed.
Lemma slice_splice_out d i b a n : 0 <= i -> i + zlen b <= zlen d -> 0 <= a -> 0 <= n -> a + n <= zlen d -> (a + n <= i \/ i + zlen b <= a) ->
  slice (splice d i b) a n = slice d a n.
Proof.
  intros A B C D E F. apply list_ext.
  - rewrite !slice_length by (rewrite ?zlen_splice; lia). reflexivity.
  - intros k H. rewrite slice_length in H by (rewrite ?zlen_splice; lia).
    rewrite !nth_slice by exact H. rewrite nth_splice by lia.
    destruct ((i <=? Z.of_nat (Z.to_nat a + k)) && (Z.of_nat (Z.to_nat a + k) <? i + zlen b)) eqn:E1; [lia|reflexivity].
Qed.
Lemma slice_splice_same d i b : 0 <= i -> i + zlen b <= zlen d -> slice (splice d i b) i (zlen b) = b.
Proof.
  intros A B. pose proof (zlen_nonneg b). apply list_ext.
  - rewrite slice_length by (rewrite ?zlen_splice; lia). unfold zlen. lia.
  - intros k H'. rewrite slice_length in H' by (rewrite ?zlen_splice; lia).
    rewrite nth_slice by exact H'. rewrite nth_splice by lia.
    destruct ((i <=? Z.of_nat (Z.to_nat i + k)) && (Z.of_nat (Z.to_nat i + k) <? i + zlen b)) eqn:E1; [f_equal; lia|lia].
Qed.
Lemma rd_ok d i n : 0 <= i -> i < zlen d -> i + n <= zlen d -> rd d i n = Ok (slice d i n).
Proof. intros A B C. unfold rd. destruct ((0 <=? i) && (i <? zlen d) && (i + n <=? zlen d)) eqn:E; [reflexivity|lia]. Qed.
Lemma wr_ok d i b : 0 <= i -> i < zlen d -> i + zlen b <= zlen d -> wr d i b = Ok (splice d i b).
Proof. intros A B C. unfold wr. destruct ((0 <=? i) && (i <? zlen d) && (i + zlen b <=? zlen d)) eqn:E; [reflexivity|lia]. Qed.
Lemma u32_id x : 0 <= x < 4294967296 -> u32 x = x. Proof. intros H. apply Z.mod_small. exact H. Qed.
Lemma zlen_zeros n : 0 <= n -> zlen (zeros n) = n. Proof. intros H. unfold zlen, zeros. rewrite repeat_length. lia. Qed.
Lemma vresize_nil n : vresize [] n = zeros n. Proof. unfold vresize, zeros. rewrite firstn_nil. cbn. f_equal. lia. Qed.
Lemma vresize_shrink d n : 0 <= n -> n <= zlen d -> vresize d n = slice d 0 n.
Proof. unfold vresize, slice, zlen. intros A B. replace (Z.to_nat n - length d)%nat with 0%nat by lia. cbn. apply app_nil_r. Qed.
Lemma slice_zeros m a n : 0 <= a -> 0 <= n -> a + n <= m -> slice (zeros m) a n = zeros n.
Proof.
  intros A B C. apply list_ext.
  - rewrite slice_length by (rewrite ?zlen_zeros; lia). unfold zeros. rewrite repeat_length. reflexivity.
  - intros k H. rewrite slice_length in H by (rewrite ?zlen_zeros; lia). rewrite nth_slice by exact H. unfold zeros. rewrite !nth_repeat. reflexivity.
Qed.
Lemma slice_app_l a b i n : 0 <= i -> 0 <= n -> i + n <= zlen a -> slice (a ++ b) i n = slice a i n.
Proof.
  intros A B C. apply list_ext.
  - rewrite !slice_length by (rewrite ?zlen_app; pose proof (zlen_nonneg b); lia). reflexivity.
  - intros k H. rewrite slice_length in H by (rewrite ?zlen_app; pose proof (zlen_nonneg b); lia). rewrite !nth_slice by exact H. apply app_nth1. unfold zlen in *. lia.
Qed.
Lemma slice_app_r a b i n : 0 <= n -> zlen a <= i -> i + n <= zlen a + zlen b -> slice (a ++ b) i n = slice b (i - zlen a) n.
Proof.
  intros A B C. pose proof (zlen_nonneg a). apply list_ext.
  - rewrite !slice_length by (rewrite ?zlen_app; lia). reflexivity.
  - intros k H'. rewrite slice_length in H' by (rewrite ?zlen_app; lia). rewrite !nth_slice by exact H'. unfold zlen in *. rewrite app_nth2 by lia. f_equal. lia.
Qed.
Lemma splice_at_zero_prefix d b : zlen b <= zlen d -> splice d 0 b = b ++ slice d (zlen b) (zlen d - zlen b).
Proof. intros H. unfold splice, slice. cbn. f_equal. rewrite firstn_all2; [reflexivity|]. rewrite skipn_length. unfold zlen in *. lia. Qed.

(* ---- points of a cloud ---- *)
Lemma idx_bound i n p : 0 <= i < n -> 0 <= p -> 0 <= i * p /\ i * p + p <= n * p.
Proof. nia. Qed.
Lemma fbytes_point c f i : 0 <= i -> 0 <= c_ps c -> 0 <= f_off f -> 0 <= fwidth f -> f_end f <= c_ps c -> fbytes c f i = slice (point c i) (f_off f) (fwidth f).
Proof. unfold fbytes, point, f_end. intros A B C D E. rewrite slice_slice; [reflexivity| nia | lia | lia | lia]. Qed.
Lemma zlen_point c i : wf c -> 0 <= i < npts c -> zlen (point c i) = c_ps c.
Proof. intros W H. destruct W. unfold point. pose proof (idx_bound i (npts c) (c_ps c) H wf_ps). apply zlen_slice; lia. Qed.
Lemma fsize_pos ty : known ty = true -> 0 < fsize ty.
Proof.
  unfold known, fsize. intros H.
  destruct ((ty =? 1) || (ty =? 2)) eqn:A; [lia|]. destruct ((ty =? 3) || (ty =? 4)) eqn:B; [lia|].
  destruct ((ty =? 5) || (ty =? 6) || (ty =? 7)) eqn:C; [lia|]. destruct (ty =? 8) eqn:D; lia.
Qed.
Lemma fsize_nonneg ty : 0 <= fsize ty.
Proof. unfold fsize. destruct ((ty =? 1) || (ty =? 2)); [lia|]. destruct ((ty =? 3) || (ty =? 4)); [lia|]. destruct ((ty =? 5) || (ty =? 6) || (ty =? 7)); [lia|]. destruct (ty =? 8); lia. Qed.
Lemma size_points_wf c : wf c -> size_points c = npts c.
Proof. intros W. destruct W. apply u32_id. unfold npts in *. nia. Qed.
Lemma size_bytes_wf c : wf c -> size_bytes c = zlen (c_data c).
Proof. intros W. destruct W. unfold size_bytes. rewrite wf_rs, wf_data. unfold npts in *. rewrite u32_id; nia. Qed.
Lemma indices_in n i : In i (indices n) <-> 0 <= i < n.
Proof. unfold indices. rewrite in_map_iff. split; [intros [k [<- H]]; apply in_seq in H; lia|]. intros H. exists (Z.to_nat i). split; [lia|]. apply in_seq. lia. Qed.
Lemma indices_succ n : 0 <= n -> indices (n + 1) = indices n ++ [n].
Proof. intros H. unfold indices. replace (Z.to_nat (n + 1)) with (Z.to_nat n + 1)%nat by lia. rewrite seq_app, map_app. cbn. do 2 f_equal. lia. Qed.

(* ---- C41: adding fields ---- *)
Definition dst_point (src : bytes) (dps sps i : Z) : bytes := slice src (i * sps) sps ++ zeros (dps - sps).
Lemma copy_points_ok n src dps sps : 0 <= sps <= dps -> 0 < dps -> 0 < sps \/ n = 0 -> 0 <= n -> zlen src = n * sps ->
  forall k dst i fuel, Z.of_nat k = n - i -> 0 <= i -> zlen dst = n * dps -> (Z.to_nat (zlen dst - i * dps) <= fuel)%nat ->
  (forall j, i <= j < n -> slice dst (j * dps) dps = zeros dps) ->
  exists d, copy_points fuel src dps sps (i * dps) (i * sps) dst = Ok d /\ zlen d = zlen dst /\
    (forall j, 0 <= j < i -> slice d (j * dps) dps = slice dst (j * dps) dps) /\
    (forall j, i <= j < n -> slice d (j * dps) dps = dst_point src dps sps j).
Proof.
  intros LE P PS N0 LS. induction k as [|k IH]; intros dst i fuel K0 I0 LD F Z0.
  - assert (i = n) by lia. subst i. exists dst. unfold copy_points. destruct fuel as [|fuel].
    + destruct (n * dps <? zlen dst) eqn:E; [lia|]. conj; try reflexivity. intros j H. lia.
    + destruct (n * dps <? zlen dst) eqn:E; [lia|]. conj; try reflexivity. intros j H. lia.
  - assert (i < n) by lia. assert (0 < sps) by (destruct PS; lia).
    assert (B1 : 0 <= i * dps /\ i * dps + dps <= n * dps) by nia. assert (B2 : 0 <= i * sps /\ i * sps + sps <= n * sps) by nia.
    destruct fuel as [|fuel]; [lia|]. cbn [copy_points]. destruct (i * dps <? zlen dst) eqn:E; [|lia].
    rewrite rd_ok by lia. cbn [rbind]. assert (ZS : zlen (slice src (i * sps) sps) = sps) by (apply zlen_slice; lia).
    rewrite wr_ok by lia. cbn [rbind]. replace (i * dps + dps) with ((i + 1) * dps) by ring. replace (i * sps + sps) with ((i + 1) * sps) by ring.
    set (dst' := splice dst (i * dps) (slice src (i * sps) sps)). assert (ZD : zlen dst' = zlen dst) by (apply zlen_splice; lia).
    destruct (IH dst' (i + 1) fuel ltac:(lia) ltac:(lia) ltac:(lia)) as [d [Q1 [Q2 [Q3 Q4]]]].
    { rewrite ZD. nia. }
    { intros j H1. unfold dst'. assert (0 <= j * dps /\ j * dps + dps <= n * dps) by nia. rewrite slice_splice_out; [apply Z0; lia| lia | lia | lia | lia | lia |]. right. rewrite ZS. nia. }
    exists d. conj; [exact Q1|lia| |].
    + intros j H1. rewrite Q3 by lia. unfold dst'. assert (0 <= j * dps /\ j * dps + dps <= n * dps) by nia. apply slice_splice_out; [lia|lia|lia|lia|lia|]. left. nia.
    + intros j H1. destruct (Z.eq_dec j i) as [->|NE]; [|apply Q4; lia]. rewrite Q3 by lia. unfold dst', dst_point.
      rewrite slice_splice_in by lia. rewrite Z.sub_diag. rewrite Z0 by lia. rewrite splice_at_zero_prefix by (rewrite zlen_zeros by lia; lia).
      f_equal. rewrite ZS, zlen_zeros by lia. apply slice_zeros; lia.
Qed.
(* when the source step exceeds the destination step, the copy overruns *)
Lemma copy_points_overrun n src dps sps : 0 < dps < sps -> 0 < n -> zlen src = n * sps ->
  forall k dst i fuel, Z.of_nat k = n - i -> 0 <= i < n -> zlen dst = n * dps -> copy_points fuel src dps sps (i * dps) (i * sps) dst = UB.
Proof.
  intros P N LS. induction k as [|k IH]; intros dst i fuel K0 I0 LD; [lia|].
  destruct fuel as [|fuel]; cbn [copy_points]; (destruct (i * dps <? zlen dst) eqn:E; [|nia]); [reflexivity|].
  assert (B1 : 0 <= i * dps /\ i * dps + dps <= n * dps) by nia. assert (B2 : 0 <= i * sps /\ i * sps + sps <= n * sps) by nia.
  rewrite rd_ok by lia. cbn [rbind]. assert (ZS : zlen (slice src (i * sps) sps) = sps) by (apply zlen_slice; lia).
  unfold wr. destruct ((0 <=? i * dps) && (i * dps <? zlen dst) && (i * dps + zlen (slice src (i * sps) sps) <=? zlen dst)) eqn:E2; [|reflexivity].
  cbn [rbind]. replace (i * dps + dps) with ((i + 1) * dps) by ring. replace (i * sps + sps) with ((i + 1) * sps) by ring.
  assert (i + 1 < n) by nia. apply IH; [lia|lia|]. rewrite zlen_splice by lia. exact LD.
Qed.

(* new fields: consecutive, starting where the last field ends *)
Fixpoint new_fields (o : Z) (names : list string) (ty cnt : Z) : list field :=
  match names with [] => [] | n :: ns => mkF n o ty cnt :: new_fields (o + fsize ty * cnt) ns ty cnt end.
Lemma last_end_snoc fs f : last_end (fs ++ [f]) = f_end f.
Proof. unfold last_end. rewrite rev_app_distr. reflexivity. Qed.
Lemma append_fields_new names ty cnt : 0 <= cnt -> forall fs, 0 <= last_end fs -> last_end fs + Z.of_nat (length names) * (fsize ty * cnt) < 4294967296 ->
  append_fields fs names ty cnt = fs ++ new_fields (last_end fs) names ty cnt.
Proof.
  intros C. pose proof (fsize_nonneg ty). induction names as [|n ns IH]; intros fs L B; cbn [append_fields new_fields]; [rewrite app_nil_r; reflexivity|].
  cbn [length] in B. rewrite Nat2Z.inj_succ, Z.mul_succ_l in B. assert (W0 : 0 <= fsize ty * cnt) by (apply Z.mul_nonneg_nonneg; assumption).
  assert (W1 : 0 <= Z.of_nat (length ns) * (fsize ty * cnt)) by (apply Z.mul_nonneg_nonneg; lia). assert (Q : (match rev fs with [] => 0 | l :: _ => point_step l end) = last_end fs).
  { unfold last_end in *. destruct (rev fs) as [|l r]; [reflexivity|]. unfold point_step. apply u32_id. lia. }
  rewrite Q, IH, last_end_snoc, <- app_assoc; [reflexivity| |]; rewrite last_end_snoc; unfold f_end, fwidth; cbn [f_off f_ty f_cnt]; lia.
Qed.
Lemma new_fields_spec names ty cnt : 0 <= cnt -> forall o, map f_name (new_fields o names ty cnt) = names /\
  (forall g, In g (new_fields o names ty cnt) -> f_ty g = ty /\ f_cnt g = cnt /\ o <= f_off g /\ f_end g <= o + Z.of_nat (length names) * (fsize ty * cnt)) /\
  pairwise (new_fields o names ty cnt).
Proof.
  intros C. pose proof (fsize_nonneg ty). assert (W0 : 0 <= fsize ty * cnt) by (apply Z.mul_nonneg_nonneg; assumption).
  induction names as [|n ns IH]; intros o; cbn [new_fields map length]; rewrite ?Nat2Z.inj_succ, ?Z.mul_succ_l; [conj; [reflexivity|intros g []|constructor]|].
  assert (W1 : 0 <= Z.of_nat (length ns) * (fsize ty * cnt)) by (apply Z.mul_nonneg_nonneg; lia).
  destruct (IH (o + fsize ty * cnt)) as [A [B D]]. conj.
  - cbn. f_equal. exact A.
  - intros g [<-|I]; [unfold f_end, fwidth; cbn [f_off f_ty f_cnt]; conj; try reflexivity; lia|]. destruct (B g I) as [B1 [B2 [B3 B4]]]. conj; [exact B1|exact B2|lia|lia].
  - constructor; [|exact D]. apply Forall_forall. intros g I. destruct (B g I) as [B1 [B2 [B3 B4]]]. left. unfold f_end, fwidth. cbn. lia.
Qed.
Lemma last_end_new fs names ty cnt : names <> [] -> last_end (fs ++ new_fields (last_end fs) names ty cnt) = last_end fs + Z.of_nat (length names) * (fsize ty * cnt).
Proof.
  revert fs. induction names as [|n ns IH]; intros fs NE; [contradiction|]. cbn [new_fields length].
  destruct ns as [|n' ns']; [cbn [new_fields]; rewrite last_end_snoc; unfold f_end, fwidth; cbn [f_off f_ty f_cnt length]; lia|].
  specialize (IH (fs ++ [mkF n (last_end fs) ty cnt])). rewrite last_end_snoc in IH. unfold f_end at 1 in IH. unfold fwidth in IH. cbn [f_off f_ty f_cnt] in IH. unfold f_end in IH. unfold fwidth in IH. cbn [f_off f_ty f_cnt] in IH.
  change (fs ++ mkF n (last_end fs) ty cnt :: new_fields (last_end fs + fsize ty * cnt) (n' :: ns') ty cnt)
    with (fs ++ [mkF n (last_end fs) ty cnt] ++ new_fields (last_end fs + fsize ty * cnt) (n' :: ns') ty cnt).
  rewrite app_assoc, IH by discriminate. cbn [length]. lia.
Qed.

(* the step of the enlarged point *)
Definition new_step (src : cloud) (names : list string) (ty cnt : Z) : Z := last_end (c_fields src) + Z.of_nat (length names) * (fsize ty * cnt).
Definition fits (src : cloud) (names : list string) (ty cnt : Z) : Prop :=
  let ps := new_step src names ty cnt in ps < 4294967296 /\ ps * c_w src < 4294967296 /\ npts src * ps < 4294967296.

Lemma last_end_bounds src : wf src -> 0 <= last_end (c_fields src) <= c_ps src.
Proof.
  intros W. destruct W. unfold last_end. destruct (rev (c_fields src)) as [|l r] eqn:E; [lia|].
  assert (I : In l (c_fields src)) by (apply in_rev; rewrite E; left; reflexivity). destruct (wf_fields l I) as [A [B C]].
  pose proof (fsize_nonneg (f_ty l)). unfold f_end, fwidth in *. nia.
Qed.
Lemma add_fields_unfold src names ty cnt : wf src -> 0 <= cnt -> names <> [] -> fits src names ty cnt ->
  let fs := c_fields src ++ new_fields (last_end (c_fields src)) names ty cnt in
  let ps := new_step src names ty cnt in
  add_fields src names ty cnt =
    rbind (copy_points (length (zeros (npts src * ps))) (c_data src) ps (c_ps src) 0 0 (zeros (npts src * ps))) (fun d =>
    Ok (mkC (c_seq src) (c_stamp src) (c_frame src) (c_h src) (c_w src) fs (c_big src) ps (ps * c_w src) d (c_dense src))).
Proof.
  intros W C NE [F1 [F2 F3]]. pose proof (last_end_bounds src W) as LB. pose proof (fsize_nonneg ty) as FN. destruct W.
  assert (P0 : 0 <= new_step src names ty cnt) by (unfold new_step; nia).
  unfold add_fields. rewrite append_fields_new by (unfold new_step in *; try assumption; try lia).
  pose proof (last_end_new (c_fields src) names ty cnt NE) as LN. fold (new_step src names ty cnt) in LN.
  destruct (rev (c_fields src ++ new_fields (last_end (c_fields src)) names ty cnt)) as [|l r] eqn:E.
  - exfalso. assert (Q := f_equal (@rev field) E). rewrite rev_involutive in Q. cbn in Q. destruct (c_fields src); [destruct names; [contradiction|discriminate]|discriminate].
  - unfold last_end in LN at 1. rewrite E in LN. unfold point_step. unfold f_end, fwidth in LN. rewrite LN. rewrite (u32_id (new_step src names ty cnt)) by lia.
    unfold row_step. rewrite (u32_id (new_step src names ty cnt * c_w src)) by nia. rewrite vresize_nil.
    replace (c_h src * (new_step src names ty cnt * c_w src)) with (npts src * new_step src names ty cnt) by (unfold npts; ring).
    rewrite u32_id by (unfold npts in *; nia). reflexivity.
Qed.

(* complete description when the enlarged point can hold the old one *)
Lemma add_fields_ok src names ty cnt : wf src -> 0 <= cnt -> names <> [] -> fits src names ty cnt -> c_ps src <= new_step src names ty cnt ->
  exists d, add_fields src names ty cnt = Ok d /\ wf d /\
    c_seq d = c_seq src /\ c_stamp d = c_stamp src /\ c_frame d = c_frame src /\ c_h d = c_h src /\ c_w d = c_w src /\ c_big d = c_big src /\ c_dense d = c_dense src /\
    c_fields d = c_fields src ++ new_fields (last_end (c_fields src)) names ty cnt /\
    forall i, 0 <= i < npts src -> point d i = point src i ++ zeros (c_ps d - c_ps src).
Proof.
  intros W C NE F LE. rewrite add_fields_unfold by assumption. destruct F as [F1 [F2 F3]]. pose proof (last_end_bounds src W) as LB. pose proof (fsize_nonneg ty) as FN.
  set (ps := new_step src names ty cnt) in *. pose proof W as W'. destruct W'.
  assert (N0 : 0 <= npts src) by (unfold npts in *; nia). assert (P0 : 0 <= ps) by lia.
  assert (ZZ : zlen (zeros (npts src * ps)) = npts src * ps) by (apply zlen_zeros; nia).
  assert (CP : exists d, copy_points (length (zeros (npts src * ps))) (c_data src) ps (c_ps src) 0 0 (zeros (npts src * ps)) = Ok d /\ zlen d = npts src * ps /\
    forall j, 0 <= j < npts src -> slice d (j * ps) ps = dst_point (c_data src) ps (c_ps src) j).
  { destruct (Z.eq_dec ps 0) as [E0|N].
    - assert (npts src = 0) by lia. exists (zeros (npts src * ps)). rewrite H. cbn. conj; try reflexivity. intros j Hj. lia.
    - destruct (copy_points_ok (npts src) (c_data src) ps (c_ps src) ltac:(lia) ltac:(lia) wf_pos N0 wf_data (Z.to_nat (npts src)) (zeros (npts src * ps)) 0 (length (zeros (npts src * ps))) ltac:(lia) ltac:(lia) ZZ) as [d [Q1 [Q2 [Q3 Q4]]]].
      + unfold zlen. lia.
      + intros j H. apply slice_zeros; nia.
      + exists d. cbn [Z.mul] in Q1. conj; [exact Q1|lia|exact Q4]. }
  destruct CP as [d [Q1 [Q2 Q3]]]. rewrite Q1. cbn [rbind]. eexists. split; [reflexivity|]. cbn [c_seq c_stamp c_frame c_h c_w c_big c_dense c_fields c_ps].
  assert (NF := new_fields_spec names ty cnt C (last_end (c_fields src))). destruct NF as [_ [NF _]].
  conj; try reflexivity.
  - constructor; cbn [c_h c_w c_ps c_rs c_data c_fields]; unfold npts in *; cbn [c_h c_w] in *; try assumption; try lia; try nia.
    + intros f I. apply in_app_or in I. destruct I as [I|I].
      * destruct (wf_fields f I) as [A [B D]]. conj; [exact A|exact B|lia].
      * destruct (NF f I) as [A [B [D E]]]. conj; [lia|lia|]. unfold ps, new_step. exact E.
  - intros i H. unfold point at 1. cbn [c_data c_ps]. rewrite Q3 by exact H. reflexivity.
Qed.

(* C41 *)
Theorem add_fields_preserves src names ty cnt : wf src -> 0 <= cnt -> names <> [] -> fits src names ty cnt -> c_ps src = last_end (c_fields src) ->
  exists d new, add_fields src names ty cnt = Ok d /\ wf d /\ c_fields d = c_fields src ++ new /\
    map f_name new = names /\ (forall g, In g new -> f_ty g = ty /\ f_cnt g = cnt) /\
    (forall f g, In f (c_fields src) -> In g new -> apart f g) /\ pairwise new /\
    c_stamp d = c_stamp src /\ c_frame d = c_frame src /\ c_h d = c_h src /\ c_w d = c_w src /\ c_big d = c_big src /\ c_dense d = c_dense src /\
    forall i, 0 <= i < npts src ->
      (forall f, In f (c_fields src) -> fbytes d f i = fbytes src f i) /\ (forall g, In g new -> fbytes d g i = zeros (fwidth g)).
Proof.
  intros W C NE F PK. pose proof (fsize_nonneg ty) as FN. pose proof W as W'. destruct W'. assert (LE : c_ps src <= new_step src names ty cnt) by (unfold new_step; nia).
  destruct (add_fields_ok src names ty cnt W C NE F LE) as [d [Q1 [Q2 [_ [Q4 [Q5 [Q6 [Q7 [Q8 [Q9 [Q10 Q11]]]]]]]]]]].
  pose proof (new_fields_spec names ty cnt C (last_end (c_fields src))) as [N1 [N2 N3]].
  exists d, (new_fields (last_end (c_fields src)) names ty cnt). conj; try assumption.
  - intros g I. destruct (N2 g I) as [A [B _]]. split; assumption.
  - intros f g If Ig. left. destruct (N2 g Ig) as [_ [_ [A _]]]. destruct (wf_fields f If) as [_ [_ B]]. lia.
  - intros i Hi. assert (W2 := Q2). destruct W2. assert (ZP : zlen (point src i) = c_ps src) by (apply zlen_point; assumption).
    split.
    + intros f I. destruct (wf_fields f I) as [A [B D]]. pose proof (fsize_nonneg (f_ty f)). assert (D' := D). unfold f_end in D'. assert (0 <= fwidth f) by (unfold fwidth; nia).
      destruct (wf_fields0 f ltac:(rewrite Q10; apply in_or_app; left; exact I)) as [A' [B' D'']].
      rewrite !fbytes_point by (assumption || lia). rewrite Q11 by exact Hi. apply slice_app_l; lia.
    + intros g I. destruct (wf_fields0 g ltac:(rewrite Q10; apply in_or_app; right; exact I)) as [A' [B' D'']].
      pose proof (fsize_nonneg (f_ty g)). assert (0 <= fwidth g) by (unfold fwidth; nia). destruct (N2 g I) as [_ [_ [A _]]].
      rewrite !fbytes_point by (assumption || lia). rewrite Q11 by exact Hi. unfold f_end in D''. pose proof (f_off g). rewrite slice_app_r; [apply slice_zeros; lia|lia|lia|rewrite zlen_zeros by lia; lia].
Qed.
Theorem add_fields_overruns src names ty cnt : wf src -> 0 <= cnt -> names <> [] -> fits src names ty cnt ->
  (add_fields src names ty cnt = UB <-> 0 < npts src /\ 0 < new_step src names ty cnt < c_ps src).
Proof.
  intros W C NE F. pose proof (fsize_nonneg ty) as FN. pose proof (last_end_bounds src W) as LB. destruct (Z_le_gt_dec (c_ps src) (new_step src names ty cnt)) as [LE|GT].
  - destruct (add_fields_ok src names ty cnt W C NE F LE) as [d [Q _]]. rewrite Q. split; [discriminate|]. lia.
  - rewrite add_fields_unfold by assumption. destruct W. destruct F as [F1 [F2 F3]]. set (ps := new_step src names ty cnt) in *. assert (0 <= ps) by (unfold ps, new_step; nia).
    assert (0 <= npts src) by (unfold npts; nia).
    destruct (Z.eq_dec (npts src * ps) 0) as [E|N].
    + rewrite E. cbn. split; [discriminate|]. nia.
    + split; [intros _; nia|]. intros _. change 0 with (0 * ps) at 1. change 0 with (0 * c_ps src) at 2.
      rewrite (copy_points_overrun (npts src) (c_data src) ps (c_ps src) ltac:(nia) ltac:(nia) wf_data (Z.to_nat (npts src))); [reflexivity|nia|nia|]. apply zlen_zeros. nia.
Qed.
