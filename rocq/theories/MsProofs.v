(* Message round trips. *)
From Coq Require Import ZArith Reals List Bool Lia Lra.
From Verif Require Import Base Mx Interp Geo EgModel CvModel CvProofs EgProofs EgPose MsModel.
Import ListNotations.

Lemma pair_dec (a b : nat * nat) : {a = b} + {a <> b}. Proof. repeat decide equality. Qed.
Lemma list_ext {A} (a b : list A) : (forall k, nth_error a k = nth_error b k) -> a = b.
Proof.
  revert b. induction a as [|x a IH]; intros [|y b] H; try reflexivity; try (specialize (H 0%nat); discriminate).
  f_equal; [specialize (H 0%nat); cbn in H; congruence|]. apply IH. intros k. exact (H (S k)).
Qed.
Section arrays.
Context {X : Type}.
Notation mat := (nat -> nat -> X).
Lemma set_nth_ok (l : list X) k x : (k < length l)%nat -> exists l', set_nth l k x = Some l' /\ length l' = length l /\ forall i, nth_error l' i = if Nat.eqb i k then Some x else nth_error l i.
Proof.
  revert k. induction l as [|y l IH]; intros k L; cbn in L; [lia|]. destruct k as [|k]; cbn.
  - eexists. split; [reflexivity|]. split; [reflexivity|]. intros [|i]; reflexivity.
  - destruct (IH k ltac:(lia)) as (l' & E & El & N). rewrite E. eexists. split; [reflexivity|]. split; [cbn; congruence|]. intros [|i]; [reflexivity|]. cbn. apply N.
Qed.
Lemma set_nth_none (l : list X) k x : (length l <= k)%nat -> set_nth l k x = None.
Proof. revert k. induction l as [|y l IH]; intros k L; [destruct k; reflexivity|]. destruct k as [|k]; cbn in *; [lia|]. rewrite IH by lia. reflexivity. Qed.
Lemma in_pairs rows cols r c : In (r, c) (pairs rows cols) <-> (r < rows)%nat /\ (c < cols)%nat.
Proof.
  unfold pairs. rewrite in_flat_map. split.
  - intros (r' & Hr & Hm). apply in_map_iff in Hm. destruct Hm as (c' & [= <- <-] & Hc). apply in_seq in Hr, Hc. lia.
  - intros [Hr Hc]. exists r. split; [apply in_seq; lia|]. apply in_map_iff. exists c. split; [reflexivity|]. apply in_seq. lia.
Qed.
Lemma load_ok idx (msg : list X) ps (m : mat) : (forall r c, In (r, c) ps -> (idx r c < length msg)%nat) ->
  exists m', load idx msg ps m = Ok m' /\ (forall r c, In (r, c) ps -> nth_error msg (idx r c) = Some (m' r c)) /\ (forall r c, ~ In (r, c) ps -> m' r c = m r c).
Proof.
  revert m. induction ps as [|[r c] ps IH]; intros m H; cbn.
  - exists m. split; [reflexivity|]. split; [intros ? ? []|reflexivity].
  - destruct (nth_error msg (idx r c)) as [x|] eqn:E; [|apply nth_error_None in E; specialize (H r c (or_introl eq_refl)); lia].
    destruct (IH (fun i j => if Nat.eqb i r && Nat.eqb j c then x else m i j)) as (m' & L & I1 & I2); [intros r' c' I; apply H; right; exact I|]. exists m'. split; [exact L|]. split.
    + intros r' c' [[= <- <-]|I]; [|apply I1; exact I]. destruct (in_dec pair_dec (r, c) ps) as [I|N]; [apply I1; exact I|].
      rewrite E. f_equal. rewrite I2 by exact N. rewrite !Nat.eqb_refl. reflexivity.
    + intros r' c' N. rewrite I2 by tauto. destruct (Nat.eqb_spec r' r); [|reflexivity]. destruct (Nat.eqb_spec c' c); [|reflexivity]. subst. tauto.
Qed.
Lemma load_ub idx (msg : list X) ps (m : mat) r c : In (r, c) ps -> (length msg <= idx r c)%nat -> load idx msg ps m = UB.
Proof.
  revert m. induction ps as [|[r' c'] ps IH]; intros m I L; [destruct I|destruct I as [E|I]]; cbn.
  - injection E as -> ->. apply nth_error_None in L. rewrite L. reflexivity.
  - destruct (nth_error msg (idx r' c')); [apply IH; assumption|reflexivity].
Qed.
Lemma store_ok idx (m : mat) ps (arr : list X) : (forall r c, In (r, c) ps -> (idx r c < length arr)%nat) ->
  (forall r c r' c', In (r, c) ps -> In (r', c') ps -> idx r c = idx r' c' -> r = r' /\ c = c') ->
  exists arr', store idx m ps arr = Ok arr' /\ length arr' = length arr /\ (forall r c, In (r, c) ps -> nth_error arr' (idx r c) = Some (m r c)) /\
    (forall k, (forall r c, In (r, c) ps -> idx r c <> k) -> nth_error arr' k = nth_error arr k).
Proof.
  revert arr. induction ps as [|[r c] ps IH]; intros arr H J; cbn.
  - exists arr. repeat split. intros ? ? [].
  - destruct (set_nth_ok arr (idx r c) (m r c) (H r c (or_introl eq_refl))) as (a1 & E & El & N). rewrite E.
    destruct (IH a1) as (a2 & S & Sl & I1 & I2); [intros r' c' I; rewrite El; apply H; right; exact I|intros; apply J; try (right; assumption); assumption|].
    exists a2. split; [exact S|]. split; [congruence|]. split.
    + intros r' c' [[= <- <-]|I]; [|apply I1; exact I]. destruct (in_dec pair_dec (r, c) ps) as [I|NI]; [apply I1; exact I|].
      rewrite I2; [rewrite N, Nat.eqb_refl; reflexivity|]. intros r' c' I EQ. destruct (J r' c' r c (or_intror I) (or_introl eq_refl) EQ) as [-> ->]. contradiction.
    + intros k K. rewrite I2 by (intros r' c' I; apply K; right; exact I). rewrite N. destruct (Nat.eqb_spec k (idx r c)) as [->|]; [|reflexivity]. exfalso. apply (K r c (or_introl eq_refl)). reflexivity.
Qed.
Lemma row_major_lt rows cols r c : (r < rows)%nat -> (c < cols)%nat -> (row_major cols r c < rows * cols)%nat. Proof. unfold row_major. nia. Qed.
Lemma row_major_inj cols r c r' c' : (c < cols)%nat -> (c' < cols)%nat -> row_major cols r c = row_major cols r' c' -> r = r' /\ c = c'.
Proof. unfold row_major. intros H H' E. assert (r = r') by nia. subst. split; [reflexivity|lia]. Qed.
Lemma row_major_onto rows cols k : (k < rows * cols)%nat -> exists r c, (r < rows)%nat /\ (c < cols)%nat /\ k = row_major cols r c.
Proof.
  intros L. destruct cols as [|cols]; [lia|]. exists (k / S cols)%nat, (k mod S cols)%nat. split; [apply Nat.div_lt_upper_bound; lia|]. split; [apply Nat.mod_upper_bound; lia|]. unfold row_major. apply Nat.div_mod. lia.
Qed.
Lemma resize_length d (l : list X) n : length (resize d l n) = n. Proof. unfold resize. rewrite app_length, firstn_length, repeat_length. lia. Qed.
Definition same (rows cols : nat) (a b : mat) : Prop := forall i j, (i < rows)%nat -> (j < cols)%nat -> a i j = b i j.
(* the array holds the matrix row by row *)
Definition holds (rows cols : nat) (arr : list X) (m : mat) : Prop := length arr = (rows * cols)%nat /\ forall r c, (r < rows)%nat -> (c < cols)%nat -> nth_error arr (cols * r + c) = Some (m r c).

Lemma store_rm rows cols (m : mat) arr : length arr = (rows * cols)%nat -> exists arr', store (row_major cols) m (pairs rows cols) arr = Ok arr' /\ holds rows cols arr' m.
Proof.
  intros L. destruct (store_ok (row_major cols) m (pairs rows cols) arr) as (a & S & Sl & I & _).
  - intros r c H. apply in_pairs in H. rewrite L. apply row_major_lt; tauto.
  - intros r c r' c' H H' E. apply in_pairs in H, H'. apply (row_major_inj cols); tauto.
  - exists a. split; [exact S|]. split; [congruence|]. intros r c Hr Hc. apply I. apply in_pairs. tauto.
Qed.
Lemma load_rm rows cols arr (m m0 : mat) : holds rows cols arr m -> exists m', load (row_major cols) arr (pairs rows cols) m0 = Ok m' /\ same rows cols m' m.
Proof.
  intros [L H]. destruct (load_ok (row_major cols) arr (pairs rows cols) m0) as (m' & E & I & _).
  - intros r c K. apply in_pairs in K. rewrite L. apply row_major_lt; tauto.
  - exists m'. split; [exact E|]. intros i j Hi Hj. specialize (I i j (proj2 (in_pairs _ _ _ _) (conj Hi Hj))). unfold row_major in I. rewrite H in I by assumption. congruence.
Qed.
Lemma load_holds rows cols (arr : list X) (m0 : mat) : length arr = (rows * cols)%nat -> exists m', load (row_major cols) arr (pairs rows cols) m0 = Ok m' /\ holds rows cols arr m'.
Proof.
  intros L. destruct (load_ok (row_major cols) arr (pairs rows cols) m0) as (m' & E & I & _).
  - intros r c K. apply in_pairs in K. rewrite L. apply row_major_lt; tauto.
  - exists m'. split; [exact E|]. split; [exact L|]. intros r c Hr Hc. apply (I r c). apply in_pairs. tauto.
Qed.
Lemma holds_unique rows cols a b (m m' : mat) : holds rows cols a m -> holds rows cols b m' -> same rows cols m m' -> a = b.
Proof.
  intros [L H] [L' H'] E. apply list_ext. intros k. destruct (le_lt_dec (rows * cols) k) as [G|G].
  - rewrite (proj2 (nth_error_None a k)) by lia. rewrite (proj2 (nth_error_None b k)) by lia. reflexivity.
  - destruct (row_major_onto rows cols k G) as (r & c & Hr & Hc & ->). unfold row_major. rewrite H, H' by assumption. rewrite E by assumption. reflexivity.
Qed.

(* fixed size arrays *)
Theorem array_round_trip rows cols (m m0 : mat) arr : length arr = (rows * cols)%nat ->
  exists arr' m', array_to_ros rows cols arr m = Ok arr' /\ holds rows cols arr' m /\ array_from_ros rows cols arr' m0 = Ok m' /\ same rows cols m' m.
Proof. intros L. destruct (store_rm rows cols m arr L) as (a & S & H). destruct (load_rm rows cols a m m0 H) as (m' & E & K). exists a, m'. tauto. Qed.
Theorem array_back_trip rows cols (m0 : mat) arr arr0 : length arr = (rows * cols)%nat -> length arr0 = (rows * cols)%nat ->
  exists m', array_from_ros rows cols arr m0 = Ok m' /\ array_to_ros rows cols arr0 m' = Ok arr.
Proof.
  intros L L0. destruct (load_holds rows cols arr m0 L) as (m' & E & H). exists m'. split; [exact E|]. destruct (store_rm rows cols m' arr0 L0) as (a & S & K).
  unfold array_to_ros. rewrite S. f_equal. apply (holds_unique rows cols _ _ m' m' K H). intros i j _ _. reflexivity.
Qed.
(* vectors: sized by the writer, checked by the reader *)
Theorem vector_round_trip d rows cols (m m0 : mat) msg :
  exists arr m', vector_to_ros d rows cols msg m = Ok arr /\ holds rows cols arr m /\ vector_from_ros rows cols arr m0 = Ok m' /\ same rows cols m' m.
Proof.
  destruct (store_rm rows cols m (resize d msg (rows * cols)) (resize_length d msg _)) as (a & S & H). destruct (load_rm rows cols a m m0 H) as (m' & E & K). exists a, m'.
  split; [exact S|]. split; [exact H|]. split; [|exact K]. unfold vector_from_ros. rewrite (proj1 H), Nat.eqb_refl. exact E.
Qed.
Theorem vector_size rows cols msg (m : mat) : (vector_from_ros rows cols msg m = Throw <-> length msg <> (rows * cols)%nat) /\ vector_from_ros rows cols msg m <> UB.
Proof.
  unfold vector_from_ros. destruct (Nat.eqb_spec (length msg) (rows * cols)) as [E|NE]; cbn [negb]; [|split; [tauto|discriminate]].
  destruct (load_holds rows cols msg m E) as (m' & L & _). rewrite L. split; [split; [discriminate|contradiction]|discriminate].
Qed.

(* multi array messages *)
Definition small (rows cols : nat) : Prop := (Z.of_nat rows * Z.of_nat cols < 2147483648 /\ Z.of_nat rows < 2147483648 /\ Z.of_nat cols < 2147483648)%Z.
Lemma small_test rows cols : small rows cols -> Z.leb 2147483648 (Z.of_nat rows * Z.of_nat cols) || Z.leb 2147483648 (Z.of_nat rows) || Z.leb 2147483648 (Z.of_nat cols) = false.
Proof. intros (A & B & C). rewrite !orb_false_iff, !Z.leb_gt. tauto. Qed.
Lemma store_ext idx idx' (m : mat) ps arr : (forall r c, idx r c = idx' r c) -> store idx m ps arr = store idx' m ps arr.
Proof. intros H. revert arr. induction ps as [|[r c] ps IH]; intros arr; cbn; [reflexivity|]. rewrite H. destruct (set_nth arr (idx' r c) (m r c)); [apply IH|reflexivity]. Qed.
Lemma load_ext idx idx' (arr : list X) ps (m : mat) : (forall r c, In (r, c) ps -> idx r c = idx' r c) -> load idx arr ps m = load idx' arr ps m.
Proof. revert m. induction ps as [|[r c] ps IH]; intros m H; cbn; [reflexivity|]. rewrite H by (left; reflexivity). destruct (nth_error arr (idx' r c)); [apply IH; intros; apply H; right; assumption|reflexivity]. Qed.
(* a fresh message: what is written (row major, offset 0, ROS strides), and reading it back *)
Theorem multi_round_trip d rows cols (m m0 : mat) msg : small rows cols -> ma_dims msg = [] ->
  exists msg' m', multi_to_ros d rows cols msg m = Ok msg' /\ ma_dims msg' = [(rows, Z.of_nat (rows * cols)); (cols, Z.of_nat cols)] /\ ma_offset msg' = 0%Z /\ holds rows cols (ma_data msg') m /\
  multi_from_ros rows cols msg' m0 = Ok m' /\ same rows cols m' m.
Proof.
  intros SM F. destruct (store_rm rows cols m (resize d (ma_data msg) (rows * cols)) (resize_length d _ _)) as (a & S & H). destruct (load_rm rows cols a m m0 H) as (m' & E & K).
  unfold multi_to_ros. rewrite (small_test _ _ SM). rewrite (store_ext _ (row_major cols)) by (intros; unfold row_major; lia). rewrite S. cbn [rbind]. rewrite F.
  eexists. exists m'. split; [reflexivity|]. cbn [app ma_dims ma_offset ma_data]. split; [reflexivity|]. split; [reflexivity|]. split; [exact H|]. split; [|exact K].
  unfold multi_from_ros. cbn [app ma_dims ma_offset ma_data]. rewrite !Nat.eqb_refl. cbn [andb]. rewrite <- E. apply load_ext. intros r c I. apply in_pairs in I. unfold multi_index, row_major. cbn [ma_offset].
  destruct SM as (A & B & C). rewrite Z.mod_small; [lia|]. unfold u32. nia.
Qed.
(* a message that already has dimensions cannot be read after writing to it *)
Theorem multi_reuse d rows cols rows' cols' (m m0 : mat) msg msg' : ma_dims msg <> [] -> multi_to_ros d rows cols msg m = Ok msg' -> multi_from_ros rows' cols' msg' m0 = Throw.
Proof.
  intros NE. unfold multi_to_ros. destruct (_ || _ || _); [discriminate|]. destruct (store _ m _ _) as [a| |]; cbn [rbind]; try discriminate. intros [= <-].
  unfold multi_from_ros. cbn [ma_dims]. destruct (ma_dims msg) as [|[s0 t0] [|[s1 t1] [|x l]]]; [contradiction| | |]; reflexivity.
Qed.
(* when the reader refuses, and when it runs past the data *)
Theorem multi_read_outcomes rows cols msg (m0 : mat) :
  (multi_from_ros rows cols msg m0 = Throw <-> ~ exists t0 t1, ma_dims msg = [(rows, t0); (cols, t1)]) /\
  (multi_from_ros rows cols msg m0 = UB <-> exists t0 t1, ma_dims msg = [(rows, t0); (cols, t1)] /\ exists r c, (r < rows)%nat /\ (c < cols)%nat /\
     (Z.of_nat (length (ma_data msg)) <= (ma_offset msg + t1 * Z.of_nat r + Z.of_nat c) mod 4294967296)%Z).
Proof.
  assert (Good : forall t0 t1, ma_dims msg = [(rows, t0); (cols, t1)] -> multi_from_ros rows cols msg m0 = load (multi_index msg t1) (ma_data msg) (pairs rows cols) m0).
  { intros t0 t1 E. unfold multi_from_ros. rewrite E, !Nat.eqb_refl. reflexivity. }
  assert (Bad : (~ exists t0 t1, ma_dims msg = [(rows, t0); (cols, t1)]) -> multi_from_ros rows cols msg m0 = Throw).
  { intros N. unfold multi_from_ros. destruct (ma_dims msg) as [|[s0 t0] [|[s1 t1] [|x l]]]; try reflexivity. destruct (Nat.eqb_spec s0 rows); [|reflexivity]. destruct (Nat.eqb_spec s1 cols); [|reflexivity]. subst. exfalso. apply N. eauto. }
  assert (Dec : (exists t0 t1, ma_dims msg = [(rows, t0); (cols, t1)]) \/ ~ exists t0 t1, ma_dims msg = [(rows, t0); (cols, t1)]).
  { destruct (ma_dims msg) as [|[s0 t0] [|[s1 t1] [|x l]]]; try (right; intros (? & ? & [=]); fail). destruct (Nat.eq_dec s0 rows) as [->|N]; [|right; intros (? & ? & [=]); congruence]. destruct (Nat.eq_dec s1 cols) as [->|N]; [|right; intros (? & ? & [=]); congruence]. left; eauto. }
  destruct Dec as [(t0 & t1 & E)|N].
  - rewrite (Good t0 t1 E). assert (D2 : (exists r c, In (r, c) (pairs rows cols) /\ (length (ma_data msg) <= multi_index msg t1 r c)%nat) \/ forall r c, In (r, c) (pairs rows cols) -> (multi_index msg t1 r c < length (ma_data msg))%nat).
    { generalize (pairs rows cols). intros ps. induction ps as [|[r c] ps IH]; [right; intros ? ? []|]. destruct (le_lt_dec (length (ma_data msg)) (multi_index msg t1 r c)) as [L|L]; [left; exists r, c; split; [left; reflexivity|exact L]|].
      destruct IH as [(r' & c' & I & L')|A]; [left; exists r', c'; split; [right; exact I|exact L']|]. right. intros r' c' [[= <- <-]|I]; [exact L|apply A; exact I]. }
    assert (Conv : forall r c, (length (ma_data msg) <= multi_index msg t1 r c)%nat <-> (Z.of_nat (length (ma_data msg)) <= (ma_offset msg + t1 * Z.of_nat r + Z.of_nat c) mod 4294967296)%Z).
    { intros r c. unfold multi_index, u32. pose proof (Z.mod_pos_bound (ma_offset msg + t1 * Z.of_nat r + Z.of_nat c) 4294967296 ltac:(lia)). lia. }
    destruct D2 as [(r & c & I & L)|A].
    + rewrite (load_ub _ _ _ _ r c I L). apply in_pairs in I. split; [split; [discriminate|intros N; exfalso; apply N; eauto]|]. split; [intros _|reflexivity]. exists t0, t1. split; [exact E|]. exists r, c. split; [tauto|]. split; [tauto|]. apply Conv. exact L.
    + destruct (load_ok _ _ _ m0 A) as (m' & L & _). rewrite L. split; [split; [discriminate|intros N; exfalso; apply N; eauto]|]. split; [discriminate|]. intros (t0' & t1' & E' & r & c & Hr & Hc & L'). rewrite E in E'. injection E' as <- <-.
      apply Conv in L'. specialize (A r c (proj2 (in_pairs _ _ _ _) (conj Hr Hc))). lia.
  - rewrite (Bad N). split; [tauto|]. split; [discriminate|]. intros (t0 & t1 & E & _). exfalso. apply N. eauto.
Qed.

(* statistics_msgs/Covariance *)
Theorem stat_round_trip d n (m m0 : mat) msg : exists msg' m', stat_to_ros d n n msg m = Ok msg' /\ sc_dim msg' = n /\ holds n n (sc_matrix msg') m /\ stat_from_ros msg' m0 = Ok (n, n, m') /\ same n n m' m.
Proof.
  destruct (vector_round_trip d n n m m0 (sc_matrix msg)) as (a & m' & S & H & E & K). unfold stat_to_ros. rewrite Nat.eqb_refl, S. cbn [negb rbind]. eexists. exists m'. split; [reflexivity|]. cbn [sc_dim sc_matrix]. split; [reflexivity|]. split; [exact H|].
  split; [|exact K]. unfold stat_from_ros. cbn [sc_dim sc_matrix]. rewrite E. reflexivity.
Qed.
Theorem stat_refuses d rows cols msg (m : mat) : (stat_to_ros d rows cols msg m = Throw <-> rows <> cols) /\ (stat_from_ros msg m = Throw <-> length (sc_matrix msg) <> (sc_dim msg * sc_dim msg)%nat) /\ stat_from_ros msg m <> UB.
Proof.
  split.
  - unfold stat_to_ros. destruct (Nat.eqb_spec rows cols) as [->|N]; cbn [negb]; [|tauto]. destruct (vector_round_trip d cols cols m m (sc_matrix msg)) as (a & m' & S & _). rewrite S. cbn [rbind]. split; [discriminate|contradiction].
  - unfold stat_from_ros. destruct (vector_size (sc_dim msg) (sc_dim msg) (sc_matrix msg) m) as [A B]. destruct (vector_from_ros _ _ _ m) as [m'| |] eqn:E; cbn [rbind].
    + split; [split; [discriminate|intros N; apply A in N; discriminate]|discriminate].
    + split; [tauto|discriminate].
    + contradiction.
Qed.
Theorem param_matrix (v : list X) (m : mat) : (matrix3d_from_param v m = Throw <-> (length v < 9)%nat) /\ ((9 <= length v)%nat -> exists m', matrix3d_from_param v m = Ok m' /\ forall r c, (r < 3)%nat -> (c < 3)%nat -> nth_error v (3 * r + c) = Some (m' r c)).
Proof.
  unfold matrix3d_from_param. destruct (Nat.ltb_spec (length v) 9) as [L|L]; [split; [tauto|lia]|].
  destruct (load_ok (row_major 3) v (pairs 3 3) m) as (m' & E & I & _).
  - intros r c K. apply in_pairs in K. unfold row_major. lia.
  - rewrite E. split; [split; [discriminate|lia]|]. intros _. exists m'. split; [reflexivity|]. intros r c Hr Hc. apply (I r c). apply in_pairs. tauto.
Qed.
End arrays.
