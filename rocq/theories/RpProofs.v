(* Proofs: repaired stamps. *)
From Coq Require Import String ZArith List Bool Lia.
From Verif Require Import RpModel RpSpec.
Import ListNotations.
Open Scope Z_scope.

Lemma prefix_iff a b : String.prefix a b = true <-> exists y, b = (a ++ y)%string.
Proof.
  revert b. induction a as [|c a IH]; intros b; cbn.
  - destruct b; split; eauto.
  - destruct b as [|d b]; [split; [discriminate|intros [y H]; discriminate]|]. assert (U : String.prefix (String c a) (String d b) = if Ascii.ascii_dec c d then String.prefix a b else false) by reflexivity. rewrite U. clear U. destruct (Ascii.ascii_dec c d) as [->|N].
    + rewrite IH. split; intros [y H]; exists y; [rewrite H; reflexivity|injection H; auto].
    + split; [discriminate|]. intros [y H]. injection H; intros; congruence.
Qed.
Theorem within_iff a b : within a b = true <-> part_of a b.
Proof.
  unfold part_of. revert a. induction b as [|c b IH]; intros a; cbn [within]; rewrite orb_true_iff, prefix_iff.
  - split; [intros [[y H]|H]; [exists EmptyString, y; exact H|discriminate]|]. intros (x & y & H). left. destruct x; [exists y; exact H|discriminate].
  - rewrite IH. split.
    + intros [[y H]|(x & y & H)]; [exists EmptyString, y; exact H|exists (String c x), y; cbn; rewrite H; reflexivity].
    + intros (x & y & H). destruct x as [|d x]; [left; exists y; exact H|right]. cbn in H. injection H as -> H. exists x, y. exact H.
Qed.
Lemma append_length a b : String.length (a ++ b) = (String.length a + String.length b)%nat. Proof. induction a; cbn; [reflexivity|rewrite IHa; reflexivity]. Qed.
Lemma append_nil a : (a ++ "")%string = a. Proof. induction a; cbn; [reflexivity|rewrite IHa; reflexivity]. Qed.

(* ---- nothing but stamps is changed ---- *)
Theorem kept_all t l last n : map but_stamp (fst (repair t l last n)) = map but_stamp l.
Proof.
  revert last n. induction l as [|m l IH]; intros last n; [reflexivity|]. cbn [repair]. destruct (within (r_topic m) t); [|cbn; rewrite IH; reflexivity].
  destruct (r_stamp m) as [s|] eqn:E; cbn; rewrite IH; [|reflexivity]. unfold but_stamp. cbn. rewrite E. reflexivity.
Qed.
Theorem untouched t l : forall last n i m, nth_error l i = Some m -> (~ part_of (r_topic m) t \/ r_stamp m = None \/ exists s, r_stamp m = Some s /\ s <> 0) -> nth_error (fst (repair t l last n)) i = Some m.
Proof.
  induction l as [|a l IH]; intros last n [|i] m H K; try discriminate; cbn [nth_error repair] in *.
  - injection H as ->. destruct (within (r_topic m) t) eqn:W; [|reflexivity]. apply within_iff in W. destruct (r_stamp m) as [s|] eqn:E; [|reflexivity].
    destruct K as [K|[K|(s' & [= <-] & K)]]; [contradiction|discriminate|]. destruct (Z.eqb_spec s 0); [contradiction|]. cbn. f_equal. destruct m. cbn in *. rewrite E. reflexivity.
  - destruct (within (r_topic a) t); [|cbn; apply IH; assumption]. destruct (r_stamp a); cbn; apply IH; assumption.
Qed.

(* ---- the stamps ---- *)
Fixpoint fill (d last : Z) (l : list Z) : list Z := match l with [] => [] | s :: l => let s' := if Z.eqb s 0 then last + d else s in s' :: fill d s' l end.
Lemma clear_within l m : clear_topics l -> In m l -> within (r_topic m) CLOUDS = is_cloud m.
Proof.
  intros C I. unfold is_cloud. destruct (String.eqb_spec (r_topic m) "/os_cloud_node/points") as [E|N].
  - rewrite E. reflexivity.
  - destruct (within (r_topic m) CLOUDS) eqn:W; [|reflexivity]. apply within_iff in W. contradiction (N (C m I W)).
Qed.
Lemma stamps_fill l : clear_topics l -> forall last n, stamps (fst (repair CLOUDS l last n)) = fill period last (stamps l).
Proof.
  induction l as [|m l IH]; intros C last n; [reflexivity|]. cbn [repair]. rewrite (clear_within (m :: l) m C (or_introl eq_refl)).
  assert (C' : clear_topics l) by (intros x X; apply C; right; exact X). unfold stamps at 2. cbn [flat_map]. fold (stamps l). destruct (is_cloud m) eqn:K.
  - destruct (r_stamp m) as [s|] eqn:E; cbn [fst]; unfold stamps at 1; cbn [flat_map]; fold (stamps (fst (repair CLOUDS l last n))).
    + assert (is_cloud (mkR (r_topic m) (Some (if Z.eqb s 0 then last + period else s)) (r_time m) (r_body m)) = true) as -> by exact K. cbn [r_stamp app fill]. f_equal.
      change (stamps (fst (repair CLOUDS l (if Z.eqb s 0 then last + period else s) (if Z.eqb s 0 then S n else n))) = fill period (if Z.eqb s 0 then last + period else s) (stamps l)). apply IH. exact C'.
    + rewrite K, E. cbn [app]. apply IH. exact C'.
  - cbn [fst]. unfold stamps at 1. cbn [flat_map]. rewrite K. cbn [app]. apply IH. exact C'.
Qed.
Lemma fill_length d last l : length (fill d last l) = length l. Proof. revert last. induction l as [|s l IH]; intros last; cbn; [reflexivity|rewrite IH; reflexivity]. Qed.
Lemma fill_app d last a b : exists l', fill d last (a ++ b) = fill d last a ++ fill d l' b /\ (a = [] -> l' = last) /\ forall c s, a = c ++ [s] -> s <> 0 -> l' = s.
Proof.
  revert last. induction a as [|x a IH]; intros last; cbn.
  - exists last. split; [reflexivity|]. split; [reflexivity|]. intros [|] s H; discriminate.
  - destruct (IH (if Z.eqb x 0 then last + d else x)) as (l' & A & B & C). exists l'. split; [rewrite A; reflexivity|]. split; [discriminate|]. intros [|y c] s H N.
    + injection H as -> ->. rewrite B by reflexivity. destruct (Z.eqb_spec s 0); [contradiction|reflexivity].
    + injection H as -> H. apply (C c s H N).
Qed.
Lemma fill_zeros d last k : forall b, fill d last (repeat 0 k ++ b) = map (fun i => last + Z.of_nat (S i) * d) (seq 0 k) ++ fill d (last + Z.of_nat k * d) b.
Proof.
  revert last. induction k as [|k IH]; intros last b; [cbn [repeat app seq map]; f_equal; lia|]. cbn [repeat app fill Z.eqb]. rewrite IH. cbn [seq map app]. f_equal; [lia|]. rewrite <- seq_shift, map_map. f_equal; [apply map_ext; intros i; lia|f_equal; lia].
Qed.
Theorem true_kept l i s : clear_topics l -> nth_error (stamps l) i = Some s -> s <> 0 -> nth_error (stamps (repaired l)) i = Some s.
Proof.
  intros C H N. unfold repaired. rewrite stamps_fill by exact C. generalize 0 at 1. revert i H. generalize (stamps l) as st. induction st as [|x st IH]; intros [|i] H last; try discriminate.
  - injection H as ->. cbn. destruct (Z.eqb_spec s 0); [contradiction|reflexivity].
  - cbn. apply IH. exact H.
Qed.
(* after a true stamp the missing ones follow at the period *)
Theorem missing_after l a s k b : clear_topics l -> stamps l = a ++ s :: repeat 0 (S k) ++ b -> s <> 0 -> nth_error (stamps (repaired l)) (length a + S k) = Some (s + Z.of_nat (S k) * period).
Proof.
  intros C E N. unfold repaired. rewrite stamps_fill, E by exact C. change (a ++ s :: repeat 0 (S k) ++ b) with (a ++ [s] ++ (repeat 0 (S k) ++ b)). rewrite app_assoc.
  destruct (fill_app period 0 (a ++ [s]) (repeat 0 (S k) ++ b)) as (l' & A & _ & B). rewrite A. rewrite (B a s eq_refl N). rewrite nth_error_app2; rewrite fill_length, app_length; cbn [length]; [|lia].
  replace (length a + S k - (length a + 1))%nat with k by lia. rewrite fill_zeros. rewrite nth_error_app1 by (rewrite map_length, seq_length; lia). rewrite nth_error_map. rewrite nth_error_nth' with (d := 0%nat) by (rewrite seq_length; lia). rewrite seq_nth by lia. reflexivity.
Qed.
(* before the first true stamp they count from zero *)
Theorem missing_first l k b : clear_topics l -> stamps l = repeat 0 (S k) ++ b -> nth_error (stamps (repaired l)) k = Some (Z.of_nat (S k) * period).
Proof.
  intros C E. unfold repaired. rewrite stamps_fill, E, fill_zeros by exact C. rewrite nth_error_app1 by (rewrite map_length, seq_length; lia). rewrite nth_error_map. rewrite nth_error_nth' with (d := 0%nat) by (rewrite seq_length; lia). rewrite seq_nth by lia. reflexivity.
Qed.
Lemma fill_pos d last l : 0 < d -> 0 <= last -> (forall s, In s l -> 0 <= s) -> forall s, In s (fill d last l) -> 0 < s.
Proof.
  intros D. revert last. induction l as [|x l IH]; intros last L P s I; [contradiction|]. cbn in I. assert (X : 0 <= x) by (apply P; left; reflexivity). destruct (Z.eqb_spec x 0) as [E|N].
  - destruct I as [<-|I]; [lia|]. apply (IH (last + d)); [lia|intros y Y; apply P; right; exact Y|exact I].
  - destruct I as [<-|I]; [lia|]. apply (IH x); [lia|intros y Y; apply P; right; exact Y|exact I].
Qed.
Theorem none_missing l s : clear_topics l -> (forall s, In s (stamps l) -> 0 <= s) -> In s (stamps (repaired l)) -> 0 < s.
Proof. intros C P. unfold repaired. rewrite stamps_fill by exact C. apply fill_pos; [reflexivity|lia|exact P]. Qed.
Theorem counted l : clear_topics l -> corrected l = length (filter (Z.eqb 0) (stamps l)).
Proof.
  unfold corrected. cut (clear_topics l -> forall last n, snd (repair CLOUDS l last n) = (n + length (filter (Z.eqb 0) (stamps l)))%nat); [intros H C; rewrite (H C); reflexivity|].
  induction l as [|m l IH]; intros C last n; [cbn; lia|]. cbn [repair]. rewrite (clear_within (m :: l) m C (or_introl eq_refl)). assert (C' : clear_topics l) by (intros x X; apply C; right; exact X). specialize (IH C').
  unfold stamps. cbn [flat_map]. fold (stamps l). destruct (is_cloud m); [|cbn [snd app]; apply IH]. destruct (r_stamp m) as [s|]; cbn [snd]; rewrite IH; [|reflexivity]. cbn [app filter]. destruct (Z.eqb_spec s 0) as [->|N]; [cbn; lia|]. destruct (Z.eqb_spec 0 s); [lia|reflexivity].
Qed.
Lemma inc_cons x l : increasing (x :: l) <-> (forall y b, l = y :: b -> x < y) /\ increasing l.
Proof.
  split.
  - intros H. split; [intros y b ->; apply (H [] x y b); reflexivity|]. intros a u v b ->. apply (H (x :: a) u v b). reflexivity.
  - intros [A B] [|c a] u v b H; injection H as -> H; [apply (A v b H)|apply (B a u v b H)].
Qed.
Definition room_from (d last : Z) (l : list Z) : Prop :=
  (forall a s k t b, l = a ++ s :: repeat 0 k ++ t :: b -> s <> 0 -> t <> 0 -> s + Z.of_nat k * d < t) /\
  (forall k t b, l = repeat 0 k ++ t :: b -> t <> 0 -> last + Z.of_nat k * d < t).
Lemma fill_increasing d l : 0 < d -> forall last, increasing (last :: fill d last l) <-> room_from d last l.
Proof.
  intros D. induction l as [|x l IH]; intros last; cbn [fill].
  - split; [intros _; split; [intros [|] s k t b H; discriminate|intros [|] t b H; discriminate]|]. intros _ [|c [|? a]] u v b H; discriminate.
  - rewrite inc_cons, IH. destruct (Z.eqb_spec x 0) as [->|N].
    + split.
      * intros (A & B & C). split.
        -- intros [|c a] s k t b H Ns Nt; injection H as E H; [congruence|]. apply (B a s k t b H Ns Nt).
        -- intros [|k] t b H Nt; [injection H; intros; congruence|]. injection H as H2. specialize (C k t b H2 Nt). lia.
      * intros (B & C). split; [intros y b [= <- _]; lia|]. split.
        -- intros a s k t b ->. apply (B (0 :: a) s k t b). reflexivity.
        -- intros k t b -> Nt. specialize (C (S k) t b eq_refl Nt). lia.
    + split.
      * intros (A & B & C). split.
        -- intros [|c a] s k t b H Ns Nt; injection H as E H; [subst x; apply (C k t b H Nt)|]. apply (B a s k t b H Ns Nt).
        -- intros [|k] t b H Nt; [|injection H; intros; congruence]. injection H as H1 H2. subst x. specialize (A t _ eq_refl). lia.
      * intros (B & C). split; [intros y b [= <- _]; specialize (C 0%nat x l eq_refl N); lia|]. split.
        -- intros a s k t b ->. apply (B (x :: a) s k t b). reflexivity.
        -- intros k t b -> Nt. apply (B [] x k t b eq_refl N Nt).
Qed.
(* the repaired stamps increase exactly if the true ones leave room *)
Theorem increases_iff l : clear_topics l -> (forall s, In s (stamps l) -> 0 <= s) -> increasing (stamps (repaired l)) <-> room period (stamps l).
Proof.
  intros C P. unfold repaired. rewrite stamps_fill by exact C. generalize dependent (stamps l). intros st P. assert (E : increasing (fill period 0 st) <-> increasing (0 :: fill period 0 st)).
  { rewrite inc_cons. split; [|tauto]. intros H. split; [|exact H]. intros y b E. apply (fill_pos period 0 st); [reflexivity|lia|exact P|rewrite E; left; reflexivity]. }
  rewrite E, fill_increasing by reflexivity. unfold room_from, room. split; intros [A B]; (split; [exact A|]).
  - intros k t b H N. specialize (B (S k) t b H N). lia.
  - intros [|k] t b H N; [|specialize (B k t b H N); lia]. assert (0 <= t) by (apply P; rewrite H; left; reflexivity). cbn. lia.
Qed.
Theorem again_same l : clear_topics l -> (forall s, In s (stamps l) -> 0 <= s) -> repaired (repaired l) = repaired l.
Proof.
  intros C P. unfold repaired. assert (G : forall l last n, clear_topics l -> 0 <= last -> (forall s, In s (stamps l) -> 0 <= s) -> forall last' n', fst (repair CLOUDS (fst (repair CLOUDS l last n)) last' n') = fst (repair CLOUDS l last n)).
  { clear. induction l as [|m l IH]; intros last n C L P last' n'; [reflexivity|]. cbn [repair]. pose proof (clear_within (m :: l) m C (or_introl eq_refl)) as W. rewrite W.
    assert (C' : clear_topics l) by (intros x X; apply C; right; exact X). unfold stamps in P. cbn [flat_map] in P. fold (stamps l) in P. destruct (is_cloud m) eqn:K.
    - destruct (r_stamp m) as [s|] eqn:E; cbn [fst repair r_topic r_stamp].
      + rewrite W. assert (0 <= s) by (apply P; left; reflexivity). assert (P' : forall s, In s (stamps l) -> 0 <= s) by (intros y Y; apply P; right; exact Y). set (t' := if Z.eqb s 0 then last + period else s). assert (T : 0 < t') by (unfold t', period; destruct (Z.eqb_spec s 0); lia).
        destruct (Z.eqb_spec t' 0) as [Z0|_]; [lia|]. cbn [fst r_time r_body]. f_equal. apply IH; [exact C'|lia|exact P'].
      + rewrite W, E. cbn [fst]. f_equal. apply IH; assumption.
    - cbn [fst repair]. rewrite W. cbn [fst]. f_equal. apply IH; assumption. }
  apply G; [exact C|lia|exact P].
Qed.
