(* Values handed to the optimiser (C05), value range query (C06), marginalisation (C13, C14). *)
From Verif Require Import Base GmModel GmSpec GmInv GmProofs.

Definition in_rng (a b k : Z) : bool := (a <=? k) && (k <=? b).

Lemma rng_raw c i j rk : idx_ok i = true -> idx_ok j = true ->
  (in_rng (raw c i) (raw c j) rk = true <-> exists n, i <= n <= j /\ idx_ok n = true /\ rk = raw c n).
Proof.
  unfold in_rng, idx_ok, raw. intros Hi Hj. split.
  - intros H. exists (rk - sym_char c * idx_lim). lia.
  - intros (n & H & Hn & ->). lia.
Qed.

Lemma rng_disjoint c c' i j rk : c <> c' -> idx_ok i = true -> idx_ok j = true ->
  in_rng (raw c i) (raw c j) rk = true -> in_rng (raw c' i) (raw c' j) rk = false.
Proof.
  intros Hc Hi Hj H. destruct (in_rng (raw c' i) (raw c' j) rk) eqn:E; [|reflexivity]. exfalso.
  apply rng_raw in H; auto. apply rng_raw in E; auto. destruct H as (n & _ & Hn & ->), E as (n' & _ & Hn' & E).
  apply raw_inj in E; auto. tauto.
Qed.

Lemma lower_bound_sorted {A} k (m : omap A) : msorted m -> msorted (lower_bound k m).
Proof. induction m as [|[k' a] m IH]; simpl; intros S; [auto|]. destruct (k' <? k); [apply IH; tauto|exact S]. Qed.

Lemma lower_bound_ge {A} k (m : omap A) x : msorted m -> In x (mkeys (lower_bound k m)) -> k <= x.
Proof.
  induction m as [|[k' a] m IH]; simpl; intros S H; [tauto|]. destruct S as [L S].
  destruct (Z.ltb_spec k' k) as [Hk|Hk]; [auto|]. destruct H as [<-|H]; [simpl; lia|]. specialize (L x H). lia.
Qed.

Lemma lower_bound_get {A} k (m : omap A) x : msorted m -> k <= x -> mget x (lower_bound k m) = mget x m.
Proof.
  induction m as [|[k' a] m IH]; simpl; intros S H; [reflexivity|]. destruct S as [L S].
  destruct (Z.ltb_spec k' k); [|reflexivity]. rewrite IH by auto. destruct (Z.eqb_spec x k'); [lia|reflexivity].
Qed.

Lemma add_values_loop_exact e a b it ext :
  (e < a \/ b < e) -> msorted it -> (forall k, In k (mkeys it) -> a <= k) -> msorted ext ->
  (forall k, In k (mkeys it) -> k <= b -> mget k ext = None) ->
  exists ext', add_values_loop (Some e) a b it ext = Ok ext' /\ msorted ext' /\
    forall k, mget k ext' = match (if k <=? b then mget k it else None) with Some v => Some v | None => mget k ext end.
Proof.
  intros He. revert ext. induction it as [|[k0 v0] it IH]; intros ext S Hge Se Hf.
  - simpl. destruct ((a <=? e) && (e <=? b)) eqn:E; [lia|]. exists ext. repeat split; auto.
    intros k. simpl. destruct (k <=? b); reflexivity.
  - destruct S as [L S]. simpl. assert (a <= k0) by (apply Hge; left; reflexivity).
    assert (Ha: (a <=? k0) = true) by lia. rewrite Ha. simpl. destruct (Z.leb_spec k0 b) as [Hb|Hb].
    + unfold values_insert. assert (mmem k0 ext = false) as ->.
      { apply mmem_false. apply Hf; [left; reflexivity|exact Hb]. }
      simpl. destruct (IH (mput k0 v0 ext)) as (ext' & E & Se' & G); auto.
      * intros k Hk. apply Hge. right; exact Hk.
      * apply msorted_mput; auto.
      * intros k Hk Hkb. rewrite mget_mput. specialize (L k Hk). destruct (Z.eqb_spec k k0); [lia|].
        apply Hf; [right; exact Hk|exact Hkb].
      * exists ext'. split; [exact E|]. split; [exact Se'|]. intros k. rewrite G, mget_mput.
        destruct (Z.eqb_spec k k0) as [->|Hne].
        -- destruct (Z.leb_spec k0 b); [|lia]. assert (mget k0 it = None) as ->; [|reflexivity].
           apply mget_None_notin. intros Hk. specialize (L _ Hk). lia.
        -- reflexivity.
    + exists ext. repeat split; auto. intros k. destruct (Z.leb_spec k b); [|reflexivity].
      destruct (Z.eqb_spec k k0); [lia|]. assert (mget k it = None) as ->; [|reflexivity].
      apply mget_None_notin. intros Hk. specialize (L _ Hk). lia.
Qed.

Lemma add_values_exact e vals a b ext :
  (e < a \/ b < e) -> msorted vals -> msorted ext -> (forall k, in_rng a b k = true -> mget k ext = None) ->
  exists ext', add_values (Some e) vals a b ext = Ok ext' /\ msorted ext' /\
    forall k, mget k ext' = if in_rng a b k then mget k vals else mget k ext.
Proof.
  intros He S Se Hf. unfold add_values, in_rng in *.
  destruct (add_values_loop_exact e a b (lower_bound a vals) ext) as (ext' & E & Se' & G); auto using lower_bound_sorted.
  - intros k. apply lower_bound_ge; auto.
  - intros k Hk Hb. apply Hf. apply lower_bound_ge in Hk; auto. lia.
  - exists ext'. split; [exact E|]. split; [exact Se'|]. intros k. rewrite G.
    destruct (Z.leb_spec k b), (Z.leb_spec a k); simpl; try reflexivity.
    + rewrite lower_bound_get by auto. destruct (mget k vals) eqn:Ek; [reflexivity|].
      apply Hf. lia.
    + assert (mget k (lower_bound a vals) = None) as ->; [|reflexivity].
      apply mget_None_notin. intros Hk. apply lower_bound_ge in Hk; auto. lia.
Qed.

(* one of the four state kinds with index in [i, j] *)
Definition state_rng (i j rk : Z) : bool :=
  in_rng (raw SymB i) (raw SymB j) rk || in_rng (raw SymX i) (raw SymX j) rk ||
  in_rng (raw SymV i) (raw SymV j) rk || in_rng (raw SymP i) (raw SymP j) rk.

Lemma raw_ge c i : idx_ok i = true -> raw SymB 0 <= raw c i.
Proof. unfold raw, idx_ok, idx_lim. intros H. destruct c; simpl sym_char; lia. Qed.

Lemma add_values4_exact e vals i j :
  e < raw SymB 0 -> msorted vals -> idx_ok i = true -> idx_ok j = true ->
  exists ext, add_values4 (Some e) vals i j = Ok ext /\ msorted ext /\
    forall k, mget k ext = if state_rng i j k then mget k vals else None.
Proof.
  intros He S Hi Hj. unfold add_values4, add_values_sym, sym_key. rewrite Hi, Hj. simpl rbind.
  assert (Hlt: forall c, e < raw c i) by (intros c; pose proof (raw_ge c i Hi); lia).
  destruct (add_values_exact e vals (raw SymB i) (raw SymB j) []) as (e1 & E1 & S1 & G1); simpl; auto.
  rewrite E1. simpl rbind.
  assert (D: forall c c' k, c <> c' -> in_rng (raw c i) (raw c j) k = true -> in_rng (raw c' i) (raw c' j) k = false).
  { intros c c' k Hc. apply rng_disjoint; auto. }
  destruct (add_values_exact e vals (raw SymX i) (raw SymX j) e1) as (e2 & E2 & S2 & G2); auto.
  { intros k Hk. rewrite G1, (D SymX SymB) by (auto; discriminate). reflexivity. }
  rewrite E2. simpl rbind.
  destruct (add_values_exact e vals (raw SymV i) (raw SymV j) e2) as (e3 & E3 & S3 & G3); auto.
  { intros k Hk. rewrite G2, (D SymV SymX), G1, (D SymV SymB) by (auto; discriminate). reflexivity. }
  rewrite E3. simpl rbind.
  destruct (add_values_exact e vals (raw SymP i) (raw SymP j) e3) as (e4 & E4 & S4 & G4); auto.
  { intros k Hk. rewrite G3, (D SymP SymV), G2, (D SymP SymX), G1, (D SymP SymB) by (auto; discriminate). reflexivity. }
  exists e4. split; [exact E4|]. split; [exact S4|]. intros k. unfold state_rng. rewrite G4, G3, G2, G1.
  simpl mget.
  destruct (in_rng (raw SymB i) (raw SymB j) k), (in_rng (raw SymX i) (raw SymX j) k),
    (in_rng (raw SymV i) (raw SymV j) k), (in_rng (raw SymP i) (raw SymP j) k); reflexivity.
Qed.

(* what state_rng means *)
Lemma state_rng_spec i j rk : idx_ok i = true -> idx_ok j = true ->
  (state_rng i j rk = true <-> exists c n, c <> SymS /\ i <= n <= j /\ idx_ok n = true /\ rk = raw c n).
Proof.
  intros Hi Hj. unfold state_rng. rewrite !orb_true_iff, !rng_raw by auto. split.
  - intros [[[H|H]|H]|H]; destruct H as (n & H); [exists SymB|exists SymX|exists SymV|exists SymP]; exists n; split; auto; discriminate.
  - intros (c & n & Hc & H). destruct c; try congruence; [left; left; left|right|left; right|left; left; right]; exists n; auto.
Qed.

Lemma state_rng_raw c n j : idx_ok n = true -> idx_ok j = true ->
  state_rng 0 j (raw c n) = match c with SymS => false | _ => n <=? j end.
Proof.
  intros Hn Hj. apply eq_true_iff_eq. rewrite state_rng_spec by (auto; reflexivity). split.
  - intros (c' & n' & Hc & H & Hn' & E). apply raw_inj in E; auto. destruct E as [-> ->]. destruct c'; try congruence; lia.
  - destruct c; intros H; try discriminate; eexists; exists n; (split; [|split; [|split; [exact Hn|reflexivity]]]);
      try discriminate; unfold idx_ok in Hn; lia.
Qed.

(* landmarks *)
Definition lm_in (ids : list Z) (rk : Z) : bool := existsb (fun id => rk =? raw SymS id) ids.

Lemma lm_in_spec ids rk : lm_in ids rk = true <-> exists id, In id ids /\ rk = raw SymS id.
Proof.
  unfold lm_in. rewrite existsb_exists. split; intros (id & H & E); exists id; split; auto; lia.
Qed.

Lemma add_landmarks_exact vals ids ext :
  NoDup ids -> (forall id, In id ids -> idx_ok id = true /\ In (raw SymS id) (mkeys vals) /\ mget (raw SymS id) ext = None) ->
  msorted ext ->
  exists ext', add_landmarks vals ids ext = Ok ext' /\ msorted ext' /\
    forall k, mget k ext' = if lm_in ids k then mget k vals else mget k ext.
Proof.
  revert ext. induction ids as [|id ids IH]; simpl; intros ext ND H S.
  - exists ext. auto.
  - inversion ND; subst. destruct (H id (or_introl eq_refl)) as (Hid & Hin & Hne).
    unfold sym_key. rewrite Hid. simpl. apply mmem_true in Hin. apply mmem_mget in Hin. destruct Hin as [v Hv].
    rewrite Hv. unfold values_insert. assert (mmem (raw SymS id) ext = false) as -> by (apply mmem_false; auto).
    simpl. destruct (IH (mput (raw SymS id) v ext)) as (ext' & E & S' & G); auto using msorted_mput.
    + intros id' H'. destruct (H id' (or_intror H')) as (A & B & C). split; [auto|]. split; [auto|].
      rewrite mget_mput. destruct (Z.eqb_spec (raw SymS id') (raw SymS id)) as [Eq|]; [|auto].
      apply raw_inj in Eq; auto. destruct Eq; subst. contradiction.
    + exists ext'. split; [exact E|]. split; [exact S'|]. intros k. rewrite G, mget_mput.
      unfold lm_in. simpl. fold (lm_in ids k). destruct (Z.eqb_spec k (raw SymS id)) as [->|].
      * simpl. destruct (lm_in ids (raw SymS id)); auto.
      * reflexivity.
Qed.

Lemma add_landmarks_app vals a b ext :
  add_landmarks vals (a ++ b) ext = rbind (add_landmarks vals a ext) (add_landmarks vals b).
Proof.
  revert ext. induction a as [|id a IH]; simpl; intros ext; [reflexivity|].
  destruct (sym_key SymS id); simpl; try reflexivity. destruct (mget a0 vals); [|reflexivity].
  destruct (values_insert a0 z ext); simpl; auto.
Qed.

Lemma new_ids_loop_exact vals m it ext ext' :
  add_landmarks vals (fst (take_upto m it)) ext = Ok ext' ->
  new_ids_loop vals m it ext = (snd (take_upto m it), Ok ext').
Proof.
  revert ext. induction it as [|[k ids] it IH]; simpl; intros ext H; [inversion H; reflexivity|].
  destruct (k <=? m); [|simpl in *; inversion H; reflexivity].
  destruct (take_upto m it) as [out rest] eqn:E. simpl in *. rewrite add_landmarks_app in H.
  destruct (add_landmarks vals ids ext); simpl in *; try discriminate. apply IH. exact H.
Qed.

Lemma values_ids_loop_exact vals m it ext :
  values_ids_loop vals m it ext = add_landmarks vals (fst (take_upto m it)) ext.
Proof.
  revert ext. induction it as [|[k ids] it IH]; simpl; intros ext; [reflexivity|].
  destruct (k <=? m); [|reflexivity].
  destruct (take_upto m it) as [out rest] eqn:E. simpl in *. rewrite add_landmarks_app.
  destruct (add_landmarks vals ids ext); simpl in *; auto.
Qed.

(* ---------------- C05 ---------------- *)
(* landmarks listed as new: each once, representable, pending *)
Definition ids_ok (g : gm) : Prop :=
  NoDup (elems (g_new_ids g)) /\
  forall id, In id (elems (g_new_ids g)) -> idx_ok id = true /\ In (raw SymS id) (mkeys (g_new_val g)).

(* handed over up to m: state variables with index <= m, landmarks listed at a key <= m *)
Definition handed (m : Z) (g : gm) (c : sym) (n : Z) : bool :=
  match c with
  | SymS => existsb (fun e => (fst e <=? m) && zmem n (snd e)) (g_new_ids g)
  | _ => n <=? m
  end.

Lemma NoDup_app_l {A} (a b : list A) : NoDup (a ++ b) -> NoDup a.
Proof.
  induction a as [|x a IH]; simpl; intros H; [constructor|]. inversion H; subst. constructor; auto.
  intros Hx. apply H2. apply in_or_app; auto.
Qed.

Lemma NoDup_app_r {A} (a b : list A) : NoDup (a ++ b) -> NoDup b.
Proof. induction a as [|x a IH]; simpl; intros H; [auto|]. inversion H; auto. Qed.

Lemma NoDup_app_disj {A} (a b : list A) x : NoDup (a ++ b) -> In x a -> In x b -> False.
Proof.
  induction a as [|y a IH]; simpl; intros H Ha Hb; [auto|]. inversion H; subst. destruct Ha as [->|Ha]; [|auto].
  apply H2. apply in_or_app; auto.
Qed.

Lemma elems_le_In {A} m (l : omap (list A)) a :
  In a (elems (filter (fun e => fst e <=? m) l)) <-> exists k, k <= m /\ exists x, In (k, x) l /\ In a x.
Proof.
  unfold elems. rewrite in_concat. split.
  - intros (x & Hx & Ha). apply in_map_iff in Hx. destruct Hx as ([k y] & E & H). simpl in E; subst y.
    apply filter_In in H. destruct H as [H Hk]. simpl in Hk. exists k. split; [lia|]. exists x; auto.
  - intros (k & Hk & x & Hx & Ha). exists x. split; [|auto]. apply in_map_iff. exists (k, x). split; [reflexivity|].
    apply filter_In. split; [auto|]. simpl. lia.
Qed.

Lemma handed_lm m g id : handed m g SymS id = true <-> In id (elems (filter (fun e => fst e <=? m) (g_new_ids g))).
Proof.
  unfold handed. rewrite existsb_exists, elems_le_In. split.
  - intros ([k x] & H & E). apply andb_prop in E. simpl in E. destruct E as [E1 E2]. apply zmem_In in E2.
    exists k. split; [lia|]. exists x; auto.
  - intros (k & Hk & x & Hx & Ha). exists (k, x). split; [auto|]. simpl. apply andb_true_intro. split; [lia|].
    apply zmem_In; auto.
Qed.

Lemma extract_values_exact e m g :
  gm_inv g -> ids_ok g -> e < raw SymB 0 -> idx_ok m = true ->
  exists g' vs, gm_extract_values (Some e) m g = (g', Ok vs) /\ msorted vs /\
    (forall c n, idx_ok n = true -> mget (raw c n) vs = if handed m g c n then mget (raw c n) (g_new_val g) else None) /\
    (forall c n, idx_ok n = true -> mget (raw c n) (g_new_val g') = if handed m g c n then None else mget (raw c n) (g_new_val g)) /\
    g_new_ids g' = filter (fun e => m <? fst e) (g_new_ids g).
Proof.
  intros I [ND Hids] He Hm.
  assert (Sn: msorted (g_new_val g)) by (destruct I; auto).
  assert (Si: msorted (g_new_ids g)) by (destruct I; auto).
  destruct (add_values4_exact e (g_new_val g) 0 m He Sn (eq_refl _) Hm) as (ext & E1 & S1 & G1).
  set (ids := elems (filter (fun e => fst e <=? m) (g_new_ids g))).
  assert (Hincl: forall id, In id ids -> In id (elems (g_new_ids g))).
  { intros id Hid. apply elems_le_In in Hid. destruct Hid as (k & _ & x & Hx & Ha). unfold elems. apply in_concat.
    exists x. split; [apply in_map_iff; exists (k, x); auto|auto]. }
  destruct (add_landmarks_exact (g_new_val g) ids ext) as (vs & E2 & S2 & G2); auto.
  - apply (NoDup_app_l _ (elems (filter (fun e => negb (fst e <=? m)) (g_new_ids g)))).
    eapply Permutation_NoDup; [apply elems_filter_perm|]. exact ND.
  - intros id Hid. apply Hincl in Hid. destruct (Hids id Hid) as [A B]. split; [auto|]. split; [auto|].
    rewrite G1, state_rng_raw by auto. reflexivity.
  - unfold gm_extract_values. rewrite E1.
    assert (Hl: new_ids_loop (g_new_val g) m (g_new_ids g) ext = (filter (fun e => m <? fst e) (g_new_ids g), Ok vs)).
    { rewrite (new_ids_loop_exact _ _ _ _ vs); rewrite take_upto_spec by auto; auto. }
    rewrite Hl. eexists; exists vs. split; [reflexivity|]. gsimp. split; [exact S2|].
    assert (Hvs: forall c n, idx_ok n = true -> mget (raw c n) vs = if handed m g c n then mget (raw c n) (g_new_val g) else None).
    { intros c n Hn. rewrite G2, G1, state_rng_raw by auto.
      assert (Hlm: lm_in ids (raw c n) = match c with SymS => handed m g SymS n | _ => false end).
      { apply eq_true_iff_eq. rewrite lm_in_spec. split.
        - intros (id & Hid & E). assert (Hid2: idx_ok id = true) by (apply Hids; auto).
          apply raw_inj in E; auto. destruct E as [-> ->]. apply handed_lm. exact Hid.
        - destruct c; try discriminate. intros H. apply handed_lm in H. exists n. auto. }
      rewrite Hlm. destruct c; simpl; try reflexivity. }
    split; [exact Hvs|]. split; [|reflexivity]. intros c n Hn. fold (del_all vs (g_new_val g)).
    rewrite mget_del_all by auto. unfold mmem. rewrite Hvs by auto.
    destruct (handed m g c n); [|reflexivity]. destruct (mget (raw c n) (g_new_val g)); reflexivity.
Qed.

(* the strict reading of the standard *)
Lemma add_values_loop_none a b it ext :
  (forall k, In k (mkeys it) -> a <= k <= b) -> msorted it ->
  (forall k, In k (mkeys it) -> mget k ext = None) -> add_values_loop None a b it ext = UB.
Proof.
  revert ext. induction it as [|[k v] it IH]; simpl; intros ext H S Hf; [reflexivity|].
  assert (Hk: a <= k <= b) by (apply H; left; reflexivity).
  assert ((a <=? k) && (k <=? b) = true) as -> by lia. unfold values_insert.
  assert (mmem k ext = false) as -> by (apply mmem_false; auto). simpl. destruct S as [L S]. apply IH; auto.
  intros x Hx. rewrite mget_mput. specialize (L x Hx). destruct (Z.eqb_spec x k); [lia|auto].
Qed.

Lemma add_values_none_cases a b vals ext :
  msorted vals -> msorted ext -> (forall k, in_rng a b k = true -> mget k ext = None) ->
  add_values None vals a b ext = UB \/
  exists ext', add_values None vals a b ext = Ok ext' /\ msorted ext' /\
    forall k, in_rng a b k = false -> mget k ext' = mget k ext.
Proof.
  unfold add_values. intros S Se Hf.
  assert (H: forall k, In k (mkeys (lower_bound a vals)) -> a <= k) by (intros k; apply lower_bound_ge; auto).
  assert (S2: msorted (lower_bound a vals)) by (apply lower_bound_sorted; auto).
  generalize dependent (lower_bound a vals). intros it H S2. revert ext Se Hf H S2.
  assert (Gen: forall ext, msorted ext -> (forall k, In k (mkeys it) -> a <= k) -> msorted it ->
     (forall k, In k (mkeys it) -> in_rng a b k = true -> mget k ext = None) ->
     add_values_loop None a b it ext = UB \/ exists ext', add_values_loop None a b it ext = Ok ext' /\ msorted ext' /\
    forall k, in_rng a b k = false -> mget k ext' = mget k ext).
  { induction it as [|[k v] it IH]; simpl; intros ext Se H S2 Hf; [left; reflexivity|].
    fold (in_rng a b k). destruct (in_rng a b k) eqn:Er.
    - unfold values_insert. assert (mmem k ext = false) as -> by (apply mmem_false; auto). simpl. destruct S2 as [L S2].
      destruct (IH (mput k v ext)) as [U|(ext' & E & Se' & G)]; auto using msorted_mput.
      + intros x Hx Hr. rewrite mget_mput. specialize (L x Hx). destruct (Z.eqb_spec x k); [lia|auto].
      + right. exists ext'. split; [exact E|]. split; [exact Se'|]. intros x Hx. rewrite G by auto. rewrite mget_mput.
        destruct (Z.eqb_spec x k); [congruence|reflexivity].
    - right. exists ext. auto. }
  intros ext Se Hf H S2. apply Gen; auto.
Qed.

Lemma extract_values_ub m g :
  gm_inv g -> idx_ok m = true -> (forall rk, In rk (mkeys (g_new_val g)) -> rk <= raw SymX m) ->
  gm_extract_values None m g = (g, UB).
Proof.
  intros I Hm Hmax. assert (S: msorted (g_new_val g)) by (destruct I; auto).
  unfold gm_extract_values, add_values4, add_values_sym, sym_key. rewrite Hm. simpl (idx_ok 0). cbn [rbind].
  destruct (add_values_none_cases (raw SymB 0) (raw SymB m) (g_new_val g) []) as [U|(e1 & E1 & S1 & G1)]; simpl; auto.
  - rewrite U. reflexivity.
  - rewrite E1. cbn [rbind]. unfold add_values. rewrite add_values_loop_none; [reflexivity| | |].
    + intros k Hk. split; [apply lower_bound_ge in Hk; auto|]. apply Hmax.
      unfold mkeys in *. apply in_map_iff in Hk. destruct Hk as (x & <- & Hx). apply in_map.
      eapply lower_bound_incl; eauto.
    + apply lower_bound_sorted; auto.
    + intros k Hk. rewrite G1; [reflexivity|].
      assert (Hk1: raw SymX 0 <= k) by (apply lower_bound_ge in Hk; auto).
      unfold in_rng. apply andb_false_iff. right. unfold raw, idx_ok, idx_lim in *. simpl sym_char in *. lia.
Qed.

(* ---------------- C06 ---------------- *)
Definition created_lms (first last : Z) (g : gm) : list Z :=
  elems (filter (fun e => (first <=? fst e) && (fst e <=? last)) (g_ids g)).

Lemma find_it_lower {A} k (m : omap A) : msorted m -> mmem k m = true -> find_it k m = lower_bound k m.
Proof.
  induction m as [|[k' a] m IH]; simpl; intros S H; [discriminate|]. destruct S as [L S]. unfold mmem in H. simpl in H.
  destruct (Z.eqb_spec k k') as [->|Hne].
  - destruct (Z.ltb_spec k' k'); [lia|reflexivity].
  - destruct (Z.ltb_spec k' k); [apply IH; auto|]. exfalso. destruct (mget k m) eqn:E; [|discriminate].
    apply mget_key_In in E. specialize (L _ E). lia.
Qed.

Lemma lower_bound_filter {A} k (m : omap A) : msorted m -> lower_bound k m = filter (fun e => k <=? fst e) m.
Proof.
  induction m as [|[k' a] m IH]; simpl; intros S; [reflexivity|]. destruct S as [L S].
  destruct (Z.ltb_spec k' k); destruct (Z.leb_spec k k'); try lia; [apply IH; auto|]. f_equal.
  symmetry. clear IH S. induction m as [|[k2 a2] m IH]; simpl; [reflexivity|].
  assert (k' < k2) by (apply L; left; reflexivity). destruct (Z.leb_spec k k2); [|lia]. f_equal. apply IH.
  intros x Hx. apply L. right; exact Hx.
Qed.

Lemma filter_filter {A} (f h : A -> bool) l : filter f (filter h l) = filter (fun x => h x && f x) l.
Proof. induction l as [|a l IH]; simpl; [reflexivity|]. destruct (h a); simpl; [destruct (f a)|]; rewrite IH; reflexivity. Qed.

Lemma values_range_exact e first last g :
  gm_inv g -> e < raw SymB 0 -> idx_ok first = true -> idx_ok last = true ->
  mmem first (g_ids g) = true ->
  NoDup (created_lms first last g) ->
  (forall id, In id (created_lms first last g) -> idx_ok id = true /\ In (raw SymS id) (mkeys (g_val g))) ->
  exists vs, gm_values (Some e) first last g = Ok vs /\
    (forall c n, idx_ok n = true -> mget (raw c n) vs =
       if (match c with SymS => zmem n (created_lms first last g) | _ => (first <=? n) && (n <=? last) end)
       then mget (raw c n) (g_val g) else None).
Proof.
  intros I He Hf Hl Hmem ND Hids.
  assert (Sv: msorted (g_val g)) by (destruct I; auto).
  assert (Si: msorted (g_ids g)) by (destruct I; auto).
  destruct (add_values4_exact e (g_val g) first last He Sv Hf Hl) as (ext & E1 & S1 & G1).
  assert (Hs: forall c n, idx_ok n = true -> state_rng first last (raw c n) =
     match c with SymS => false | _ => (first <=? n) && (n <=? last) end).
  { intros c n Hn. apply eq_true_iff_eq. rewrite state_rng_spec by auto. split.
    - intros (c' & n' & Hc & H & Hn' & E). apply raw_inj in E; auto. destruct E as [-> ->]. destruct c'; try congruence; lia.
    - destruct c; intros H; try discriminate; eexists; exists n; (split; [|split; [|split; [exact Hn|reflexivity]]]);
      try discriminate; lia. }
  unfold gm_values. rewrite E1. cbn [rbind]. rewrite values_ids_loop_exact, find_it_lower by auto.
  assert (Hids2: fst (take_upto last (lower_bound first (g_ids g))) = created_lms first last g).
  { rewrite take_upto_spec by (apply lower_bound_sorted; auto). simpl. rewrite lower_bound_filter by auto.
    rewrite filter_filter. reflexivity. }
  rewrite Hids2. destruct (add_landmarks_exact (g_val g) (created_lms first last g) ext) as (vs & E2 & S2 & G2); auto.
  - intros id Hid. destruct (Hids id Hid) as [A B]. split; [auto|]. split; [auto|]. rewrite G1, Hs by auto. reflexivity.
  - exists vs. split; [exact E2|]. intros c n Hn. rewrite G2, G1, Hs by auto.
    assert (Hlm: lm_in (created_lms first last g) (raw c n) = match c with SymS => zmem n (created_lms first last g) | _ => false end).
    { apply eq_true_iff_eq. rewrite lm_in_spec. split.
      - intros (id & Hid & E). assert (Hid2: idx_ok id = true) by (apply Hids; auto).
        apply raw_inj in E; auto. destruct E as [-> ->]. apply zmem_In. exact Hid.
      - destruct c; try discriminate. intros H. apply zmem_In in H. exists n. auto. }
    rewrite Hlm. destruct c; simpl; try reflexivity.
Qed.

(* without the hypothesis on [first]: no landmark at all *)
Lemma values_range_no_frame e first last g :
  gm_inv g -> e < raw SymB 0 -> idx_ok first = true -> idx_ok last = true ->
  mmem first (g_ids g) = false ->
  exists vs, gm_values (Some e) first last g = Ok vs /\
    (forall n, idx_ok n = true -> mget (raw SymS n) vs = None).
Proof.
  intros I He Hf Hl Hmem. assert (Sv: msorted (g_val g)) by (destruct I; auto).
  destruct (add_values4_exact e (g_val g) first last He Sv Hf Hl) as (ext & E1 & S1 & G1).
  unfold gm_values. rewrite E1. cbn [rbind].
  assert (find_it first (g_ids g) = []) as ->.
  { clear - Hmem. induction (g_ids g) as [|[k a] m IH]; simpl; [reflexivity|]. unfold mmem in Hmem. simpl in Hmem.
    destruct (first =? k); [discriminate|]. apply IH. exact Hmem. }
  exists ext. split; [reflexivity|]. intros n Hn. rewrite G1.
  destruct (state_rng first last (raw SymS n)) eqn:E; [|reflexivity].
  apply state_rng_spec in E; auto. destruct E as (c & n' & Hc & _ & Hn' & E). apply raw_inj in E; auto. destruct E; congruence.
Qed.
