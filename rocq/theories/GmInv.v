(* Invariants of the graph manager model. *)
From Verif Require Import Base GmModel GmSpec.

Lemma raw_inj c i c' i' : idx_ok i = true -> idx_ok i' = true -> raw c i = raw c' i' -> c = c' /\ i = i'.
Proof.
  intros H H' E. apply andb_prop in H. apply andb_prop in H'. destruct H as [H1 H2], H' as [H1' H2'].
  apply Z.leb_le in H1, H1'. apply Z.ltb_lt in H2, H2'. unfold raw in E.
  assert (L : 0 < idx_lim) by reflexivity. generalize dependent idx_lim. intros L H2 H2' E HL.
  assert (D : sym_char c = sym_char c').
  { pose proof (f_equal (fun z => z / L) E) as D. cbv beta in D.
    rewrite !Z.div_add_l in D by lia. rewrite !Z.div_small in D by lia. lia. }
  split; [destruct c, c'; try reflexivity; discriminate D|rewrite D in E; lia].
Qed.

Lemma sym_key_ok c i k : sym_key c i = Ok k <-> idx_ok i = true /\ k = raw c i.
Proof.
  unfold sym_key. destruct (idx_ok i); split; intros H; try discriminate; try tauto.
  - inversion H; auto.
  - destruct H as [_ E]; subst; reflexivity.
  - destruct H; discriminate.
Qed.

Lemma sym_key_cases c i : (idx_ok i = true /\ sym_key c i = Ok (raw c i)) \/ (idx_ok i = false /\ sym_key c i = Throw).
Proof. unfold sym_key. destruct (idx_ok i); auto. Qed.

(* ---------------- entries ---------------- *)
Lemma mentry_mput {A} k k' (l : list A) m :
  mentry k (mput k' l m) = if k =? k' then l else mentry k m.
Proof. unfold mentry. rewrite mget_mput. destruct (k =? k'); reflexivity. Qed.

Lemma mentry_mpush {A} k k' (a : A) m :
  mentry k (mpush k' a m) = if k =? k' then mentry k m ++ [a] else mentry k m.
Proof.
  unfold mpush. rewrite mentry_mput. destruct (Z.eqb_spec k k'); [subst|]; reflexivity.
Qed.

Lemma mentry_mtouch {A} k k' (m : omap (list A)) : mentry k (mtouch k' m) = mentry k m.
Proof.
  unfold mtouch. rewrite mentry_mput. destruct (Z.eqb_spec k k'); [subst|]; reflexivity.
Qed.

Lemma mentry_notin {A} k (m : omap (list A)) : ~ In k (mkeys m) -> mentry k m = [].
Proof. unfold mentry. intros H. apply mget_None_notin in H. rewrite H. reflexivity. Qed.

Lemma mentry_In {A} k (m : omap (list A)) : mentry k m <> [] -> In k (mkeys m).
Proof.
  unfold mentry. destruct (mget k m) eqn:E; [|congruence]. intros _. eapply mget_key_In; eauto.
Qed.

(* all elements stored in the lists of a map *)
Definition elems {A} (m : omap (list A)) : list A := concat (map snd m).

Lemma In_elems {A} (a : A) m : msorted m -> (In a (elems m) <-> exists k, In a (mentry k m)).
Proof.
  unfold elems. intros S. rewrite in_concat. split.
  - intros (l & Hl & Ha). apply in_map_iff in Hl. destruct Hl as ([k l'] & E & Hin). simpl in E; subst l'.
    exists k. unfold mentry. rewrite (In_mget k l m S Hin). exact Ha.
  - intros (k & Ha). unfold mentry in Ha. destruct (mget k m) eqn:E; [|inversion Ha].
    apply mget_In in E. exists l. split; [apply in_map_iff; exists (k, l); auto|exact Ha].
Qed.

Lemma elems_mpush {A} k (a : A) m : msorted m -> Permutation (elems (mpush k a m)) (a :: elems m).
Proof.
  unfold elems, mpush, mentry. induction m as [|[k' l] m IH]; intros S.
  - simpl. auto.
  - destruct S as [L S]. simpl. destruct (Z.eqb_spec k k') as [E|E]; simpl.
    + rewrite <- app_assoc. simpl. symmetry. apply Permutation_middle.
    + destruct (Z.ltb_spec k k') as [Hlt|Hge]; simpl.
      * assert (mget k m = None) as ->.
        { apply mget_None_notin. intros Hin. specialize (L _ Hin). lia. }
        simpl. auto.
      * rewrite (IH S). symmetry. apply Permutation_middle.
Qed.

Lemma mpush_sorted {A} k (a : A) m : msorted m -> msorted (mpush k a m).
Proof. apply msorted_mput. Qed.
Lemma mtouch_sorted {A} k (m : omap (list A)) : msorted m -> msorted (mtouch k m).
Proof. apply msorted_mput. Qed.

Lemma elems_mtouch {A} k (m : omap (list A)) : msorted m -> elems (mtouch k m) = elems m.
Proof.
  unfold elems, mtouch, mentry. induction m as [|[k' l] m IH]; intros S; [reflexivity|].
  destruct S as [L S]. simpl. destruct (Z.eqb_spec k k') as [E|E]; simpl; [reflexivity|].
  destruct (Z.ltb_spec k k') as [Hlt|Hge]; simpl.
  - assert (mget k m = None) as ->.
    { apply mget_None_notin. intros Hin. specialize (L _ Hin). lia. }
    reflexivity.
  - rewrite (IH S). reflexivity.
Qed.

(* ---------------- take_upto ---------------- *)
Lemma take_upto_spec {A} m (l : omap (list A)) :
  msorted l ->
  take_upto m l = (elems (filter (fun e => fst e <=? m) l), filter (fun e => m <? fst e) l).
Proof.
  unfold elems. induction l as [|[k fs] l IH]; intros S; [reflexivity|].
  destruct S as [L S]. simpl. destruct (Z.leb_spec k m) as [H|H].
  - rewrite (IH S). destruct (Z.ltb_spec m k); [lia|]. reflexivity.
  - destruct (Z.ltb_spec m k); [|lia]. f_equal.
    + assert (filter (fun e : Z * list A => fst e <=? m) l = []) as ->; [|reflexivity].
      clear IH S. induction l as [|[k2 f2] l IH]; [reflexivity|]. simpl.
      destruct (Z.leb_spec k2 m); [specialize (L k2 (or_introl eq_refl)); lia|].
      apply IH. intros x Hx. apply L. right; exact Hx.
    + f_equal. clear IH S. induction l as [|[k2 f2] l IH]; [reflexivity|]. simpl.
      assert (k < k2) by (apply L; left; reflexivity).
      destruct (Z.ltb_spec m k2); [|lia]. f_equal. apply IH.
      intros x Hx. apply L. right; exact Hx.
Qed.

Lemma mentry_filter {A} (f : Z -> bool) k (m : omap (list A)) :
  mentry k (filter (fun e => f (fst e)) m) = if f k then mentry k m else [].
Proof. unfold mentry. rewrite (mget_filter_key f m k). destruct (f k); reflexivity. Qed.

Lemma elems_filter_perm {A} (f : Z * list A -> bool) m :
  Permutation (elems m) (elems (filter f m) ++ elems (filter (fun e => negb (f e)) m)).
Proof.
  unfold elems. induction m as [|[k l] m IH]; simpl; [auto|].
  destruct (f (k, l)); simpl.
  - rewrite <- app_assoc. apply Permutation_app_head. exact IH.
  - rewrite IH. rewrite Permutation_app_swap_app. reflexivity.
Qed.

Lemma filter_gt_negb {A} m (l : omap (list A)) :
  filter (fun e => m <? fst e) l = filter (fun e => negb (fst e <=? m)) l.
Proof. apply filter_ext. intros [k x]; simpl. lia. Qed.

(* ---------------- extracted values ---------------- *)
(* [sub_map a b]: every entry of a is in b *)
Definition sub_map (a b : omap Z) : Prop := forall k v, mget k a = Some v -> mget k b = Some v.

Lemma values_insert_ok k v m m' :
  values_insert k v m = Ok m' -> mget k m = None /\ m' = mput k v m.
Proof.
  unfold values_insert. destruct (mmem k m) eqn:E; [discriminate|]. intros H; inversion H.
  apply mmem_false in E. auto.
Qed.

Lemma values_insert_not_ub k v m : values_insert k v m <> UB.
Proof. unfold values_insert. destruct (mmem k m); discriminate. Qed.

Lemma add_values_loop_sub endk a b it ext ext' vals :
  (forall k v, In (k, v) it -> mget k vals = Some v) ->
  sub_map ext vals -> msorted ext ->
  add_values_loop endk a b it ext = Ok ext' -> sub_map ext' vals /\ msorted ext'.
Proof.
  revert ext. induction it as [|[k v] it IH]; simpl; intros ext Hit Hs Hsort H.
  - destruct endk; [|discriminate]. destruct ((a <=? z) && (z <=? b)); [discriminate|]. inversion H; subst; auto.
  - destruct ((a <=? k) && (k <=? b)); [|inversion H; subst; auto].
    destruct (values_insert k v ext) eqn:E; simpl in H; try discriminate.
    apply values_insert_ok in E. destruct E as [E1 E2]; subst a0.
    apply (IH (mput k v ext)); auto.
    + intros x y. rewrite mget_mput. destruct (Z.eqb_spec x k); [|apply Hs].
      intros Hy; inversion Hy; subst. apply Hit; auto.
    + apply msorted_mput; auto.
Qed.

Lemma lower_bound_incl {A} k (m : omap A) e : In e (lower_bound k m) -> In e m.
Proof.
  induction m as [|[k' a] m IH]; simpl; [auto|]. destruct (k' <? k); simpl; [auto|tauto].
Qed.

Lemma add_values_sub endk vals a b ext ext' :
  msorted vals -> sub_map ext vals -> msorted ext ->
  add_values endk vals a b ext = Ok ext' -> sub_map ext' vals /\ msorted ext'.
Proof.
  unfold add_values. intros S Hs Hse H. eapply add_values_loop_sub; eauto.
  intros k v Hin. apply In_mget; auto. eapply lower_bound_incl; eauto.
Qed.

Lemma add_values_sym_sub endk vals c i j ext ext' :
  msorted vals -> sub_map ext vals -> msorted ext ->
  add_values_sym endk vals c i j ext = Ok ext' -> sub_map ext' vals /\ msorted ext'.
Proof.
  unfold add_values_sym. intros S Hs Hse H.
  destruct (sym_key c i); simpl in H; try discriminate.
  destruct (sym_key c j); simpl in H; try discriminate.
  eapply add_values_sub; eauto.
Qed.

Lemma add_values4_sub endk vals i j ext :
  msorted vals -> add_values4 endk vals i j = Ok ext -> sub_map ext vals /\ msorted ext.
Proof.
  unfold add_values4. intros S H.
  destruct (add_values_sym endk vals SymB i j []) eqn:E1; simpl in H; try discriminate.
  apply add_values_sym_sub in E1; simpl; auto; [|intros ? ?; discriminate].
  destruct (add_values_sym endk vals SymX i j a) eqn:E2; simpl in H; try discriminate.
  apply add_values_sym_sub in E2; try tauto.
  destruct (add_values_sym endk vals SymV i j a0) eqn:E3; simpl in H; try discriminate.
  apply add_values_sym_sub in E3; try tauto.
  apply add_values_sym_sub in H; tauto.
Qed.

Lemma add_landmarks_sub vals ids ext ext' :
  sub_map ext vals -> msorted ext -> add_landmarks vals ids ext = Ok ext' -> sub_map ext' vals /\ msorted ext'.
Proof.
  revert ext. induction ids as [|id ids IH]; simpl; intros ext Hs Hse H; [inversion H; subst; auto|].
  destruct (sym_key SymS id) as [rk| |]; simpl in H; try discriminate.
  destruct (mget rk vals) eqn:Eg; [|discriminate].
  destruct (values_insert rk z ext) eqn:E; simpl in H; try discriminate.
  apply values_insert_ok in E. destruct E as [E1 E2]; subst a.
  apply (IH (mput rk z ext)); auto using msorted_mput.
  intros x y. rewrite mget_mput. destruct (Z.eqb_spec x rk); [intros Hy; inversion Hy; subst; auto|apply Hs].
Qed.

Lemma new_ids_loop_sub vals m it ext ids' ext' :
  sub_map ext vals -> msorted ext -> new_ids_loop vals m it ext = (ids', Ok ext') ->
  sub_map ext' vals /\ msorted ext'.
Proof.
  revert ext. induction it as [|[k ids] it IH]; simpl; intros ext Hs Hse H; [inversion H; subst; auto|].
  destruct (k <=? m); [|inversion H; subst; auto].
  destruct (add_landmarks vals ids ext) eqn:E; try discriminate.
  apply add_landmarks_sub in E; auto. eapply IH; [| |exact H]; tauto.
Qed.

Lemma new_ids_loop_suffix vals m it ext ids' r :
  new_ids_loop vals m it ext = (ids', r) -> exists pre, it = pre ++ ids'.
Proof.
  revert ext. induction it as [|[k ids] it IH]; simpl; intros ext H.
  - inversion H. exists []; reflexivity.
  - destruct (k <=? m); [|inversion H; exists []; reflexivity].
    destruct (add_landmarks vals ids ext) eqn:E.
    + apply IH in H. destruct H as [pre ->]. exists ((k, ids) :: pre). reflexivity.
    + inversion H. exists []; reflexivity.
    + inversion H. exists []; reflexivity.
Qed.

(* removing the extracted values *)
Definition del_all (ext nv : omap Z) : omap Z := fold_left (fun nv e => mdel (fst e) nv) ext nv.

Lemma del_all_sorted ext nv : msorted nv -> msorted (del_all ext nv).
Proof.
  unfold del_all. revert nv. induction ext as [|e ext IH]; simpl; intros nv H; auto using msorted_mdel.
Qed.

Lemma mget_del_all ext nv k :
  msorted nv -> mget k (del_all ext nv) = if mmem k ext then None else mget k nv.
Proof.
  unfold del_all. revert nv. induction ext as [|[k' v] ext IH]; simpl; intros nv S; [reflexivity|].
  rewrite IH by (apply msorted_mdel; auto). unfold mmem. simpl.
  rewrite mget_mdel by auto. destruct (Z.eqb_spec k k'); [subst; destruct (mget k' ext); reflexivity|reflexivity].
Qed.

(* ---------------- the invariant ---------------- *)
Record gm_inv (g : gm) : Prop := {
  inv_ts : msorted (g_ts g);
  inv_feat : msorted (g_feat g);
  inv_ids : msorted (g_ids g);
  inv_nids : msorted (g_new_ids g);
  inv_fac : msorted (g_fac g);
  inv_nfac : msorted (g_new_fac g);
  inv_val : msorted (g_val g);
  inv_nval : msorted (g_new_val g);
  inv_unm : msorted (g_unm g);
  inv_names : NoDup (map fst (g_keys g));
  inv_sub : sub_map (g_new_val g) (g_val g);
  inv_raw : forall rk, In rk (mkeys (g_val g)) -> exists c i, idx_ok i = true /\ rk = raw c i;
  inv_unm_val : forall rk, In rk (elems (g_unm g)) -> In rk (mkeys (g_val g));
  inv_unm_nodup : NoDup (elems (g_unm g));
  inv_unm_key : forall k rk, In rk (mentry k (g_unm g)) -> exists c, idx_ok k = true /\ rk = raw c k
}.

Record igm_inv (s : igm) : Prop := {
  inv_gm : gm_inv (i_gm s);
  inv_vars_val : forall k, In k (i_vars s) -> In k (mkeys (g_val (i_gm s)));
  inv_vars_new : forall k, In k (i_vars s) -> ~ In k (mkeys (g_new_val (i_gm s)));
  inv_vars_nodup : NoDup (i_vars s)
}.

Ltac gsimp := cbn [g_keys g_ts g_calib g_cam g_feat g_ids g_new_ids g_fac g_new_fac g_val g_new_val g_unm
   with_keys with_ts with_calib with_cam with_feat with_ids with_fac with_val with_unm fst snd
   i_gm i_vars i_facs i_opt i_marg_on i_marg_key i_window with_gm] in *.

Lemma gm_init_inv : gm_inv gm_init.
Proof.
  constructor; simpl; try exact I; try (constructor; fail); try tauto; try discriminate.
Qed.

Lemma igm_init_inv : igm_inv igm_init.
Proof. constructor; simpl; try tauto; [apply gm_init_inv|constructor]. Qed.

(* an update of an existing variable *)
Lemma mkeys_mput_present k v (m : omap Z) x : In k (mkeys m) -> (In x (mkeys (mput k v m)) <-> In x (mkeys m)).
Proof. intros H. rewrite mkeys_mput. split; [intros [E|E]; [subst; auto|auto]|auto]. Qed.

Lemma gm_update_spec rk v g :
  gm_update rk v g =
  if mmem rk (g_val g)
  then (with_val (mput rk v (g_val g)) (if mmem rk (g_new_val g) then mput rk v (g_new_val g) else g_new_val g) g, Ok tt)
  else (g, Throw).
Proof. reflexivity. Qed.

Lemma gm_update_inv rk v g : gm_inv g -> gm_inv (fst (gm_update rk v g)).
Proof.
  intros I. unfold gm_update. destruct (mmem rk (g_val g)) eqn:Em; [|exact I].
  apply mmem_true in Em. destruct I. constructor; gsimp; auto.
  - apply msorted_mput; auto.
  - destruct (mmem rk (g_new_val g)); [apply msorted_mput; auto|auto].
  - intros x y. destruct (mmem rk (g_new_val g)) eqn:E2; rewrite !mget_mput.
    + destruct (x =? rk); [auto|apply inv_sub0].
    + destruct (Z.eqb_spec x rk); [|apply inv_sub0]. subst. apply mmem_false in E2. congruence.
  - intros x. rewrite mkeys_mput_present by auto. auto.
  - intros x Hx. rewrite mkeys_mput_present by auto. auto.
Qed.

Lemma gm_add_ok c k v g :
  gm_inv g -> idx_ok k = true -> mmem (raw c k) (g_val g) = false ->
  gm_add c k v g = (with_unm (mpush k (raw c k) (g_unm g))
     (with_val (mput (raw c k) v (g_val g)) (mput (raw c k) v (g_new_val g)) g), Ok tt).
Proof.
  intros I Hk Hm. unfold gm_add, sym_key. rewrite Hk, Hm.
  assert (mmem (raw c k) (g_new_val g) = false) as ->.
  { apply mmem_false. apply mmem_false in Hm. destruct (mget (raw c k) (g_new_val g)) eqn:E; [|reflexivity].
    apply (inv_sub _ I) in E. congruence. }
  reflexivity.
Qed.

Lemma gm_add_inv c k v g :
  gm_inv g -> idx_ok k = true -> mmem (raw c k) (g_val g) = false -> gm_inv (fst (gm_add c k v g)).
Proof.
  intros I Hk Hm. rewrite gm_add_ok by auto. gsimp. apply mmem_false in Hm.
  assert (Hni: ~ In (raw c k) (mkeys (g_val g))) by (apply mget_None_notin; auto).
  destruct I. constructor; gsimp; auto using msorted_mput, mpush_sorted.
  - intros x y. rewrite !mget_mput. destruct (x =? raw c k); auto.
  - intros x Hx. apply mkeys_mput in Hx. destruct Hx as [->|Hx]; eauto.
  - intros x Hx. apply mkeys_mput. apply (Permutation_in _ (elems_mpush _ _ _ inv_unm0)) in Hx.
    destruct Hx as [->|Hx]; auto.
  - apply (Permutation_NoDup (Permutation_sym (elems_mpush k (raw c k) _ inv_unm0))). constructor; auto.
  - intros j x. rewrite mentry_mpush. destruct (Z.eqb_spec j k); [|apply inv_unm_key0].
    subst. intros Hx. apply in_app_or in Hx. destruct Hx as [Hx|[<-|[]]]; eauto.
Qed.

Lemma gm_set_cases c k v g :
  (idx_ok k = false /\ gm_set c k v g = (g, Throw)) \/
  (idx_ok k = true /\ mmem (raw c k) (g_val g) = true /\ gm_set c k v g = gm_update (raw c k) v g) \/
  (idx_ok k = true /\ mmem (raw c k) (g_val g) = false /\ gm_set c k v g = gm_add c k v g).
Proof.
  unfold gm_set. destruct (sym_key_cases c k) as [[H E]|[H E]]; rewrite E; [|auto].
  destruct (mmem (raw c k) (g_val g)); auto.
Qed.

Lemma gm_set_inv c k v g : gm_inv g -> gm_inv (fst (gm_set c k v g)).
Proof.
  intros I. destruct (gm_set_cases c k v g) as [[H E]|[(H & Hm & E)|(H & Hm & E)]]; rewrite E; auto.
  - apply gm_update_inv; auto.
  - apply gm_add_inv; auto.
Qed.

(* exact effect of a setter on the stored values *)
Lemma gm_set_val c k v g :
  gm_inv g ->
  g_val (fst (gm_set c k v g)) = (if idx_ok k then mput (raw c k) v (g_val g) else g_val g) /\
  snd (gm_set c k v g) = (if idx_ok k then Ok tt else Throw).
Proof.
  intros I. destruct (gm_set_cases c k v g) as [[H E]|[(H & Hm & E)|(H & Hm & E)]]; rewrite E, H; auto.
  - unfold gm_update. rewrite Hm. auto.
  - rewrite gm_add_ok by auto. auto.
Qed.

(* fields a setter does not touch *)
Lemma gm_set_frame c k v g :
  gm_inv g ->
  let g' := fst (gm_set c k v g) in
  g_keys g' = g_keys g /\ g_ts g' = g_ts g /\ g_calib g' = g_calib g /\ g_cam g' = g_cam g /\
  g_feat g' = g_feat g /\ g_ids g' = g_ids g /\ g_new_ids g' = g_new_ids g /\ g_fac g' = g_fac g /\
  g_new_fac g' = g_new_fac g.
Proof.
  intros I. destruct (gm_set_cases c k v g) as [[H E]|[(H & Hm & E)|(H & Hm & E)]]; rewrite E; cbv zeta.
  - repeat split.
  - unfold gm_update. rewrite Hm. repeat split.
  - rewrite gm_add_ok by auto. repeat split.
Qed.

Lemma gm_set_nval c k v g rk :
  gm_inv g ->
  mget rk (g_new_val (fst (gm_set c k v g))) =
  if idx_ok k && (rk =? raw c k) && (mmem rk (g_new_val g) || negb (mmem rk (g_val g)))
  then Some v else mget rk (g_new_val g).
Proof.
  intros I. destruct (gm_set_cases c k v g) as [[H E]|[(H & Hm & E)|(H & Hm & E)]]; rewrite E, H; simpl.
  - reflexivity.
  - unfold gm_update. rewrite Hm. gsimp. destruct (mmem (raw c k) (g_new_val g)) eqn:E2.
    + rewrite mget_mput. destruct (Z.eqb_spec rk (raw c k)); [subst; rewrite E2; reflexivity|reflexivity].
    + destruct (Z.eqb_spec rk (raw c k)); [|reflexivity]. subst. rewrite E2, Hm. reflexivity.
  - rewrite gm_add_ok by auto. gsimp. rewrite mget_mput.
    destruct (Z.eqb_spec rk (raw c k)); [|reflexivity]. subst. rewrite Hm. simpl. rewrite orb_true_r. reflexivity.
Qed.

Lemma gm_set_navstate_inv k p v g : gm_inv g -> gm_inv (fst (gm_set_navstate k p v g)).
Proof.
  intros I. unfold gm_set_navstate. pose proof (gm_set_inv SymX k p g I) as I1.
  destruct (gm_set SymX k p g) as [g1 [u| |]]; simpl in *; auto. apply gm_set_inv; auto.
Qed.

Lemma gm_add_factor_inv k f g : gm_inv g -> gm_inv (gm_add_factor k f g).
Proof. intros I. unfold gm_add_factor. destruct I. constructor; gsimp; auto using mpush_sorted. Qed.

Lemma gm_create_inv kind k vars meas g : gm_inv g -> gm_inv (fst (gm_create kind k vars meas g)).
Proof.
  intros I. unfold gm_create. destruct (sym_keys vars); simpl; auto. apply gm_add_factor_inv; auto.
Qed.

Lemma with_ids_inv a b g : gm_inv g -> msorted a -> msorted b -> gm_inv (with_ids a b g).
Proof. intros I Ha Hb. destruct I. constructor; gsimp; auto. Qed.

Lemma with_fac_inv a b g : gm_inv g -> msorted a -> msorted b -> gm_inv (with_fac a b g).
Proof. intros I Ha Hb. destruct I. constructor; gsimp; auto. Qed.

Lemma with_feat_inv a g : gm_inv g -> msorted a -> gm_inv (with_feat a g).
Proof. intros I Ha. destruct I. constructor; gsimp; auto. Qed.

Lemma gm_update_all_inv l g : gm_inv g -> gm_inv (fst (gm_update_all l g)).
Proof.
  revert g. induction l as [|[k v] l IH]; simpl; intros g I; [exact I|].
  pose proof (gm_update_inv k v g I) as I1.
  destruct (gm_update k v g) as [g1 [u| |]]; simpl in *; auto.
Qed.

(* ---------------- stereo ---------------- *)
Section StereoInv.
Variable bp : Z -> Z -> Z -> Z -> Z.

Lemma stereo_feature_inv k im1 im2 pose cam id meas g :
  gm_inv g -> gm_inv (fst (stereo_feature bp k im1 im2 pose cam id meas g)).
Proof.
  intros I. unfold stereo_feature. destruct (mget id im1) as [m1|]; [|exact I].
  remember (stereo_first k im2 id m1 g) as r1 eqn:Er1.
  assert (I1: gm_inv (fst r1)).
  { subst r1. unfold stereo_first. destruct (match im2 with Some f => negb (mmem id f) | None => true end); [|exact I].
    destruct (sym_keys [(SymX, k - 1); (SymS, id)]); cbn [fst]; auto.
    apply with_ids_inv; [apply gm_add_factor_inv; auto| |]; gsimp; apply mpush_sorted;
      apply (gm_add_factor_inv k (mkFactor FStereo [] 0) g) in I; destruct I; auto. }
  destruct r1 as [g1 [u| |]]; simpl in I1; auto.
  destruct (g_calib g1); auto.
  pose proof (gm_set_inv SymS id (bp pose cam z meas) g1 I1) as I2.
  destruct (gm_set SymS id (bp pose cam z meas) g1) as [g2 [u2| |]]; simpl in I2; auto.
  destruct (sym_keys [(SymX, k); (SymS, id)]); simpl; auto.
  apply gm_add_factor_inv; auto.
Qed.

Lemma stereo_loop_inv k im1 im2 pose cam fi g :
  gm_inv g -> gm_inv (fst (stereo_features_loop bp k im1 im2 pose cam fi g)).
Proof.
  revert g. induction fi as [|[id meas] fi IH]; simpl; intros g I; [exact I|].
  pose proof (stereo_feature_inv k im1 im2 pose cam id meas g I) as I1.
  destruct (stereo_feature bp k im1 im2 pose cam id meas g) as [g1 [u| |]]; simpl in *; auto.
Qed.

Lemma gm_create_stereo_inv k f g : gm_inv g -> gm_inv (fst (gm_create_stereo bp k f g)).
Proof.
  intros I. unfold gm_create_stereo. destruct (mmem k (g_feat g)); [exact I|].
  set (g1 := with_feat _ g). set (g2 := with_fac _ _ g1).
  assert (I2: gm_inv g2).
  { subst g2 g1. pose proof I as I'. destruct I'. apply with_fac_inv; gsimp; auto using mtouch_sorted.
    apply with_feat_inv; auto using msorted_mput. }
  destruct (rev (g_feat g2)) as [|[k1 fi] [|[k2 im1] rest]]; try exact I2.
  destruct (gm_has SymX k g2) as [[|]| |]; try exact I2.
  destruct (gm_get SymX k g2); try exact I2.
  destruct (g_cam g2); try exact I2.
  apply stereo_loop_inv. pose proof I2 as I3. destruct I3. apply with_ids_inv; auto using mtouch_sorted.
Qed.
End StereoInv.

(* ---------------- extraction ---------------- *)
Lemma gm_extract_factors_inv m g : gm_inv g -> gm_inv (fst (gm_extract_factors m g)).
Proof.
  intros I. unfold gm_extract_factors. pose proof I as I'. destruct I'.
  rewrite take_upto_spec by auto. simpl. apply with_fac_inv; auto using msorted_filter.
Qed.

Lemma sub_del_all ext nv vals :
  msorted nv -> sub_map nv vals -> sub_map (del_all ext nv) vals.
Proof.
  intros S H k v. rewrite mget_del_all by auto. destruct (mmem k ext); [discriminate|apply H].
Qed.

Lemma gm_extract_values_inv endk m g : gm_inv g -> gm_inv (fst (gm_extract_values endk m g)).
Proof.
  intros I. unfold gm_extract_values. destruct (add_values4 endk (g_new_val g) 0 m); try exact I.
  destruct (new_ids_loop (g_new_val g) m (g_new_ids g) a) as [ids' r] eqn:El.
  assert (I1: gm_inv (with_ids (g_ids g) ids' g)).
  { apply new_ids_loop_suffix in El. destruct El as [pre Hpre]. pose proof I as I'. destruct I'.
    apply with_ids_inv; auto. rewrite Hpre in inv_nids0. apply msorted_app in inv_nids0. tauto. }
  destruct r as [ext| |]; simpl; try exact I1.
  fold (del_all ext (g_new_val g)).
  destruct I1. constructor; gsimp; auto.
  - apply del_all_sorted; auto.
  - apply sub_del_all; auto.
Qed.

Lemma gm_extract_values_spec endk m g g' ext :
  gm_inv g -> gm_extract_values endk m g = (g', Ok ext) ->
  sub_map ext (g_new_val g) /\ msorted ext /\ g_new_val g' = del_all ext (g_new_val g) /\
  g_val g' = g_val g /\ g_unm g' = g_unm g /\ g_fac g' = g_fac g /\ g_new_fac g' = g_new_fac g /\
  g_keys g' = g_keys g /\ g_ts g' = g_ts g.
Proof.
  intros I. unfold gm_extract_values. destruct (add_values4 endk (g_new_val g) 0 m) eqn:E4; try discriminate.
  destruct (new_ids_loop (g_new_val g) m (g_new_ids g) a) as [ids' r] eqn:El.
  destruct r as [ext'| |]; try discriminate. intros H; inversion H; subst. gsimp.
  apply add_values4_sub in E4; [|destruct I; auto]. destruct E4 as [E4 E4s].
  apply new_ids_loop_sub in El; auto. repeat split; tauto.
Qed.

(* fields extraction never touches, whatever the outcome *)
Lemma gm_extract_values_frame endk m g :
  let g' := fst (gm_extract_values endk m g) in
  g_val g' = g_val g /\ g_unm g' = g_unm g /\ g_fac g' = g_fac g /\ g_new_fac g' = g_new_fac g /\
  g_keys g' = g_keys g /\ g_ts g' = g_ts g /\ g_feat g' = g_feat g /\ g_ids g' = g_ids g /\
  g_cam g' = g_cam g /\ g_calib g' = g_calib g.
Proof.
  unfold gm_extract_values. destruct (add_values4 endk (g_new_val g) 0 m); try (repeat split; fail).
  destruct (new_ids_loop (g_new_val g) m (g_new_ids g) a) as [ids' r]. destruct r; repeat split.
Qed.

Lemma gm_extract_factors_frame m g :
  let g' := fst (gm_extract_factors m g) in
  g_val g' = g_val g /\ g_new_val g' = g_new_val g /\ g_unm g' = g_unm g /\ g_fac g' = g_fac g /\
  g_keys g' = g_keys g /\ g_ts g' = g_ts g /\ g_feat g' = g_feat g /\ g_ids g' = g_ids g /\
  g_new_ids g' = g_new_ids g /\ g_cam g' = g_cam g /\ g_calib g' = g_calib g.
Proof.
  unfold gm_extract_factors. destruct (take_upto m (g_new_fac g)). repeat split.
Qed.

(* new values never grow through extraction, whatever the outcome *)
Lemma gm_extract_values_shrink endk m g k :
  msorted (g_new_val g) ->
  In k (mkeys (g_new_val (fst (gm_extract_values endk m g)))) -> In k (mkeys (g_new_val g)).
Proof.
  intros S. unfold gm_extract_values. destruct (add_values4 endk (g_new_val g) 0 m); auto.
  destruct (new_ids_loop (g_new_val g) m (g_new_ids g) a) as [ids' r]. destruct r; auto.
  cbn. fold (del_all a0 (g_new_val g)). intros H.
  destruct (mget k (g_new_val g)) eqn:E; [eapply mget_key_In; eauto|].
  apply mmem_true in H. apply mmem_mget in H. destruct H as [v H].
  rewrite mget_del_all in H by auto. destruct (mmem k a0); congruence.
Qed.

Ltac conj := repeat match goal with |- _ /\ _ => split end.

Lemma igm_extract_spec o m g g' fs vs :
  gm_inv g -> igm_extract o m g = (g', Ok (fs, vs)) ->
  gm_inv g' /\
  fs = elems (filter (fun e => fst e <=? m) (g_new_fac g)) /\
  g_new_fac g' = filter (fun e => m <? fst e) (g_new_fac g) /\
  sub_map vs (g_new_val g) /\ msorted vs /\ g_new_val g' = del_all vs (g_new_val g) /\
  g_val g' = g_val g /\ g_unm g' = g_unm g /\ g_fac g' = g_fac g /\ g_keys g' = g_keys g /\ g_ts g' = g_ts g.
Proof.
  intros I. unfold igm_extract. destruct (o_values_first o).
  - destruct (gm_extract_values (o_end o) m g) as [g1 [v| |]] eqn:E; try discriminate.
    destruct (gm_extract_factors m g1) as [g2 f] eqn:Ef. intros H; inversion H; subst.
    assert (I1: gm_inv g1) by (pose proof (gm_extract_values_inv (o_end o) m g I) as Hx; rewrite E in Hx; exact Hx).
    assert (I2: gm_inv g') by (pose proof (gm_extract_factors_inv m g1 I1) as Hx; rewrite Ef in Hx; exact Hx).
    apply gm_extract_values_spec in E; auto.
    destruct E as (E1 & E2 & E3 & E4 & E5 & E6 & E7 & E8 & E9).
    pose proof (gm_extract_factors_frame m g1) as F. rewrite Ef in F. cbn [fst] in F. cbv zeta in F.
    destruct F as (F1 & F2 & F3 & F4 & F5 & F6 & _).
    unfold gm_extract_factors in Ef. rewrite take_upto_spec in Ef by (destruct I1; auto).
    inversion Ef; subst. gsimp. rewrite E7. conj; auto; congruence.
  - destruct (gm_extract_factors m g) as [g1 f] eqn:Ef.
    destruct (gm_extract_values (o_end o) m g1) as [g2 [v| |]] eqn:E; try discriminate.
    intros H; inversion H; subst.
    assert (I1: gm_inv g1) by (pose proof (gm_extract_factors_inv m g I) as Hx; rewrite Ef in Hx; exact Hx).
    assert (I2: gm_inv g') by (pose proof (gm_extract_values_inv (o_end o) m g1 I1) as Hx; rewrite E in Hx; exact Hx).
    apply gm_extract_values_spec in E; auto.
    destruct E as (E1 & E2 & E3 & E4 & E5 & E6 & E7 & E8 & E9).
    pose proof (gm_extract_factors_frame m g) as F. rewrite Ef in F. cbn [fst] in F. cbv zeta in F.
    destruct F as (F1 & F2 & F3 & F4 & F5 & F6 & _).
    unfold gm_extract_factors in Ef. rewrite take_upto_spec in Ef by (destruct I; auto).
    inversion Ef; subst. gsimp. conj; auto; try congruence.
Qed.

Lemma igm_extract_frame o m g :
  gm_inv g ->
  let g' := fst (igm_extract o m g) in
  gm_inv g' /\ g_val g' = g_val g /\ g_unm g' = g_unm g /\ g_fac g' = g_fac g /\ g_keys g' = g_keys g /\
  g_ts g' = g_ts g /\ (forall k, In k (mkeys (g_new_val g')) -> In k (mkeys (g_new_val g))).
Proof.
  intros I. unfold igm_extract. destruct (o_values_first o).
  - pose proof (gm_extract_values_inv (o_end o) m g I) as I1.
    pose proof (gm_extract_values_frame (o_end o) m g) as F.
    pose proof (gm_extract_values_shrink (o_end o) m g) as Sh.
    destruct (gm_extract_values (o_end o) m g) as [g1 [v| |]]; cbn [fst] in *; cbv zeta in *.
    + pose proof (gm_extract_factors_inv m g1 I1) as I2.
      pose proof (gm_extract_factors_frame m g1) as F2.
      destruct (gm_extract_factors m g1) as [g2 f]; cbn [fst] in *; cbv zeta in *.
      destruct F as (?&?&?&?&?&?&_), F2 as (?&E&?&?&?&?&_).
      conj; try congruence; auto. intros k. rewrite E. apply Sh. destruct I; auto.
    + destruct F as (?&?&?&?&?&?&_). conj; auto. intros k; apply Sh; destruct I; auto.
    + destruct F as (?&?&?&?&?&?&_). conj; auto. intros k; apply Sh; destruct I; auto.
  - pose proof (gm_extract_factors_inv m g I) as I1.
    pose proof (gm_extract_factors_frame m g) as F.
    destruct (gm_extract_factors m g) as [g1 f]; cbn [fst] in *; cbv zeta in *.
    pose proof (gm_extract_values_inv (o_end o) m g1 I1) as I2.
    pose proof (gm_extract_values_frame (o_end o) m g1) as F2.
    pose proof (gm_extract_values_shrink (o_end o) m g1) as Sh.
    destruct F as (?&E&?&?&?&?&_).
    destruct (gm_extract_values (o_end o) m g1) as [g2 [v| |]]; cbn [fst] in *; cbv zeta in *;
      destruct F2 as (?&?&?&?&?&?&_); conj; try congruence; auto;
      intros k Hk; rewrite <- E; apply Sh; auto; destruct I1; auto.
Qed.

(* ---------------- update_all and estimates ---------------- *)
Lemma gm_update_all_ok l g :
  (forall k, In k (mkeys l) -> In k (mkeys (g_val g))) -> msorted (g_val g) ->
  snd (gm_update_all l g) = Ok tt /\ g_val (fst (gm_update_all l g)) = apply_writes l (g_val g).
Proof.
  revert g. induction l as [|[k v] l IH]; simpl; intros g H S; [auto|].
  unfold gm_update. assert (mmem k (g_val g) = true) as -> by (apply mmem_true; auto).
  apply IH; gsimp; auto using msorted_mput.
  intros x Hx. apply mkeys_mput; auto.
Qed.

Lemma gm_update_all_writes l g :
  gm_inv g ->
  g_val (fst (gm_update_all l g)) = apply_writes (take_while (fun w => mmem (fst w) (g_val g)) l) (g_val g).
Proof.
  revert g. induction l as [|[k v] l IH]; simpl; intros g I; [auto|].
  pose proof (gm_update_inv k v g I) as I1. unfold gm_update in *.
  destruct (mmem k (g_val g)) eqn:E; [|reflexivity]. cbn [fst] in I1. rewrite (IH _ I1). gsimp. simpl.
  f_equal. apply mmem_true in E. clear - E. induction l as [|[k2 v2] l IH]; simpl; [reflexivity|].
  assert (mmem k2 (mput k v (g_val g)) = mmem k2 (g_val g)) as ->.
  { destruct (mmem k2 (g_val g)) eqn:E2.
    - apply mmem_true. apply mmem_true in E2. apply mkeys_mput; auto.
    - apply mmem_false. apply mmem_false in E2. rewrite mget_mput.
      destruct (Z.eqb_spec k2 k); [|auto]. subst. apply mget_None_notin in E2. contradiction. }
  destruct (mmem k2 (g_val g)); [f_equal; exact IH|reflexivity].
Qed.

Lemma gm_update_all_frame l g :
  let g' := fst (gm_update_all l g) in
  g_keys g' = g_keys g /\ g_ts g' = g_ts g /\ g_calib g' = g_calib g /\ g_cam g' = g_cam g /\
  g_feat g' = g_feat g /\ g_ids g' = g_ids g /\ g_new_ids g' = g_new_ids g /\ g_fac g' = g_fac g /\
  g_new_fac g' = g_new_fac g /\ g_unm g' = g_unm g /\
  (forall k, In k (mkeys (g_new_val g')) <-> In k (mkeys (g_new_val g))) /\
  (forall k, In k (mkeys (g_val g')) <-> In k (mkeys (g_val g))).
Proof.
  revert g. induction l as [|[k v] l IH]; simpl; intros g; [conj; intros; reflexivity|].
  unfold gm_update. destruct (mmem k (g_val g)) eqn:E; [|cbn [fst]; conj; intros; reflexivity].
  specialize (IH (with_val (mput k v (g_val g))
       (if mmem k (g_new_val g) then mput k v (g_new_val g) else g_new_val g) g)). cbv zeta in IH.
  apply mmem_true in E.
  destruct IH as (A1&A2&A3&A4&A5&A6&A7&A8&A9&A10&A11&A12).
  gsimp. conj; try assumption; intros; split.
  - intros Hk. apply A11 in Hk. destruct (mmem k (g_new_val g)) eqn:E2; [|auto].
    apply mmem_true in E2. apply mkeys_mput_present in Hk; auto.
  - intros Hk. apply A11. destruct (mmem k (g_new_val g)) eqn:E2; [|auto]. apply mkeys_mput; auto.
  - intros Hk. apply A12 in Hk. apply mkeys_mput_present in Hk; auto.
  - intros Hk. apply A12. apply mkeys_mput; auto.
Qed.

Lemma mkeys_estimate_aux (f : Z -> Z) vars m k :
  In k (mkeys (fold_left (fun m k => mput k (f k) m) vars m)) <-> In k (mkeys m) \/ In k vars.
Proof.
  revert m. induction vars as [|x vars IH]; simpl; intros m; [tauto|].
  rewrite IH, mkeys_mput. intuition.
Qed.

Lemma mkeys_estimate o vars k : In k (mkeys (estimate o vars)) <-> In k vars.
Proof. unfold estimate. rewrite (mkeys_estimate_aux (o_est o)). simpl. tauto. Qed.

Lemma mget_estimate_aux (f : Z -> Z) vars m k :
  mget k (fold_left (fun m k => mput k (f k) m) vars m) = if zmem k vars then Some (f k) else mget k m.
Proof.
  revert m. induction vars as [|x vars IH]; simpl; intros m; [reflexivity|].
  rewrite IH. unfold zmem. simpl. destruct (existsb (Z.eqb k) vars) eqn:E; [rewrite orb_true_r; reflexivity|].
  rewrite orb_false_r, mget_mput. destruct (Z.eqb_spec k x); [subst|]; reflexivity.
Qed.

Lemma mget_estimate o vars k : mget k (estimate o vars) = if zmem k vars then Some (o_est o k) else None.
Proof. unfold estimate. rewrite (mget_estimate_aux (o_est o)). reflexivity. Qed.

Lemma zmem_In k l : zmem k l = true <-> In k l.
Proof.
  unfold zmem. rewrite existsb_exists. split.
  - intros (x & Hx & E). apply Z.eqb_eq in E. subst; auto.
  - intros H. exists k. split; [auto|apply Z.eqb_refl].
Qed.

Lemma zmem_false k l : zmem k l = false <-> ~ In k l.
Proof. rewrite <- zmem_In. destruct (zmem k l); split; intros; congruence. Qed.

(* ---------------- marginalisation ---------------- *)
Lemma gm_extract_unm_inv m g : gm_inv g -> gm_inv (fst (gm_extract_unm m g)).
Proof.
  intros I. unfold gm_extract_unm. destruct I. rewrite take_upto_spec by auto. simpl.
  assert (Hincl: forall rk, In rk (elems (filter (fun e => m <? fst e) (g_unm g))) -> In rk (elems (g_unm g))).
  { intros rk. rewrite !In_elems by (auto using msorted_filter). intros [k Hk].
    rewrite (mentry_filter (fun x => m <? x)) in Hk. destruct (m <? k); [eauto|inversion Hk]. }
  constructor; gsimp; auto using msorted_filter.
  - pose proof (elems_filter_perm (fun e : Z * list Z => m <? fst e) (g_unm g)) as P.
    apply Permutation_NoDup in P; auto. clear - P.
    induction (elems (filter (fun e : Z * list Z => m <? fst e) (g_unm g))); [constructor|].
    simpl in P. inversion P; subst. constructor; auto. intros Hin. apply H1. apply in_or_app; auto.
  - intros k rk. rewrite (mentry_filter (fun x => m <? x)). destruct (m <? k); [apply inv_unm_key0|intros []].
Qed.

Lemma igm_marginalise_inv o k s : igm_inv s -> igm_inv (fst (igm_marginalise o k s)).
Proof.
  intros I. unfold igm_marginalise. destruct (i_opt s <? k); [exact I|].
  pose proof (gm_extract_unm_inv k (i_gm s) (inv_gm _ I)) as I1.
  destruct (gm_extract_unm k (i_gm s)) as [g1 ks] eqn:E. cbn [fst] in I1.
  assert (Hv: g_val g1 = g_val (i_gm s) /\ g_new_val g1 = g_new_val (i_gm s)).
  { unfold gm_extract_unm in E. destruct (take_upto k (g_unm (i_gm s))). inversion E. auto. }
  destruct Hv as [Hv Hn]. destruct I.
  destruct (forallb (fun x => zmem x (i_vars s)) ks && o_leaves o); constructor; gsimp; auto.
  - intros x Hx. apply filter_In in Hx. rewrite Hv. apply inv_vars_val0. tauto.
  - intros x Hx. apply filter_In in Hx. rewrite Hn. apply inv_vars_new0. tauto.
  - apply NoDup_filter. auto.
  - intros x Hx. rewrite Hv. auto.
  - intros x Hx. rewrite Hn. auto.
Qed.

Lemma NoDup_app_intro {A} (l1 l2 : list A) :
  NoDup l1 -> NoDup l2 -> (forall x, In x l1 -> ~ In x l2) -> NoDup (l1 ++ l2).
Proof.
  induction l1 as [|a l1 IH]; simpl; intros H1 H2 H; [auto|]. inversion H1; subst. constructor.
  - intros Hin. apply in_app_or in Hin. destruct Hin; [auto|]. apply (H a); auto.
  - apply IH; auto.
Qed.

(* state right after an accepted update of the optimiser *)
Lemma accepted_inv o m s g1 fs vs :
  igm_inv s -> igm_extract o m (i_gm s) = (g1, Ok (fs, vs)) ->
  igm_inv (mkIgm g1 (i_vars s ++ mkeys vs) (i_facs s ++ fs) m (i_marg_on s) (i_marg_key s) (i_window s)).
Proof.
  intros I E. apply igm_extract_spec in E; [|destruct I; auto].
  destruct E as (I1 & Ef & Enf & Hsub & Hvs & Env & Ev & Eu & Efa & Ek & Et).
  assert (Hvn: forall k, In k (mkeys vs) -> In k (mkeys (g_new_val (i_gm s)))).
  { intros k Hk. apply mmem_true in Hk. apply mmem_mget in Hk. destruct Hk as [v Hk].
    apply Hsub in Hk. eapply mget_key_In; eauto. }
  constructor; gsimp; auto.
  - intros k Hk. rewrite Ev. apply in_app_or in Hk. destruct Hk as [Hk|Hk]; [apply (inv_vars_val _ I); auto|].
    apply Hvn in Hk. apply mmem_true in Hk. apply mmem_mget in Hk. destruct Hk as [v Hk].
    apply (inv_sub _ (inv_gm _ I)) in Hk. eapply mget_key_In; eauto.
  - intros k Hk Hc. rewrite Env in Hc. apply mmem_true in Hc. apply mmem_mget in Hc. destruct Hc as [v Hc].
    rewrite mget_del_all in Hc by (destruct (inv_gm _ I); auto).
    destruct (mmem k vs) eqn:Em; [discriminate|]. apply in_app_or in Hk. destruct Hk as [Hk|Hk].
    + apply (inv_vars_new _ I) in Hk. apply Hk. eapply mget_key_In; eauto.
    + apply mmem_true in Hk. congruence.
  - apply NoDup_app_intro; [apply (inv_vars_nodup _ I) | apply msorted_NoDup; auto|].
    intros k Hk Hk2. apply (inv_vars_new _ I) in Hk. auto.
Qed.

Lemma igm_optimise_inv o m s : igm_inv s -> igm_inv (fst (igm_optimise o m s)).
Proof.
  intros I. unfold igm_optimise.
  pose proof (igm_extract_frame o m (i_gm s) (inv_gm _ I)) as F. cbv zeta in F.
  assert (Rej: forall g1, fst (igm_extract o m (i_gm s)) = g1 -> igm_inv (with_gm g1 s)).
  { intros g1 E. rewrite E in F. destruct F as (I1 & Ev & _ & _ & _ & _ & Hn). destruct I.
    constructor; gsimp; auto.
    - intros k Hk. rewrite Ev; auto.
    - intros k Hk Hc. apply (inv_vars_new0 k); auto. }
  destruct (igm_extract o m (i_gm s)) as [g1 [[fs vs]| |]] eqn:E; try (apply Rej; reflexivity).
  destruct (update_ok (i_vars s) fs vs && o_solve o); [|apply Rej; reflexivity].
  pose proof (accepted_inv o m s g1 fs vs I E) as I2.
  set (s2 := mkIgm g1 (i_vars s ++ mkeys vs) (i_facs s ++ fs) m (i_marg_on s) (i_marg_key s) (i_window s)) in *.
  pose proof (gm_update_all_inv (estimate o (i_vars s2)) g1 (inv_gm _ I2)) as I3.
  pose proof (gm_update_all_frame (estimate o (i_vars s2)) g1) as F3. cbv zeta in F3.
  assert (I4: igm_inv (with_gm (fst (gm_update_all (estimate o (i_vars s2)) g1)) s2)).
  { destruct F3 as (_&_&_&_&_&_&_&_&_&_&Hn&Hv). destruct I2. constructor; gsimp; auto.
    - intros k Hk. apply Hv. apply inv_vars_val0; auto.
    - intros k Hk Hc. apply Hn in Hc. apply (inv_vars_new0 k); auto. }
  destruct (gm_update_all (estimate o (i_vars s2)) g1) as [g2 [u| |]]; cbn [fst] in I4; try exact I4.
  destruct (i_marg_on s && (i_marg_key s <=? m - i_window s)); [|exact I4].
  pose proof (igm_marginalise_inv o (m - i_window s) (with_gm g2 s2) I4) as I5.
  destruct (igm_marginalise o (m - i_window s) (with_gm g2 s2)) as [s4 [ks| |]]; exact I5.
Qed.

(* key sets of values only grow, pending only shrinks for old ones *)
Record grows (g g' : gm) : Prop := {
  gr_val : forall k, In k (mkeys (g_val g)) -> In k (mkeys (g_val g'));
  gr_new : forall k, In k (mkeys (g_val g)) -> ~ In k (mkeys (g_new_val g)) -> ~ In k (mkeys (g_new_val g'))
}.

Lemma grows_refl g : grows g g.
Proof. constructor; auto. Qed.

Lemma grows_trans g1 g2 g3 : grows g1 g2 -> grows g2 g3 -> grows g1 g3.
Proof. intros [A B] [C D]. constructor; auto. Qed.

Lemma grows_same g g' : g_val g' = g_val g -> g_new_val g' = g_new_val g -> grows g g'.
Proof. intros E1 E2. constructor; rewrite ?E1, ?E2; auto. Qed.

Lemma gm_set_grows c k v g : gm_inv g -> grows g (fst (gm_set c k v g)).
Proof.
  intros I. destruct (gm_set_val c k v g I) as [Ev _]. constructor.
  - intros x Hx. rewrite Ev. destruct (idx_ok k); [apply mkeys_mput; auto|auto].
  - intros x Hx Hn Hc. apply mmem_true in Hc. apply mmem_mget in Hc. destruct Hc as [y Hc].
    rewrite gm_set_nval in Hc by auto. apply mmem_true in Hx. apply mget_None_notin in Hn.
    assert (mmem x (g_new_val g) = false) by (apply mmem_false; auto). rewrite H, Hx in Hc. simpl in Hc.
    rewrite andb_false_r in Hc. congruence.
Qed.

Lemma sget_frame_keys g g' : g_keys g' = g_keys g -> forall n, sget n (g_keys g') = sget n (g_keys g).
Proof. intros ->; auto. Qed.

(* one step preserves the invariant *)
Section StepInv.
Variable bp : Z -> Z -> Z -> Z -> Z.

Lemma lift_inv s g' r : igm_inv s -> gm_inv g' -> grows (i_gm s) g' -> igm_inv (fst (lift s (g', r))).
Proof.
  intros I I' [G1 G2]. unfold lift. cbn [fst]. destruct I. constructor; gsimp; auto.
Qed.

Lemma stereo_feature_grows k im1 im2 pose cam id meas g :
  gm_inv g -> grows g (fst (stereo_feature bp k im1 im2 pose cam id meas g)).
Proof.
  intros I. unfold stereo_feature. destruct (mget id im1) as [m1|]; [|apply grows_refl].
  remember (stereo_first k im2 id m1 g) as r1 eqn:Er1.
  assert (I1: gm_inv (fst r1) /\ g_val (fst r1) = g_val g /\ g_new_val (fst r1) = g_new_val g).
  { subst r1. unfold stereo_first. destruct (match im2 with Some f => negb (mmem id f) | None => true end); [|auto].
    destruct (sym_keys [(SymX, k - 1); (SymS, id)]); simpl; auto. split; [|auto].
    apply with_ids_inv; [apply gm_add_factor_inv; auto| |]; gsimp; apply mpush_sorted;
      apply (gm_add_factor_inv k (mkFactor FStereo [] 0) g) in I; destruct I; auto. }
  destruct I1 as (I1 & Ev & En).
  destruct r1 as [g1 [u| |]]; cbn [fst] in *; try solve [apply grows_same; auto].
  destruct (g_calib g1); [|apply grows_same; auto].
  pose proof (gm_set_grows SymS id (bp pose cam z meas) g1 I1) as G2.
  assert (G: grows g (fst (gm_set SymS id (bp pose cam z meas) g1))).
  { eapply grows_trans; [|exact G2]. apply grows_same; auto. }
  destruct (gm_set SymS id (bp pose cam z meas) g1) as [g2 [u2| |]]; cbn [fst] in *; auto.
  destruct (sym_keys [(SymX, k); (SymS, id)]); cbn [fst]; auto.
  eapply grows_trans; [exact G|]. apply grows_same; reflexivity.
Qed.

Lemma stereo_loop_grows k im1 im2 pose cam fi g :
  gm_inv g -> grows g (fst (stereo_features_loop bp k im1 im2 pose cam fi g)).
Proof.
  revert g. induction fi as [|[id meas] fi IH]; simpl; intros g I; [apply grows_refl|].
  pose proof (stereo_feature_inv bp k im1 im2 pose cam id meas g I) as I1.
  pose proof (stereo_feature_grows k im1 im2 pose cam id meas g I) as G1.
  destruct (stereo_feature bp k im1 im2 pose cam id meas g) as [g1 [u| |]]; cbn [fst] in *; auto.
  eapply grows_trans; eauto.
Qed.

Lemma gm_create_stereo_grows k f g : gm_inv g -> grows g (fst (gm_create_stereo bp k f g)).
Proof.
  intros I. unfold gm_create_stereo. destruct (mmem k (g_feat g)); [apply grows_refl|].
  set (g1 := with_feat _ g). set (g2 := with_fac _ _ g1).
  assert (G2: grows g g2) by (apply grows_same; reflexivity).
  assert (I2: gm_inv g2).
  { subst g2 g1. pose proof I as I'. destruct I'. apply with_fac_inv; gsimp; auto using mtouch_sorted.
    apply with_feat_inv; auto using msorted_mput. }
  destruct (rev (g_feat g2)) as [|[k1 fi] [|[k2 im1] rest]]; try exact G2.
  destruct (gm_has SymX k g2) as [[|]| |]; try exact G2.
  destruct (gm_get SymX k g2); try exact G2.
  destruct (g_cam g2); try exact G2.
  eapply grows_trans; [exact G2|]. eapply grows_trans; [|apply stereo_loop_grows].
  - apply grows_same; reflexivity.
  - pose proof I2 as I3. destruct I3. apply with_ids_inv; auto using mtouch_sorted.
Qed.

Lemma gm_step_inv s op : igm_inv s -> igm_inv (fst (gm_step bp s op)).
Proof.
  intros I. pose proof (inv_gm _ I) as Ig.
  assert (Hset: forall c k v, igm_inv (fst (lift s (gm_set c k v (i_gm s))))).
  { intros c k v. pose proof (gm_set_inv c k v _ Ig). pose proof (gm_set_grows c k v _ Ig).
    destruct (gm_set c k v (i_gm s)). apply lift_inv; auto. }
  assert (Hcr: forall kind k vars meas, igm_inv (fst (lift s (gm_create kind k vars meas (i_gm s))))).
  { intros kind k vars meas. pose proof (gm_create_inv kind k vars meas _ Ig).
    unfold gm_create in *. destruct (sym_keys vars); apply lift_inv; auto; try apply grows_refl.
    apply grows_same; reflexivity. }
  destruct op; simpl gm_step; auto.
  - (* navstate *) pose proof (gm_set_navstate_inv k p v _ Ig) as I1. unfold gm_set_navstate in *.
    pose proof (gm_set_inv SymX k p _ Ig) as I0. pose proof (gm_set_grows SymX k p _ Ig) as G0.
    destruct (gm_set SymX k p (i_gm s)) as [g1 [u| |]]; cbn [fst] in *; try (apply lift_inv; auto; fail).
    pose proof (gm_set_grows SymV k v _ I0) as G1. destruct (gm_set SymV k v g1) as [g2 r].
    apply lift_inv; auto. eapply grows_trans; eauto.
  - (* set named key *) apply lift_inv; auto; [|apply grows_same; reflexivity].
    destruct Ig. constructor; gsimp; auto. apply sput_NoDup; auto.
  - (* increment *) unfold gm_increment. destruct (sget name (g_keys (i_gm s))) as [[k p]|].
    + apply lift_inv; auto; [|apply grows_same; reflexivity].
      destruct Ig. constructor; gsimp; auto. apply sput_NoDup; auto.
    + apply lift_inv; auto; apply grows_refl.
  - (* timestamp *) unfold gm_set_timestamp. destruct (0 <=? k).
    + apply lift_inv; auto; [|apply grows_same; reflexivity].
      destruct Ig. constructor; gsimp; auto using msorted_mput.
    + apply lift_inv; auto; apply grows_refl.
  - apply lift_inv; auto; [|apply grows_same; reflexivity]. destruct Ig. constructor; gsimp; auto.
  - apply lift_inv; auto; [|apply grows_same; reflexivity]. destruct Ig. constructor; gsimp; auto.
  - destruct kind; auto.
  - (* stereo *) pose proof (gm_create_stereo_inv bp k features _ Ig).
    pose proof (gm_create_stereo_grows k features _ Ig).
    destruct (gm_create_stereo bp k features (i_gm s)). apply lift_inv; auto.
  - (* update all *) pose proof (gm_update_all_inv l _ Ig) as I1.
    pose proof (gm_update_all_frame l (i_gm s)) as F. cbv zeta in F.
    destruct (gm_update_all l (i_gm s)) as [g1 r]. apply lift_inv; auto. cbn [fst] in *.
    destruct F as (_&_&_&_&_&_&_&_&_&_&Hn&Hv). constructor; intros x Hx; [apply Hv; auto|].
    rewrite Hn. auto.
  - apply igm_optimise_inv; auto.
  - pose proof (igm_marginalise_inv o k s I) as I1.
    destruct (igm_marginalise o k s) as [s' [ks| |]]; exact I1.
  - destruct I. constructor; gsimp; auto.
Qed.

Lemma gm_run_inv ops s : igm_inv s -> igm_inv (gm_run bp s ops).
Proof.
  revert s. induction ops as [|op ops IH]; simpl; intros s I; [exact I|]. apply IH. apply gm_step_inv; auto.
Qed.

Lemma gm_run_app s ops1 ops2 : gm_run bp s (ops1 ++ ops2) = gm_run bp (gm_run bp s ops1) ops2.
Proof. revert s. induction ops1 as [|op ops1 IH]; simpl; intros s; auto. Qed.

End StepInv.
