(* Landmark listing versus pending landmarks: history versions of C05 and C06. *)
From Verif Require Import Base GmModel GmSpec GmInv GmProofs GmFactors GmValues GmHist GmKeys GmStereo.

(* the landmark id is listed at key k (result of stereo_landmarks(k)) *)
Definition listed (g : gm) (k id : Z) : Prop := In id (mentry k (g_ids g)).

Record list_inv (g : gm) : Prop := {
  li_nodup : NoDup (elems (g_ids g));
  li_val : forall id, In id (elems (g_ids g)) -> idx_ok id = true /\ In (raw SymS id) (mkeys (g_val g));
  li_pend : forall k id, In id (mentry k (g_new_ids g)) <->
              listed g k id /\ In (raw SymS id) (mkeys (g_new_val g))
}.

Lemma list_inv_init : list_inv (i_gm igm_init).
Proof. constructor; [constructor|intros id []|]. unfold listed, mentry. simpl. tauto. Qed.

Lemma listed_elems g k id : gm_inv g -> listed g k id -> In id (elems (g_ids g)).
Proof. intros I H. apply In_elems; [destruct I; auto|]. exists k. exact H. Qed.

Section Ids.
Variable bp : Z -> Z -> Z -> Z -> Z.

Lemma list_inv_stereo k f g :
  gm_inv g -> list_inv g -> feats_ok g -> msorted f ->
  (forall t, In t (stereo_done k f g) -> t_first t = true -> mget (raw SymS (t_id t)) (g_val g) = None) ->
  snd (gm_create_stereo bp k f g) <> UB ->
  list_inv (fst (gm_create_stereo bp k f g)).
Proof.
  intros I [ND Hval Hpend] HF Sf Hfresh NU.
  destruct (gm_create_stereo_exact bp k f g I NU) as (_ & _ & _ & Ei & En & _).
  pose proof (gm_create_stereo_ext bp k f g I) as X.
  pose proof (gm_create_stereo_inv bp k f g I) as I'.
  pose proof (stereo_firsts_new bp k f g I Hfresh NU) as Hfr.
  set (g' := fst (gm_create_stereo bp k f g)) in *. set (new := map t_id (filter t_first (stereo_done k f g))) in *.
  assert (Hp: Permutation (elems (g_ids g')) (elems (g_ids g) ++ new)).
  { rewrite <- (elems_push_all k new (g_ids g)) by (destruct I; auto).
    rewrite (elems_ext (g_ids g') (push_all k new (g_ids g))); auto.
    - destruct I'; auto.
    - apply push_all_sorted. destruct I; auto. }
  constructor.
  - apply (Permutation_NoDup (Permutation_sym Hp)). apply NoDup_app_intro; auto.
    + apply NoDup_map_filter. apply stereo_done_nodup; auto.
    + intros id H1 H2. apply Hfr in H2. apply Hval in H1. tauto.
  - intros id Hid. apply (Permutation_in _ Hp) in Hid. apply in_app_or in Hid. destruct Hid as [Hid|Hid].
    + destruct (Hval id Hid). split; [auto|]. apply (es_val _ _ X). auto.
    + destruct (Hfr id Hid) as (A & _ & C). auto.
  - intros j id. unfold listed. rewrite Ei, En.
    assert (Sn: msorted (g_new_ids g) /\ msorted (g_ids g)) by (destruct I; auto). destruct Sn as [Sn Si].
    rewrite !mentry_push_all by auto.
    assert (Hold: In id (mentry j (g_ids g)) -> (In (raw SymS id) (mkeys (g_new_val g')) <-> In (raw SymS id) (mkeys (g_new_val g)))).
    { intros Hl. rewrite (es_new _ _ X). destruct (Hval id (listed_elems g j id I Hl)) as [_ Hv]. tauto. }
    assert (Hnewp: In id new -> In (raw SymS id) (mkeys (g_new_val g'))).
    { intros Hn. apply (es_new _ _ X). destruct (Hfr id Hn) as (_ & A & B). auto. }
    destruct (j =? k).
    + rewrite !in_app_iff, Hpend. unfold listed. tauto.
    + rewrite Hpend. unfold listed. tauto.
Qed.

(* effect of an extraction on pending ids *)
Lemma extract_list_inv e m g :
  gm_inv g -> ids_ok g -> list_inv g -> e < raw SymB 0 -> list_inv (fst (gm_extract_values (Some e) m g)).
Proof.
  intros I Hok [ND Hval Hpend] He. destruct (idx_ok m) eqn:Hm.
  - pose proof (gm_extract_values_frame (Some e) m g) as F. cbv zeta in F.
    destruct (extract_values_exact e m g I Hok He Hm) as (g' & vs & E & Svs & G1 & G2 & G3). rewrite E in *. cbn [fst] in *.
    assert (Ev: g_val g' = g_val g) by tauto.
    assert (Ei: g_ids g' = g_ids g).
    { clear -E. unfold gm_extract_values in E. destruct (add_values4 _ _ _ _); try discriminate.
      destruct (new_ids_loop _ _ _ _) as [ids' [x| |]]; inversion E; reflexivity. }
    constructor; rewrite ?Ei, ?Ev; auto. intros k id. rewrite G3. unfold listed. rewrite Ei.
    rewrite (mentry_filter (fun x => m <? x)).
    destruct (idx_ok id) eqn:Hi.
    + assert (Hkey: forall mm : omap Z, In (raw SymS id) (mkeys mm) <-> mget (raw SymS id) mm <> None).
      { intros mm. split; [intros H; apply mmem_true, mmem_mget in H; destruct H as [v ->]; discriminate|].
        destruct (mget (raw SymS id) mm) eqn:Eg; [intros _; eapply mget_key_In; eauto|congruence]. }
      rewrite Hkey, G2 by auto.
      destruct (Z.ltb_spec m k) as [Hlt|Hle].
      * rewrite Hpend, Hkey. unfold listed. destruct (handed m g SymS id) eqn:Eh; [|tauto].
        (* listed at a later key and handed: impossible since pending ids are unique *)
        split; [|intros [_ H]; congruence]. intros [Hl Hn]. exfalso.
        assert (Hin: In id (mentry k (g_new_ids g))) by (apply Hpend; split; [exact Hl|apply Hkey; exact Hn]).
        apply handed_lm in Eh. destruct Hok as [NDn _].
        assert (Hp: Permutation (elems (g_new_ids g)) (elems (filter (fun e => fst e <=? m) (g_new_ids g)) ++ elems (filter (fun e => m <? fst e) (g_new_ids g)))).
        { rewrite filter_gt_negb. apply elems_filter_perm. }
        pose proof (Permutation_NoDup Hp NDn) as ND2. eapply NoDup_app_disj; [exact ND2|exact Eh|].
        apply In_elems; [apply msorted_filter; destruct I; auto|]. exists k. rewrite (mentry_filter (fun x => m <? x)).
        destruct (Z.ltb_spec m k); [exact Hin|lia].
      * split; [intros []|]. intros [Hl Hn]. destruct (handed m g SymS id) eqn:Eh; [congruence|].
        apply Hkey in Hn. assert (Hin: In id (mentry k (g_new_ids g))) by (apply Hpend; auto).
        assert (Hh: handed m g SymS id = true); [|congruence]. apply handed_lm.
        apply In_elems; [apply msorted_filter; destruct I; auto|]. exists k. rewrite (mentry_filter (fun x => x <=? m)).
        destruct (Z.leb_spec k m); [exact Hin|lia].
    + assert (Hn1: ~ In id (mentry k (g_ids g))).
      { intros Hl. destruct (Hval id (listed_elems g k id I Hl)). congruence. }
      split; [|tauto]. destruct (m <? k); [|intros []]. intros H. apply Hpend in H. unfold listed in H. tauto.
  - unfold gm_extract_values, add_values4, add_values_sym, sym_key. rewrite Hm. simpl. constructor; auto.
Qed.

Lemma list_inv_frame g g' :
  g_ids g' = g_ids g -> g_new_ids g' = g_new_ids g ->
  (forall k, In k (mkeys (g_val g')) <-> In k (mkeys (g_val g))) ->
  (forall k, In k (mkeys (g_new_val g')) <-> In k (mkeys (g_new_val g))) ->
  list_inv g -> list_inv g'.
Proof.
  intros E1 E2 H1 H2 [A B C]. constructor; unfold listed in *; rewrite ?E1, ?E2; auto.
  - intros id Hid. rewrite H1. auto.
  - intros k id. rewrite H2. auto.
Qed.

Lemma igm_extract_list_inv o m g :
  gm_inv g -> ids_ok g -> list_inv g -> end_harmless (o_end o) -> list_inv (fst (igm_extract o m g)).
Proof.
  intros I Hok HL (e & Ee & He). unfold igm_extract. rewrite Ee.
  assert (FF: forall g, g_ids (fst (gm_extract_factors m g)) = g_ids g) by (intros x; unfold gm_extract_factors; destruct (take_upto _ _); reflexivity).
  destruct (o_values_first o).
  - pose proof (extract_list_inv e m g I Hok HL He) as H.
    destruct (gm_extract_values (Some e) m g) as [g1 [v| |]]; cbn [fst] in *; auto.
    pose proof (gm_extract_factors_frame m g1) as F. cbv zeta in F. specialize (FF g1). destruct (gm_extract_factors m g1) as [g2 f].
    cbn [fst] in *. destruct F as (F0&F1&_&_&_&_&_&_&F2&_).
    eapply list_inv_frame; eauto; intros; rewrite ?F0, ?F1; tauto.
  - pose proof (gm_extract_factors_frame m g) as F. cbv zeta in F. specialize (FF g).
    pose proof (gm_extract_factors_inv m g I) as I1. destruct (gm_extract_factors m g) as [g1 f].
    cbn [fst] in *. destruct F as (F0&F1&_&_&_&_&_&_&F2&_).
    assert (Hok1: ids_ok g1) by (unfold ids_ok in *; rewrite F1, F2; exact Hok).
    assert (HL1: list_inv g1) by (eapply list_inv_frame; eauto; intros; rewrite ?F0, ?F1; tauto).
    pose proof (extract_list_inv e m g1 I1 Hok1 HL1 He) as H.
    destruct (gm_extract_values (Some e) m g1) as [g2 [v| |]]; cbn [fst] in *; auto.
Qed.

Lemma list_inv_step s op :
  igm_inv s -> ids_ok (i_gm s) -> feats_ok (i_gm s) -> list_inv (i_gm s) -> fresh_op s op ->
  snd (gm_step bp s op) <> UB -> list_inv (i_gm (fst (gm_step bp s op))).
Proof.
  intros I Hok HF HL Hfr NU. pose proof (inv_gm _ I) as Ig.
  assert (D: (exists kk f, op = OStereo kk f) \/ (forall kk f, op <> OStereo kk f)).
  { destruct op; try (right; intros; discriminate). left; eauto. }
  destruct D as [(kk & f & ->)|Hns].
  - simpl gm_step in *. unfold lift in *. gsimp. destruct Hfr as [Sf Hfr].
    assert (NU': snd (gm_create_stereo bp kk f (i_gm s)) <> UB).
    { destruct (snd (gm_create_stereo bp kk f (i_gm s))); simpl in NU; congruence. }
    apply list_inv_stereo; auto.
  - destruct (non_stereo bp s op I Hns) as (_ & Hi & _). destruct (Hi 0) as [Ei _].
    destruct (plain op) eqn:Hp.
    + destruct (plain_ids bp s op I Hp Hns) as [En _]. pose proof (plain_ext bp s op I Hp) as X.
      destruct HL as [A B C]. constructor; unfold listed in *; rewrite ?Ei, ?En; auto.
      * intros id Hid. destruct (B id Hid). split; [auto|]. apply (es_val _ _ X). auto.
      * intros k id. rewrite C. rewrite (es_new _ _ X). split; [tauto|]. intros [Hl [H|[_ Hn]]]; [auto|].
        exfalso. apply Hn. apply B. apply In_elems; [destruct Ig; auto|]. eauto.
    + destruct op; try discriminate Hp; simpl gm_step in *.
      * pose proof (igm_extract_list_inv o m (i_gm s) Ig Hok HL Hfr) as H1.
        pose proof (igm_extract_frame o m (i_gm s) Ig) as Fr. cbv zeta in Fr. destruct Fr as (_ & Fv & _).
        destruct (optimise_ids_feat bp o m s I) as (E1 & E2 & E3 & E4). unfold obs in *.
        eapply list_inv_frame; [| | | |exact H1].
        -- rewrite Ei. symmetry.
           unfold igm_extract, gm_extract_values, gm_extract_factors. destruct (o_values_first o).
           ++ destruct (add_values4 (o_end o) (g_new_val (i_gm s)) 0 m); try reflexivity.
              destruct (new_ids_loop _ _ _ _) as [ids' [x| |]]; try reflexivity. destruct (take_upto _ _). reflexivity.
           ++ destruct (take_upto m (g_new_fac (i_gm s))) as [out rst]. gsimp.
              destruct (add_values4 (o_end o) (g_new_val (i_gm s)) 0 m); try reflexivity.
              destruct (new_ids_loop _ _ _ _) as [ids' [x| |]]; reflexivity.
        -- exact E1.
        -- intros k. rewrite E4, Fv. tauto.
        -- exact E3.
      * destruct (igm_marginalise_frame o k s) as (M1&M2&_&_&_&_&_&_&M4&_).
        apply (list_inv_frame (i_gm s)); auto;
        destruct (igm_marginalise o k s) as [s' [ks| |]]; cbn [fst] in *; intros; rewrite ?M1, ?M2, ?M4; tauto.
Qed.

Lemma list_inv_run ops s :
  igm_inv s -> ids_ok (i_gm s) -> feats_ok (i_gm s) -> list_inv (i_gm s) -> fresh bp s ops -> no_ub (gm_trace bp s ops) ->
  list_inv (i_gm (gm_run bp s ops)).
Proof.
  revert s. induction ops as [|op ops IH]; simpl; intros s I Hok HF HL Hfr NU; [auto|].
  destruct Hfr as [Hfr1 Hfr]. assert (NU1: snd (gm_step bp s op) <> UB) by (apply NU; left; reflexivity).
  destruct (fresh_step bp s op I Hok HF Hfr1 NU1).
  apply IH; auto using gm_step_inv, list_inv_step.
  intros o Ho. apply NU. right; exact Ho.
Qed.

(* ---------------- C05 ---------------- *)
Definition state_sym (c : sym) : bool := match c with SymS => false | _ => true end.

Lemma handed_listed m g n : gm_inv g -> list_inv g -> idx_ok n = true -> mget (raw SymS n) (g_new_val g) <> None ->
  (handed m g SymS n = true <-> exists k, k <= m /\ listed g k n).
Proof.
  intros I HL Hn Hp. rewrite handed_lm. rewrite In_elems by (apply msorted_filter; destruct I; auto). split.
  - intros [k Hk]. rewrite (mentry_filter (fun x => x <=? m)) in Hk. destruct (Z.leb_spec k m); [|inversion Hk].
    exists k. split; [auto|]. apply (li_pend _ HL) in Hk. tauto.
  - intros (k & Hk & Hl). exists k. rewrite (mentry_filter (fun x => x <=? m)). destruct (Z.leb_spec k m); [|lia].
    apply (li_pend _ HL). split; [auto|]. destruct (mget (raw SymS n) (g_new_val g)) eqn:E; [|congruence].
    eapply mget_key_In; eauto.
Qed.

Lemma handed_exact ops o m :
  fresh bp igm_init ops -> no_ub (gm_trace bp igm_init ops) -> end_harmless (o_end o) -> idx_ok m = true ->
  let g := i_gm (gm_run bp igm_init ops) in
  exists g' fs vs, igm_extract o m g = (g', Ok (fs, vs)) /\
    (forall c n, idx_ok n = true -> state_sym c = true ->
       mget (raw c n) vs = (if n <=? m then mget (raw c n) (g_new_val g) else None) /\
       mget (raw c n) (g_new_val g') = (if n <=? m then None else mget (raw c n) (g_new_val g))) /\
    (forall n k, idx_ok n = true -> listed g k n ->
       mget (raw SymS n) vs = (if k <=? m then mget (raw SymS n) (g_new_val g) else None) /\
       mget (raw SymS n) (g_new_val g') = (if k <=? m then None else mget (raw SymS n) (g_new_val g))).
Proof.
  intros Hfr NU He Hm g. destruct (optimise_values_exact bp ops o m Hfr NU He Hm) as (g' & fs & vs & E & G1 & G2).
  fold g in E, G1, G2. exists g', fs, vs. split; [exact E|].
  assert (I: igm_inv (gm_run bp igm_init ops)) by (apply gm_run_inv, igm_init_inv). pose proof (inv_gm _ I) as Ig. fold g in Ig.
  pose proof (list_inv_run ops igm_init igm_init_inv (proj1 ids_ok_init) (proj2 ids_ok_init) list_inv_init Hfr NU) as HL. fold g in HL.
  split.
  - intros c n Hn Hc. rewrite G1, G2 by auto. destruct c; try discriminate; simpl handed; auto.
  - intros n k Hn Hl. rewrite G1, G2 by auto.
    destruct (mget (raw SymS n) (g_new_val g)) as [v|] eqn:Ep.
    + assert (Hh: handed m g SymS n = (k <=? m)).
      { assert (Hnn: mget (raw SymS n) (g_new_val g) <> None) by congruence.
        pose proof (handed_listed m g n Ig HL Hn Hnn) as HH.
        destruct (Z.leb_spec k m) as [Hle|Hgt]; [apply HH; eauto|].
        destruct (handed m g SymS n); [|reflexivity]. exfalso. destruct (proj1 HH eq_refl) as (k' & Hk' & Hl').
        assert (k = k'); [|lia].
        (* an id is listed at one key only *)
        assert (Huniq: forall (mm : omap (list Z)) a b, msorted mm -> NoDup (elems mm) -> In n (mentry a mm) -> In n (mentry b mm) -> a = b).
        { clear. induction mm as [|[q l] mm IH]; intros a b Hs ND Ha Hb.
          - inversion Ha.
          - destruct Hs as [L S]. unfold elems in ND. simpl in ND. unfold mentry in *. simpl in *.
            assert (Hel: forall a, In n (match mget a mm with Some x => x | None => [] end) -> In n (elems mm)).
            { intros a0 Ha0. apply In_elems; auto. exists a0. exact Ha0. }
            destruct (Z.eqb_spec a q), (Z.eqb_spec b q); subst; auto.
            + exfalso. eapply NoDup_app_disj; [exact ND|exact Ha|]. apply (Hel b Hb).
            + exfalso. eapply NoDup_app_disj; [exact ND|exact Hb|]. apply (Hel a Ha).
            + eapply IH; eauto. eapply NoDup_app_r; eauto. }
        apply (Huniq (g_ids g)); auto; [destruct Ig; auto|apply (li_nodup _ HL)]. }
      rewrite Hh. auto.
    + destruct (handed m g SymS n), (k <=? m); auto.
Qed.

(* every pending landmark is listed, so the clauses above cover everything pending *)
Lemma handed_covers ops :
  fresh bp igm_init ops -> no_ub (gm_trace bp igm_init ops) ->
  let g := i_gm (gm_run bp igm_init ops) in
  forall k id, In id (mentry k (g_new_ids g)) <-> listed g k id /\ mget (raw SymS id) (g_new_val g) <> None.
Proof.
  intros Hfr NU g k id.
  pose proof (list_inv_run ops igm_init igm_init_inv (proj1 ids_ok_init) (proj2 ids_ok_init) list_inv_init Hfr NU) as HL. fold g in HL.
  rewrite (li_pend _ HL). split; intros [A B]; split; auto.
  - apply mmem_true, mmem_mget in B. destruct B as [v ->]. discriminate.
  - destruct (mget (raw SymS id) (g_new_val g)) eqn:E; [eapply mget_key_In; eauto|congruence].
Qed.

(* ---------------- C06 ---------------- *)
Lemma NoDup_created first last g : gm_inv g -> NoDup (elems (g_ids g)) -> NoDup (created_lms first last g).
Proof.
  intros I ND. unfold created_lms.
  pose proof (elems_filter_perm (fun e : Z * list Z => (first <=? fst e) && (fst e <=? last)) (g_ids g)) as P.
  eapply NoDup_app_l. eapply Permutation_NoDup; [exact P|exact ND].
Qed.

Lemma created_In first last g id : gm_inv g ->
  (In id (created_lms first last g) <-> exists k, first <= k <= last /\ listed g k id).
Proof.
  intros I. unfold created_lms. rewrite In_elems by (apply msorted_filter; destruct I; auto). unfold listed. split.
  - intros [k Hk]. rewrite (mentry_filter (fun x => (first <=? x) && (x <=? last))) in Hk.
    destruct ((first <=? k) && (k <=? last)) eqn:E; [|inversion Hk]. exists k. split; [lia|exact Hk].
  - intros (k & Hk & Hl). exists k. rewrite (mentry_filter (fun x => (first <=? x) && (x <=? last))).
    assert (E: (first <=? k) && (k <=? last) = true) by lia. rewrite E. exact Hl.
Qed.

Lemma values_range ops e first last :
  fresh bp igm_init ops -> no_ub (gm_trace bp igm_init ops) -> e < raw SymB 0 ->
  idx_ok first = true -> idx_ok last = true ->
  let g := i_gm (gm_run bp igm_init ops) in
  mmem first (g_ids g) = true ->
  exists vs, gm_values (Some e) first last g = Ok vs /\
    (forall c n, idx_ok n = true -> state_sym c = true ->
       mget (raw c n) vs = if (first <=? n) && (n <=? last) then mget (raw c n) (g_val g) else None) /\
    (forall n, idx_ok n = true ->
       (mget (raw SymS n) vs <> None <-> exists k, first <= k <= last /\ listed g k n) /\
       (mget (raw SymS n) vs <> None -> mget (raw SymS n) vs = mget (raw SymS n) (g_val g))).
Proof.
  intros Hfr NU He Hf Hl g Hm.
  assert (I: igm_inv (gm_run bp igm_init ops)) by (apply gm_run_inv, igm_init_inv). pose proof (inv_gm _ I) as Ig. fold g in Ig.
  pose proof (list_inv_run ops igm_init igm_init_inv (proj1 ids_ok_init) (proj2 ids_ok_init) list_inv_init Hfr NU) as HL. fold g in HL.
  assert (Hc: forall id, In id (created_lms first last g) -> idx_ok id = true /\ In (raw SymS id) (mkeys (g_val g))).
  { intros id Hid. apply created_In in Hid; auto. destruct Hid as (k & _ & Hk). apply (li_val _ HL). eapply listed_elems; eauto. }
  destruct (values_range_exact e first last g Ig He Hf Hl Hm (NoDup_created first last g Ig (li_nodup _ HL)) Hc) as (vs & E & G).
  exists vs. split; [exact E|]. split.
  - intros c n Hn Hs. rewrite G by auto. destruct c; try discriminate; reflexivity.
  - intros n Hn. rewrite (G SymS n Hn). simpl. rewrite <- created_In by auto. destruct (zmem n (created_lms first last g)) eqn:Ez.
    + apply zmem_In in Ez. split; [|auto]. split; [auto|]. intros _. destruct (Hc n Ez) as [_ Hv].
      apply mmem_true, mmem_mget in Hv. destruct Hv as [v ->]. discriminate.
    + apply zmem_false in Ez. split; [|congruence]. split; [congruence|]. intros H. contradiction.
Qed.
End Ids.
