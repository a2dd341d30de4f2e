(* Camera tools: accepted angles, configuration, what the nodes publish. *)
From Coq Require Import ZArith Reals Lra Lia List Bool String.
From Verif Require Import Base Interp Geo BfModel CamModel CamSpec CamProofs.
Import ListNotations.
Open Scope Z_scope.

(* ---- angles ---- *)
Theorem turn_accepted d : (exists o, new_rotate d = Ok o) <-> 0 < d /\ d mod 360 <> 0.
Proof.
  rewrite <- rem_pos. unfold new_rotate. destruct (Z.leb_spec (Z.rem d 360) 0); split; intros; try lia; [destruct H0; discriminate | eauto].
Qed.
Theorem turn_refused d : ~ (0 < d /\ d mod 360 <> 0) -> new_rotate d = Throw.
Proof. rewrite <- rem_pos. unfold new_rotate. destruct (Z.leb_spec (Z.rem d 360) 0); [reflexivity | lia]. Qed.

(* an accepted angle that is no multiple of 90 degrees gives an object whose use is undefined *)
Theorem turn_usable {A} d o (p : picture A) i : new_rotate d = Ok o ->
  (d mod 90 = 0 /\ exists p' i', apply_picture o p = Ok p' /\ apply_info o i = Ok i') \/
  (d mod 90 <> 0 /\ apply_picture o p = UB /\ apply_info o i = UB).
Proof.
  intro H. destruct (Z.eq_dec (d mod 90) 0) as [E | E].
  - left. split; [exact E |]. apply Z.mod_divide in E; [| lia]. destruct E as [k ->]. rewrite Z.mul_comm in H.
    destruct (@step A (Turn (90 * k)) o (quarters k) p i H (turn_motion k)) as (p' & i' & E1 & E2 & _). eauto.
  - right. split; [exact E |]. assert (L : 0 < d /\ d mod 360 <> 0) by (apply turn_accepted; eauto).
    unfold new_rotate in H. rewrite Z.rem_mod_nonneg in H by lia.
    assert (D : (d mod 360) mod 90 <> 0) by (rewrite <- Znumtheory.Zmod_div_mod; [exact E | lia | lia | exists 4; reflexivity]).
    destruct (d mod 360 <=? 0); [discriminate |]. injection H as <-.
    destruct (Z.eqb_spec (d mod 360) 90) as [F | _]; [rewrite F in D; exfalso; apply D; reflexivity |].
    destruct (Z.eqb_spec (d mod 360) 180) as [F | _]; [rewrite F in D; exfalso; apply D; reflexivity |].
    destruct (Z.eqb_spec (d mod 360) 270) as [F | _]; [rewrite F in D; exfalso; apply D; reflexivity |].
    unfold apply_picture, apply_info. destruct (i_K i) as [[[[fx k1] cx] [[k3 fy] cy]] r3]. auto.
Qed.

(* the entry rotate_acw *)
Lemma new_rotate_rem d : new_rotate (Z.rem d 360) = new_rotate d.
Proof. unfold new_rotate. rewrite Z.rem_rem by lia. reflexivity. Qed.

Theorem anticlockwise d o : operation_of ("rotate_acw"%string, XInt d) = Ok o ->
  made (Turn (360 - d)) = Ok o /\ d < 360 /\ d mod 360 <> 0.
Proof.
  unfold operation_of. cbn [fst snd String.eqb Ascii.eqb Bool.eqb]. destruct (max_int <? 360 - d); [discriminate |].
  rewrite new_rotate_rem. intro H. split; [exact H |]. assert (L : 0 < 360 - d /\ (360 - d) mod 360 <> 0) by (apply turn_accepted; eauto).
  split; [lia |]. intro E. apply (proj2 L). rewrite Zminus_mod, E. reflexivity.
Qed.
Lemma quarters_period k : quarters (4 - k) = quarters (- k).
Proof. unfold quarters. replace (4 - k) with (- k + 1 * 4) by lia. rewrite Z_mod_plus_full. reflexivity. Qed.
Lemma quarters_inverse k : after (quarters k) (quarters (- k)) = still.
Proof.
  unfold quarters. assert (E : (- k) mod 4 = (4 - k mod 4) mod 4) by (pose proof (Z.div_mod k 4); rewrite <- (Z_mod_plus_full (- k) (k / 4 + 1) 4); f_equal; lia).
  rewrite E. destruct (mod4 k) as [-> | [-> | [-> | ->]]]; reflexivity.
Qed.
(* anticlockwise by x undoes clockwise by x *)
Theorem anticlockwise_undoes {A} d o o' (p : picture A) i : d mod 90 = 0 ->
  operation_of ("rotate_cw"%string, XInt d) = Ok o -> operation_of ("rotate_acw"%string, XInt d) = Ok o' ->
  exists p', apply_all [o; o'] p i = Ok (p', i) /\ same_picture p' p.
Proof.
  intros E H H'. apply anticlockwise in H'. destruct H' as (H' & _). apply Z.mod_divide in E; [| lia]. destruct E as [k ->].
  replace (360 - k * 90) with (90 * (4 - k)) in H' by lia. rewrite Z.mul_comm in H.
  apply (@no_motion_nothing A [Turn (90 * k); Turn (90 * (4 - k))]).
  - constructor; [exact H |]. constructor; [exact H' | constructor].
  - replace still with (after (after still (quarters (4 - k))) (quarters k)).
    + repeat constructor.
    + rewrite quarters_period. pose proof (quarters_inverse (- k)) as Q. rewrite Z.opp_involutive in Q.
      transitivity (after (quarters (- k)) (quarters k)); [| exact Q].
      f_equal. destruct (quarters (- k)) as [a b c e]. unfold after, still. cbn [xx xy yx yy]. f_equal; lia.
Qed.

(* ---- the configuration ---- *)
Lemma all_ok_spec {A B} (f : A -> res B) l r : all_ok f l = Ok r <-> Forall2 (fun a b => f a = Ok b) l r.
Proof.
  revert r. induction l as [| a l IH]; intro r; cbn [all_ok].
  - split; intro H; [injection H as <-; constructor | inversion H; reflexivity].
  - destruct (f a) as [b | |] eqn:E; cbn [rbind].
    + destruct (all_ok f l) as [bs | |] eqn:E2; cbn [rbind].
      * split; intro H; [injection H as <-; constructor; [exact E | apply IH; reflexivity] |].
        inversion H as [| x y l' ls H1 H2 E1 E3]; subst. rewrite E in H1. injection H1 as ->. apply IH in H2. injection H2 as ->. reflexivity.
      * split; intro H; [discriminate |]. inversion H as [| x y l' ls H1 H2]; subst. apply IH in H2. discriminate.
      * split; intro H; [discriminate |]. inversion H as [| x y l' ls H1 H2]; subst. apply IH in H2. discriminate.
    + split; intro H; [discriminate |]. inversion H as [| x y l' ls H1 H2]; subst. congruence.
    + split; intro H; [discriminate |]. inversion H as [| x y l' ls H1 H2]; subst. congruence.
Qed.

Lemma operation_of_spec e o : operation_of e = Ok o <-> exists c, asks e c /\ made c = Ok o.
Proof.
  destruct e as [k v]. split.
  - unfold operation_of. cbn [fst snd]. destruct (String.eqb_spec k "rotate_cw") as [-> | _].
    { destruct v; try discriminate. intro H. eexists. split; [constructor | exact H]. }
    destruct (String.eqb_spec k "rotate_acw") as [-> | _].
    { destruct v; try discriminate. destruct (Z.ltb_spec max_int (360 - z)); [discriminate |]. rewrite new_rotate_rem. intro H0.
      eexists. split; [constructor; exact H | exact H0]. }
    destruct (String.eqb_spec k "flip") as [-> | _]; [| discriminate].
    destruct v; try discriminate.
    destruct (String.eqb_spec s "horiz") as [-> | _]; [intro H; eexists; split; [constructor | exact H] |].
    destruct (String.eqb_spec s "vert") as [-> | _]; [intro H; eexists; split; [constructor | exact H] |].
    destruct (String.eqb_spec s "both") as [-> | _]; [intro H; eexists; split; [constructor | exact H] | discriminate].
  - intros (c & Ha & Hm). inversion Ha; subst; try exact Hm.
    unfold operation_of. cbn [fst snd String.eqb Ascii.eqb Bool.eqb]. destruct (Z.ltb_spec max_int (360 - d)); [lia |]. rewrite new_rotate_rem. exact Hm.
Qed.

Lemma operations_spec entries ops : all_ok operation_of entries = Ok ops <-> exists commands, Forall2 asks entries commands /\ all_made commands ops.
Proof.
  rewrite all_ok_spec. split.
  - induction 1 as [| e o l ops He Hl IH]; [exists []; split; constructor |].
    destruct IH as (cs & H1 & H2). apply operation_of_spec in He. destruct He as (c & H3 & H4).
    exists (c :: cs). split; constructor; assumption.
  - intros (cs & H1 & H2). revert ops H2. induction H1 as [| e c l cs He Hl IH]; intros ops H2; inversion H2; subst; constructor.
    + apply operation_of_spec. eauto.
    + apply IH. assumption.
Qed.

Lemma int_of_spec k l z : int_of k (XStruct l) = Ok z <-> int_in k l z.
Proof.
  unfold int_of, int_in, missing, entry. cbn [rbind]. destruct (sget k l) as [[] |]; cbn [as_int]; split; intro H; try discriminate;
    try (injection H as <-; auto; fail); try (destruct H as [H | [[H | H] E]]; try discriminate; try (injection H as <-); subst; reflexivity).
Qed.
Lemma double_of_spec k l x : double_of k (XStruct l) = Ok x <-> double_in k l x.
Proof.
  unfold double_of, double_in, missing, entry. cbn [rbind]. destruct (sget k l) as [[] |]; cbn [as_double]; split; intro H; try discriminate;
    try (injection H as <-; auto; fail); try (destruct H as [H | [[H | H] E]]; try discriminate; try (injection H as <-); subst; reflexivity).
Qed.
Lemma string_of_spec k l x : string_of k (XStruct l) = Ok x <-> string_in k l x.
Proof.
  unfold string_of, string_in, missing, entry. cbn [rbind]. destruct (sget k l) as [[] |]; cbn [as_string]; split; intro H; try discriminate;
    try (injection H as <-; auto; fail); try (destruct H as [H | [[H | H] E]]; try discriminate; try (injection H as <-); subst; reflexivity).
Qed.

Lemma bind_ok {A B} (r : res A) (f : A -> res B) b : rbind r f = Ok b <-> exists a, r = Ok a /\ f a = Ok b.
Proof. destruct r; cbn [rbind]; split; intro H; eauto; try discriminate; destruct H as (a' & E & H); [injection E as <-; exact H | discriminate ..]. Qed.

(* reading the settings of an invalid value is reading those of an empty struct *)
Lemma entry_nothing k : entry k XInvalid = entry k (XStruct []).
Proof. reflexivity. Qed.
Lemma int_of_nothing k : int_of k XInvalid = int_of k (XStruct []). Proof. reflexivity. Qed.
Lemma double_of_nothing k : double_of k XInvalid = double_of k (XStruct []). Proof. reflexivity. Qed.
Lemma string_of_nothing k : string_of k XInvalid = string_of k (XStruct []). Proof. reflexivity. Qed.

(* a sub-struct, from which at least one setting is read *)
Lemma sub_struct k l v : entry k (XStruct l) = Ok v ->
  (forall key s, string_of key v = Ok s -> exists l', struct_in k l l' /\ (forall q, string_of q v = string_of q (XStruct l')) /\ (forall q, int_of q v = int_of q (XStruct l')) /\ (forall q, double_of q v = double_of q (XStruct l'))) /\
  (forall key s, double_of key v = Ok s -> exists l', struct_in k l l' /\ (forall q, string_of q v = string_of q (XStruct l')) /\ (forall q, int_of q v = int_of q (XStruct l')) /\ (forall q, double_of q v = double_of q (XStruct l'))).
Proof.
  unfold entry. intros [= <-]. unfold struct_in, missing.
  destruct (sget k l) as [[] |]; (split; intros key x H); try discriminate H; try (exists []; repeat split; auto; fail); eexists; repeat split; auto.
Qed.

(* C85 *)
Theorem parse_iff image s : parse_image image = Ok s <-> described image s.
Proof.
  split.
  - unfold parse_image. intro H. destruct image as [| | | | | | l]; try discriminate. cbn [is_struct] in H.
    repeat (apply bind_ok in H; destruct H as (?a & ?E & H)).
    destruct a0 as [| | | | | | region]; try discriminate. cbn [is_struct] in H.
    repeat (apply bind_ok in H; destruct H as (?b & ?E & H)).
    injection H as <-.
    destruct (proj1 (sub_struct _ _ _ E6) _ _ E7) as (distortion & SD & S1 & S2 & S3).
    destruct (proj2 (sub_struct _ _ _ E13) _ _ E14) as (intrinsic & SI & T1 & T2 & T3).
    rewrite S1 in E7. rewrite S3 in E8, E9, E10, E11, E12. rewrite T3 in E14, E16. rewrite T2 in E15, E17.
    assert (RG : sget "region" l = Some (XStruct region)) by (unfold entry in E0; destruct (sget "region" l); congruence).
    assert (OP : exists entries, (sget "operations" l = Some (XStruct entries) \/ (sget "operations" l = None /\ entries = [])) /\ all_ok operation_of entries = Ok b17).
    { unfold operations_of, member in E19. destruct (sget "operations" l) as [[] |]; try discriminate; eauto. }
    destruct OP as (entries & O1 & O2). apply operations_spec in O2. destruct O2 as (commands & O2 & O3).
    exists l, region, distortion, intrinsic, entries, commands.
    eexists _, _, _, _, _, _, _, _, _. cbn [s_ops s_topic s_info_topic s_frame s_region s_info rc_u rc_v rc_w rc_h i_model i_D i_K i_P i_R i_head i_width i_height].
    repeat apply conj; try reflexivity; try assumption;
      try (apply int_of_spec; eassumption); try (apply double_of_spec; eassumption); try (apply string_of_spec; eassumption).
  - intros (l & region & distortion & intrinsic & entries & commands & fx & fy & cx & cy & k1 & k2 & t1 & t2 & k3 & H).
    decompose [and] H. clear H. subst image. unfold parse_image. cbn [is_struct].
    assert (SD : exists vd, entry "distortion" (XStruct l) = Ok vd /\ (forall q, string_of q vd = string_of q (XStruct distortion)) /\ (forall q, int_of q vd = int_of q (XStruct distortion)) /\ (forall q, double_of q vd = double_of q (XStruct distortion))).
    { unfold entry. destruct H1 as [-> | [[-> | ->] ->]]; eexists; repeat split. }
    assert (SI : exists vd, entry "intrinsic" (XStruct l) = Ok vd /\ (forall q, string_of q vd = string_of q (XStruct intrinsic)) /\ (forall q, int_of q vd = int_of q (XStruct intrinsic)) /\ (forall q, double_of q vd = double_of q (XStruct intrinsic))).
    { unfold entry. destruct H3 as [-> | [[-> | ->] ->]]; eexists; repeat split. }
    assert (RG : entry "region" (XStruct l) = Ok (XStruct region)) by (unfold entry; rewrite H2; reflexivity).
    assert (OP : operations_of (XStruct l) = Ok (s_ops s)).
    { unfold operations_of, member. assert (X : all_ok operation_of entries = Ok (s_ops s)) by (apply operations_spec; eauto).
      match goal with HH : _ \/ (sget "operations" l = None /\ _) |- _ => destruct HH as [-> | [-> ->]] end; [exact X |]. cbn in X. exact X. }
    destruct SD as (vd & SD & S1 & S2 & S3). destruct SI as (vi & SI & T1 & T2 & T3).
    repeat match goal with HH : int_in _ _ _ |- _ => apply int_of_spec in HH | HH : double_in _ _ _ |- _ => apply double_of_spec in HH | HH : string_in _ _ _ |- _ => apply string_of_spec in HH end.
    repeat match goal with HH : string_of ?k _ = Ok _ |- context [string_of ?k _] => first [rewrite HH | rewrite S1, HH]
                         | HH : int_of ?k _ = Ok _ |- context [int_of ?k _] => first [rewrite HH | rewrite T2, HH]
                         | HH : double_of ?k _ = Ok _ |- context [double_of ?k _] => first [rewrite HH | rewrite S3, HH | rewrite T3, HH]
                         | HH : entry ?k _ = Ok _ |- context [entry ?k _] => rewrite HH
                         | |- _ => cbn [rbind is_struct] end.
    rewrite OP. cbn [rbind]. destruct s as [st sit sf [ru rv rw rh] [ih ihh iw im iD iK iR iP] so].
    cbn [s_ops s_topic s_info_topic s_frame s_region s_info rc_u rc_v rc_w rc_h i_model i_D i_K i_P i_R i_head i_width i_height] in *.
    subst. reflexivity.
Qed.

Theorem parse_all_iff images l : parse_configuration images = Ok l <-> exists v, images = XArray v /\ Forall2 described v l.
Proof.
  split.
  - destruct images; try discriminate. cbn [parse_configuration]. rewrite all_ok_spec. intro H. eexists. split; [reflexivity |].
    induction H; constructor; auto. apply parse_iff. assumption.
  - intros (v & -> & H). cbn [parse_configuration]. rewrite all_ok_spec. induction H; constructor; auto. apply parse_iff. assumption.
Qed.
