(* Camera tools: order of operations, undefined configurations, what the nodes publish. *)
From Coq Require Import ZArith Reals Lra Lia List Bool String Permutation Sorted.
From Verif Require Import Base Interp Geo BfModel CamModel CamSpec CamProofs CamMore.
Import ListNotations.
Open Scope Z_scope.

(* ---- undefined behaviour while loading ---- *)
Lemma bind_ub {A B} (r : res A) (f : A -> res B) : rbind r f = UB -> r = UB \/ exists a, r = Ok a /\ f a = UB.
Proof. destruct r; cbn [rbind]; eauto; discriminate. Qed.
Lemma entry_defined k v : entry k v <> UB. Proof. destruct v; discriminate. Qed.
Lemma int_of_defined k v : int_of k v <> UB.
Proof. unfold int_of. intro H. apply bind_ub in H. destruct H as [H | (a & _ & H)]; [exact (entry_defined _ _ H) | destruct a; discriminate]. Qed.
Lemma double_of_defined k v : double_of k v <> UB.
Proof. unfold double_of. intro H. apply bind_ub in H. destruct H as [H | (a & _ & H)]; [exact (entry_defined _ _ H) | destruct a; discriminate]. Qed.
Lemma string_of_defined k v : string_of k v <> UB.
Proof. unfold string_of. intro H. apply bind_ub in H. destruct H as [H | (a & _ & H)]; [exact (entry_defined _ _ H) | destruct a; discriminate]. Qed.
Lemma all_ok_ub {A B} (f : A -> res B) l : all_ok f l = UB -> exists a, In a l /\ f a = UB.
Proof.
  induction l as [| a l IH]; cbn [all_ok]; [discriminate |]. intro H. apply bind_ub in H. destruct H as [H | (b & _ & H)]; [exists a; cbn; auto |].
  apply bind_ub in H. destruct H as [H | (bs & _ & H)]; [| discriminate]. destruct (IH H) as (x & I & E). exists x. cbn. auto.
Qed.
Lemma operation_of_ub e : operation_of e = UB -> exists d, e = ("rotate_acw"%string, XInt d) /\ max_int < 360 - d.
Proof.
  destruct e as [k v]. unfold operation_of. cbn [fst snd].
  destruct (String.eqb_spec k "rotate_cw"); [destruct v; try discriminate; unfold new_rotate; destruct (_ <=? _); discriminate |].
  destruct (String.eqb_spec k "rotate_acw") as [-> | _].
  - destruct v; try discriminate. destruct (Z.ltb_spec max_int (360 - z)); [eauto |]. unfold new_rotate. destruct (_ <=? _); discriminate.
  - destruct (String.eqb k "flip"); [| discriminate]. destruct v; try discriminate.
    destruct (String.eqb s "horiz"); [discriminate |]. destruct (String.eqb s "vert"); [discriminate |]. destruct (String.eqb s "both"); discriminate.
Qed.

(* the only undefined configurations: operations that are no struct, or an angle near the least int *)
Theorem parse_undefined image : parse_image image = UB ->
  exists l v, image = XStruct l /\ sget "operations" l = Some v /\
    (is_struct v = false \/ exists entries d, v = XStruct entries /\ In ("rotate_acw"%string, XInt d) entries /\ d < 360 - max_int).
Proof.
  unfold parse_image. intro H. destruct image as [| | | | | | l]; try discriminate. cbn [is_struct] in H.
  assert (F : operations_of (XStruct l) = UB).
  { repeat (apply bind_ub in H; destruct H as [H | (?a & ?E & H)]; [first [exact H | exfalso; revert H; first [apply string_of_defined | apply int_of_defined | apply double_of_defined | apply entry_defined]] | ]; try (destruct (is_struct _); [| discriminate])).
    discriminate H. }
  clear H. unfold operations_of, member in F. exists l. destruct (sget "operations" l) as [v |] eqn:E; [| discriminate].
  exists v. split; [reflexivity | split; [reflexivity |]]. destruct v as [| | | | | | entries]; try (left; reflexivity). right.
  apply all_ok_ub in F. destruct F as (e & I & F). apply operation_of_ub in F. destruct F as (d & -> & L). exists entries, d. repeat split; auto. lia.
Qed.

(* ---- the order of operations ---- *)
Open Scope string_scope.
Definition names_increase (m : list (string * xv)) : Prop := StronglySorted (fun a b => String.compare (fst a) (fst b) = Lt) m.

Lemma compare_lt_trans a : forall b c, String.compare a b = Lt -> String.compare b c = Lt -> String.compare a c = Lt.
Proof.
  induction a as [| x a IH]; intros [| y b] [| z c]; cbn [String.compare]; try discriminate; try reflexivity.
  unfold Ascii.compare. destruct (N.compare_spec (Ascii.N_of_ascii x) (Ascii.N_of_ascii y)) as [E | L | L]; intro H1; try discriminate;
  destruct (N.compare_spec (Ascii.N_of_ascii y) (Ascii.N_of_ascii z)) as [E' | L' | L']; intro H2; try discriminate;
  destruct (N.compare_spec (Ascii.N_of_ascii x) (Ascii.N_of_ascii z)) as [E'' | L'' | L'']; try reflexivity; try lia. eapply IH; eassumption.
Qed.
Lemma compare_refl a : String.compare a a = Eq.
Proof. induction a as [| x a IH]; cbn [String.compare]; [reflexivity |]. unfold Ascii.compare. rewrite N.compare_refl. exact IH. Qed.
Lemma compare_gt a b : String.compare a b = Gt -> String.compare b a = Lt.
Proof. intro H. rewrite String.compare_antisym, H. reflexivity. Qed.

Lemma put_absent k v m : names_increase m -> ~ In k (map fst m) -> Permutation ((k, v) :: m) (struct_put k v m) /\ names_increase (struct_put k v m).
Proof.
  unfold names_increase. induction m as [| [k' v'] m IH]; intros Hs Hk; cbn [struct_put].
  - split; [reflexivity | repeat constructor].
  - inversion Hs as [| x y H1 H2]; subst. destruct (String.compare k k') eqn:C.
    + apply String.compare_eq_iff in C. subst. exfalso. apply Hk. left. reflexivity.
    + split; [reflexivity |]. constructor; [exact Hs |]. constructor; [exact C |].
      eapply Forall_impl; [| exact H2]. cbn. intros e He. eapply compare_lt_trans; eassumption.
    + destruct IH as [P Q]; [exact H1 | intro I; apply Hk; right; exact I |]. split.
      * rewrite perm_swap. constructor. exact P.
      * constructor; [exact Q |]. rewrite <- P. constructor; [cbn; apply compare_gt; exact C | exact H2].
Qed.
Lemma put_fold l : forall m, names_increase m -> NoDup (map fst (m ++ l)) ->
  Permutation (m ++ l) (fold_left (fun m '(k, v) => struct_put k v m) l m) /\ names_increase (fold_left (fun m '(k, v) => struct_put k v m) l m).
Proof.
  induction l as [| [k v] l IH]; intros m Hs Hn; cbn [fold_left].
  - rewrite app_nil_r. split; [reflexivity | exact Hs].
  - rewrite map_app in Hn. cbn [map fst] in Hn.
    assert (Hk : ~ In k (map fst m)) by (intro I; apply NoDup_remove_2 in Hn; apply Hn; apply in_or_app; left; exact I).
    destruct (put_absent k v m Hs Hk) as [P Q].
    assert (PP : Permutation (m ++ (k, v) :: l) (struct_put k v m ++ l)) by (rewrite <- P, <- Permutation_middle; reflexivity).
    destruct (IH (struct_put k v m) Q) as [P2 Q2].
    + eapply Permutation_NoDup; [apply Permutation_map; exact PP |]. rewrite map_app. exact Hn.
    + split; [rewrite PP; exact P2 | exact Q2].
Qed.
Lemma increase_unique l : forall l', names_increase l -> names_increase l' -> Permutation l l' -> l = l'.
Proof.
  unfold names_increase. induction l as [| a l IH]; intros l' H1 H2 P.
  - apply Permutation_nil in P. congruence.
  - destruct l' as [| b l']; [apply Permutation_sym, Permutation_nil in P; discriminate |].
    inversion H1 as [| x y Ha Hl]; subst. inversion H2 as [| x y Hb Hl']; subst.
    assert (E : a = b).
    { assert (I : In a (b :: l')) by (eapply Permutation_in; [exact P | left; reflexivity]).
      assert (J : In b (a :: l)) by (eapply Permutation_in; [apply Permutation_sym; exact P | left; reflexivity]).
      destruct I as [-> | I]; [reflexivity |]. destruct J as [-> | J]; [reflexivity |].
      rewrite Forall_forall in Hl, Hl'. pose proof (Hl _ J) as L1. pose proof (Hl' _ I) as L2.
      pose proof (compare_lt_trans _ _ _ L1 L2) as L. rewrite compare_refl in L. discriminate. }
    subst b. f_equal. apply IH; [assumption | assumption |]. eapply Permutation_cons_inv. exact P.
Qed.

(* the order in which the operations are written has no influence *)
Theorem order_ignored l l' : NoDup (map fst l) -> Permutation l l' -> struct_of l = struct_of l'.
Proof.
  intros Hn P. unfold struct_of. f_equal.
  destruct (put_fold l [] (SSorted_nil _) Hn) as [P1 S1].
  destruct (put_fold l' [] (SSorted_nil _)) as [P2 S2]; [eapply Permutation_NoDup; [apply Permutation_map; exact P | exact Hn] |].
  apply increase_unique; [exact S1 | exact S2 |]. rewrite <- P1, <- P2. exact P.
Qed.

(* flip first, then anticlockwise, then clockwise *)
Definition rank (e : string * xv) : Z := if String.eqb (fst e) "flip" then 0 else if String.eqb (fst e) "rotate_acw" then 1 else 2.
(* of repeated entries the last one is kept *)
Lemma get_put k k' v m : names_increase m -> sget k (struct_put k' v m) = if String.eqb k k' then Some v else sget k m.
Proof.
  unfold names_increase. induction m as [| [a w] m IH]; intros Hs; cbn [struct_put sget]; [reflexivity |]. inversion Hs as [| x y H1 H2]; subst. destruct (String.compare k' a) eqn:C; cbn [sget].
  - apply String.compare_eq_iff in C. subst a. destruct (String.eqb k k'); reflexivity.
  - reflexivity.
  - rewrite (IH H1). destruct (String.eqb_spec k a) as [-> | N]; [| reflexivity]. destruct (String.eqb_spec a k') as [-> | M]; [| reflexivity]. rewrite compare_refl in C. discriminate.
Qed.
Lemma put_names k v m x : In x (map fst (struct_put k v m)) -> x = k \/ In x (map fst m).
Proof. induction m as [| [a w] m IH]; cbn [struct_put map fst]; [intros [<- | []]; auto |]. destruct (String.compare k a); cbn [map fst In]; intuition congruence. Qed.
Lemma put_increase k v m : names_increase m -> names_increase (struct_put k v m).
Proof.
  unfold names_increase. induction m as [| [a w] m IH]; intros Hs; cbn [struct_put]; [repeat constructor |]. inversion Hs as [| x y H1 H2]; subst. destruct (String.compare k a) eqn:C.
  - apply String.compare_eq_iff in C. subst a. constructor; [exact H1 |]. exact H2.
  - constructor; [exact Hs |]. constructor; [exact C |]. eapply Forall_impl; [| exact H2]. cbn. intros e He. eapply compare_lt_trans; eassumption.
  - constructor; [apply IH; exact H1 |]. rewrite Forall_forall in *. intros e He. cbn [fst]. destruct (put_names k v m (fst e) (in_map fst _ _ He)) as [-> | I]; [apply compare_gt; exact C |].
    apply in_map_iff in I. destruct I as (e' & E' & I'). rewrite <- E'. exact (H2 e' I').
Qed.
Theorem last_entry l m k : struct_of l = XStruct m -> sget k m = option_map snd (find (fun e => String.eqb k (fst e)) (rev l)).
Proof.
  intro H. injection H as <-. induction l as [| [a w] l IH] using rev_ind; [reflexivity |]. rewrite fold_left_app, rev_app_distr. cbn [fold_left rev app find fst].
  assert (Q : names_increase (fold_left (fun m '(k, v) => struct_put k v m) l [])).
  { clear. assert (G : forall m, names_increase m -> names_increase (fold_left (fun m '(k, v) => struct_put k v m) l m)) by (induction l as [| [b u] l IH]; intros m Hm; cbn [fold_left]; [exact Hm | apply IH, put_increase, Hm]). apply G. constructor. }
  rewrite (get_put _ _ _ _ Q). destruct (String.eqb k a); [reflexivity | exact IH].
Qed.
Theorem order_fixed l entries ops : NoDup (map fst l) -> struct_of l = XStruct entries -> all_ok operation_of entries = Ok ops ->
  Permutation l entries /\ StronglySorted (fun a b => (rank a < rank b)%Z) entries /\ Forall2 (fun e o => operation_of e = Ok o) entries ops.
Proof.
  intros Hn E H. unfold struct_of in E. injection E as E. destruct (put_fold l [] (SSorted_nil _) Hn) as [P1 S1]. rewrite E in P1, S1.
  split; [exact P1 |]. apply all_ok_spec in H. split; [| exact H].
  assert (KN : Forall (fun e => fst e = "flip" \/ fst e = "rotate_acw" \/ fst e = "rotate_cw") entries).
  { clear - H. induction H as [| e o l r He Hl IH]; constructor; [| exact IH]. apply operation_of_spec in He. destruct He as (c & Ha & _). inversion Ha; cbn; auto. }
  clear - S1 KN. unfold names_increase in S1. induction S1 as [| a m Hm IH Hf]; constructor.
  - apply IH. inversion KN; assumption.
  - inversion KN as [| x y Ha Hk]; subst. rewrite Forall_forall in *. intros b I. specialize (Hf b I). specialize (Hk b I).
    unfold rank. destruct Ha as [Ha | [Ha | Ha]], Hk as [Hk | [Hk | Hk]]; rewrite Ha, Hk in *; vm_compute in Hf; try discriminate; reflexivity.
Qed.

(* ---- what the splitter publishes ---- *)
Open Scope Z_scope.
Lemma inside_iff {A} (p : picture A) q : inside p q = true <-> fits q p.
Proof. unfold inside, fits. rewrite !andb_true_iff, !Z.leb_le. tauto. Qed.
Lemma crop_part {A} (p : picture A) q : fits q p -> exists p', crop p q = Ok p' /\ part q p p'.
Proof. intro H. apply inside_iff in H. unfold crop. rewrite H. eexists. split; [reflexivity |]. repeat split. Qed.
Lemma crop_refused {A} (p : picture A) q : ~ fits q p -> crop p q = Throw.
Proof. intro H. unfold crop. destruct (inside p q) eqn:E; [apply inside_iff in E; tauto | reflexivity]. Qed.

(* settings under which a configuration of the splitter works: read from a file, its region not empty of meaning, usable operations *)
Definition works (s : split_config) : Prop := (exists image, parse_image image = Ok s) /\ (rc_w (s_region s) <= max_int /\ rc_h (s_region s) <= max_int) /\ exists mo, moves_by (s_ops s) mo.

Lemma split_one_ok {A} (msg : message A) s : works s -> fits (s_region s) (m_pic msg) -> exists m' i', split_one msg s = Ok (m', i') /\ published_as msg s m' i'.
Proof.
  intros ((image & HP) & (LW & LH) & mo & cs & Hm & Hmo) F. apply parse_iff in HP.
  destruct HP as (l & region & distortion & intrinsic & entries & commands & fx & fy & cx & cy & k1 & k2 & t1 & t2 & k3 & HP). decompose [and] HP. clear HP.
  destruct (crop_part (m_pic msg) (s_region s) F) as (p & EC & PC). unfold split_one. rewrite EC. cbn [rbind].
  set (h := mkHeader (h_stamp (m_head msg)) (s_frame s)).
  assert (PH : pinhole (i_K (with_header (s_info s) h))) by (exists fx, fy, (IZR cx), (IZR cy); assumption).
  destruct (operations_follow cs (s_ops s) mo p (with_header (s_info s) h) Hm Hmo PH) as (p' & i' & E & M1 & M2 & M3).
  rewrite E. cbn [rbind]. eexists _, i'. split; [reflexivity |].
  assert (SZ : i_width i' = cols p' /\ i_height i' = rows p').
  { apply (size_follows _ _ _ _ _ E); cbn [with_header i_width i_height]; destruct PC as (PC1 & PC2 & _); rewrite ?PC1, ?PC2; destruct F as (_ & _ & F3 & F4 & _); unfold max_int in *;
      match goal with HH : _ = _ mod _ |- _ = _ => rewrite HH; apply Z.mod_small; lia end. }
  destruct M3 as (Q1 & Q2 & Q3 & Q4 & Q5). destruct SZ. unfold published_as. cbn [m_head m_encoding m_pic].
  repeat split; try assumption. exists p, mo. split; [exact PC | split; [exists cs; auto | split; [exact M1 | split; [exact M2 | auto]]]].
Qed.
Lemma split_one_outside {A} (msg : message A) s : ~ fits (s_region s) (m_pic msg) -> split_one msg s = Throw.
Proof. intro H. unfold split_one. rewrite crop_refused by exact H. reflexivity. Qed.

(* the publications for the configurations done, in their order, the image before its info *)
Inductive publications {A} (msg : message A) : list split_config -> list (output A) -> Prop :=
| pub_none : publications msg [] []
| pub_more s l m i o : published_as msg s m i -> publications msg l o -> publications msg (s :: l) (PubImage (s_topic s) m :: PubInfo (s_info_topic s) i :: o).

Theorem split_publishes {A} (msg : message A) l : Forall works l -> Forall (fun s => fits (s_region s) (m_pic msg)) l ->
  exists o, split msg l = (o, Ok tt) /\ publications msg l o.
Proof.
  intros Hw Hf. induction Hw as [| s l Hs Hl IH]; [exists []; split; [reflexivity | constructor] |].
  inversion Hf as [| x y Fs Fl]; subst. destruct (IH Fl) as (o & E & P). destruct (split_one_ok msg s Hs Fs) as (m' & i' & E' & P').
  cbn [split]. rewrite E', E. eexists. split; [reflexivity | constructor; assumption].
Qed.
(* the first region that does not fit ends the node; the configurations before it were served *)
Theorem split_stops {A} (msg : message A) l1 s l2 : Forall works l1 -> Forall (fun s => fits (s_region s) (m_pic msg)) l1 -> ~ fits (s_region s) (m_pic msg) ->
  exists o, split msg (l1 ++ s :: l2) = (o, Throw) /\ publications msg l1 o.
Proof.
  intros Hw Hf Hs. induction Hw as [| s' l Hs' Hl IH]; cbn [app split].
  - rewrite split_one_outside by exact Hs. exists []. split; [reflexivity | constructor].
  - inversion Hf as [| x y Fs Fl]; subst. destruct (IH Fl) as (o & E & P). destruct (split_one_ok msg s' Hs' Fs) as (m' & i' & E' & P').
    rewrite E', E. eexists. split; [reflexivity | constructor; assumption].
Qed.

(* ---- publish_info ---- *)
(* projection with P of a point in the frame of the left camera *)
Definition project_P (p : mat3 * vec3) (x : vec3) : R * R := let '(a, b, c) := vadd (mapply (fst p) x) (snd p) in (a / c, b / c)%R.
Theorem info_per_image {A} model d k p baseline (l : list (message A)) :
  Forall2 (fun m i => i_head i = m_head m /\ i_width i = cols (m_pic m) /\ i_height i = rows (m_pic m) /\ i_model i = model /\ i_D i = d /\
                      forall x y z, (z <> 0)%R ->
                        project (i_K i) (x, y, z) = (l_fx k * (x / z) + l_cx k, l_fy k * (y / z) + l_cy k)%R /\
                        mapply (i_R i) (x, y, z) = (x, y, z) /\
                        project_P (i_P i) (x, y, z) = (l_fx p * ((x - baseline) / z) + l_cx p, l_fy p * (y / z) + l_cy p)%R)
    l (publish_info_run (publish_info_init model d k p baseline) l).
Proof.
  set (good := fun i => i_model i = model /\ i_D i = d /\ i_K i = i_K (publish_info_init model d k p baseline) /\ i_R i = mI /\ i_P i = i_P (publish_info_init model d k p baseline)).
  assert (G : good (publish_info_init model d k p baseline)) by (repeat split).
  assert (X : forall i, good i -> Forall2 (fun m i => i_head i = m_head m /\ i_width i = cols (m_pic m) /\ i_height i = rows (m_pic m) /\ good i) l (publish_info_run i l)).
  { induction l as [| m l IH]; intros i (G1 & G2 & G3 & G4 & G5); cbn [publish_info_run]; constructor; [repeat split; assumption |].
    apply IH. repeat split; assumption. }
  specialize (X _ G). induction X as [| m i l' r (H1 & H2 & H3 & G1 & G2 & G3 & G4 & G5) Hl IH]; constructor; [| exact IH].
  rewrite G1, G2, G3, G4, G5. repeat split; auto.
  - unfold publish_info_init. cbn [i_K]. apply pinhole_project. assumption.
  - unfold mapply, mI, vdot. f_equal; [f_equal |]; ring.
  - unfold project_P, publish_info_init, mapply, vdot, vadd. cbn [i_P fst snd]. f_equal; field; assumption.
Qed.

(* ---- change_frame_id ---- *)
Theorem frame_changed {A} frame (m : message A) i :
  let (m', i') := change_frame_id frame m i in
  h_frame (m_head m') = frame /\ h_frame (i_head i') = frame /\ h_stamp (m_head m') = h_stamp (m_head m) /\ h_stamp (i_head i') = h_stamp (i_head i) /\
  m_encoding m' = m_encoding m /\ m_pic m' = m_pic m /\ i_width i' = i_width i /\ i_height i' = i_height i /\ i_K i' = i_K i /\ only_size_and_K (with_header i (i_head i')) i'.
Proof. repeat split. Qed.
