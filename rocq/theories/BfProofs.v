(* Body frames: loading. *)
From Coq Require Import ZArith Reals List Bool String Lia Lra.
From Verif Require Import Base Interp Geo EgModel EgProofs BfModel BfSpec.
Import ListNotations.
Open Scope string_scope.
Open Scope list_scope.

Definition xv_ind2 (P : xv -> Prop) (H0 : P XInvalid) (H1 : forall b, P (XBool b)) (H2 : forall z, P (XInt z)) (H3 : forall r, P (XDouble r)) (H4 : forall s, P (XString s))
  (H5 : forall l, P (XArray l)) (H6 : forall l, Forall (fun kv => P (snd kv)) l -> P (XStruct l)) : forall v, P v :=
  fix go v := match v with
  | XInvalid => H0 | XBool b => H1 b | XInt z => H2 z | XDouble r => H3 r | XString s => H4 s | XArray l => H5 l
  | XStruct l => H6 l ((fix all l : Forall (fun kv => P (snd kv)) l := match l with [] => Forall_nil _ | kv :: r => Forall_cons kv (go (snd kv)) (all r) end) l)
  end.

Lemma sget_in {A} k (m : smap A) x : sget k m = Some x -> In (k, x) m. Proof. apply sget_In. Qed.
Lemma rbind_ok {A B} (r : res A) (f : A -> res B) y : rbind r f = Ok y <-> exists x, r = Ok x /\ f x = Ok y.
Proof. destruct r; cbn; split; try (intros H; exists a; auto; fail); try (intros (x & [= <-] & H); exact H); try discriminate; intros (x & [=] & _). Qed.
Lemma emplace_ok {A} k (a : A) m m' : emplace k a m = Ok m' <-> sget k m = None /\ m' = (k, a) :: m.
Proof. unfold emplace. destruct (sget k m); split; try discriminate; [intros [[=] _]|intros [= <-]; auto|intros [_ ->]; auto]. Qed.
Lemma at_ok {A} k (a : A) m : at_ k m = Ok a <-> sget k m = Some a.
Proof. unfold at_. destruct (sget k m); split; congruence. Qed.
Lemma not_ub {A B} (r : res A) (f : A -> res B) : r <> UB -> (forall x, f x <> UB) -> rbind r f <> UB. Proof. destruct r; cbn; auto; congruence. Qed.

Section Load.
Variable look : string -> string -> Z -> res iso.
Notation process_frame := (process_frame look). Notation process_list := (process_list look). Notation process_frames := (process_frames look). Notation enter := (enter look).

Lemma process_frame_eq v f pre p b : process_frame v f pre p b =
  rbind (enter f v pre p b) (fun '(b', t) => match t with None => Ok b' | Some t' => process_frames (member "frames" v) t' f b' end).
Proof.
  destruct v; cbn [BfModel.process_frame]; try reflexivity. destruct (enter f (XStruct l) pre p b) as [[b' [t|]]| |]; cbn [rbind]; try reflexivity. generalize l at 1 2. clear. intros l.
  induction l as [|[k w] r IH]; [reflexivity|]. cbn [sget member]. destruct (String.eqb "frames" k); [|exact IH]. destruct w; reflexivity.
Qed.
Lemma listing_eq v f p : listing v f p = (f, v, p) :: listings f (children v).
Proof.
  destruct v; cbn [listing]; try reflexivity. f_equal. unfold children. cbn [member]. generalize l at 1 2. clear. intros l.
  induction l as [|[k w] r IH]; [reflexivity|]. cbn [sget]. destruct (String.eqb "frames" k); [|exact IH]. destruct w; reflexivity.
Qed.
Lemma in_children v k w : In (k, w) (children v) -> exists l, v = XStruct l /\ exists l', In ("frames", XStruct l') l /\ In (k, w) l'.
Proof.
  unfold children. destruct v as [| | | | | |l]; cbn [member]; try intros []. destruct (sget "frames" l) as [x|] eqn:E; [|intros []]. destruct x as [| | | | | |l']; try intros []. exists l. split; [reflexivity|]. exists l'. split; [apply sget_in; exact E|assumption].
Qed.
(* induction on the tree of frames *)
Lemma tree_ind (Q : xv -> Prop) : (forall v, (forall k w, In (k, w) (children v) -> Q w) -> Q v) -> forall v, Q v.
Proof.
  intros H v. enough (G : Q v /\ match v with XStruct l => Forall (fun kv => Q (snd kv)) l | _ => True end) by apply G.
  induction v using xv_ind2; try (split; [apply H; intros k w I; unfold children in I; cbn in I; destruct I|exact I]).
  rewrite Forall_forall in H0. split.
  - apply H. intros k w I. destruct (in_children _ _ _ I) as (l2 & [= <-] & l' & I1 & I2). destruct (H0 _ I1) as [_ G]. cbn [snd] in G. rewrite Forall_forall in G. apply (G (k, w)). exact I2.
  - apply Forall_forall. intros kv I. apply H0. exact I.
Qed.

(* the listing holds exactly the declared entries *)
Lemma in_listings p l e : In e (listings p l) <-> exists k w, In (k, w) l /\ In e (listing w k p).
Proof.
  induction l as [|[k w] r IH]; cbn; [split; [intros []|intros (k & w & [] & _)]|]. rewrite in_app_iff, IH. split.
  - intros [H|(k' & w' & H & H')]; [exists k, w; auto|exists k', w'; auto].
  - intros (k' & w' & [[= <- <-]|H] & H'); [auto|right; exists k', w'; auto].
Qed.
Lemma listing_declared body root v : forall f p, declared body root p f v -> forall g w q, In (g, w, q) (listing v f p) -> declared body root q g w.
Proof.
  induction v as [v IH] using tree_ind. intros f p D g w q I. rewrite listing_eq in I. destruct I as [[= <- <- <-]|I]; [exact D|]. apply in_listings in I. destruct I as (k & x & I1 & I2).
  apply (IH k x I1 k f); [eapply d_in; eassumption|exact I2].
Qed.
Lemma listing_closed v : forall f p g w q, In (g, w, q) (listing v f p) -> forall k x, In (k, x) (children w) -> In (k, x, g) (listing v f p).
Proof.
  induction v as [v IH] using tree_ind. intros f p g w q I k x C. rewrite listing_eq in *. destruct I as [[= <- <- <-]|I].
  - right. apply in_listings. exists k, x. split; [exact C|]. rewrite listing_eq. left. reflexivity.
  - right. apply in_listings in I. apply in_listings. destruct I as (k' & x' & I1 & I2). exists k', x'. split; [exact I1|]. eapply (IH k' x' I1); eassumption.
Qed.
Lemma entries_declared body root f v p : In (f, v, p) (entries body root) <-> declared body root p f v.
Proof.
  split.
  - intros I. apply in_listings in I. destruct I as (k & w & I1 & I2). eapply listing_declared; [apply d_top; exact I1|exact I2].
  - intros D. induction D as [f v I|p f v g w D IH I].
    + apply in_listings. exists f, v. split; [exact I|]. rewrite listing_eq. left. reflexivity.
    + apply in_listings in IH. apply in_listings. destruct IH as (k & x & I1 & I2). exists k, x. split; [exact I1|]. eapply listing_closed; eassumption.
Qed.

(* ---- one entry ---- *)
Definition Al (v : xv) : list string := if declared_dynamic v then [] else declared_aliases v.
Definition after (f : string) (v : xv) (t : option iso) (b : frames) : frames :=
  mkBF (bf_body b) ((f, declared_id f v) :: bf_ids b) (rev (map (fun a => (a, f)) (Al v)) ++ (declared_id f v, f) :: bf_names b) ((f, declared_lookup v) :: bf_look b) ((f, declared_dynamic v) :: bf_dyn b)
    ((declared_id f v, Al v) :: bf_al b) (match t with Some t => (f, t) :: bf_to b | None => bf_to b end) (match t with Some t => (f, iinv t) :: bf_from b | None => bf_from b end).
Lemma node_id_ok f v id : node_id f v = Ok id <-> if_given "frame_id" v is_string /\ id = declared_id f v.
Proof.
  unfold node_id, declared_id, if_given, is_string. destruct (member "frame_id" v) as [w|]; [|split; [intros [= <-]; split; [intros; discriminate|reflexivity]|intros [_ ->]; reflexivity]].
  destruct w; split; try discriminate; try (intros [H _]; destruct (H _ eq_refl); discriminate). - intros [= <-]. split; [intros w [= <-]; eauto|reflexivity]. - intros [_ ->]. reflexivity.
Qed.
Lemma flag_ok k v b : flag k v = Ok b <-> if_given k v is_bool /\ b = declared_flag k v.
Proof.
  unfold flag, declared_flag, if_given, is_bool. destruct (member k v) as [w|]; [|split; [intros [= <-]; split; [intros; discriminate|reflexivity]|intros [_ ->]; reflexivity]].
  destruct w; split; try discriminate; try (intros [H _]; destruct (H _ eq_refl); discriminate). - intros [= <-]. split; [intros w [= <-]; eauto|reflexivity]. - intros [_ ->]. reflexivity.
Qed.
Lemma double_ok v r : as_double v = Ok r <-> is_number v /\ r = match v with XDouble r => r | _ => 0%R end.
Proof. unfold is_number. destruct v; cbn; split; intros H; try discriminate; try (destruct H as [[H|[x H]] _]; discriminate); try (injection H as <-; split; [eauto|reflexivity]); destruct H as [_ ->]; reflexivity. Qed.
Lemma number_eq k v : number k v = match member k v with Some w => match w with XDouble r => r | _ => 0%R end | None => 0%R end. Proof. unfold number. destruct (member k v) as [[]|]; reflexivity. Qed.
Lemma coordinate_ok k v r : coordinate k v = Ok r <-> if_given k v is_number /\ r = number k v.
Proof.
  unfold coordinate. rewrite number_eq. unfold if_given. destruct (member k v) as [w|]; [|split; [intros [= <-]; split; [intros; discriminate|reflexivity]|intros [_ ->]; reflexivity]].
  rewrite double_ok. split; intros [A B]; split; auto. intros w' [= <-]. exact A.
Qed.
Lemma component_ok k v r : component k v = Ok r <-> (v = XInvalid \/ struct v /\ if_given k v is_number) /\ r = number k v.
Proof.
  destruct v; cbn [component]; try (split; [discriminate|intros [[[=]|[[? [=]] _]] _]]).
  - unfold number. cbn. split; [intros [= <-]; auto|intros [_ ->]; reflexivity].
  - change (match sget k l with Some w => as_double w | None => Ok 0%R end) with (coordinate k (XStruct l)). rewrite coordinate_ok. unfold struct. split; intros [A B]; (split; [|exact B]); [right; split; [eexists; reflexivity|exact A]|destruct A as [[=]|[_ A]]; exact A].
Qed.
Lemma translation_ok v t : node_translation v = Ok t <-> if_given "translation" v (numbers ["x"; "y"; "z"]) /\ t = declared_translation v.
Proof.
  unfold node_translation, declared_translation, if_given, numbers. destruct (member "translation" v) as [w|]; [|split; [intros [= <-]; split; [intros; discriminate|reflexivity]|intros [_ ->]; reflexivity]].
  rewrite rbind_ok. split.
  - intros (x & X & H). apply rbind_ok in H. destruct H as (y & Y & H). apply rbind_ok in H. destruct H as (z & Z & [= <-]). apply coordinate_ok in X, Y, Z. destruct X as [X ->], Y as [Y ->], Z as [Z ->].
    split; [|reflexivity]. intros w' [= <-] k [<-|[<-|[<-|[]]]]; assumption.
  - intros [H ->]. exists (number "x" w). split; [apply coordinate_ok; split; [apply H; cbn; auto|reflexivity]|]. apply rbind_ok. exists (number "y" w). split; [apply coordinate_ok; split; [apply H; cbn; auto|reflexivity]|].
    apply rbind_ok. exists (number "z" w). split; [apply coordinate_ok; split; [apply H; cbn; auto|reflexivity]|reflexivity].
Qed.
Lemma rotation_ok v q : node_rotation v = Ok q <-> if_given "rotation" v (fun r => r = XInvalid \/ struct r /\ numbers ["w"; "x"; "y"; "z"] r) /\ q = declared_rotation v.
Proof.
  unfold node_rotation, declared_rotation, if_given at 1. destruct (member "rotation" v) as [w|]; [|split; [intros [= <-]; split; [intros; discriminate|reflexivity]|intros [_ ->]; reflexivity]].
  rewrite rbind_ok. split.
  - intros (a & A & H). apply rbind_ok in H. destruct H as (x & X & H). apply rbind_ok in H. destruct H as (y & Y & H). apply rbind_ok in H. destruct H as (z & Z & [= <-]).
    apply component_ok in A, X, Y, Z. destruct A as [A ->], X as [X ->], Y as [Y ->], Z as [Z ->]. split; [|reflexivity]. intros w' [= <-].
    destruct A as [A|[S A]]; [left; exact A|]. destruct X as [X|[_ X]]; [left; exact X|]. destruct Y as [Y|[_ Y]]; [left; exact Y|]. destruct Z as [Z|[_ Z]]; [left; exact Z|]. right. split; [exact S|]. intros k [<-|[<-|[<-|[<-|[]]]]]; assumption.
  - intros [H ->]. specialize (H w eq_refl). assert (C : forall k, In k ["w"; "x"; "y"; "z"] -> component k w = Ok (number k w)).
    { intros k I. apply component_ok. split; [|reflexivity]. destruct H as [H|[S N]]; [left; exact H|right; split; [exact S|apply N; exact I]]. }
    exists (number "w" w). split; [apply C; cbn; auto|]. apply rbind_ok. exists (number "x" w). split; [apply C; cbn; auto|]. apply rbind_ok. exists (number "y" w). split; [apply C; cbn; auto 6|].
    apply rbind_ok. exists (number "z" w). split; [apply C; cbn; auto 6|reflexivity].
Qed.
Lemma normalise_turns q : turns q (qmat (qnormalise q)).
Proof.
  destruct q as [[[w x] y] z]. unfold turns, qnormalise. destruct (Rlt_dec 0 (x * x + y * y + z * z + w * w)) as [P|N].
  - right. set (n := sqrt (x * x + y * y + z * z + w * w)). assert (Pn : (0 < n)%R) by (apply sqrt_lt_R0; exact P). assert (E : (n * n = x * x + y * y + z * z + w * w)%R) by (apply sqrt_sqrt; lra).
    exists (w / n, x / n, y / n, z / n)%R, n. split; [|split; [exact Pn|split; [|reflexivity]]].
    + unfold qunit, qdot. replace (w / n * (w / n) + x / n * (x / n) + y / n * (y / n) + z / n * (z / n))%R with ((x * x + y * y + z * z + w * w) / (n * n))%R by (field; lra). rewrite <- E. field. lra.
    + repeat apply f_equal2; field; lra.
  - left. pose proof (Rle_0_sqr x). pose proof (Rle_0_sqr y). pose proof (Rle_0_sqr z). pose proof (Rle_0_sqr w). unfold Rsqr in *.
    assert (X : x = 0%R) by (apply Rsqr_0_uniq; unfold Rsqr; lra). assert (Y : y = 0%R) by (apply Rsqr_0_uniq; unfold Rsqr; lra). assert (Z : z = 0%R) by (apply Rsqr_0_uniq; unfold Rsqr; lra). assert (W : w = 0%R) by (apply Rsqr_0_uniq; unfold Rsqr; lra).
    subst. split; [reflexivity|]. unfold qmat, mI. repeat apply f_equal2; ring.
Qed.
Lemma turns_unique q m m' : turns q m -> turns q m' -> m = m'.
Proof.
  intros [[E ->]|(u & n & U & P & E & ->)] [[E' ->]|(u' & n' & U' & P' & E' & ->)]; [reflexivity| | |].
  - exfalso. destruct u' as [[[w x] y] z]. rewrite E in E'. injection E' as E1 E2 E3 E4. unfold qunit, qdot in U'. assert (w = 0 /\ x = 0 /\ y = 0 /\ z = 0)%R as (-> & -> & -> & ->) by (repeat split; apply (Rmult_eq_reg_l n'); lra). lra.
  - exfalso. destruct u as [[[w x] y] z]. rewrite E in E'. injection E' as E1 E2 E3 E4. unfold qunit, qdot in U. assert (w = 0 /\ x = 0 /\ y = 0 /\ z = 0)%R as (-> & -> & -> & ->) by (repeat split; apply (Rmult_eq_reg_l n); lra). lra.
  - destruct u as [[[w x] y] z], u' as [[[w' x'] y'] z']. rewrite E in E'. injection E' as E1 E2 E3 E4. unfold qunit, qdot in U, U'.
    assert (N : n = n'). { apply Rsqr_inj; [lra|lra|]. unfold Rsqr. transitivity ((n * w) * (n * w) + (n * x) * (n * x) + (n * y) * (n * y) + (n * z) * (n * z))%R; [|rewrite E1, E2, E3, E4]; [transitivity (n * n * (w * w + x * x + y * y + z * z))%R; [rewrite U; ring|ring]|transitivity (n' * n' * (w' * w' + x' * x' + y' * y' + z' * z'))%R; [ring|rewrite U'; ring]]. }
    subst n'. assert (w = w' /\ x = x' /\ y = y' /\ z = z') as (-> & -> & -> & ->) by (repeat split; apply (Rmult_eq_reg_l n); lra). reflexivity.
Qed.
End Load.
