(* Body frames: which configurations load, and what they load. *)
From Coq Require Import ZArith Reals List Bool String Lia Lra.
From Verif Require Import Base Interp Geo EgModel EgProofs BfModel BfSpec BfProofs.
Import ListNotations.
Open Scope string_scope.
Open Scope list_scope.

Section Load.
Variable look : string -> string -> Z -> res iso.
Notation process_frame := (process_frame look). Notation process_list := (process_list look). Notation process_frames := (process_frames look). Notation enter := (enter look).

Definition numeric (v : xv) : Prop :=
  if_given "translation" v (numbers ["x"; "y"; "z"]) /\ if_given "rotation" v (fun r => r = XInvalid \/ struct r /\ numbers ["w"; "x"; "y"; "z"] r).
Definition given (v : xv) : iso := to_transform (declared_translation v) (qnormalise (declared_rotation v)).
Definition found (ids : smap string) (p f : string) (v : xv) (t : iso) : Prop :=
  if declared_flag "lookup_tf" v then exists a c, sget p ids = Some a /\ sget f ids = Some c /\ look a c 0%Z = Ok t else numeric v /\ t = given v.
Lemma from_node_ok v f p b b' t : transform_from_node look v f p b = Ok (b', t) <->
  struct v /\ if_given "lookup_tf" v is_bool /\ sget f (bf_look b) = None /\ b' = set_look b ((f, declared_flag "lookup_tf" v) :: bf_look b) /\ found (bf_ids b) p f v t.
Proof.
  unfold transform_from_node, found. assert (S : is_struct v = true <-> struct v) by (unfold struct; destruct v; cbn; split; try discriminate; try (intros [? [=]]); eauto).
  destruct (is_struct v); [|split; [discriminate|intros [H _]; apply S in H; discriminate]]. rewrite rbind_ok. split.
  - intros (lk & L & H). apply flag_ok in L. destruct L as [L ->]. apply rbind_ok in H. destruct H as (m & M & H). apply emplace_ok in M. destruct M as [M ->].
    split; [apply S; reflexivity|]. split; [exact L|]. split; [exact M|]. destruct (declared_flag "lookup_tf" v).
    + apply rbind_ok in H. destruct H as (u & H & [= <- <-]). split; [reflexivity|]. unfold lookup_transform in H. apply rbind_ok in H. destruct H as (a & A & H). apply rbind_ok in H. destruct H as (c & C & H). apply at_ok in A, C. exists a, c. auto.
    + apply rbind_ok in H. destruct H as (x & X & H). apply rbind_ok in H. destruct H as (q & Q & [= <- <-]). apply translation_ok in X. apply rotation_ok in Q. destruct X as [X ->], Q as [Q ->]. split; [reflexivity|]. split; [split; assumption|reflexivity].
  - intros (_ & L & M & -> & F). exists (declared_flag "lookup_tf" v). split; [apply flag_ok; auto|]. apply rbind_ok. eexists. split; [apply emplace_ok; split; [exact M|reflexivity]|]. destruct (declared_flag "lookup_tf" v).
    + destruct F as (a & c & A & C & F). apply rbind_ok. exists t. split; [|reflexivity]. unfold lookup_transform. apply rbind_ok. exists a. split; [apply at_ok; exact A|]. apply rbind_ok. exists c. split; [apply at_ok; exact C|exact F].
    + destruct F as [[X Q] ->]. apply rbind_ok. eexists. split; [apply translation_ok; split; [exact X|reflexivity]|]. apply rbind_ok. eexists. split; [apply rotation_ok; split; [exact Q|reflexivity]|reflexivity].
Qed.
Lemma sget_cons {A} k k' (a : A) m : sget k ((k', a) :: m) = if String.eqb k k' then Some a else sget k m. Proof. reflexivity. Qed.
Lemma add_aliases_ok l f : forall b b' ss, add_aliases l f b = Ok (b', ss) <->
  Forall is_string l /\ ss = flat_map text l /\ NoDup ss /\ (forall a, In a ss -> sget a (bf_names b) = None) /\ b' = set_names b (rev (map (fun a => (a, f)) ss) ++ bf_names b).
Proof.
  induction l as [|w l IH]; intros b b' ss; cbn [add_aliases].
  - split.
    + intros [= <- <-]. split; [constructor|]. split; [reflexivity|]. split; [constructor|]. split; [intros a []|]. destruct b; reflexivity.
    + intros (_ & -> & _ & _ & ->). cbn. destruct b; reflexivity.
  - assert (NS : ~ is_string w -> match w with XString s => rbind (emplace s f (bf_names b)) (fun n => rbind (add_aliases l f (set_names b n)) (fun '(b', ss) => Ok (b', s :: ss))) | _ => Throw end = Ok (b', ss) <->
      Forall is_string (w :: l) /\ ss = flat_map text (w :: l) /\ NoDup ss /\ (forall a, In a ss -> sget a (bf_names b) = None) /\ b' = set_names b (rev (map (fun a => (a, f)) ss) ++ bf_names b)).
    { intros N. split; [|intros (F & _); inversion F; subst; contradiction]. destruct w; try discriminate. destruct N. eexists. reflexivity. }
    destruct w as [| | | |s| |]; try (apply NS; intros [? [=]]; fail). clear NS. rewrite rbind_ok. cbn [flat_map text app]. split.
    + intros (n & E & H). apply emplace_ok in E. destruct E as [E ->]. apply rbind_ok in H. destruct H as ([b2 s2] & H & [= <- <-]). apply IH in H. destruct H as (F & -> & ND & FR & ->). cbn [bf_names set_names] in FR.
      split; [constructor; [eexists; reflexivity|exact F]|]. split; [reflexivity|]. split.
      * constructor; [|exact ND]. intros I. specialize (FR _ I). rewrite sget_cons, String.eqb_refl in FR. discriminate.
      * split.
        { intros a [<-|I]; [exact E|]. specialize (FR _ I). rewrite sget_cons in FR. destruct (String.eqb a s); [discriminate|exact FR]. }
        { unfold set_names. cbn [bf_body bf_ids bf_names bf_look bf_dyn bf_al bf_to bf_from map rev]. rewrite <- app_assoc. reflexivity. }
    + intros (F & -> & ND & FR & ->). inversion F as [|? ? F1 F2]; subst. inversion ND as [|? ? N1 N2]; subst. eexists. split; [apply emplace_ok; split; [apply FR; left; reflexivity|reflexivity]|].
      apply rbind_ok. eexists (_, flat_map text l). split; [apply IH; split; [exact F2|]; split; [reflexivity|]; split; [exact N2|]; split; [|reflexivity]|].
      * cbn [set_names bf_names]. intros a I. rewrite sget_cons. destruct (String.eqb_spec a s) as [->|]; [contradiction|]. apply FR. right. exact I.
      * cbn [set_names bf_body bf_ids bf_names bf_look bf_dyn bf_al bf_to bf_from map rev]. rewrite <- app_assoc. reflexivity.
Qed.
Lemma node_aliases_ok v f b b' ss : node_aliases v f b = Ok (b', ss) <->
  if_given "aliases" v strings /\ ss = declared_aliases v /\ NoDup ss /\ (forall a, In a ss -> sget a (bf_names b) = None) /\ b' = set_names b (rev (map (fun a => (a, f)) ss) ++ bf_names b).
Proof.
  unfold node_aliases, declared_aliases, if_given, strings. destruct (member "aliases" v) as [w|].
  - assert (NS : (forall l, w <> XArray l) -> ~ (forall w0, Some w = Some w0 -> exists l, w0 = XArray l /\ Forall is_string l)) by (intros N H; destruct (H _ eq_refl) as (l & -> & _); apply (N l); reflexivity).
    destruct w as [| | | | |l|]; try (split; [discriminate|intros [H _]; destruct (NS ltac:(congruence) H)]). clear NS. rewrite add_aliases_ok. split.
    + intros (F & R). split; [|exact R]. intros w [= <-]. eauto.
    + intros (F & R). split; [|exact R]. destruct (F _ eq_refl) as (l' & [= <-] & F'). exact F'.
  - split.
    + intros [= <- <-]. split; [intros; discriminate|]. split; [reflexivity|]. split; [constructor|]. split; [intros a []|]. destruct b; reflexivity.
    + intros (_ & -> & _ & _ & ->). cbn. destruct b; reflexivity.
Qed.

(* one entry *)
Definition fresh (f : string) (v : xv) (b : frames) : Prop :=
  sget f (bf_ids b) = None /\ sget f (bf_dyn b) = None /\ sget f (bf_look b) = None /\ sget (declared_id f v) (bf_al b) = None /\
  (declared_dynamic v = false -> sget f (bf_to b) = None /\ sget f (bf_from b) = None) /\
  NoDup (declared_id f v :: Al v) /\ forall a, In a (declared_id f v :: Al v) -> sget a (bf_names b) = None.
Definition typed (v : xv) : Prop :=
  if_given "frame_id" v is_string /\ if_given "dynamic" v is_bool /\
  if declared_dynamic v then forall k, In k incompatible -> member k v = None else struct v /\ if_given "lookup_tf" v is_bool /\ if_given "aliases" v strings.
Lemma enter_ok f v pre p b b' t : enter f v pre p b = Ok (b', t) <->
  typed v /\ fresh f v b /\ b' = after f v t b /\ (if declared_dynamic v then t = None else exists u, found ((f, declared_id f v) :: bf_ids b) p f v u /\ t = Some (imul pre u)).
Proof.
  unfold BfModel.enter, typed, fresh, after, Al, declared_lookup. rewrite rbind_ok. split.
  - intros (id & E & H). apply node_id_ok in E. destruct E as [TI ->]. apply rbind_ok in H. destruct H as (b1 & E & H). unfold add_frame_strings in E. apply rbind_ok in E. destruct E as (i & E1 & E). apply rbind_ok in E. destruct E as (n & E2 & [= <-]).
    apply emplace_ok in E1, E2. destruct E1 as [E1 ->], E2 as [E2 ->]. apply rbind_ok in H. destruct H as (d & D & H). apply flag_ok in D. destruct D as [TD ->]. fold (declared_dynamic v) in H. apply rbind_ok in H. destruct H as (dm & E & H). apply emplace_ok in E. destruct E as [E3 ->].
    cbn [set_strings bf_dyn] in E3, H. destruct (declared_dynamic v) eqn:Dy; cbn [negb andb] in *.
    + destruct (existsb _ incompatible) eqn:EI; [discriminate|]. apply rbind_ok in H. destruct H as (lm & E & H). apply emplace_ok in E. destruct E as [E4 ->]. apply rbind_ok in H. destruct H as (am & E & [= <- <-]). apply emplace_ok in E. destruct E as [E5 ->]. cbn in E4, E5.
      split.
      { split; [exact TI|]. split; [exact TD|]. intros k I. destruct (member k v) eqn:M; [|reflexivity]. assert (X : existsb (fun k => match member k v with Some _ => true | None => false end) incompatible = true) by (apply existsb_exists; exists k; rewrite M; auto). rewrite EI in X. discriminate. }
      split.
      { do 4 (split; [assumption|]). split; [discriminate|]. split; [constructor; [intros []|constructor]|]. intros a [<-|[]]. exact E2. }
      split; reflexivity.
    + apply rbind_ok in H. destruct H as ([b3 u] & H1 & H). apply from_node_ok in H1. destruct H1 as (ST & LT & E4 & -> & FO). apply rbind_ok in H. destruct H as (b4 & H2 & H). unfold add_frame_transforms in H2.
      apply rbind_ok in H2. destruct H2 as (m1 & M1 & H2). apply rbind_ok in H2. destruct H2 as (m2 & M2 & [= <-]). apply emplace_ok in M1, M2. destruct M1 as [M1 ->], M2 as [M2 ->].
      apply rbind_ok in H. destruct H as ([b5 al] & H3 & H). apply node_aliases_ok in H3. destruct H3 as (AT & -> & ND & FR & ->). apply rbind_ok in H. destruct H as (am & E & [= <- <-]). apply emplace_ok in E. destruct E as [E5 ->]. cbn in E4, E5, FO, FR, M1, M2.
      split; [do 4 (split; [assumption|]); assumption|]. split.
      { do 4 (split; [assumption|]). split; [auto|]. split.
        - constructor; [|exact ND]. intros I. specialize (FR _ I). rewrite String.eqb_refl in FR. discriminate.
        - intros a [<-|I]; [exact E2|]. specialize (FR _ I). destruct (String.eqb a (declared_id f v)); [discriminate|exact FR]. }
      split; [reflexivity|]. exists u. split; [exact FO|reflexivity].
  - intros ((TI & TD & TY) & (F1 & F2 & F3 & F4 & F5 & ND & FR) & -> & T). exists (declared_id f v). split; [apply node_id_ok; auto|]. apply rbind_ok. eexists. split.
    { unfold add_frame_strings. apply rbind_ok. eexists. split; [apply emplace_ok; split; [exact F1|reflexivity]|]. apply rbind_ok. eexists. split; [apply emplace_ok; split; [apply FR; left; reflexivity|reflexivity]|reflexivity]. }
    apply rbind_ok. exists (declared_dynamic v). split; [apply flag_ok; auto|]. apply rbind_ok. eexists. split; [apply emplace_ok; split; [exact F2|reflexivity]|]. destruct (declared_dynamic v) eqn:Dy; cbn [negb andb] in *.
    + subst t. replace (existsb _ incompatible) with false. 2:{ symmetry. apply not_true_is_false. intros X. apply existsb_exists in X. destruct X as (k & I & M). rewrite (TY k I) in M. discriminate. }
      apply rbind_ok. eexists. split; [apply emplace_ok; split; [exact F3|reflexivity]|]. apply rbind_ok. eexists. split; [apply emplace_ok; split; [exact F4|reflexivity]|]. reflexivity.
    + destruct T as (u & FO & ->). destruct TY as (ST & LT & AT). destruct (F5 eq_refl) as [M1 M2]. apply rbind_ok. eexists (_, u). split; [apply from_node_ok; do 2 (split; [assumption|]); split; [exact F3|]; split; [reflexivity|exact FO]|].
      apply rbind_ok. eexists. split. { unfold add_frame_transforms. apply rbind_ok. eexists. split; [apply emplace_ok; split; [exact M1|reflexivity]|]. apply rbind_ok. eexists. split; [apply emplace_ok; split; [exact M2|reflexivity]|reflexivity]. }
      inversion ND as [|? ? N1 N2]; subst. apply rbind_ok. eexists (_, declared_aliases v). split.
      { apply node_aliases_ok. split; [exact AT|]. split; [reflexivity|]. split; [exact N2|]. split; [|reflexivity]. cbn. intros a I. destruct (String.eqb_spec a (declared_id f v)) as [->|]; [contradiction|]. apply FR. right. exact I. }
      apply rbind_ok. eexists. split; [apply emplace_ok; split; [exact F4|reflexivity]|]. reflexivity.
Qed.

(* all entries, in the order of the listing; the transform of the parent is the one stored *)
Definition frames_typed (v : xv) : bool := match member "frames" v with None | Some (XStruct _) => true | Some _ => false end.
Definition step (e : string * xv * string) (b : frames) : res frames :=
  let '(f, v, p) := e in rbind (at_ p (bf_to b)) (fun pre => rbind (enter f v pre p b) (fun '(b', _) => if frames_typed v then Ok b' else Throw)).
Fixpoint run (l : list (string * xv * string)) (b : frames) : res frames := match l with [] => Ok b | e :: r => rbind (step e b) (run r) end.
Lemma run_app l l' b : run (l ++ l') b = rbind (run l b) (run l'). Proof. revert b. induction l as [|e l IH]; intros b; cbn; [reflexivity|]. destruct (step e b); cbn; auto. Qed.
Lemma after_to f v t b x y : (t <> None -> sget f (bf_to b) = None) -> sget x (bf_to b) = Some y -> sget x (bf_to (after f v t b)) = Some y.
Proof. intros F H. unfold after. cbn [bf_to]. destruct t as [t|]; [|exact H]. rewrite sget_cons. destruct (String.eqb_spec x f) as [->|]; [|exact H]. rewrite F in H by congruence. discriminate. Qed.
Lemma step_to e b b' x y : step e b = Ok b' -> sget x (bf_to b) = Some y -> sget x (bf_to b') = Some y.
Proof.
  destruct e as [[f v] p]. cbn [step]. intros H G. apply rbind_ok in H. destruct H as (pre & P & H). apply rbind_ok in H. destruct H as ([b1 t] & E & H). destruct (frames_typed v); [|discriminate]. injection H as <-.
  apply enter_ok in E. destruct E as (_ & F & -> & T). apply after_to; [|exact G]. intros NE. destruct F as (_ & _ & _ & _ & F & _). destruct (declared_dynamic v); [congruence|]. apply F. reflexivity.
Qed.
Lemma run_to l : forall b b' x y, run l b = Ok b' -> sget x (bf_to b) = Some y -> sget x (bf_to b') = Some y.
Proof. induction l as [|e l IH]; cbn; intros b b' x y H G; [injection H as <-; exact G|]. apply rbind_ok in H. destruct H as (b1 & E & H). eapply IH; [exact H|]. eapply step_to; eassumption. Qed.
Lemma process_run v : forall f p pre b, sget p (bf_to b) = Some pre -> process_frame v f pre p b = run (listing v f p) b.
Proof.
  induction v as [v IH] using tree_ind. intros f p pre b G. rewrite process_frame_eq, listing_eq. cbn [run step]. unfold at_. rewrite G. cbn [rbind].
  destruct (enter f v pre p b) as [[b' t]| |] eqn:E; try reflexivity. apply enter_ok in E. destruct E as ((_ & _ & TY) & _ & -> & T). cbn [rbind]. destruct (declared_dynamic v).
  - subst t. unfold frames_typed, children. rewrite (TY "frames") by (cbn; auto 6). cbn. reflexivity.
  - destruct T as (u & _ & ->). set (b1 := after _ _ _ b). assert (G1 : sget f (bf_to b1) = Some (imul pre u)) by (unfold b1, after; cbn [bf_to]; rewrite sget_cons, String.eqb_refl; reflexivity). clearbody b1. unfold frames_typed. unfold children in *.
    destruct (member "frames" v) as [w|]; [|cbn; reflexivity]. destruct w as [| | | | | |l]; try reflexivity. cbn [BfModel.process_frames]. cbn [rbind].
    revert b1 G1. induction l as [|[n x] l IHl]; intros b1 G1; [reflexivity|]. cbn [BfModel.process_list listings]. rewrite run_app. rewrite (IH n x (or_introl eq_refl) n f _ b1 G1).
    destruct (run (listing x n f) b1) as [b2| |] eqn:R; try reflexivity. cbn [rbind]. apply IHl; [intros k w I; apply (IH k w); right; exact I|]. eapply run_to; eassumption.
Qed.
Lemma process_list_run l f pre : forall b, sget f (bf_to b) = Some pre -> process_list pre f l b = run (listings f l) b.
Proof.
  induction l as [|[n x] l IHl]; intros b G; [reflexivity|]. cbn [BfModel.process_list listings]. rewrite run_app, (process_run _ _ _ _ _ G). destruct (run (listing x n f) b) as [b2| |] eqn:R; try reflexivity. cbn [rbind]. apply IHl. eapply run_to; eassumption.
Qed.
End Load.
