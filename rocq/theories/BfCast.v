(* Body frames: the static transforms that are broadcast. *)
From Coq Require Import ZArith Reals List Bool String Lia Permutation.
From Verif Require Import Base Interp Geo EgModel EgProofs BfModel BfSpec BfProofs BfLoad BfMain BfTheorems BfLaws.
Import ListNotations.
Open Scope string_scope.
Open Scope list_scope.

Lemma frames_in look b l : forall out, tf_of_frames look b l = Ok out -> forall x, In x out <-> exists f o, In f l /\ tf_of_frame look b f = Ok o /\ In x o.
Proof.
  induction l as [|f l IH]; cbn [tf_of_frames]; intros out H x.
  - injection H as <-. split; [intros []|intros (? & ? & [] & _)].
  - apply rbind_ok in H. destruct H as (o & E & H). apply rbind_ok in H. destruct H as (r & E' & [= <-]). rewrite in_app_iff, (IH r E'). split.
    + intros [I|(g & o' & I & E2 & J)]; [exists f, o; cbn; auto|exists g, o'; cbn; auto].
    + intros (g & o' & [<-|I] & E2 & J); [left; congruence|right; eauto].
Qed.
Lemma frames_exists look b l : (exists out, tf_of_frames look b l = Ok out) <-> forall f, In f l -> exists o, tf_of_frame look b f = Ok o.
Proof.
  induction l as [|f l IH]; cbn [tf_of_frames]; [split; [intros _ f []|eauto]|]. split.
  - intros [out H]. apply rbind_ok in H. destruct H as (o & E & H). apply rbind_ok in H. destruct H as (r & E' & _). intros g [<-|I]; [eauto|]. apply (proj1 IH); eauto.
  - intros H. destruct (H f (or_introl eq_refl)) as [o ->]. destruct (proj2 IH (fun g I => H g (or_intror I))) as [r ->]. cbn. eauto.
Qed.
Lemma frame_one look b f o : tf_of_frame look b f = Ok o <-> exists id bid al, frame_id b f = Ok id /\ body_frame_id b = Ok bid /\ aliases b id = Ok al /\
  (if String.eqb id bid then o = map (fun a => (id, a, iid)) al else exists k, lookedup_tf b f = Ok k /\
   if k then o = map (fun a => (id, a, iid)) al else exists t, body_to_frame look b f 0 = Ok t /\ o = (bid, id, t) :: map (fun a => (id, a, iid)) al).
Proof.
  unfold tf_of_frame. split.
  - intros H. apply rbind_ok in H. destruct H as (id & E & H). apply rbind_ok in H. destruct H as (bid & EB & H). apply rbind_ok in H. destruct H as (s & ES & H). apply rbind_ok in H. destruct H as (fi & EF & H). apply rbind_ok in H. destruct H as (al & EA & [= <-]).
    exists id, bid, al. do 3 (split; [assumption|]). destruct (String.eqb id bid).
    + injection ES as <-. injection EF as <-. reflexivity.
    + apply rbind_ok in ES. destruct ES as (k & EK & [= <-]). exists k. split; [exact EK|]. destruct k; cbn in EF; [injection EF as <-; reflexivity|]. apply rbind_ok in EF. destruct EF as (t & ET & [= <-]). eauto.
  - intros (id & bid & al & E & EB & EA & H). rewrite E, EB. cbn [rbind]. destruct (String.eqb id bid).
    + cbn [rbind]. rewrite EA, H. reflexivity.
    + destruct H as (k & EK & H). rewrite EK. cbn [rbind]. destruct k; cbn [negb rbind]; [rewrite EA, H; reflexivity|]. destruct H as (t & ET & ->). rewrite ET. cbn [rbind]. rewrite EA. reflexivity.
Qed.

Section Cast.
Variables (look look' : string -> string -> Z -> res iso) (body : string) (root : xv) (b : frames).
Hypothesis H : load look (XStruct [(body, root)]) = Ok b.
Let D := declared body root.
Definition sent_frame (p c : string) (t : iso) : Prop := p = declared_id body root /\ exists q f v, D q f v /\ c = declared_id f v /\ declared_lookup v = false /\
  if declared_dynamic v then look' p c 0%Z = Ok t else stands look body root f t.
Definition sent_alias (p c : string) (t : iso) : Prop := t = iid /\ exists q f v, D q f v /\ p = declared_id f v /\ declared_dynamic v = false /\ In c (declared_aliases v).

Lemma names_of : body_frame b = body /\ body_frame_id b = Ok (declared_id body root) /\
  (forall f, In f (frame_list b) <-> f = body \/ exists p v, D p f v) /\ NoDup (frame_list b) /\
  (forall f id, frame_id b f = Ok id <-> has_id body root f id) /\
  (forall f d, is_dynamic b f = Ok d <-> (f = body /\ d = false) \/ exists p v, D p f v /\ d = declared_dynamic v) /\
  (forall f d, lookedup_tf b f = Ok d <-> (f = body /\ d = false) \/ exists p v, D p f v /\ d = declared_lookup v) /\
  (forall i l, aliases b i = Ok l <-> (i = declared_id body root /\ l = []) \/ exists p f v, D p f v /\ i = declared_id f v /\ l = if declared_dynamic v then [] else declared_aliases v).
Proof.
  destruct (load_names _ _ _ H) as (body' & root' & [= <- <-] & A1 & A2 & A3 & A4 & A5 & A6 & A7 & A8 & A9 & A10). do 2 (split; [assumption|]). split; [intros f; rewrite A4; apply A3|]. auto 8.
Qed.
Lemma unique_of : (forall p f v, D p f v -> f <> body) /\ (forall p p' f v v', D p f v -> D p' f v' -> p = p' /\ v = v') /\
  (forall f g i, frame_id b f = Ok i -> frame_id b g = Ok i -> f = g) /\ (forall f i, frame_id b f = Ok i -> frame b i = Ok f /\ exists l, aliases b i = Ok l /\ forall a, In a l -> frame b a = Ok f /\ forall g, frame_id b g <> Ok a).
Proof. destruct (load_unique _ _ _ H) as (body' & root' & [= <- <-] & A). exact A. Qed.
Lemma value_of f v p t : D p f v -> body_to_frame look' b f 0 = Ok t <-> if declared_dynamic v then look' (declared_id body root) (declared_id f v) 0%Z = Ok t else stands look body root f t.
Proof.
  intros DD. destruct (load_transforms look look' _ _ H) as (body' & root' & [= <- <-] & A & _ & C). destruct names_of as (_ & _ & _ & _ & NI & ND & _). assert (E : is_dynamic b f = Ok (declared_dynamic v)) by (apply ND; right; eauto).
  assert (EI : frame_id b f = Ok (declared_id f v)) by (apply NI; right; eauto). destruct (declared_dynamic v).
  - destruct (C f 0%Z E) as (i & I & -> & _). rewrite EI in I. injection I as <-. reflexivity.
  - apply A. exact E.
Qed.
(* what one frame contributes *)
Lemma own_frame p f v o : D p f v -> tf_of_frame look' b f = Ok o <->
  let rest := map (fun a => (declared_id f v, a, iid)) (if declared_dynamic v then [] else declared_aliases v) in
  if declared_lookup v then o = rest else exists t, body_to_frame look' b f 0 = Ok t /\ o = (declared_id body root, declared_id f v, t) :: rest.
Proof.
  intros DD. destruct names_of as (_ & NB & _ & _ & NI & ND & NL & NA). destruct unique_of as (U1 & _ & U3 & _).
  assert (EI : frame_id b f = Ok (declared_id f v)) by (apply NI; right; eauto). assert (EL : lookedup_tf b f = Ok (declared_lookup v)) by (apply NL; right; eauto).
  assert (EA : aliases b (declared_id f v) = Ok (if declared_dynamic v then [] else declared_aliases v)) by (apply NA; right; exists p, f, v; auto).
  assert (NE : String.eqb (declared_id f v) (declared_id body root) = false).
  { destruct (String.eqb_spec (declared_id f v) (declared_id body root)) as [E|]; [|reflexivity]. exfalso. apply (U1 _ _ _ DD). apply (U3 f body (declared_id f v)); [exact EI|]. rewrite E. apply NI. left. auto. }
  rewrite frame_one, EI, NB, EL. split.
  - intros (id & bid & al & [= <-] & [= <-] & E & X). rewrite EA in E. injection E as <-. rewrite NE in X. destruct X as (k & [= <-] & X). exact X.
  - intros X. eexists _, _, _. do 2 (split; [reflexivity|]). split; [exact EA|]. rewrite NE. eexists. split; [reflexivity|]. exact X.
Qed.
Lemma own_body o : tf_of_frame look' b body = Ok o <-> o = [].
Proof.
  destruct names_of as (_ & NB & _ & _ & NI & ND & NL & NA). assert (EI : frame_id b body = Ok (declared_id body root)) by (apply NI; left; auto). assert (EA : aliases b (declared_id body root) = Ok []) by (apply NA; left; auto).
  rewrite frame_one, EI, NB. split.
  - intros (id & bid & al & [= <-] & [= <-] & E & X). rewrite EA in E. injection E as <-. rewrite String.eqb_refl in X. exact X.
  - intros ->. eexists _, _, _. do 2 (split; [reflexivity|]). split; [exact EA|]. rewrite String.eqb_refl. reflexivity.
Qed.
Lemma cast_in l : static_transforms look' b = Ok l -> forall p c t, In (p, c, t) l <-> sent_frame p c t \/ sent_alias p c t.
Proof.
  intros S p c t. unfold static_transforms in S. rewrite (frames_in _ _ _ _ S). destruct names_of as (_ & NB & NF & _). split.
  - intros (f & o & I & E & J). apply NF in I. destruct I as [->|(q & v & DD)]; [apply own_body in E; subst o; destruct J|]. apply (own_frame q f v) in E; [|exact DD]. cbn zeta in E.
    assert (R : In (p, c, t) (map (fun a => (declared_id f v, a, iid)) (if declared_dynamic v then [] else declared_aliases v)) -> sent_alias p c t).
    { intros K. apply in_map_iff in K. destruct K as (a & [= <- <- <-] & K). split; [reflexivity|]. exists q, f, v. destruct (declared_dynamic v); [destruct K|auto]. }
    destruct (declared_lookup v) eqn:EL; [subst o; right; auto|]. destruct E as (u & EU & ->). destruct J as [[= <- <- <-]|J]; [|right; auto]. left. split; [reflexivity|]. exists q, f, v. split; [exact DD|]. split; [reflexivity|]. split; [exact EL|]. apply (value_of f v q); assumption.
  - destruct (proj1 (frames_exists look' b (frame_list b)) (ex_intro _ l S)) with (f := body) as [? _]; [apply NF; left; reflexivity|]. pose proof (proj1 (frames_exists look' b (frame_list b)) (ex_intro _ l S)) as AL.
    intros [(-> & q & f & v & DD & -> & EL & V)|(-> & q & f & v & DD & -> & DY & I)].
    + apply (value_of f v q) in V; [|exact DD]. exists f, ((declared_id body root, declared_id f v, t) :: map (fun a => (declared_id f v, a, iid)) (if declared_dynamic v then [] else declared_aliases v)). split; [apply NF; right; exists q, v; exact DD|]. split; [|left; reflexivity].
      apply (own_frame q f v); [exact DD|]. cbn zeta. rewrite EL. eauto.
    + destruct (AL f) as [o E]; [apply NF; right; exists q, v; exact DD|]. exists f, o. split; [apply NF; right; exists q, v; exact DD|]. split; [exact E|]. apply (own_frame q f v) in E; [|exact DD]. cbn zeta in E. rewrite DY in E.
      assert (K : In (declared_id f v, c, iid) (map (fun a => (declared_id f v, a, iid)) (declared_aliases v))) by (apply in_map_iff; eauto). destruct (declared_lookup v); [subst o; exact K|]. destruct E as (? & _ & ->). right. exact K.
Qed.
Lemma cast_exists : (exists l, static_transforms look' b = Ok l) <-> forall q f v, D q f v -> declared_dynamic v = true -> exists t, look' (declared_id body root) (declared_id f v) 0%Z = Ok t.
Proof.
  unfold static_transforms. rewrite frames_exists. destruct names_of as (_ & NB & NF & _). split.
  - intros A q f v DD DY. destruct (A f) as [o E]; [apply NF; right; exists q, v; exact DD|]. apply (own_frame q f v) in E; [|exact DD]. cbn zeta in E. unfold declared_lookup in E. rewrite DY in E. cbn [negb andb] in E. destruct E as (t & E & _). apply (value_of f v q) in E; [|exact DD]. rewrite DY in E. eauto.
  - intros A f I. apply NF in I. destruct I as [->|(q & v & DD)]; [exists []; apply own_body; reflexivity|]. destruct (declared_lookup v) eqn:EL.
    + eexists. apply (own_frame q f v); [exact DD|]. cbn zeta. rewrite EL. reflexivity.
    + assert (V : exists t, body_to_frame look' b f 0 = Ok t).
      { destruct (declared_dynamic v) eqn:DY.
        - destruct (A q f v DD DY) as [t V]. exists t. apply (value_of f v q); [exact DD|]. rewrite DY. exact V.
        - destruct (load_transforms look look' _ _ H) as (? & ? & _ & _ & B & _). destruct (B f 0%Z) as (t & V & _); [|eauto]. destruct names_of as (_ & _ & _ & _ & _ & ND & _). apply ND. right. exists q, v. auto. }
      destruct V as [t V]. eexists. apply (own_frame q f v); [exact DD|]. cbn zeta. rewrite EL. eauto.
Qed.
(* every child is an identifier of one frame, once *)
Definition child (x : string * string * iso) : string := snd (fst x).
Lemma own_child f o : In f (frame_list b) -> tf_of_frame look' b f = Ok o -> forall x, In x o -> frame b (child x) = Ok f /\ child x <> declared_id body root.
Proof.
  destruct names_of as (_ & NB & NF & _ & NI & _). destruct unique_of as (U1 & U2 & U3 & U4). intros I E x J. apply NF in I. destruct I as [->|(q & v & DD)]; [apply own_body in E; subst o; destruct J|].
  assert (EI : frame_id b f = Ok (declared_id f v)) by (apply NI; right; eauto). assert (EB : frame_id b body = Ok (declared_id body root)) by (apply NI; left; auto).
  enough (Y : frame b (child x) = Ok f) by (split; [exact Y|]; intros Z; rewrite Z in Y; destruct (U4 _ _ EB) as [X _]; rewrite X in Y; injection Y as Y; exact (U1 _ _ _ DD (eq_sym Y))).
  destruct (U4 _ _ EI) as (F & l & EA & FA). assert (L : l = if declared_dynamic v then [] else declared_aliases v).
  { destruct names_of as (_ & _ & _ & _ & _ & _ & _ & NA). assert (X : aliases b (declared_id f v) = Ok (if declared_dynamic v then [] else declared_aliases v)) by (apply NA; right; exists q, f, v; auto). congruence. }
  apply (own_frame q f v) in E; [|exact DD]. cbn zeta in E. rewrite <- L in E. assert (K : In x (map (fun a => (declared_id f v, a, iid)) l) -> frame b (child x) = Ok f).
  { intros K. apply in_map_iff in K. destruct K as (a & <- & K). apply (FA a K). }
  destruct (declared_lookup v); [subst o; auto|]. destruct E as (t & _ & ->). destruct J as [<-|J]; [exact F|auto].
Qed.
Lemma own_nodup f o : In f (frame_list b) -> tf_of_frame look' b f = Ok o -> NoDup (map child o).
Proof.
  destruct names_of as (_ & NB & NF & _ & NI & _). intros I E. apply NF in I. destruct I as [->|(q & v & DD)]; [apply own_body in E; subst o; constructor|].
  apply (own_frame q f v) in E; [|exact DD]. cbn zeta in E. destruct (proj1 (load_iff look _) (ex_intro _ b H)) as (body' & root' & [= <- <-] & _ & _ & _ & _ & N & _).
  assert (X : NoDup (declared_id f v :: (if declared_dynamic v then [] else declared_aliases v))).
  { apply entries_declared in DD. unfold ids in N. inversion N as [|? ? _ N']. subst. clear - N' DD. induction (entries body root) as [|e l IH]; [destruct DD|]. cbn [flat_map] in N'. destruct DD as [->|DD].
    - cbn [fst snd] in N'. set (A := declared_id f v :: _) in *. clearbody A. clear - N'. induction A as [|a A IH]; [constructor|]. cbn in N'. inversion N'; subst. constructor; [|auto]. intros I. apply H1. apply in_or_app. auto.
    - apply IH; [exact DD|]. set (A := declared_id (fst (fst e)) _ :: _) in *. clearbody A. clear - N'. induction A as [|a A IH]; [exact N'|]. cbn in N'. inversion N'; subst. auto. }
  destruct (declared_lookup v).
  - subst o. rewrite map_map. cbn. rewrite map_id. inversion X. assumption.
  - destruct E as (t & _ & ->). cbn [map]. rewrite map_map. cbn. rewrite map_id. exact X.
Qed.
Lemma nodup_app {A} (l r : list A) : NoDup l -> NoDup r -> (forall x, In x l -> ~ In x r) -> NoDup (l ++ r).
Proof. induction l as [|a l IH]; cbn; intros N1 N2 X; [exact N2|]. inversion N1; subst. constructor; [|apply IH; auto]. rewrite in_app_iff. intros [I|I]; [auto|]. apply (X a); auto. Qed.
Lemma cast_nodup l : static_transforms look' b = Ok l -> NoDup (map child l) /\ ~ In (declared_id body root) (map child l).
Proof.
  unfold static_transforms. destruct names_of as (_ & _ & _ & ND & _). intros S. split.
  - assert (G : forall fs, NoDup fs -> (forall f, In f fs -> In f (frame_list b)) -> forall r, tf_of_frames look' b fs = Ok r -> NoDup (map child r)).
    { induction fs as [|f fs IH]; cbn [tf_of_frames]; intros N SUB r0 S0; [injection S0 as <-; constructor|]. apply rbind_ok in S0. destruct S0 as (o & E & S0). apply rbind_ok in S0. destruct S0 as (r & E' & [= <-]). inversion N as [|? ? N1 N2]; subst.
      rewrite map_app. apply nodup_app; [eapply own_nodup; [apply SUB; left; reflexivity|exact E]|apply IH; auto; intros g I; apply SUB; right; exact I|].
      intros c I J. apply in_map_iff in I, J. destruct I as (x & EX & I), J as (y & EY & J). apply (frames_in _ _ _ _ E') in J. destruct J as (g & o' & IG & EG & J). destruct (own_child f o (SUB f (or_introl eq_refl)) E x I) as [F1 _]. destruct (own_child g o' (SUB g (or_intror IG)) EG y J) as [F2 _]. rewrite EX in F1. rewrite EY in F2. rewrite F1 in F2. injection F2 as ->. auto. }
    exact (G (frame_list b) ND (fun f I => I) l S).
  - intros I. apply in_map_iff in I. destruct I as (x & EX & I). apply (frames_in _ _ _ _ S) in I. destruct I as (f & o & IF & E & J). destruct (own_child f o IF E x J) as [_ X]. auto.
Qed.
End Cast.

Theorem broadcast look look' cfg b : load look cfg = Ok b -> exists body root, cfg = XStruct [(body, root)] /\
  ((exists l, static_transforms look' b = Ok l) <-> forall q f v, declared body root q f v -> declared_dynamic v = true -> exists t, look' (declared_id body root) (declared_id f v) 0%Z = Ok t) /\
  forall l, static_transforms look' b = Ok l -> NoDup (map child l) /\ ~ In (declared_id body root) (map child l) /\
    forall p c t, In (p, c, t) l <-> sent_frame look look' body root p c t \/ sent_alias body root p c t.
Proof.
  intros H. destruct (load_names _ _ _ H) as (body & root & -> & _). exists body, root. split; [reflexivity|]. split; [apply (cast_exists look); exact H|]. intros l S. destruct (cast_nodup look look' body root b H l S). split; [assumption|]. split; [assumption|]. intros p c t. apply (cast_in look look' body root b H l S).
Qed.
