From Coq Require Import String List ZArith Bool Lia.
From Verif Require Import Base FcModel FcSpec.
Import ListNotations.
Open Scope Z_scope.
Open Scope list_scope.

Section Proofs.
Context {D F : Type}.
Variable decode : string -> F -> option (body D).
Variable encode : string -> body D -> option F.
Notation st := (st D F). Notation event := (event D F).
Notation load := (load D F decode). Notation save := (save D F encode). Notation step := (step D F decode encode). Notation run := (run D F decode encode).

Lemma micro_ok now b fr : stamped_now now (Cloud D (micro now) fr b).
Proof.
  unfold stamped_now, micro. cbn. split; [pose proof (Z.div_mod now 1000 ltac:(lia)); pose proof (Z.mod_pos_bound now 1000 ltac:(lia)); lia|apply Z.mod_mul; lia].
Qed.
Lemma count_points b : count D b = points b mod 2 ^ 32.
Proof. unfold count, points. rewrite Z.mul_comm. reflexivity. Qed.
(* one call of load *)
Theorem load_says now q (s : st) s' r : load now q s = (s', r) ->
  files D F s' = files D F s /\
  (forall b, holds decode (files D F s) (l_path q) b ->
     r = Some (points b mod 2 ^ 32) /\ exists c, sent D F s' = sent D F s ++ [(l_topic q, c)] /\ c_body D c = b /\ c_frame D c = l_frame q /\ stamped_now now c) /\
  ((forall b, ~ holds decode (files D F s) (l_path q) b) -> r = None /\ sent D F s' = sent D F s).
Proof.
  unfold FcModel.load. cbv zeta. set (s1 := match find_pub _ _ with Some _ => _ | None => _ end). intros E.
  assert (Ef : files D F s1 = files D F s) by (subst s1; destruct (find_pub _ _); reflexivity).
  assert (Es : sent D F s1 = sent D F s) by (subst s1; destruct (find_pub _ _); reflexivity).
  rewrite Ef in E. unfold holds. destruct (files D F s (l_path q)) as [f|] eqn:Ex.
  2:{ injection E as <- <-. split; [exact Ef|]. split; [intros b (f & X & _); discriminate X|]. auto. }
  destruct (decode (l_path q) f) as [b|] eqn:Ed; injection E as <- <-.
  - cbn [FcModel.files FcModel.sent]. split; [reflexivity|]. split.
    + intros b' (f' & [= <-] & X). rewrite Ed in X. injection X as <-. split; [rewrite count_points; reflexivity|]. rewrite Es. eexists. split; [reflexivity|]. split; [reflexivity|]. split; [reflexivity|]. apply micro_ok.
    + intros H. destruct (H b). exists f. auto.
  - split; [exact Ef|]. split; [|auto]. intros b (f' & [= <-] & X). congruence.
Qed.
Theorem count_exact (b : body D) : uint32 (b_w D b) -> uint32 (b_h D b) -> (points b mod 2 ^ 32 = points b <-> points b < 2 ^ 32).
Proof.
  unfold uint32, points. intros A B. split; [intros <-; apply Z.mod_pos_bound; lia|]. intros H. apply Z.mod_small. split; [apply Z.mul_nonneg_nonneg; lia|exact H].
Qed.

(* one call of save *)
Theorem save_says a o l q (s : st) s' r : save a o l q s = (s', r) ->
  pubs D F s' = pubs D F s /\ sent D F s' = sent D F s /\ (forall p, p <> s_path q -> files D F s' p = files D F s p) /\
  (forall n, r = Some n -> exists c, wait D F s (s_topic q) a o = Some c /\ n = points (c_body D c) mod 2 ^ 32 /\
     (reads_back decode encode -> holds decode (files D F s') (s_path q) (c_body D c))) /\
  (r = None <-> wait D F s (s_topic q) a o = None \/ exists c, wait D F s (s_topic q) a o = Some c /\ encode (s_path q) (c_body D c) = None).
Proof.
  unfold FcModel.save. destruct (wait D F s (s_topic q) a o) as [c|].
  2:{ intros [= <- <-]. split; [reflexivity|]. split; [reflexivity|]. split; [reflexivity|]. split; [discriminate|]. split; auto. }
  destruct (encode (s_path q) (c_body D c)) as [f|] eqn:E; intros [= <- <-]; cbn; (split; [reflexivity|]); (split; [reflexivity|]);
  (split; [intros p N; unfold set_file; destruct (String.eqb_spec (s_path q) p); [congruence|reflexivity]|]).
  - split.
    + intros n [= <-]. exists c. split; [reflexivity|]. split; [rewrite count_points; reflexivity|]. intros RB. exists f. split; [cbn; unfold set_file; rewrite String.eqb_refl; reflexivity|]. apply RB. exact E.
    + split; [discriminate|]. intros [X|(c' & [= <-] & X)]; [discriminate X|congruence].
  - split; [discriminate|]. split; [|reflexivity]. intros _. right. exists c. auto.
Qed.

(* what save waits for *)
Theorem wait_says (s : st) t a o : (forall c, wait D F s t a o = Some c -> a = Some c \/ latched D F s t = Some c) /\
  (wait D F s t a o = None <-> a = None /\ latched D F s t = None).
Proof. unfold wait. destruct (latched D F s t) as [c|], a as [c'|]; try destruct o; (split; [intros ? X|split; [intros X|intros [X Y]]]); try discriminate; auto. Qed.

(* the publisher of a topic keeps the flag of the first request *)
Lemma find_app t l m : find_pub t (l ++ m) = match find_pub t l with Some b => Some b | None => find_pub t m end.
Proof. induction l as [|[t' b] l IH]; cbn; [reflexivity|]. destruct (String.eqb t t'); [reflexivity|exact IH]. Qed.
Lemma load_pubs now q (s : st) : pubs D F (fst (load now q s)) = match find_pub (l_topic q) (pubs D F s) with Some _ => pubs D F s | None => pubs D F s ++ [(l_topic q, l_latch q)] end.
Proof.
  unfold FcModel.load. cbv zeta. destruct (find_pub (l_topic q) (pubs D F s)); cbn; destruct (files D F s (l_path q)) as [f|]; try reflexivity; destruct (decode (l_path q) f); reflexivity.
Qed.
Lemma save_pubs a o l q (s : st) : pubs D F (fst (save a o l q s)) = pubs D F s.
Proof. unfold FcModel.save. destruct (wait _ _ _ _ _ _); [|reflexivity]. destruct (encode _ _); reflexivity. Qed.
Lemma pub_kept h : forall (s : st) t b, find_pub t (pubs D F s) = Some b -> find_pub t (pubs D F (fst (run h s))) = Some b.
Proof.
  induction h as [|e h IH]; intros s t b H; [exact H|]. cbn [FcModel.run]. destruct (step e s) as [s1 r] eqn:E. specialize (IH s1 t b). destruct (run h s1) as [s2 l]. apply IH.
  destruct e as [now q|a o l0 q|g]; cbn [FcModel.step] in E.
  - pose proof (load_pubs now q s) as P. rewrite E in P. cbn in P. rewrite P. destruct (find_pub (l_topic q) (pubs D F s)); [exact H|]. rewrite find_app, H. reflexivity.
  - pose proof (save_pubs a o l0 q s) as P. rewrite E in P. cbn in P. rewrite P. exact H.
  - injection E as <- <-. exact H.
Qed.
Lemma pub_none h : forall (s : st) t, find_pub t (pubs D F s) = None -> forall b, find_pub t (pubs D F (fst (run h s))) = Some b <-> first_latch t h b.
Proof.
  induction h as [|e h IH]; intros s t H b.
  - cbn. rewrite H. split; [discriminate|]. inversion 1.
  - cbn [FcModel.run]. destruct (step e s) as [s1 r] eqn:E. pose proof (IH s1 t) as IHs. pose proof (pub_kept h s1 t) as K. destruct (run h s1) as [s2 l]. cbn in *.
    destruct e as [now q|a o l0 q|g]; cbn [FcModel.step] in E.
    + pose proof (load_pubs now q s) as P. rewrite E in P. cbn in P. destruct (string_dec (l_topic q) t) as [e|n].
      * assert (X : find_pub t (pubs D F s1) = Some (l_latch q)).
        { rewrite P. rewrite e. rewrite H. rewrite find_app, H. cbn. rewrite String.eqb_refl. reflexivity. }
        apply K in X. rewrite X. split; [intros [= <-]; constructor; exact e|]. inversion 1; subst; [reflexivity|contradiction].
      * rewrite IHs. { split; [intros G; constructor; assumption|]. inversion 1; subst; [contradiction|assumption]. }
        rewrite P. destruct (find_pub (l_topic q) (pubs D F s)); [exact H|]. rewrite find_app, H. cbn. destruct (String.eqb_spec t (l_topic q)); [congruence|reflexivity].
    + pose proof (save_pubs a o l0 q s) as P. rewrite E in P. cbn in P. rewrite IHs by (rewrite P; exact H). split; [intros G; constructor; exact G|inversion 1; assumption].
    + injection E as <- <-. rewrite IHs by exact H. split; [intros G; constructor; exact G|inversion 1; assumption].
Qed.
Lemma last_on_iff t (l : list (string * cloud D)) c : last_on D t l = Some c <-> last_message t l c.
Proof.
  revert c. induction l as [|[t' x] l IH]; intros c; cbn.
  - split; [discriminate|]. intros (l1 & l2 & E & _). destruct l1; discriminate E.
  - destruct (last_on D t l) as [c'|] eqn:E.
    + destruct (proj1 (IH c') eq_refl) as (l1 & l2 & -> & N). split.
      * intros [= <-]. exists ((t', x) :: l1), l2. split; [reflexivity|exact N].
      * intros (m1 & m2 & Em & Nm). destruct m1 as [|y m1]; cbn in Em.
        { injection Em as <- <- Em. destruct (Nm c'). rewrite <- Em. apply in_or_app. right. left. reflexivity. }
        injection Em as <- Em. apply IH. exists m1, m2. auto.
    + assert (Nl : forall c', ~ In (t, c') l).
      { intros c' I. apply in_split in I. clear -E I. destruct I as (l1 & l2 & ->). induction l1 as [|[a b] l1 IHl]; cbn in E.
        - destruct (last_on D t l2); [discriminate E|]. rewrite String.eqb_refl in E. discriminate E.
        - destruct (last_on D t (l1 ++ (t, c') :: l2)); [discriminate E|]. apply IHl. reflexivity. }
      destruct (String.eqb_spec t t') as [<-|n].
      * split; [intros [= <-]; exists [], l; split; [reflexivity|exact Nl]|]. intros (m1 & m2 & Em & Nm). destruct m1 as [|y m1]; cbn in Em; injection Em.
        { intros _ <-. reflexivity. }
        intros Em' _. destruct (Nl c). rewrite Em'. apply in_or_app. right. left. reflexivity.
      * split; [discriminate|]. intros (m1 & m2 & Em & Nm). destruct m1 as [|y m1]; cbn in Em; injection Em; [congruence|].
        intros Em' _. destruct (Nl c). rewrite Em'. apply in_or_app. right. left. reflexivity.
Qed.
(* who subscribes after a history receives the last message on the topic, if the first request for it asked for that, otherwise nothing *)
Theorem late_subscriber h g t c : latched D F (fst (run h (start D F g))) t = Some c <->
  first_latch t h true /\ last_message t (sent D F (fst (run h (start D F g)))) c.
Proof.
  unfold latched. rewrite <- (pub_none h (start D F g) t eq_refl true). destruct (find_pub t _) as [[]|]; [rewrite last_on_iff| |].
  - split; [auto|intros [_ H]; exact H].
  - split; [discriminate|intros [X _]; discriminate X].
  - split; [discriminate|intros [X _]; discriminate X].
Qed.

(* messages and answers correspond, in order *)
Theorem one_message_per_answer h : forall (s : st), exists l, sent D F (fst (run h s)) = sent D F s ++ l /\ Forall2 answers (filter answered (snd (run h s))) l.
Proof.
  induction h as [|e h IH]; intros s; [exists []; split; [symmetry; apply app_nil_r|constructor]|].
  cbn [FcModel.run]. destruct (step e s) as [s1 r] eqn:E. specialize (IH s1). destruct (run h s1) as [s2 l]. destruct IH as (m & Em & Hm). cbn [fst snd] in *.
  destruct e as [now q|a o l0 q|g]; cbn [FcModel.step] in E.
  - destruct (load_says now q s s1 r E) as (_ & A & B).
    destruct (files D F s (l_path q)) as [f|] eqn:Ef; [destruct (decode (l_path q) f) as [b|] eqn:Ed|].
    + destruct (A b) as (-> & c & Es & Eb & Efr & Est); [exists f; auto|]. exists ((l_topic q, c) :: m). rewrite Em, Es, <- app_assoc. split; [reflexivity|].
      cbn. constructor; [|exact Hm]. cbn. rewrite Eb. auto.
    + destruct B as [-> Es]; [intros b (f' & X & Y); congruence|]. exists m. rewrite Em, Es. split; [reflexivity|exact Hm].
    + destruct B as [-> Es]; [intros b (f' & X & Y); congruence|]. exists m. rewrite Em, Es. split; [reflexivity|exact Hm].
  - destruct (save_says a o l0 q s s1 r E) as (_ & Es & _). exists m. rewrite Em, Es. split; [reflexivity|exact Hm].
  - injection E as <- <-. exists m. split; [exact Em|exact Hm].
Qed.

(* a cloud loaded for a latching topic and saved from it, nobody else publishing on it *)
Theorem load_then_save h g now q b n o l p n' s1 s2 :
  reads_back decode encode -> first_latch (l_topic q) (h ++ [ELoad D F now q]) true -> holds decode (files D F (fst (run h (start D F g)))) (l_path q) b ->
  load now q (fst (run h (start D F g))) = (s1, Some n) -> save None o l (SaveReq p (l_topic q)) s1 = (s2, Some n') ->
  holds decode (files D F s2) p b /\ n = n'.
Proof.
  intros RB Hf Hb El Es. set (s := fst (run h (start D F g))) in *.
  destruct (load_says now q s s1 _ El) as (_ & A & _). destruct (A b Hb) as ([= ->] & c & Ec & Eb & _ & _).
  destruct (save_says None o l _ s1 s2 _ Es) as (_ & _ & _ & B & _). destruct (B n' eq_refl) as (c' & Ew & -> & Hc). specialize (Hc RB).
  assert (Lt : latched D F s1 (l_topic q) = Some c).
  { assert (Er : fst (run (h ++ [ELoad D F now q]) (start D F g)) = s1).
    { clear -El. subst s. revert El. generalize (start D F g). induction h as [|e h IH]; intros s El; cbn in *; [rewrite El; reflexivity|].
      destruct (step e s) as [s' r]. specialize (IH s'). destruct (run h s') as [s'' l]. cbn in *. destruct (run (h ++ [ELoad D F now q]) s') as [s3 l3]. cbn in *. apply IH. exact El. }
    rewrite <- Er. apply late_subscriber. split; [exact Hf|]. rewrite Er, Ec. exists (sent D F s), []. split; [reflexivity|]. intros ? []. }
  cbn [s_topic s_path] in *. unfold wait in Ew. rewrite Lt in Ew. injection Ew as <-. rewrite Eb in *. auto.
Qed.
End Proofs.
