(* Body frames: names, transforms, laws, refusals, static broadcast. *)
From Coq Require Import ZArith Reals List Bool String Lia Lra Permutation.
From Verif Require Import Base Interp Geo EgModel EgProofs BfModel BfSpec BfProofs BfLoad BfMain.
Import ListNotations.
Open Scope string_scope.
Open Scope list_scope.

Lemma nodup_at {A} k (a : A) m : NoDup (map fst m) -> (at_ k m = Ok a <-> In (k, a) m).
Proof. intros N. rewrite at_ok. split; [apply sget_In|apply In_sget; exact N]. Qed.
Lemma at_throw {A} k (m : smap A) : at_ k m = Throw <-> ~ In k (map fst m).
Proof. unfold at_. rewrite <- sget_None. destruct (sget k m); split; congruence. Qed.

Section Facts.
Variable look : string -> string -> Z -> res iso.
Variable body : string.
Variable root : xv.
Variable b : frames.
Notation bid := (declared_id body root).
Notation ent := (entries body root).
Hypothesis R : rep look body root ent b.

Lemma R_names_dom : map fst (bf_ids b) = map nm (rev ent) ++ [body]. Proof. rewrite (r_ids _ _ _ _ _ R), map_app, map_map. reflexivity. Qed.
Lemma R_dyn_dom : map fst (bf_dyn b) = map nm (rev ent) ++ [body]. Proof. rewrite (r_dyn _ _ _ _ _ R), map_app, map_map. reflexivity. Qed.
Lemma R_look_dom : map fst (bf_look b) = map nm (rev ent) ++ [body]. Proof. rewrite (r_look _ _ _ _ _ R), map_app, map_map. reflexivity. Qed.
Lemma R_nd : NoDup (map nm (rev ent) ++ [body]). Proof. rewrite <- R_names_dom. apply (r_nd1 _ _ _ _ _ R). Qed.
Lemma R_body_new e : In e ent -> nm e <> body.
Proof. intros I E. pose proof R_nd as N. apply NoDup_remove_2 in N. rewrite app_nil_r in N. apply N. apply in_rev in I. apply (in_map nm) in I. rewrite E in I. exact I. Qed.
Lemma R_unique e e' : In e ent -> In e' ent -> nm e = nm e' -> e = e'.
Proof.
  intros I I' E. pose proof R_nd as N. apply NoDup_remove_1 in N. rewrite app_nil_r in N. apply in_rev in I, I'. revert N I I'. generalize (rev ent). intros l N I I'.
  induction l as [|x l IH]; [destruct I|]. cbn in N. inversion N as [|? ? N1 N2]; subst. destruct I as [->|I], I' as [->|I']; auto.
  - exfalso. apply N1. rewrite E. apply in_map. exact I'.
  - exfalso. apply N1. rewrite <- E. apply in_map. exact I.
Qed.
Lemma R_id f id : frame_id b f = Ok id <-> has_id body root f id.
Proof.
  unfold frame_id. rewrite nodup_at by apply (r_nd1 _ _ _ _ _ R). rewrite (r_ids _ _ _ _ _ R), in_app_iff, in_map_iff. unfold has_id. split.
  - intros [(e & [= <- <-] & I)|[[= <- <-]|[]]]; [right|left; auto]. destruct e as [[g v] p]. exists p, v. split; [apply entries_declared; apply in_rev; exact I|reflexivity].
  - intros [[-> ->]|(p & v & D & ->)]; [right; left; reflexivity|left]. exists (f, v, p). split; [reflexivity|]. apply in_rev. rewrite rev_involutive. apply entries_declared. exact D.
Qed.
Lemma R_dyn f d : is_dynamic b f = Ok d <-> (f = body /\ d = false) \/ exists p v, declared body root p f v /\ d = declared_dynamic v.
Proof.
  unfold is_dynamic. rewrite nodup_at by (rewrite R_dyn_dom; apply R_nd). rewrite (r_dyn _ _ _ _ _ R), in_app_iff, in_map_iff. split.
  - intros [(e & [= <- <-] & I)|[[= <- <-]|[]]]; [right|left; auto]. destruct e as [[g v] p]. exists p, v. split; [apply entries_declared; apply in_rev; exact I|reflexivity].
  - intros [[-> ->]|(p & v & D & ->)]; [right; left; reflexivity|left]. exists (f, v, p). split; [reflexivity|]. apply in_rev. rewrite rev_involutive. apply entries_declared. exact D.
Qed.
Lemma R_look f d : lookedup_tf b f = Ok d <-> (f = body /\ d = false) \/ exists p v, declared body root p f v /\ d = declared_lookup v.
Proof.
  unfold lookedup_tf. rewrite nodup_at by (rewrite R_look_dom; apply R_nd). rewrite (r_look _ _ _ _ _ R), in_app_iff, in_map_iff. split.
  - intros [(e & [= <- <-] & I)|[[= <- <-]|[]]]; [right|left; auto]. destruct e as [[g v] p]. exists p, v. split; [apply entries_declared; apply in_rev; exact I|reflexivity].
  - intros [[-> ->]|(p & v & D & ->)]; [right; left; reflexivity|left]. exists (f, v, p). split; [reflexivity|]. apply in_rev. rewrite rev_involutive. apply entries_declared. exact D.
Qed.
Lemma R_frame i f : frame b i = Ok f <-> (i = bid /\ f = body) \/ exists p v, declared body root p f v /\ (i = declared_id f v \/ In i (Al v)).
Proof.
  unfold frame. rewrite nodup_at by apply (r_nd2 _ _ _ _ _ R). rewrite (r_names _ _ _ _ _ R), in_app_iff, in_flat_map. split.
  - intros [(e & I & H)|[[= <- <-]|[]]]; [right|left; auto]. destruct e as [[g v] p]. cbn [nm nd fst snd] in H. apply in_rev in I. apply in_app_or in H. unfold eid in H. cbn [nm nd fst snd] in H. destruct H as [H|[[= <- <-]|[]]].
    + apply in_rev in H. apply in_map_iff in H. destruct H as (a & [= <- <-] & H). exists p, v. split; [apply entries_declared; exact I|right; exact H].
    + exists p, v. split; [apply entries_declared; exact I|left; reflexivity].
  - intros [[-> ->]|(p & v & D & H)]; [right; left; reflexivity|left]. exists (f, v, p). split; [apply in_rev; rewrite rev_involutive; apply entries_declared; exact D|]. cbn [nm nd fst snd]. unfold eid. cbn [nm nd fst snd]. apply in_or_app.
    destruct H as [->|H]; [right; left; reflexivity|left]. apply in_rev. rewrite rev_involutive. apply in_map_iff. exists i. auto.
Qed.
Lemma R_al_nd : NoDup (map fst (bf_al b)).
Proof.
  rewrite (r_al _ _ _ _ _ R), map_app, map_map. cbn [map fst]. pose proof (r_nd2 _ _ _ _ _ R) as N. rewrite (r_names _ _ _ _ _ R), map_app in N. cbn [map fst] in N. revert N. generalize (rev ent). intros l N.
  induction l as [|e l IH]; [exact N|]. cbn [flat_map map app] in *. rewrite map_app, <- app_assoc in N. rewrite map_app, <- app_assoc in N.
  assert (N' : NoDup (eid e :: map fst (flat_map (fun e => rev (map (fun a => (a, nm e)) (Al (nd e))) ++ [(eid e, nm e)]) l) ++ [bid])).
  { clear IH. revert N. generalize (map fst (rev (map (fun a => (a, nm e)) (Al (nd e))))). intros q N. induction q as [|x q IH]; [exact N|]. cbn in N. inversion N; subst. apply IH. assumption. }
  inversion N' as [|? ? N1 N2]; subst. constructor; [|apply IH; exact N2]. intros I. apply N1. apply in_or_app. apply in_app_or in I. destruct I as [I|I]; [left|right; exact I].
  apply in_map_iff in I. destruct I as (e' & E & I). rewrite <- E. apply in_map_iff. exists (eid e', nm e'). split; [reflexivity|]. apply in_flat_map. exists e'. split; [exact I|]. apply in_or_app. right. left. reflexivity.
Qed.
Lemma R_aliases i l : aliases b i = Ok l <-> (i = bid /\ l = []) \/ exists p f v, declared body root p f v /\ i = declared_id f v /\ l = Al v.
Proof.
  unfold aliases. rewrite nodup_at by apply R_al_nd. rewrite (r_al _ _ _ _ _ R), in_app_iff, in_map_iff. split.
  - intros [(e & [= <- <-] & I)|[[= <- <-]|[]]]; [right|left; auto]. destruct e as [[g v] p]. exists p, g, v. split; [apply entries_declared; apply in_rev; exact I|split; reflexivity].
  - intros [[-> ->]|(p & f & v & D & -> & ->)]; [right; left; reflexivity|left]. exists (f, v, p). split; [reflexivity|]. apply in_rev. rewrite rev_involutive. apply entries_declared. exact D.
Qed.
Lemma R_to_dom f : sget f (bf_to b) <> None <-> f = body \/ exists p v, declared body root p f v /\ declared_dynamic v = false.
Proof.
  rewrite sget_None. rewrite (r_to _ _ _ _ _ R), in_app_iff, in_map_iff. split.
  - intros H. apply Decidable.not_not in H.
    + destruct H as [(e & <- & I)|[<-|[]]]; [right|left; auto]. destruct e as [[g v] p]. apply filter_In in I. destruct I as [I S]. exists p, v. split; [apply entries_declared; apply in_rev; exact I|]. unfold static in S. cbn in S. destruct (declared_dynamic v); [discriminate|reflexivity].
    + unfold Decidable.decidable. destruct (in_dec string_dec f (map nm (filter static (rev ent)) ++ [body])) as [I|I]; rewrite in_app_iff, in_map_iff in I; [left|right]; exact I.
  - intros H N. apply N. destruct H as [->|(p & v & D & S)]; [right; left; reflexivity|left]. exists (f, v, p). split; [reflexivity|]. apply filter_In. split; [apply in_rev; rewrite rev_involutive; apply entries_declared; exact D|]. unfold static. cbn. rewrite S. reflexivity.
Qed.
Lemma found_local p f v u : declared body root p f v -> declared_dynamic v = false -> found look (bf_ids b) p f v u -> local look body root p f v u.
Proof.
  intros D S F. unfold local, declared_lookup. unfold found in F. rewrite S. cbn [negb andb]. destruct (declared_flag "lookup_tf" v).
  - destruct F as (a & c & A & C & L). exists a, c. split; [apply R_id; apply at_ok; exact A|]. split; [apply R_id; apply at_ok; exact C|exact L].
  - destruct F as [_ ->]. split; [reflexivity|]. apply normalise_turns.
Qed.
Lemma has_id_fun f i j : has_id body root f i -> has_id body root f j -> i = j. Proof. intros A B. apply R_id in A, B. congruence. Qed.
Lemma local_fun p f v u u' : local look body root p f v u -> local look body root p f v u' -> u = u'.
Proof.
  unfold local. destruct (declared_lookup v).
  - intros (a & c & A & C & L) (a' & c' & A' & C' & L'). rewrite (has_id_fun _ _ _ A' A), (has_id_fun _ _ _ C' C) in L'. congruence.
  - intros [A B] [A' B']. destruct u as [m t], u' as [m' t']. cbn in *. rewrite A, A', (turns_unique _ _ _ B B'). reflexivity.
Qed.
Lemma stands_to f t : stands look body root f t -> sget f (bf_to b) = Some t.
Proof.
  intros H. induction H as [|p f v t u D S H IH L]; [apply (r_bval _ _ _ _ _ R)|]. destruct (r_val _ _ _ _ _ R f v p) as (t' & u' & A & B & C); [apply entries_declared; exact D|exact S|]. rewrite C. rewrite IH in A. injection A as <-.
  rewrite (local_fun _ _ _ _ _ L (found_local _ _ _ _ D S B)). reflexivity.
Qed.
(* the parent of an entry is the body or a static entry *)
Lemma parents : forall n done e rest, List.length done = n -> ent = done ++ e :: rest -> static e = true -> exists t, stands look body root (nm e) t.
Proof.
  assert (P : forall e, In e ent -> static e = true -> sget (par e) (bf_to b) <> None).
  { intros [[f v] p] I S. unfold static in S. cbn in *. destruct (r_val _ _ _ _ _ R f v p I) as (t & u & A & _); [destruct (declared_dynamic v); [discriminate|reflexivity]|]. rewrite A. discriminate. }
  assert (STAND : forall done e rest, ent = done ++ e :: rest -> static e = true -> (exists t, stands look body root (par e) t) -> exists t, stands look body root (nm e) t).
  { intros done e rest E S (t & H). destruct e as [[f v] p]. assert (I : In (f, v, p) ent) by (rewrite E; apply in_or_app; right; left; reflexivity). unfold static in S. cbn in S, H. cbn. assert (S' : declared_dynamic v = false) by (destruct (declared_dynamic v); [discriminate|reflexivity]).
    destruct (r_val _ _ _ _ _ R f v p I S') as (t' & u & A & B & C). exists (imul t u). eapply s_in; [apply entries_declared; exact I|exact S'|exact H|]. apply found_local; [apply entries_declared; exact I|exact S'|exact B]. }
  intros n. induction n as [n IH] using lt_wf_ind. intros done e rest L E S. apply (STAND done e rest E S).
  pose proof (listings_order body (children root) done e rest E) as [PB|(w & q & I1 & I2)]; [rewrite PB; exists iid; constructor|].
  assert (I : In e ent) by (rewrite E; apply in_or_app; right; left; reflexivity).
  apply P in S; [|exact I]. apply R_to_dom in S. destruct S as [->|(p' & v' & D & DY)]; [exists iid; constructor|]. apply entries_declared in D.
  assert (EQ : (par e, v', p') = (par e, w, q)) by (apply R_unique; [exact D|rewrite E; apply in_or_app; left; exact I1|reflexivity]). injection EQ as -> ->.
  apply in_split in I1. destruct I1 as (d1 & d2 & ->). apply (IH (List.length d1)) with (done := d1) (e := (par e, w, q)) (rest := d2 ++ e :: rest); [rewrite app_length in L; cbn in L; lia|reflexivity|rewrite E, <- app_assoc; reflexivity|]. unfold static. cbn. rewrite DY. reflexivity.
Qed.
Lemma to_stands f t : sget f (bf_to b) = Some t <-> stands look body root f t.
Proof.
  split; [|apply stands_to]. intros H. assert (N : sget f (bf_to b) <> None) by congruence. apply R_to_dom in N. destruct N as [->|(p & v & D & S)].
  - rewrite (r_bval _ _ _ _ _ R) in H. injection H as <-. constructor.
  - apply entries_declared in D. destruct (in_split _ _ D) as (d1 & d2 & E). destruct (parents (List.length d1) d1 (f, v, p) d2 eq_refl E) as (t' & H'); [unfold static; cbn; rewrite S; reflexivity|]. cbn in H'. pose proof (stands_to _ _ H') as H2. congruence.
Qed.
Lemma R_from f : sget f (bf_from b) = match sget f (bf_to b) with Some t => Some (iinv t) | None => None end.
Proof. rewrite (r_from _ _ _ _ _ R). induction (bf_to b) as [|[k t] m IH]; [reflexivity|]. cbn. destruct (String.eqb f k); [reflexivity|exact IH]. Qed.
End Facts.

Lemma load_rep look cfg b : load look cfg = Ok b -> exists body root, cfg = XStruct [(body, root)] /\ rep look body root (entries body root) b.
Proof. intros H. apply load_run in H. destruct H as (body & root & -> & _ & _ & _ & H). exists body, root. split; [reflexivity|]. apply (run_rep look body root _ [] _ _ (rep_start look body root) H). Qed.

(* names and ids *)
Theorem load_names look cfg b : load look cfg = Ok b -> exists body root, cfg = XStruct [(body, root)] /\ body_frame b = body /\ body_frame_id b = Ok (declared_id body root) /\
  (forall f, has_frame b f = true <-> f = body \/ exists p v, declared body root p f v) /\ (forall f, In f (frame_list b) <-> has_frame b f = true) /\ NoDup (frame_list b) /\
  (forall f id, frame_id b f = Ok id <-> has_id body root f id) /\
  (forall f d, is_dynamic b f = Ok d <-> (f = body /\ d = false) \/ exists p v, declared body root p f v /\ d = declared_dynamic v) /\
  (forall f d, lookedup_tf b f = Ok d <-> (f = body /\ d = false) \/ exists p v, declared body root p f v /\ d = declared_lookup v) /\
  (forall i f, frame b i = Ok f <-> (i = declared_id body root /\ f = body) \/ exists p v, declared body root p f v /\ (i = declared_id f v \/ declared_dynamic v = false /\ In i (declared_aliases v))) /\
  (forall i l, aliases b i = Ok l <-> (i = declared_id body root /\ l = []) \/ exists p f v, declared body root p f v /\ i = declared_id f v /\ l = if declared_dynamic v then [] else declared_aliases v).
Proof.
  intros H. destruct (load_rep _ _ _ H) as (body & root & -> & R). exists body, root. split; [reflexivity|]. pose proof (r_body _ _ _ _ _ R) as B. split; [exact B|]. split; [unfold body_frame_id, body_frame; rewrite B; apply (R_id _ _ _ _ R); left; auto|].
  assert (HF : forall f, has_frame b f = true <-> exists id, frame_id b f = Ok id).
  { intros f. unfold has_frame, frame_id, at_. destruct (sget f (bf_ids b)); split; try discriminate; eauto. intros [? [=]]. }
  split; [|split; [|split; [|split; [|split; [|split; [|split]]]]]].
  - intros f. rewrite HF. split.
    + intros [id E]. apply (R_id _ _ _ _ R) in E. destruct E as [[-> _]|(p & v & D & _)]; eauto.
    + intros [->|(p & v & D)]; eexists; apply (R_id _ _ _ _ R); [left; auto|right; eauto].
  - intros f. unfold frame_list, has_frame. destruct (sget f (bf_ids b)) eqn:E.
    + split; [reflexivity|]. intros _. apply sget_In in E. apply (in_map fst) in E. exact E.
    + apply sget_None in E. split; [contradiction|discriminate].
  - apply (r_nd1 _ _ _ _ _ R).
  - intros f id. apply (R_id _ _ _ _ R).
  - intros f d. apply (R_dyn _ _ _ _ R).
  - intros f d. apply (R_look _ _ _ _ R).
  - intros i f. rewrite (R_frame _ _ _ _ R). split; (intros [H1|(p & v & D & H1)]; [left; exact H1|right; exists p, v; split; [exact D|]]); unfold Al in *; destruct (declared_dynamic v); destruct H1 as [H1|H1]; auto; try destruct H1; try discriminate; auto.
  - intros i l. rewrite (R_aliases _ _ _ _ R). reflexivity.
Qed.
(* one frame per name, one frame per id or alias *)
Theorem load_unique look cfg b : load look cfg = Ok b -> exists body root, cfg = XStruct [(body, root)] /\
  (forall p f v, declared body root p f v -> f <> body) /\ (forall p p' f v v', declared body root p f v -> declared body root p' f v' -> p = p' /\ v = v') /\
  (forall f g i, frame_id b f = Ok i -> frame_id b g = Ok i -> f = g) /\ (forall f i, frame_id b f = Ok i -> frame b i = Ok f /\ exists l, aliases b i = Ok l /\ forall a, In a l -> frame b a = Ok f /\ forall g, frame_id b g <> Ok a).
Proof.
  intros H. destruct (load_rep _ _ _ H) as (body & root & -> & R). exists body, root. split; [reflexivity|].
  assert (NB : forall p f v, declared body root p f v -> f <> body) by (intros p f v D; apply entries_declared in D; apply (R_body_new _ _ _ _ R) in D; exact D).
  assert (UN : forall p p' f v v', declared body root p f v -> declared body root p' f v' -> p = p' /\ v = v').
  { intros p p' f v v' D D'. apply entries_declared in D, D'. pose proof (R_unique _ _ _ _ R _ _ D D' eq_refl) as E. injection E as <- <-. auto. }
  assert (FI : forall f i, frame_id b f = Ok i -> frame b i = Ok f).
  { intros f i E. apply (R_id _ _ _ _ R) in E. apply (R_frame _ _ _ _ R). destruct E as [[-> ->]|(p & v & D & ->)]; [left; auto|right; exists p, v; auto]. }
  split; [exact NB|]. split; [exact UN|]. split; [intros f g i A B; apply FI in A, B; congruence|]. intros f i E. split; [apply FI; exact E|].
  apply (R_id _ _ _ _ R) in E. destruct E as [[-> ->]|(p & v & D & ->)].
  - exists []. split; [apply (R_aliases _ _ _ _ R); left; auto|intros a []].
  - exists (Al v). split; [apply (R_aliases _ _ _ _ R); right; exists p, f, v; auto|]. intros a I. assert (FA : frame b a = Ok f) by (apply (R_frame _ _ _ _ R); right; exists p, v; auto). split; [exact FA|].
    (* an alias is nobody's id *)
    intros g G. apply (R_id _ _ _ _ R) in G. pose proof (r_nd2 _ _ _ _ _ R) as N. rewrite (r_names _ _ _ _ _ R), map_app in N. cbn [map fst] in N. assert (DE : In (f, v, p) (rev (entries body root))) by (apply in_rev; rewrite rev_involutive; apply entries_declared; exact D).
    destruct G as [[-> ->]|(q & w & D2 & ->)].
    + apply NoDup_remove_2 in N. rewrite app_nil_r in N. apply N. apply in_map_iff. exists (declared_id body root, f). split; [reflexivity|]. apply in_flat_map. exists (f, v, p). split; [exact DE|]. apply in_or_app. left. apply in_rev. rewrite rev_involutive. apply in_map_iff. exists (declared_id body root). auto.
    + assert (g = f) as -> by (assert (X : frame b (declared_id g w) = Ok g) by (apply FI, (R_id _ _ _ _ R); right; eauto); congruence). destruct (UN _ _ _ _ _ D D2) as [<- <-].
      apply in_split in DE. destruct DE as (l1 & l2 & DE). rewrite DE in N. rewrite flat_map_app in N. cbn [flat_map] in N. rewrite !map_app in N. rewrite <- !app_assoc in N.
      assert (N' : NoDup (map fst (rev (map (fun a => (a, nm (f, v, p))) (Al (nd (f, v, p))))) ++ map fst [(eid (f, v, p), nm (f, v, p))])).
      { clear - N. revert N. generalize (map fst (flat_map (fun e : string * xv * string => rev (map (fun a : string => (a, nm e)) (Al (nd e))) ++ [(eid e, nm e)]) l1)). intros l N. induction l as [|x l IH]; [|inversion N; subst; auto].
        cbn [app] in N. rewrite app_assoc in N. revert N. generalize (map fst (rev (map (fun a : string => (a, nm (f, v, p))) (Al (nd (f, v, p))))) ++ map fst [(eid (f, v, p), nm (f, v, p))]). intros l' N. induction l' as [|x l' IH]; [constructor|]. inversion N as [|? ? N1 N2]; subst. constructor; [|apply IH; exact N2]. intros J. apply N1. apply in_or_app. left. exact J. }
      cbn [map fst eid nm nd snd] in N'. apply NoDup_remove_2 in N'. rewrite app_nil_r in N'. apply N'. rewrite map_rev, map_map. cbn [fst]. rewrite map_id. apply in_rev. rewrite rev_involutive. exact I.
Qed.
(* unknown names *)
Theorem unknown_throws look look' cfg b f t : load look cfg = Ok b -> has_frame b f = false ->
  frame_id b f = Throw /\ is_dynamic b f = Throw /\ lookedup_tf b f = Throw /\ body_to_frame look' b f t = Throw /\ frame_to_body look' b f t = Throw /\ (forall g, frame_to_frame look' b f g t = Throw) /\
  (forall g, is_dynamic b g = Ok false -> frame_to_frame look' b g f t = Throw) /\ (forall g, is_dynamic b g = Ok true -> frame_to_frame look' b g f t = Throw).
Proof.
  intros H F. destruct (load_rep _ _ _ H) as (body & root & -> & R). unfold has_frame in F. destruct (sget f (bf_ids b)) eqn:E; [discriminate|]. apply sget_None in E. rewrite (R_names_dom _ _ _ _ R) in E.
  assert (D : is_dynamic b f = Throw) by (apply at_throw; rewrite (R_dyn_dom _ _ _ _ R); exact E). assert (I : frame_id b f = Throw) by (apply at_throw; rewrite (R_names_dom _ _ _ _ R); exact E). split; [exact I|]. split; [exact D|].
  split; [apply at_throw; rewrite (R_look_dom _ _ _ _ R); exact E|]. unfold body_to_frame, frame_to_body, frame_to_frame. rewrite D. cbn. split; [reflexivity|]. split; [reflexivity|]. split; [reflexivity|]. split; intros g G; rewrite G; cbn; rewrite ?D; [reflexivity|].
  unfold lookup_transform. unfold frame_id in I. rewrite I. destruct (at_ g (bf_ids b)) eqn:Eg; cbn; try reflexivity. unfold at_ in Eg. destruct (sget g (bf_ids b)); discriminate.
Qed.

(* transforms *)
Theorem load_transforms look look' cfg b : load look cfg = Ok b -> exists body root, cfg = XStruct [(body, root)] /\
  (forall f time t, is_dynamic b f = Ok false -> (body_to_frame look' b f time = Ok t <-> stands look body root f t)) /\
  (forall f time, is_dynamic b f = Ok false -> exists t, body_to_frame look' b f time = Ok t /\ frame_to_body look' b f time = Ok (iinv t)) /\
  (forall f time, is_dynamic b f = Ok true -> exists i, frame_id b f = Ok i /\ body_to_frame look' b f time = look' (declared_id body root) i time /\ frame_to_body look' b f time = look' i (declared_id body root) time).
Proof.
  intros H. destruct (load_rep _ _ _ H) as (body & root & -> & R). exists body, root. split; [reflexivity|]. split; [|split].
  - intros f time t D. unfold body_to_frame. rewrite D. cbn. rewrite at_ok. apply (to_stands _ _ _ _ R).
  - intros f time D. unfold body_to_frame, frame_to_body. rewrite D. cbn. assert (N : sget f (bf_to b) <> None).
    { apply (R_to_dom _ _ _ _ R). apply (R_dyn _ _ _ _ R) in D. destruct D as [[-> _]|(p & v & D & E)]; [left; reflexivity|right; eauto]. }
    destruct (sget f (bf_to b)) as [t|] eqn:E; [|congruence]. exists t. split; [apply at_ok; exact E|]. apply at_ok. rewrite (R_from _ _ _ _ R), E. reflexivity.
  - intros f time D. pose proof D as D'. apply (R_dyn _ _ _ _ R) in D'. destruct D' as [[_ [=]]|(p & v & DD & _)]. exists (declared_id f v). assert (I : frame_id b f = Ok (declared_id f v)) by (apply (R_id _ _ _ _ R); right; eauto).
    assert (IB : frame_id b body = Ok (declared_id body root)) by (apply (R_id _ _ _ _ R); left; auto). split; [exact I|]. unfold body_to_frame, frame_to_body. rewrite D. cbn. unfold lookup_transform. unfold frame_id in I, IB. rewrite (r_body _ _ _ _ _ R), I, IB. cbn. auto.
Qed.
