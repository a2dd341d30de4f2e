(* Past-frame extraction, calls that cannot fail, and what goes wrong in past mode.                *)
From Verif Require Import Base MapModel MapSpec MapProofs.

Section MapPast.
  Variables P Pt PP : Type.
  Variable comp : P -> P -> P.
  Variable inv : P -> P.
  Variable act : P -> Pt -> Pt.
  Variable pa : P -> PP.
  Variable B : P.
  Variable moved : P -> P -> bool.
  Variable knn : list PP -> PP -> nat -> list Z.
  Variable vox : list Pt -> list Pt.
  Variable n : nat.

  Notation frame := (frame P Pt).
  Notation call := (call P Pt).
  Notation mst := (mst P Pt PP).
  Notation Fr := (Fr P Pt).
  Notation fr_ts := (fr_ts P Pt).
  Notation m_map := (m_map P Pt PP).
  Notation m_cloud := (m_cloud P Pt PP).
  Notation stamps := (stamps P Pt).
  Notation agrees := (agrees P Pt PP pa).
  Notation callback := (callback P Pt PP comp inv act pa B moved knn vox n).
  Notation run := (run P Pt PP comp inv act pa B moved knn vox n).
  Notation seen_from := (seen_from P Pt comp inv act).
  Notation c_ts := (c_ts P Pt).
  Notation c_path := (c_path P Pt).
  Notation path_loop := (path_loop P Pt PP comp pa B moved).
  Notation path_step := (path_step P Pt PP comp pa B moved).
  Notation extract_past := (extract_past P Pt PP comp inv act n).

  (* the mapped frames not newer than [ts], newest first *)
  Definition past (ts : Z) (m : omap frame) : list frame :=
    map snd (rev (filter (fun e => fst e <=? ts) m)).

  Lemma skip_newer_desc ts : forall r,
    StronglySorted (fun a b => fst b < fst a) r ->
    skip_newer P Pt ts r =
      match filter (fun e => fst e <=? ts) r with [] => None | r' => Some r' end.
  Proof.
    induction r as [|[s f] r IH]; intros Hs; [reflexivity|].
    inversion Hs as [|? ? Hs' Hf]; subst. cbn [skip_newer filter fst].
    destruct (ts <? s) eqn:E.
    - replace (s <=? ts) with false by lia. apply IH. exact Hs'.
    - replace (s <=? ts) with true by lia. f_equal. f_equal. symmetry.
      clear - Hf E. induction r as [|[s' f'] r IH]; [reflexivity|].
      inversion Hf as [|? ? H1 H2]; subst. cbn [filter fst] in *. replace (s' <=? ts) with true by lia.
      f_equal. apply IH. exact H2.
  Qed.

  Lemma take_past_firstn ts l : forall r k acc, r <> [] ->
    (forall s f, In (s, f) r -> fr_ts f <= ts) ->
    take_past P Pt comp inv act ts l k r acc = Ok (acc ++ flat_map (seen_from l) (firstn k (map snd r))).
  Proof.
    induction r as [|[s f] r IH]; intros k acc Hne Hle; [congruence|].
    destruct k as [|k]; [cbn; rewrite app_nil_r; reflexivity|].
    cbn [take_past firstn map snd flat_map].
    replace (ts <? fr_ts f) with false by (specialize (Hle s f (or_introl eq_refl)); lia).
    destruct r as [|e r].
    - cbn [map]. rewrite firstn_nil. cbn. rewrite app_nil_r. reflexivity.
    - rewrite IH.
      + rewrite <- app_assoc. reflexivity.
      + discriminate.
      + intros s' f' Hin. apply (Hle s'). right. exact Hin.
  Qed.

  Lemma msorted_rev_desc {A} (m : omap A) : msorted m -> StronglySorted (fun a b => fst b < fst a) (rev m).
  Proof.
    induction m as [|[k a] m IH]; intros H; [constructor|]. destruct H as [H1 H2]. cbn [rev].
    specialize (IH H2).
    assert (Hx : forall b, In b (rev m) -> k < fst b).
    { intros b Hb. apply H1. apply in_map. apply in_rev. exact Hb. }
    induction (rev m) as [|b r IHr]; [repeat constructor|].
    inversion IH as [|? ? Hs Hf]; subst. cbn [app]. constructor.
    - apply IHr; [exact Hs|]. intros c Hc. apply Hx. right. exact Hc.
    - apply Forall_app. split; [exact Hf|]. constructor; [cbn; apply Hx; left; reflexivity | constructor].
  Qed.

  Lemma filter_rev_ {A} (f : A -> bool) l : filter f (rev l) = rev (filter f l).
  Proof.
    induction l as [|a l IH]; [reflexivity|]. cbn [rev filter]. rewrite filter_app, IH. cbn [filter].
    destruct (f a); [reflexivity | apply app_nil_r].
  Qed.

  Theorem extract_past_spec st ts l :
    msorted (m_map st) -> (forall s f, mget s (m_map st) = Some f -> fr_ts f = s) ->
    extract_past st ts l =
      match past ts (m_map st) with
      | [] => UB
      | fs => Ok (flat_map (seen_from l) (firstn n fs))
      end.
  Proof.
    intros Hs Ho. unfold MapModel.extract_past, past.
    rewrite (skip_newer_desc ts _ (msorted_rev_desc _ Hs)), filter_rev_.
    destruct (rev (filter (fun e => fst e <=? ts) (m_map st))) as [|e r] eqn:E; [reflexivity|].
    rewrite take_past_firstn with (r := e :: r).
    - reflexivity.
    - discriminate.
    - intros s f Hin. rewrite <- E in Hin. apply in_rev in Hin. apply filter_In in Hin. destruct Hin as [Hin Hle].
      rewrite (Ho s f) by (apply In_mget; assumption). cbn in Hle. lia.
  Qed.

  (* ---------------------------------------------------------------------------------------------- *)
  (* The map of a past-mode node: sorted, stamps right, no index. *)
  Record past_inv (st : mst) : Prop := {
    pi_sorted : msorted (m_map st);
    pi_only : forall s f, mget s (m_map st) = Some f -> fr_ts f = s;
    pi_null : m_cloud st = None
  }.

  Lemma past_inv_step cts cloud st found e st' r :
    past_inv st -> path_step cts cloud st found e = (st', r) ->
    past_inv st' /\ (forall s, mmem s (m_map st) = true -> mmem s (m_map st') = true) /\
    (fst e <> cts -> mmem (fst e) (m_map st) = true -> r = UB) /\ r <> Throw.
  Proof.
    intros [Hs Ho Hn] H. unfold MapModel.path_step in H.
    destruct (fst e =? cts) eqn:Ee.
    - assert (Hadd : past_inv (add_to_map P Pt PP pa st cts (comp (snd e) B) cloud) /\
                (forall s, mmem s (m_map st) = true ->
                   mmem s (m_map (add_to_map P Pt PP pa st cts (comp (snd e) B) cloud)) = true)).
      { unfold add_to_map. rewrite Hn. unfold emplace.
        destruct (mmem cts (m_map st)) eqn:Em; (split; [constructor; cbn|cbn]); auto.
        - apply msorted_mput. exact Hs.
        - intros s f. rewrite mget_mput. destruct (s =? cts) eqn:E1; [|apply Ho].
          intros [= <-]. cbn. lia.
        - intros s Hm. apply mmem_true. apply mkeys_mput. right. apply mmem_true. exact Hm. }
      destruct (last_frame P Pt (m_map st)) as [f|].
      + destruct (moved (comp (snd e) B) (MapModel.fr_pose P Pt f)); injection H as <- <-.
        * destruct Hadd as [H1 H2]. refine (conj H1 (conj H2 (conj _ _))); [intros Hx; lia | discriminate].
        * refine (conj (Build_past_inv _ Hs Ho Hn) (conj _ (conj _ _))); [auto | intros Hx; lia | discriminate].
      + injection H as <- <-. destruct Hadd as [H1 H2].
        refine (conj H1 (conj H2 (conj _ _))); [intros Hx; lia | discriminate].
    - unfold update_map in H. destruct (mget (fst e) (m_map st)) as [f|] eqn:Eg.
      + rewrite Hn in H. injection H as <- <-. refine (conj _ (conj _ (conj _ _))).
        * constructor; cbn; [apply msorted_mput; exact Hs | | reflexivity].
          intros s g. rewrite mget_mput. destruct (s =? fst e) eqn:E1; [|apply Ho]. intros [= <-]. cbn. lia.
        * cbn. intros s Hm. apply mmem_true. apply mkeys_mput. right. apply mmem_true. exact Hm.
        * reflexivity.
        * discriminate.
      + injection H as <- <-. refine (conj (Build_past_inv _ Hs Ho Hn) (conj _ (conj _ _))); auto.
        * intros _ Hm. rewrite mmem_mget, Eg in Hm. destruct Hm as (? & Hm). discriminate.
        * discriminate.
  Qed.

  (* Past mode: a path that mentions a keyframe other than the cloud itself is undefined behaviour. *)
  Theorem past_mode_ub vl st c s b :
    past_inv st -> In (s, b) (c_path c) -> s <> c_ts c -> mmem s (m_map st) = true ->
    snd (callback PAST vl st c) = UB.
  Proof.
    intros Hi Hin Hne Hm.
    assert (HL : forall es st found, past_inv st -> In (s, b) es -> mmem s (m_map st) = true ->
              snd (path_loop (c_ts c) (MapModel.c_cloud _ _ c) es st found) = UB).
    { induction es as [|e es IH]; intros st0 found H0 Hes Hm0; [destruct Hes|].
      cbn [MapModel.path_loop].
      destruct (path_step (c_ts c) (MapModel.c_cloud _ _ c) st0 found e) as [st1 r] eqn:E.
      destruct (past_inv_step _ _ _ _ _ _ _ H0 E) as (H1 & H2 & H3 & H4).
      destruct r as [fo| |].
      - destruct Hes as [-> | Hes].
        + exfalso. specialize (H3 Hne Hm0). discriminate.
        + apply IH; auto.
      - congruence.
      - reflexivity. }
    unfold MapModel.callback. destruct (c_path c) as [|e es] eqn:Ep; [destruct Hin|].
    specialize (HL (e :: es) st None Hi Hin Hm).
    destruct (path_loop (c_ts c) (MapModel.c_cloud _ _ c) (e :: es) st None) as [st' [ [?|] | |]]; cbn in HL; try discriminate HL; reflexivity.
  Qed.

  Lemma past_init : past_inv (init P Pt PP PAST).
  Proof. constructor; cbn; [constructor | discriminate | reflexivity]. Qed.

  (* Without such a path the past mode publishes the last n keyframes not newer than the cloud. *)
  Theorem past_published vl st c b :
    past_inv st -> c_path c = [(c_ts c, b)] ->
    let st' := fst (callback PAST vl st c) in
    past_inv st' /\
    snd (callback PAST vl st c) =
      match past (c_ts c) (m_map st') with
      | [] => UB
      | fs => let pts := flat_map (seen_from (comp b B)) (firstn n fs) in Ok (if vl then vox pts else pts)
      end.
  Proof.
    intros Hi Hp. cbn zeta. unfold MapModel.callback. rewrite Hp. cbn [MapModel.path_loop].
    destruct (path_step (c_ts c) (MapModel.c_cloud _ _ c) st None (c_ts c, b)) as [st1 r] eqn:E.
    destruct (past_inv_step _ _ _ _ _ _ _ Hi E) as (H1 & _).
    assert (Hr : r = Ok (Some (comp b B))).
    { unfold MapModel.path_step in E. cbn [fst snd] in E. rewrite Z.eqb_refl in E. injection E as _ <-. reflexivity. }
    subst r. cbn [fst snd extract]. split; [exact H1|].
    rewrite (extract_past_spec st1 (c_ts c) (comp b B) (pi_sorted _ H1) (pi_only _ H1)).
    destruct (past (c_ts c) (m_map st1)); reflexivity.
  Qed.

  (* ---------------------------------------------------------------------------------------------- *)
  (* Histories in time order, each path naming its cloud once: no call fails.                        *)
  Fixpoint outcomes (me : method) (vl : bool) (h : list call) (st : mst) : list (res (list Pt)) :=
    match h with
    | [] => []
    | c :: h' => snd (callback me vl st c) :: outcomes me vl h' (fst (callback me vl st c))
    end.

  Definition orderly (h : list call) : Prop :=
    StronglySorted (fun c d => c_ts c < c_ts d) h /\
    Forall (fun c => once P Pt c /\ In (c_ts c) (map fst (c_path c))) h.

  Lemma last_pose_In s es : In s (map fst es) -> exists b, last_pose P s es = Some b.
  Proof.
    induction es as [|[t p] es IH]; cbn [map In last_pose fst]; [contradiction|].
    destruct (last_pose P s es); [eauto|]. intros [-> | H]; [rewrite Z.eqb_refl; eauto | destruct (IH H); discriminate].
  Qed.

  Lemma ref_path_stamps cts cloud es : forall K K',
    ref_path P Pt comp B moved cts cloud K es K' -> forall s, In s (stamps K') -> In s (stamps K) \/ s = cts.
  Proof.
    induction es as [|e es IH]; intros K K' H s Hs.
    - inversion H; subst. auto.
    - inversion H as [|? ? Ka ? ? E1 P1]; subst. destruct (IH _ _ P1 s Hs) as [H'|H']; [|auto].
      inversion E1; subst.
      + destruct H' as [H' | []]. cbn in H'. auto.
      + unfold MapSpec.stamps in *. rewrite map_app in H'. apply in_app_or in H'.
        destruct H' as [H' | [H' | []]]; [auto | cbn in H'; auto].
      + auto.
      + rewrite stamps_repose in H'. auto.
  Qed.

  Theorem orderly_never_fails nearer vl h :
    knn_ok PP nearer knn -> orderly h ->
    Forall (fun r => exists pts, r = Ok pts) (outcomes NEARBY vl h (init P Pt PP NEARBY)).
  Proof.
    intros Hk [Hs Ho].
    assert (G : forall h K st, StronglySorted (fun c d => c_ts c < c_ts d) h ->
      Forall (fun c => once P Pt c /\ In (c_ts c) (map fst (c_path c))) h ->
      agrees K st -> (forall s c, In s (stamps K) -> In c h -> s < c_ts c) ->
      Forall (fun r => exists pts, r = Ok pts) (outcomes NEARBY vl h st)).
    { clear h Hs Ho. induction h as [|c h IH]; intros K st Hs Ho A Hlt; [constructor|].
      inversion Hs as [|? ? Hs' Hf]; subst. inversion Ho as [|? ? [Oc Ic] Ho']; subst.
      assert (Hc : ~ In (c_ts c) (stamps K)).
      { intros Hi. pose proof (Hlt _ c Hi (or_introl eq_refl)). lia. }
      destruct (last_pose_In _ _ Ic) as (b & Hb).
      assert (H1 : (count_occ Z.eq_dec (map fst (c_path c)) (c_ts c) +
                  (if in_dec Z.eq_dec (c_ts c) (stamps K) then 1 else 0) <= 1)%nat).
      { destruct (in_dec Z.eq_dec (c_ts c) (stamps K)); [contradiction|]. unfold once in Oc. lia. }
      destruct (loop_agrees P Pt PP comp pa B moved (c_ts c) (MapModel.c_cloud _ _ c) (c_path c) K st None A H1)
        as (st1 & K1 & E1 & R1 & A1 & S1).
      cbn [outcomes]. constructor.
      - destruct (nearby_published P Pt PP comp inv act pa B moved knn vox n nearer K st vl c b Hk A Hc Oc Hb)
          as (K2 & R2 & _ & _ & _ & Eo & _).
        rewrite Eo.
        replace (existsb _ _) with false; [eauto|].
        symmetry. apply not_true_is_false. intros Hx. apply existsb_exists in Hx. destruct Hx as (f & Hf1 & Hf2).
        unfold select in Hf1. apply in_flat_map in Hf1. destruct Hf1 as (i & _ & Hi).
        destruct (nth_error K2 (Z.to_nat i)) as [g|] eqn:En; [|destruct Hi].
        destruct Hi as [-> | []]. apply nth_error_In in En.
        destruct (ref_path_stamps _ _ _ _ _ R2 (fr_ts f)) as [H | H].
        + apply in_map. exact En.
        + pose proof (Hlt _ c H (or_introl eq_refl)). lia.
        + lia.
      - rewrite (callback_state P Pt PP comp inv act pa B moved knn vox n _ _ _ _ _ _ E1).
        apply (IH K1); auto. intros s d Hsd Hd.
        assert (c_ts c < c_ts d) by (rewrite Forall_forall in Hf; apply Hf; exact Hd).
        destruct (S1 s Hsd) as [H' | H']; [|lia].
        pose proof (Hlt s c H' (or_introl eq_refl)). lia. }
    apply (G h []); auto.
    - apply agrees_init.
    - intros s c [].
  Qed.

  Lemma orderly_distinct h : orderly h -> distinct P Pt h.
  Proof.
    intros [Hs Ho]. split.
    - induction Hs as [|c h Hs IH Hf]; [constructor|]. inversion Ho; subst. cbn. constructor; [|auto].
      intros Hi. apply in_map_iff in Hi. destruct Hi as (d & E & Hd). rewrite Forall_forall in Hf.
      specialize (Hf d Hd). cbn in Hf. lia.
    - eapply Forall_impl; [|exact Ho]. intros c [H _]. exact H.
  Qed.
End MapPast.
