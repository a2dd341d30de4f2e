(* The map node keeps its indices in step with its keyframes, and publishes what it should.        *)
From Verif Require Import Base MapModel MapSpec.

Lemma nth_error_set_nth {A} (l : list A) i j a :
  nth_error (set_nth i a l) j = if Nat.eqb i j then (if Nat.ltb j (length l) then Some a else None) else nth_error l j.
Proof.
  revert i j. induction l as [|x l IH]; intros [|i] [|j]; cbn [set_nth nth_error length]; try reflexivity.
  - destruct (Nat.eqb (S i) (S j)); reflexivity.
  - rewrite IH. cbn [Nat.eqb]. destruct (Nat.eqb i j); [|reflexivity].
    destruct (Nat.ltb_spec j (length l)); destruct (Nat.ltb_spec (S j) (S (length l))); try reflexivity; lia.
Qed.

Lemma nth_error_ext {A} (l1 l2 : list A) : (forall i, nth_error l1 i = nth_error l2 i) -> l1 = l2.
Proof.
  revert l2. induction l1 as [|x l1 IH]; intros [|y l2] H.
  - reflexivity.
  - specialize (H O). discriminate.
  - specialize (H O). discriminate.
  - pose proof (H O) as H0. cbn in H0. injection H0 as ->. f_equal. apply IH. intros i. exact (H (S i)).
Qed.

Section MapProofs.
  Variables P Pt PP : Type.
  Variable comp : P -> P -> P.
  Variable inv : P -> P.
  Variable act : P -> Pt -> Pt.
  Variable pa : P -> PP.
  Variable B : P.
  Variable moved : P -> P -> bool.
  Variable knn : list PP -> PP -> nat -> list Z.
  Variable vox : list Pt -> list Pt.
  Variable n : nat.

  Notation frame := (frame P Pt).
  Notation call := (call P Pt).
  Notation mst := (mst P Pt PP).
  Notation Fr := (Fr P Pt).
  Notation fr_ts := (fr_ts P Pt).
  Notation fr_pose := (fr_pose P Pt).
  Notation fr_cloud := (fr_cloud P Pt).
  Notation m_map := (m_map P Pt PP).
  Notation m_cloud := (m_cloud P Pt PP).
  Notation m_idx := (m_idx P Pt PP).
  Notation m_ts := (m_ts P Pt PP).
  Notation stamps := (stamps P Pt).
  Notation newest := (newest P Pt).
  Notation repose := (repose P Pt comp B).
  Notation ref_entry := (ref_entry P Pt comp B moved).
  Notation ref_path := (ref_path P Pt comp B moved).
  Notation ref_run := (ref_run P Pt comp B moved).
  Notation agrees := (agrees P Pt PP pa).
  Notation update_map := (update_map P Pt PP pa).
  Notation add_to_map := (add_to_map P Pt PP pa).
  Notation last_frame := (last_frame P Pt).
  Notation path_step := (path_step P Pt PP comp pa B moved).
  Notation path_loop := (path_loop P Pt PP comp pa B moved).
  Notation callback := (callback P Pt PP comp inv act pa B moved knn vox n).
  Notation run := (run P Pt PP comp inv act pa B moved knn vox n).
  Notation seen_from := (seen_from P Pt comp inv act).
  Notation c_ts := (c_ts P Pt).
  Notation c_cloud := (c_cloud P Pt).
  Notation c_path := (c_path P Pt).

  Lemma agrees_init : agrees [] (init P Pt PP NEARBY).
  Proof.
    constructor; cbn.
    - constructor.
    - constructor.
    - intros f. split; [contradiction | discriminate].
    - discriminate.
    - reflexivity.
    - intros i. destruct (i <? 0); [reflexivity|]. destruct (Z.to_nat i); reflexivity.
    - intros s i. split; [discriminate|]. intros [_ H]. destruct (Z.to_nat i); discriminate.
  Qed.

  Lemma stamps_repose K s b : stamps (repose K s b) = stamps K.
  Proof.
    unfold MapSpec.stamps, MapSpec.repose. rewrite map_map. apply map_ext. intros f.
    destruct (fr_ts f =? s) eqn:E; [apply Z.eqb_eq in E; cbn; congruence | reflexivity].
  Qed.

  Lemma In_repose K s b g :
    In g (repose K s b) <->
    (fr_ts g <> s /\ In g K) \/ (exists f, In f K /\ fr_ts f = s /\ g = Fr s (comp b B) (fr_cloud f)).
  Proof.
    unfold MapSpec.repose. rewrite in_map_iff. split.
    - intros (f & E & Hf). destruct (fr_ts f =? s) eqn:Et.
      + apply Z.eqb_eq in Et. right. exists f. auto.
      + apply Z.eqb_neq in Et. subst g. auto.
    - intros [[H1 H2] | (f & Hf & Et & ->)].
      + exists g. apply Z.eqb_neq in H1. rewrite H1. auto.
      + exists f. rewrite Et, Z.eqb_refl. auto.
  Qed.

  Lemma agrees_mem K st s : agrees K st -> (In s (stamps K) <-> mmem s (m_map st) = true).
  Proof.
    intros A. rewrite mmem_mget. split.
    - intros H. apply in_map_iff in H. destruct H as (f & <- & Hf). exists f. apply (ag_map _ _ _ _ _ _ A). exact Hf.
    - intros (f & Hf). pose proof (ag_only _ _ _ _ _ _ A _ _ Hf) as <-. apply in_map. apply (ag_map _ _ _ _ _ _ A). exact Hf.
  Qed.

  Lemma repose_absent K s b : ~ In s (stamps K) -> repose K s b = K.
  Proof.
    intros H. unfold MapSpec.repose. rewrite <- (map_id K) at 2. apply map_ext_in. intros f Hf.
    destruct (fr_ts f =? s) eqn:E; [|reflexivity]. apply Z.eqb_eq in E. exfalso. apply H. subst s. apply in_map. exact Hf.
  Qed.

  Lemma stamp_inj K f g : NoDup (stamps K) -> In f K -> In g K -> fr_ts f = fr_ts g -> f = g.
  Proof.
    induction K as [|x K IH]; cbn; intros Hn Hf Hg E; [contradiction|].
    inversion Hn as [|? ? Hx Hn']; subst.
    destruct Hf as [->|Hf], Hg as [->|Hg].
    - reflexivity.
    - exfalso. apply Hx. rewrite E. apply in_map. exact Hg.
    - exfalso. apply Hx. rewrite <- E. apply in_map. exact Hf.
    - exact (IH Hn' Hf Hg E).
  Qed.

  Lemma update_agrees K st s b :
    agrees K st ->
    exists st', update_map st s (comp b B) = (st', Ok tt) /\ agrees (repose K s b) st'.
  Proof.
    intros A. unfold MapModel.update_map.
    destruct (mget s (m_map st)) as [f|] eqn:E.
    - pose proof (ag_only _ _ _ _ _ _ A _ _ E) as Ht.
      assert (Hf : In f K) by (apply (ag_map _ _ _ _ _ _ A); rewrite Ht; exact E).
      rewrite (ag_cloud _ _ _ _ _ _ A).
      assert (Hi : exists i, nth_error K i = Some f) by (apply In_nth_error; exact Hf).
      destruct Hi as (i & Hi).
      assert (Hs : nth_error (stamps K) i = Some s) by (unfold MapSpec.stamps; rewrite nth_error_map, Hi; cbn; congruence).
      assert (Hidx : mget s (m_idx st) = Some (Z.of_nat i)).
      { apply (ag_idx _ _ _ _ _ _ A). split; [lia|]. rewrite Nat2Z.id. exact Hs. }
      rewrite Hidx.
      assert (Hlt : (i < length K)%nat) by (apply nth_error_Some; congruence).
      rewrite map_length.
      replace ((0 <=? Z.of_nat i) && (Z.of_nat i <? Z.of_nat (length K))) with true by lia.
      eexists. split; [reflexivity|].
      constructor; cbn.
      + rewrite stamps_repose. exact (ag_nodup _ _ _ _ _ _ A).
      + apply msorted_mput. exact (ag_sorted _ _ _ _ _ _ A).
      + intros g. rewrite In_repose, mget_mput. split.
        * intros [[H1 H2] | (f' & Hf' & Et & ->)].
          -- apply Z.eqb_neq in H1. rewrite H1. apply (ag_map _ _ _ _ _ _ A). exact H2.
          -- cbn. rewrite Z.eqb_refl. assert (f' = f) as ->; [|reflexivity].
             apply (stamp_inj K); [exact (ag_nodup _ _ _ _ _ _ A) | assumption | assumption | congruence].
        * destruct (fr_ts g =? s) eqn:Eg.
          -- intros [= <-]. right. exists f. auto.
          -- intros H. left. apply Z.eqb_neq in Eg. split; [exact Eg|]. apply (ag_map _ _ _ _ _ _ A). exact H.
      + intros s' g. rewrite mget_mput. destruct (s' =? s) eqn:Es.
        * intros [= <-]. cbn. lia.
        * apply (ag_only _ _ _ _ _ _ A).
      + f_equal. apply nth_error_ext. intros j. rewrite nth_error_set_nth, Nat2Z.id, map_length, !nth_error_map.
        unfold MapSpec.repose. rewrite nth_error_map.
        destruct (Nat.eqb_spec i j) as [->|Hij].
        * replace (j <? length K)%nat with true by (symmetry; apply Nat.ltb_lt; exact Hlt).
          rewrite Hi. cbn. rewrite Ht, Z.eqb_refl. reflexivity.
        * destruct (nth_error K j) as [g|] eqn:Ej; [|reflexivity]. cbn.
          destruct (fr_ts g =? s) eqn:Eg; [|reflexivity]. exfalso. apply Z.eqb_eq in Eg. apply Hij.
          pose proof (ag_nodup _ _ _ _ _ _ A) as Hn. rewrite NoDup_nth_error in Hn. apply Hn.
          -- unfold MapSpec.stamps. rewrite map_length. exact Hlt.
          -- rewrite Hs. unfold MapSpec.stamps. rewrite nth_error_map, Ej. cbn. congruence.
      + rewrite stamps_repose. exact (ag_ts _ _ _ _ _ _ A).
      + rewrite stamps_repose. exact (ag_idx _ _ _ _ _ _ A).
    - exists st. split; [reflexivity|]. rewrite repose_absent; [exact A|].
      intros H. apply (agrees_mem _ _ _ A) in H. rewrite mmem_mget, E in H. destruct H as (? & H). discriminate.
  Qed.

  Lemma add_agrees K st s p cl :
    agrees K st -> ~ In s (stamps K) -> agrees (K ++ [Fr s p cl]) (add_to_map st s p cl).
  Proof.
    intros A Hs. unfold MapModel.add_to_map. rewrite (ag_cloud _ _ _ _ _ _ A). rewrite map_length.
    assert (Hm : mmem s (m_map st) = false).
    { destruct (mmem s (m_map st)) eqn:E; [|reflexivity]. exfalso. apply Hs. apply (agrees_mem _ _ _ A). exact E. }
    assert (Hi : mmem s (m_idx st) = false).
    { apply mmem_false. destruct (mget s (m_idx st)) as [i|] eqn:E; [|reflexivity].
      apply (ag_idx _ _ _ _ _ _ A) in E. destruct E as [_ E]. exfalso. apply Hs. eapply nth_error_In. exact E. }
    assert (Ht : mmem (Z.of_nat (length K)) (m_ts st) = false).
    { apply mmem_false. rewrite (ag_ts _ _ _ _ _ _ A). replace (Z.of_nat (length K) <? 0) with false by lia.
      rewrite Nat2Z.id. apply nth_error_None. unfold MapSpec.stamps. rewrite map_length. lia. }
    unfold emplace. rewrite Hm, Hi, Ht.
    assert (Hst : stamps (K ++ [Fr s p cl]) = stamps K ++ [s]) by (unfold MapSpec.stamps; rewrite map_app; reflexivity).
    assert (Hlen : length (stamps K) = length K) by apply map_length.
    constructor; cbn.
    - rewrite Hst. apply Permutation_NoDup with (l := s :: stamps K); [apply Permutation_cons_append|].
      constructor; [exact Hs | exact (ag_nodup _ _ _ _ _ _ A)].
    - apply msorted_mput. exact (ag_sorted _ _ _ _ _ _ A).
    - intros f. rewrite in_app_iff, mget_mput. cbn [In]. split.
      + intros [H | [<- | []]].
        * destruct (fr_ts f =? s) eqn:E.
          -- apply Z.eqb_eq in E. exfalso. apply Hs. rewrite <- E. apply in_map. exact H.
          -- apply (ag_map _ _ _ _ _ _ A). exact H.
        * cbn. rewrite Z.eqb_refl. reflexivity.
      + destruct (fr_ts f =? s) eqn:E.
        * intros [= <-]. auto.
        * intros H. left. apply (ag_map _ _ _ _ _ _ A). exact H.
    - intros s' f. rewrite mget_mput. destruct (s' =? s) eqn:E.
      + intros [= <-]. cbn. lia.
      + apply (ag_only _ _ _ _ _ _ A).
    - rewrite map_app. reflexivity.
    - intros i. rewrite mget_mput, Hst, (ag_ts _ _ _ _ _ _ A).
      destruct (i =? Z.of_nat (length K)) eqn:E.
      + apply Z.eqb_eq in E. subst i. replace (Z.of_nat (length K) <? 0) with false by lia.
        rewrite Nat2Z.id, nth_error_app2 by lia. rewrite Hlen, Nat.sub_diag. reflexivity.
      + destruct (i <? 0) eqn:E0; [reflexivity|].
        destruct (Nat.lt_ge_cases (Z.to_nat i) (length K)) as [H|H].
        * rewrite nth_error_app1 by lia. reflexivity.
        * rewrite nth_error_app2 by lia.
          destruct (Z.to_nat i - length (stamps K))%nat as [|m] eqn:Em; [exfalso; lia|].
          cbn [nth_error]. rewrite (proj2 (nth_error_None _ _)) by lia. destruct m; reflexivity.
    - intros s' i. rewrite mget_mput, Hst. destruct (s' =? s) eqn:E.
      + apply Z.eqb_eq in E. subst s'. split.
        * intros [= <-]. split; [lia|]. rewrite Nat2Z.id, nth_error_app2 by lia. rewrite Hlen, Nat.sub_diag. reflexivity.
        * intros [H0 H]. f_equal. destruct (Nat.lt_ge_cases (Z.to_nat i) (length K)) as [Hl|Hl].
          -- rewrite nth_error_app1 in H by lia. exfalso. apply Hs. eapply nth_error_In. exact H.
          -- rewrite nth_error_app2 in H by lia.
             destruct (Z.to_nat i - length (stamps K))%nat as [|m] eqn:Em; [lia|]. destruct m; discriminate.
      + apply Z.eqb_neq in E. rewrite (ag_idx _ _ _ _ _ _ A). split; intros [H0 H]; (split; [exact H0|]).
        * rewrite nth_error_app1; [exact H|]. apply nth_error_Some. congruence.
        * destruct (Nat.lt_ge_cases (Z.to_nat i) (length K)) as [Hl|Hl].
          -- rewrite nth_error_app1 in H by lia. exact H.
          -- rewrite nth_error_app2 in H by lia.
             destruct (Z.to_nat i - length (stamps K))%nat as [|m] eqn:Em.
             ++ cbn in H. congruence.
             ++ destruct m; discriminate.
  Qed.

  Lemma last_frame_newest K st : agrees K st ->
    match last_frame (m_map st) with None => K = [] | Some f => newest K f end.
  Proof.
    intros A. unfold MapModel.last_frame.
    destruct (rev (m_map st)) as [|[s f] r] eqn:E.
    - destruct K as [|f K]; [reflexivity|]. exfalso.
      assert (H : In f (f :: K)) by (left; reflexivity). apply (ag_map _ _ _ _ _ _ A) in H. apply mget_In in H.
      apply in_rev in H. rewrite E in H. exact H.
    - assert (Hm : m_map st = rev r ++ [(s, f)]).
      { rewrite <- (rev_involutive (m_map st)), E. reflexivity. }
      pose proof (ag_sorted _ _ _ _ _ _ A) as Hs.
      assert (Hg : mget s (m_map st) = Some f) by (apply In_mget; [exact Hs | rewrite Hm; apply in_or_app; right; left; reflexivity]).
      pose proof (ag_only _ _ _ _ _ _ A _ _ Hg) as Ht.
      split.
      + apply (ag_map _ _ _ _ _ _ A). rewrite Ht. exact Hg.
      + intros g Hin. apply (ag_map _ _ _ _ _ _ A) in Hin. apply mget_In in Hin. rewrite Hm in Hin.
        apply in_app_or in Hin. destruct Hin as [Hin | [Hin | []]].
        * rewrite Hm in Hs. apply msorted_app in Hs. destruct Hs as (_ & _ & Hlt).
          rewrite Ht. apply Z.lt_le_incl. apply Hlt; [apply (in_map fst) in Hin; exact Hin | left; reflexivity].
        * injection Hin as Hin1 ->. lia.
  Qed.

  Lemma newest_unique K f g : NoDup (stamps K) -> newest K f -> newest K g -> f = g.
  Proof.
    intros Hn [Hf Mf] [Hg Mg]. apply (stamp_inj K); auto. pose proof (Mf g Hg). pose proof (Mg f Hf). lia.
  Qed.

  (* one path entry *)
  Lemma step_agrees K st cts cloud found e :
    agrees K st -> (fst e = cts -> ~ In cts (stamps K)) ->
    exists st' K', path_step cts cloud st found e =
        (st', Ok (if fst e =? cts then Some (comp (snd e) B) else found)) /\
      ref_entry cts cloud K e K' /\ agrees K' st' /\
      (forall s, In s (stamps K') -> In s (stamps K) \/ s = cts /\ fst e = cts).
  Proof.
    intros A Hc. destruct e as [s b]. unfold MapModel.path_step. cbn [fst snd] in *.
    destruct (s =? cts) eqn:E.
    - apply Z.eqb_eq in E. subst s. specialize (Hc eq_refl).
      pose proof (last_frame_newest K st A) as Hl. destruct (last_frame (m_map st)) as [f|].
      + destruct (moved (comp b B) (fr_pose f)) eqn:M.
        * exists (add_to_map st cts (comp b B) cloud), (K ++ [Fr cts (comp b B) cloud]).
          refine (conj eq_refl (conj _ (conj _ _))).
          -- apply re_add with (f := f); assumption.
          -- apply add_agrees; assumption.
          -- intros s Hs. unfold MapSpec.stamps in Hs. rewrite map_app in Hs. apply in_app_or in Hs.
             destruct Hs as [Hs | [Hs | []]]; [left; exact Hs | right; cbn in Hs; auto].
        * exists st, K. refine (conj eq_refl (conj _ (conj A _))).
          -- apply re_skip with (f := f); assumption.
          -- auto.
      + subst K. exists (add_to_map st cts (comp b B) cloud), [Fr cts (comp b B) cloud].
        refine (conj eq_refl (conj _ (conj _ _))).
        * constructor.
        * apply (add_agrees []); assumption.
        * intros s [Hs | []]. right. cbn in Hs. auto.
    - apply Z.eqb_neq in E. destruct (update_agrees K st s b A) as (st' & Hu & A').
      rewrite Hu. exists st', (repose K s b). refine (conj eq_refl (conj _ (conj A' _))).
      + constructor. exact E.
      + rewrite stamps_repose. auto.
  Qed.

  (* the pose given to the cloud by the path: the last entry with its stamp *)
  Definition seen (cts : Z) (es : list (Z * P)) (found : option P) : option P :=
    match last_pose P cts es with Some b => Some (comp b B) | None => found end.

  Lemma loop_agrees cts cloud es : forall K st found,
    agrees K st ->
    (count_occ Z.eq_dec (map fst es) cts + (if in_dec Z.eq_dec cts (stamps K) then 1 else 0) <= 1)%nat ->
    exists st' K', path_loop cts cloud es st found = (st', Ok (seen cts es found)) /\
      ref_path cts cloud K es K' /\ agrees K' st' /\
      (forall s, In s (stamps K') -> In s (stamps K) \/ s = cts).
  Proof.
    induction es as [|e es IH]; intros K st found A Hc.
    - exists st, K. refine (conj eq_refl (conj _ (conj A _))); [constructor | auto].
    - cbn [map count_occ] in Hc.
      assert (H1 : fst e = cts -> ~ In cts (stamps K)).
      { intros E Hi. rewrite E in Hc. destruct (Z.eq_dec cts cts) as [_|ne]; [|congruence].
        destruct (in_dec Z.eq_dec cts (stamps K)); [lia | contradiction]. }
      destruct (step_agrees K st cts cloud found e A H1) as (st1 & K1 & E1 & R1 & A1 & S1).
      assert (H2 : (count_occ Z.eq_dec (map fst es) cts + (if in_dec Z.eq_dec cts (stamps K1) then 1 else 0) <= 1)%nat).
      { destruct (in_dec Z.eq_dec cts (stamps K1)) as [i|i].
        - destruct (S1 _ i) as [H|[_ H]].
          + destruct (in_dec Z.eq_dec cts (stamps K)); [|contradiction].
            destruct (Z.eq_dec (fst e) cts); lia.
          + rewrite H in Hc. destruct (Z.eq_dec cts cts) as [_|ne]; [|congruence]. lia.
        - destruct (Z.eq_dec (fst e) cts); destruct (in_dec Z.eq_dec cts (stamps K)); lia. }
      destruct (IH K1 st1 (if fst e =? cts then Some (comp (snd e) B) else found) A1 H2)
        as (st2 & K2 & E2 & R2 & A2 & S2).
      exists st2, K2. cbn [MapModel.path_loop]. rewrite E1, E2.
      refine (conj _ (conj _ (conj A2 _))).
      + f_equal. f_equal. unfold seen. destruct e as [t p]. cbn [last_pose fst snd].
        destruct (last_pose P cts es); [reflexivity|]. destruct (t =? cts); reflexivity.
      + apply rp_cons with (K1 := K1); assumption.
      + intros s Hs. destruct (S2 s Hs) as [H | H]; [|auto]. destruct (S1 s H) as [H' | [H' _]]; auto.
  Qed.

  (* the state after a call does not depend on how the extraction went *)
  Lemma callback_state me vl st c st' r :
    path_loop (c_ts c) (c_cloud c) (c_path c) st None = (st', r) -> fst (callback me vl st c) = st'.
  Proof.
    intros E. unfold MapModel.callback. destruct (c_path c) as [|e es] eqn:Ep.
    - cbn in E. injection E as <- <-. reflexivity.
    - rewrite E. destruct r as [[l|]| |]; reflexivity.
  Qed.

  (* Indices, map and point index stay in step over any history with distinct stamps.              *)
  Lemma run_agrees_gen vl h : forall K st,
    agrees K st -> NoDup (map c_ts h) -> Forall (once P Pt) h ->
    (forall c, In c h -> ~ In (c_ts c) (stamps K)) ->
    exists K', ref_run K h K' /\ agrees K' (run NEARBY vl h st) /\
      (forall s, In s (stamps K') -> In s (stamps K) \/ In s (map c_ts h)).
  Proof.
    induction h as [|c h IH]; intros K st A Hn Ho Hf.
    - exists K. refine (conj _ (conj A _)); [constructor | auto].
    - inversion Hn as [|? ? Hc Hn']; subst. inversion Ho as [|? ? Oc Ho']; subst.
      assert (H1 : (count_occ Z.eq_dec (map fst (c_path c)) (c_ts c) +
                    (if in_dec Z.eq_dec (c_ts c) (stamps K) then 1 else 0) <= 1)%nat).
      { destruct (in_dec Z.eq_dec (c_ts c) (stamps K)) as [i|i].
        - exfalso. apply (Hf c); [left; reflexivity | exact i].
        - unfold once in Oc. lia. }
      destruct (loop_agrees (c_ts c) (c_cloud c) (c_path c) K st None A H1) as (st1 & K1 & E1 & R1 & A1 & S1).
      destruct (IH K1 st1 A1 Hn' Ho') as (K2 & R2 & A2 & S2).
      { intros c' Hc' Hi. destruct (S1 _ Hi) as [H | H].
        - apply (Hf c'); [right; exact Hc' | exact H].
        - apply Hc. rewrite <- H. apply in_map. exact Hc'. }
      exists K2. cbn [MapModel.run]. rewrite (callback_state _ _ _ _ _ _ E1).
      refine (conj _ (conj A2 _)).
      + apply rr_cons with (K1 := K1); assumption.
      + intros s Hs. destruct (S2 s Hs) as [H | H].
        * destruct (S1 s H) as [H' | H']; [auto | right; left; auto].
        * right. right. exact H.
  Qed.

  Theorem run_agrees vl h :
    distinct P Pt h ->
    exists K, ref_run [] h K /\ agrees K (run NEARBY vl h (init P Pt PP NEARBY)).
  Proof.
    intros [Hn Ho]. destruct (run_agrees_gen vl h [] _ agrees_init Hn Ho) as (K & R & A & _).
    - intros c _ [].
    - exists K. auto.
  Qed.

  (* the reference map is a function of the history *)
  Lemma ref_entry_det cts cloud K e K1 K2 :
    NoDup (stamps K) -> ref_entry cts cloud K e K1 -> ref_entry cts cloud K e K2 -> K1 = K2.
  Proof.
    intros Hn H1 H2. inversion H1; subst; inversion H2; subst; try reflexivity; try contradiction;
      try (exfalso; match goal with H : newest [] _ |- _ => destruct H as [[] _] end).
    all: match goal with Ha : newest ?k ?f, Hb : newest ?k ?g |- _ =>
        pose proof (newest_unique k f g Hn Ha Hb); subst; congruence end.
  Qed.

  Lemma ref_run_det h : forall K K1 K2,
    NoDup (stamps K) -> NoDup (map c_ts h) -> Forall (once P Pt) h ->
    (forall c, In c h -> ~ In (c_ts c) (stamps K)) ->
    ref_run K h K1 -> ref_run K h K2 -> K1 = K2.
  Proof.
    assert (Hpath : forall cts cloud es K K1 K2, NoDup (stamps K) ->
      (count_occ Z.eq_dec (map fst es) cts + (if in_dec Z.eq_dec cts (stamps K) then 1 else 0) <= 1)%nat ->
      ref_path cts cloud K es K1 -> ref_path cts cloud K es K2 ->
      K1 = K2 /\ NoDup (stamps K1) /\ (forall s, In s (stamps K1) -> In s (stamps K) \/ s = cts)).
    { intros cts cloud es. induction es as [|e es IH]; intros K K1 K2 Hn Hc H1 H2.
      - inversion H1; subst. inversion H2; subst. auto.
      - inversion H1 as [|? ? Ka ? ? E1 P1]; subst. inversion H2 as [|? ? Kb ? ? E2 P2]; subst.
        pose proof (ref_entry_det _ _ _ _ _ _ Hn E1 E2) as <-.
        cbn [map count_occ] in Hc.
        assert (Hs : NoDup (stamps Ka) /\ (forall s, In s (stamps Ka) -> In s (stamps K) \/ s = cts /\ fst e = cts)).
        { inversion E1; subst; cbn [fst] in *.
          - split; [repeat constructor; auto|]. intros s [Hs | []]. cbn in Hs. auto.
          - assert (Hi : ~ In cts (stamps K)).
            { destruct (in_dec Z.eq_dec cts (stamps K)); [|assumption].
              destruct (Z.eq_dec cts cts); [lia | congruence]. }
            unfold MapSpec.stamps in *. rewrite map_app. split.
            + apply Permutation_NoDup with (l := cts :: map fr_ts K); [apply Permutation_cons_append|]. constructor; assumption.
            + intros s Hs. apply in_app_or in Hs. destruct Hs as [Hs | [Hs | []]]; [auto | cbn in Hs; auto].
          - auto.
          - rewrite stamps_repose. auto. }
        destruct Hs as [Hn1 Hs1].
        destruct (IH Ka K1 K2 Hn1) as (-> & Hn2 & Hs2); auto.
        { destruct (in_dec Z.eq_dec cts (stamps Ka)) as [i|i].
          - destruct (Hs1 _ i) as [H|[_ H]].
            + destruct (in_dec Z.eq_dec cts (stamps K)); [|contradiction].
              destruct (Z.eq_dec (fst e) cts); lia.
            + rewrite H in Hc. destruct (Z.eq_dec cts cts) as [_|ne]; [|congruence]. lia.
          - destruct (Z.eq_dec (fst e) cts); destruct (in_dec Z.eq_dec cts (stamps K)); lia. }
        refine (conj eq_refl (conj Hn2 _)).
        intros s Hs. destruct (Hs2 s Hs) as [H|H]; [|auto]. destruct (Hs1 s H) as [H'|[H' _]]; auto. }
    induction h as [|c h IH]; intros K K1 K2 Hk Hn Ho Hf H1 H2.
    - inversion H1; subst. inversion H2; subst. reflexivity.
    - inversion Hn as [|? ? Hc Hn']; subst. inversion Ho as [|? ? Oc Ho']; subst.
      inversion H1 as [|? ? Ka ? ? E1 P1]; subst. inversion H2 as [|? ? Kb ? ? E2 P2]; subst.
      assert (Hb : (count_occ Z.eq_dec (map fst (c_path c)) (c_ts c) +
                    (if in_dec Z.eq_dec (c_ts c) (stamps K) then 1 else 0) <= 1)%nat).
      { destruct (in_dec Z.eq_dec (c_ts c) (stamps K)) as [i|i].
        - exfalso. apply (Hf c); [left; reflexivity | exact i].
        - unfold once in Oc. lia. }
      destruct (Hpath _ _ _ _ _ _ Hk Hb E1 E2) as (<- & Hn1 & Hs1).
      apply (IH Ka); auto. intros c' Hc' Hi. destruct (Hs1 _ Hi) as [H | H].
      + apply (Hf c'); [right; exact Hc' | exact H].
      + apply Hc. rewrite <- H. apply in_map. exact Hc'.
  Qed.

  Theorem run_agrees_all vl h K :
    distinct P Pt h -> ref_run [] h K -> agrees K (run NEARBY vl h (init P Pt PP NEARBY)).
  Proof.
    intros D R. destruct (run_agrees vl h D) as (K' & R' & A). destruct D as [Hn Ho].
    rewrite (ref_run_det h [] K K'); auto; constructor.
  Qed.

  (* C35 in the words of the property: position i of the point index and the stamp with index i.   *)
  Theorem index_consistent vl h :
    distinct P Pt h ->
    let st := run NEARBY vl h (init P Pt PP NEARBY) in
    exists pc, m_cloud st = Some pc /\ length pc = length (m_map st) /\
      (forall s i, mget s (m_idx st) = Some i <-> mget i (m_ts st) = Some s) /\
      (forall i, (exists s, mget i (m_ts st) = Some s) <-> 0 <= i < Z.of_nat (length pc)) /\
      (forall s f, mget s (m_map st) = Some f ->
        fr_ts f = s /\ exists i, mget s (m_idx st) = Some i /\ 0 <= i /\
        nth_error pc (Z.to_nat i) = Some (pa (fr_pose f))) /\
      (forall i s, mget i (m_ts st) = Some s -> exists f, mget s (m_map st) = Some f).
  Proof.
    intros D. cbn zeta. destruct (run_agrees vl h D) as (K & R & A).
    set (st := run NEARBY vl h (init P Pt PP NEARBY)) in *.
    exists (map (fun f => pa (fr_pose f)) K).
    refine (conj (ag_cloud _ _ _ _ _ _ A) (conj _ (conj _ (conj _ (conj _ _))))).
    - rewrite map_length.
      transitivity (length (stamps K)); [symmetry; apply map_length|].
      transitivity (length (mkeys (m_map st))); [|apply map_length].
      apply Permutation_length. apply NoDup_Permutation.
      + exact (ag_nodup _ _ _ _ _ _ A).
      + apply msorted_NoDup. exact (ag_sorted _ _ _ _ _ _ A).
      + intros s. rewrite (agrees_mem K st s A). apply mmem_true.
    - intros s i. rewrite (ag_idx _ _ _ _ _ _ A), (ag_ts _ _ _ _ _ _ A).
      destruct (i <? 0) eqn:E; split; try discriminate; intros H.
      + destruct H. lia.
      + apply H.
      + split; [lia | exact H].
    - intros i. rewrite map_length. split.
      + intros (s & H). rewrite (ag_ts _ _ _ _ _ _ A) in H. destruct (i <? 0) eqn:E; [discriminate|].
        assert (H' : nth_error (stamps K) (Z.to_nat i) <> None) by congruence. apply nth_error_Some in H'.
        unfold MapSpec.stamps in H'. rewrite map_length in H'. lia.
      + intros H. rewrite (ag_ts _ _ _ _ _ _ A). replace (i <? 0) with false by lia.
        destruct (nth_error (stamps K) (Z.to_nat i)) as [s|] eqn:E; [eauto|].
        apply nth_error_None in E. unfold MapSpec.stamps in E. rewrite map_length in E. lia.
    - intros s f H. pose proof (ag_only _ _ _ _ _ _ A _ _ H) as Ht. split; [exact Ht|].
      assert (Hf : In f K) by (apply (ag_map _ _ _ _ _ _ A); rewrite Ht; exact H).
      destruct (In_nth_error _ _ Hf) as (i & Hi). exists (Z.of_nat i).
      rewrite (ag_idx _ _ _ _ _ _ A), Nat2Z.id, nth_error_map, Hi. refine (conj (conj _ _) (conj _ eq_refl)); try lia.
      unfold MapSpec.stamps. rewrite nth_error_map, Hi. cbn. congruence.
    - intros i s H. rewrite (ag_ts _ _ _ _ _ _ A) in H. destruct (i <? 0); [discriminate|].
      apply nth_error_In in H. apply (agrees_mem _ _ _ A) in H. apply mmem_mget in H. exact H.
  Qed.

  (* Every keyframe has the last pose the paths gave to its stamp, and the cloud of that stamp.     *)
  Lemma last_pose_app s l1 l2 :
    last_pose P s (l1 ++ l2) = match last_pose P s l2 with Some q => Some q | None => last_pose P s l1 end.
  Proof.
    induction l1 as [|[t p] l1 IH]; cbn [app last_pose].
    - destruct (last_pose P s l2); reflexivity.
    - rewrite IH. destruct (last_pose P s l2); reflexivity.
  Qed.

  Definition fresh_poses (E : list (Z * P)) (K : list frame) : Prop :=
    forall f, In f K -> exists b, last_pose P (fr_ts f) E = Some b /\ fr_pose f = comp b B.

  Lemma ref_entry_latest cts cloud K e K' E :
    ref_entry cts cloud K e K' -> ~ (fst e = cts /\ In cts (stamps K)) ->
    fresh_poses E K -> fresh_poses (E ++ [e]) K'.
  Proof.
    intros H Hc HE f Hf. rewrite last_pose_app. destruct e as [s b]. cbn [last_pose fst] in *.
    inversion H; subst.
    - destruct Hf as [<- | []]. cbn. rewrite Z.eqb_refl. eauto.
    - apply in_app_or in Hf. destruct Hf as [Hf | [<- | []]].
      + destruct (s =? fr_ts f) eqn:E1; [|apply HE; exact Hf].
        apply Z.eqb_eq in E1. exfalso. apply Hc. split; [reflexivity|]. rewrite E1. apply in_map. exact Hf.
      + cbn. rewrite Z.eqb_refl. eauto.
    - destruct (s =? fr_ts f) eqn:E1; [|apply HE; exact Hf].
      apply Z.eqb_eq in E1. exfalso. apply Hc. split; [reflexivity|]. rewrite E1. apply in_map. exact Hf.
    - apply In_repose in Hf. destruct Hf as [[H1 H2] | (g & Hg & Et & ->)].
      + replace (s =? fr_ts f) with false by lia. apply HE. exact H2.
      + cbn. rewrite Z.eqb_refl. eauto.
  Qed.

  Lemma ref_run_latest h : forall K K' E,
    NoDup (map c_ts h) -> Forall (once P Pt) h ->
    (forall c, In c h -> ~ In (c_ts c) (stamps K)) ->
    ref_run K h K' -> fresh_poses E K -> fresh_poses (E ++ flat_map c_path h) K'.
  Proof.
    assert (Hpath : forall cts cloud es K K' E,
      (count_occ Z.eq_dec (map fst es) cts + (if in_dec Z.eq_dec cts (stamps K) then 1 else 0) <= 1)%nat ->
      ref_path cts cloud K es K' -> fresh_poses E K ->
      fresh_poses (E ++ es) K' /\ (forall s, In s (stamps K') -> In s (stamps K) \/ s = cts)).
    { intros cts cloud es. induction es as [|e es IH]; intros K K' E Hc H HE.
      - inversion H; subst. rewrite app_nil_r. auto.
      - inversion H as [|? ? Ka ? ? E1 P1]; subst. cbn [map count_occ] in Hc.
        assert (Hs : forall s, In s (stamps Ka) -> In s (stamps K) \/ s = cts /\ fst e = cts).
        { inversion E1; subst; cbn [fst] in *.
          - intros s [Hs | []]. cbn in Hs. auto.
          - unfold MapSpec.stamps. rewrite map_app. intros s Hs. apply in_app_or in Hs.
            destruct Hs as [Hs | [Hs | []]]; [auto | cbn in Hs; auto].
          - auto.
          - rewrite stamps_repose. auto. }
        assert (Hx : ~ (fst e = cts /\ In cts (stamps K))).
        { intros [Ee Hi]. rewrite Ee in Hc. destruct (Z.eq_dec cts cts) as [_|ne]; [|congruence].
          destruct (in_dec Z.eq_dec cts (stamps K)); [lia | contradiction]. }
        destruct (IH Ka K' (E ++ [e])) as (F & S2); auto.
        + destruct (in_dec Z.eq_dec cts (stamps Ka)) as [i|i].
          * destruct (Hs _ i) as [H'|[_ H']].
            -- destruct (in_dec Z.eq_dec cts (stamps K)); [|contradiction].
               destruct (Z.eq_dec (fst e) cts); lia.
            -- rewrite H' in Hc. destruct (Z.eq_dec cts cts) as [_|ne]; [|congruence]. lia.
          * destruct (Z.eq_dec (fst e) cts); destruct (in_dec Z.eq_dec cts (stamps K)); lia.
        + apply (ref_entry_latest _ _ _ _ _ _ E1 Hx HE).
        + rewrite <- app_assoc in F. split; [exact F|].
          intros s H'. destruct (S2 s H') as [H0|H0]; [|auto]. destruct (Hs s H0) as [H1|[H1 _]]; auto. }
    induction h as [|c h IH]; intros K K' E Hn Ho Hf R HE.
    - inversion R; subst. cbn. rewrite app_nil_r. exact HE.
    - inversion Hn as [|? ? Hc Hn']; subst. inversion Ho as [|? ? Oc Ho']; subst.
      inversion R as [|? ? Ka ? ? E1 P1]; subst. cbn [flat_map].
      assert (Hb : (count_occ Z.eq_dec (map fst (c_path c)) (c_ts c) +
                    (if in_dec Z.eq_dec (c_ts c) (stamps K) then 1 else 0) <= 1)%nat).
      { destruct (in_dec Z.eq_dec (c_ts c) (stamps K)) as [i|i].
        - exfalso. apply (Hf c); [left; reflexivity | exact i].
        - unfold once in Oc. lia. }
      destruct (Hpath _ _ _ _ _ E Hb E1 HE) as (F & S1).
      rewrite app_assoc. apply (IH Ka); auto. intros c' Hc' Hi. destruct (S1 _ Hi) as [H | H].
      + apply (Hf c'); [right; exact Hc' | exact H].
      + apply Hc. rewrite <- H. apply in_map. exact Hc'.
  Qed.

  Theorem mapped_pose_latest vl h s f :
    distinct P Pt h ->
    mget s (m_map (run NEARBY vl h (init P Pt PP NEARBY))) = Some f ->
    fr_ts f = s /\ exists b, last_pose P s (flat_map c_path h) = Some b /\ fr_pose f = comp b B.
  Proof.
    intros D H. destruct (run_agrees vl h D) as (K & R & A). destruct D as [Hn Ho].
    pose proof (ag_only _ _ _ _ _ _ A _ _ H) as Ht. split; [exact Ht|]. subst s.
    apply (ref_run_latest h [] K [] Hn Ho (fun _ _ F => F) R).
    - intros g [].
    - apply (ag_map _ _ _ _ _ _ A). exact H.
  Qed.

  (* the cloud stored under a stamp is the cloud that was received with that stamp *)
  Lemma ref_run_clouds h : forall K K' f, ref_run K h K' -> In f K' ->
    (exists g, In g K /\ fr_ts g = fr_ts f /\ fr_cloud g = fr_cloud f) \/
    (exists c, In c h /\ c_ts c = fr_ts f /\ c_cloud c = fr_cloud f).
  Proof.
    assert (Hpath : forall cts cloud es K K' f, ref_path cts cloud K es K' -> In f K' ->
      (exists g, In g K /\ fr_ts g = fr_ts f /\ fr_cloud g = fr_cloud f) \/ (cts = fr_ts f /\ cloud = fr_cloud f)).
    { intros cts cloud es. induction es as [|e es IH]; intros K K' f H Hf.
      - inversion H; subst. left. eauto.
      - inversion H as [|? ? Ka ? ? E1 P1]; subst. destruct (IH _ _ _ P1 Hf) as [(g & Hg & Et & Ec) | H']; [|auto].
        inversion E1; subst.
        + destruct Hg as [<- | []]. right. cbn in *. auto.
        + apply in_app_or in Hg. destruct Hg as [Hg | [<- | []]]; [left; eauto | right; cbn in *; auto].
        + left. eauto.
        + apply In_repose in Hg. destruct Hg as [[_ Hg] | (g' & Hg' & Et' & ->)]; [left; eauto|].
          left. exists g'. cbn in *. repeat split; congruence. }
    induction h as [|c h IH]; intros K K' f R Hf.
    - inversion R; subst. left. eauto.
    - inversion R as [|? ? Ka ? ? E1 P1]; subst. destruct (IH _ _ _ P1 Hf) as [(g & Hg & Et & Ec) | (c' & Hc & E)].
      + destruct (Hpath _ _ _ _ _ _ E1 Hg) as [(g' & Hg' & Et' & Ec') | [Et' Ec']].
        * left. exists g'. repeat split; congruence.
        * right. exists c. repeat split; [left; reflexivity | congruence | congruence].
      + right. exists c'. destruct E. repeat split; auto. right. exact Hc.
  Qed.

  Theorem mapped_cloud_received vl h s f :
    distinct P Pt h ->
    mget s (m_map (run NEARBY vl h (init P Pt PP NEARBY))) = Some f ->
    exists c, In c h /\ c_ts c = s /\ c_cloud c = fr_cloud f.
  Proof.
    intros D H. destruct (run_agrees vl h D) as (K & R & A).
    pose proof (ag_only _ _ _ _ _ _ A _ _ H) as Ht. subst s.
    apply (ag_map _ _ _ _ _ _ A) in H. destruct (ref_run_clouds _ _ _ _ R H) as [(g & [] & _) | H']; exact H'.
  Qed.

  (* ---------------------------------------------------------------------------------------------- *)
  (* Local map of nearby frames                                                                       *)
  Definition select (K : list frame) (idx : list Z) : list frame :=
    flat_map (fun i => match nth_error K (Z.to_nat i) with Some f => [f] | None => [] end) idx.

  Lemma gather_select K st ts l : agrees K st -> forall idx acc,
    (forall i, In i idx -> 0 <= i < Z.of_nat (length K)) ->
    gather P Pt PP comp inv act st ts l idx acc =
      if existsb (fun f => ts <? fr_ts f) (select K idx) then Throw
      else Ok (acc ++ flat_map (seen_from l) (select K idx)).
  Proof.
    intros A. induction idx as [|i idx IH]; intros acc Hr.
    - cbn. rewrite app_nil_r. reflexivity.
    - cbn [MapModel.gather select flat_map]. rewrite (ag_ts _ _ _ _ _ _ A).
      assert (Hi : 0 <= i < Z.of_nat (length K)) by (apply Hr; left; reflexivity).
      replace (i <? 0) with false by lia. unfold MapSpec.stamps at 1. rewrite nth_error_map.
      destruct (nth_error K (Z.to_nat i)) as [f|] eqn:E; [|apply nth_error_None in E; lia].
      cbn [option_map]. rewrite (proj1 (ag_map _ _ _ _ _ _ A f)) by (eapply nth_error_In; exact E).
      cbn [app existsb flat_map]. destruct (ts <? fr_ts f); [reflexivity|]. cbn [orb].
      rewrite IH by (intros j Hj; apply Hr; right; exact Hj). fold (select K idx).
      rewrite <- app_assoc. reflexivity.
  Qed.

  (* What one call publishes: exactly the k selected keyframes, from the pose of the cloud.          *)
  Theorem nearby_published nearer K st vl c b :
    knn_ok PP nearer knn -> agrees K st -> ~ In (c_ts c) (stamps K) -> once P Pt c ->
    last_pose P (c_ts c) (c_path c) = Some b ->
    exists K', ref_path (c_ts c) (c_cloud c) K (c_path c) K' /\
      let l := comp b B in
      let near := knn (map (fun f => pa (fr_pose f)) K') (pa l) (Nat.min n (length K')) in
      length near = Nat.min n (length K') /\ NoDup near /\
      length (select K' near) = Nat.min n (length K') /\
      snd (callback NEARBY vl st c) =
        (if existsb (fun f => c_ts c <? fr_ts f) (select K' near) then Throw
         else let pts := flat_map (seen_from l) (select K' near) in Ok (if vl then vox pts else pts)) /\
      (forall i j f g, In i near -> 0 <= j -> ~ In j near ->
         nth_error K' (Z.to_nat i) = Some f -> nth_error K' (Z.to_nat j) = Some g ->
         nearer (pa l) (pa (fr_pose f)) (pa (fr_pose g))).
  Proof.
    intros Hk A Hn Ho Hb.
    assert (H1 : (count_occ Z.eq_dec (map fst (c_path c)) (c_ts c) +
                  (if in_dec Z.eq_dec (c_ts c) (stamps K) then 1 else 0) <= 1)%nat).
    { destruct (in_dec Z.eq_dec (c_ts c) (stamps K)); [contradiction|]. unfold once in Ho. lia. }
    destruct (loop_agrees (c_ts c) (c_cloud c) (c_path c) K st None A H1) as (st1 & K1 & E1 & R1 & A1 & S1).
    exists K1. split; [exact R1|]. cbn zeta.
    destruct (Hk (map (fun f => pa (fr_pose f)) K1) (pa (comp b B)) (Nat.min n (length K1))) as (L & N & Rg & Nr).
    { rewrite map_length. lia. }
    rewrite map_length in Rg.
    refine (conj L (conj N (conj _ (conj _ _)))).
    - rewrite <- L at 2. generalize (knn (map (fun f => pa (fr_pose f)) K1) (pa (comp b B)) (Nat.min n (length K1))) Rg.
      induction l as [|i l IH]; intros Hl; [reflexivity|].
      cbn [select flat_map]. destruct (nth_error K1 (Z.to_nat i)) as [f|] eqn:E.
      + cbn [app length]. f_equal. apply IH. intros j Hj. apply Hl. right. exact Hj.
      + apply nth_error_None in E. pose proof (Hl i (or_introl eq_refl)). lia.
    - unfold MapModel.callback. destruct (c_path c) as [|e es] eqn:Ep; [cbn in Hb; discriminate|].
      rewrite <- Ep in *. rewrite E1. unfold seen. rewrite Hb. cbn [snd extract]. unfold extract_nearby.
      rewrite (ag_cloud _ _ _ _ _ _ A1), map_length, L, Nat.eqb_refl.
      rewrite (gather_select K1 st1 _ _ A1 _ [] Rg).
      destruct (existsb _ _); reflexivity.
    - intros i j f g Hi Hj Hnj Ef Eg. apply (Nr i j); auto; rewrite nth_error_map; [rewrite Ef | rewrite Eg]; reflexivity.
  Qed.

  (* Points of a local map, taken back to the world by the pose of the cloud, are the points the
     global map shows for the same keyframes.                                                        *)
  Theorem local_in_world l f :
    (forall p q x, act (comp p q) x = act p (act q x)) ->
    (forall p x, act p (act (inv p) x) = x) ->
    map (act l) (seen_from l f) = map (act (fr_pose f)) (fr_cloud f).
  Proof.
    intros Hc Hi. unfold MapModel.seen_from. rewrite map_map. apply map_ext. intros x. rewrite Hc, Hi. reflexivity.
  Qed.

  (* Global map and pose graph: every keyframe once. *)
  Theorem published_all vl vg h :
    distinct P Pt h ->
    exists K, ref_run [] h K /\
      let st := run NEARBY vl h (init P Pt PP NEARBY) in
      Permutation (publish_map P Pt PP act vox false vg st)
                  (flat_map (fun f => map (act (fr_pose f)) (fr_cloud f)) K) /\
      (exists K', Permutation K' K /\ StronglySorted (fun f g => fr_ts f < fr_ts g) K' /\
         pose_graph P Pt PP st = (map fr_cloud K', map (fun f => (fr_ts f, fr_pose f)) K')).
  Proof.
    intros D. destruct (run_agrees vl h D) as (K & R & A). exists K. split; [exact R|]. cbn zeta.
    set (st := run NEARBY vl h (init P Pt PP NEARBY)) in *.
    assert (Hp : Permutation (map snd (m_map st)) K).
    { apply NoDup_Permutation.
      - apply (NoDup_map_inv fr_ts). rewrite map_map.
        replace (map (fun x => fr_ts (snd x)) (m_map st)) with (mkeys (m_map st)).
        + apply msorted_NoDup. exact (ag_sorted _ _ _ _ _ _ A).
        + unfold mkeys. apply map_ext_in. intros [s f] Hin. cbn. symmetry. apply (ag_only _ _ _ _ _ _ A).
          apply In_mget; [exact (ag_sorted _ _ _ _ _ _ A) | exact Hin].
      - apply (NoDup_map_inv fr_ts). exact (ag_nodup _ _ _ _ _ _ A).
      - intros f. rewrite in_map_iff. split.
        + intros ([s g] & E & Hin). cbn in E. subst g.
          apply In_mget in Hin; [|exact (ag_sorted _ _ _ _ _ _ A)].
          apply (ag_map _ _ _ _ _ _ A). rewrite (ag_only _ _ _ _ _ _ A _ _ Hin). exact Hin.
        + intros Hf. apply (ag_map _ _ _ _ _ _ A) in Hf. apply mget_In in Hf.
          exists (fr_ts f, f). auto. }
    split.
    - unfold publish_map.
      replace (flat_map (fun e => map (act (fr_pose (snd e))) (fr_cloud (snd e))) (m_map st))
        with (flat_map (fun f => map (act (fr_pose f)) (fr_cloud f)) (map snd (m_map st))).
      + apply Permutation_flat_map. exact Hp.
      + rewrite !flat_map_concat_map, map_map. reflexivity.
    - exists (map snd (m_map st)). refine (conj Hp (conj _ _)).
      + pose proof (ag_sorted _ _ _ _ _ _ A) as Hs. pose proof (ag_only _ _ _ _ _ _ A) as Ho.
        assert (Hk : forall s f, In (s, f) (m_map st) -> fr_ts f = s).
        { intros s f Hin. apply Ho. apply In_mget; assumption. }
        clear - Hs Hk. induction (m_map st) as [|[s f] m IH]; [constructor|].
        destruct Hs as [H1 H2]. cbn [map snd]. constructor.
        * apply IH; [exact H2|]. intros s' f' H'. apply Hk. right. exact H'.
        * apply Forall_forall. intros g Hg. apply in_map_iff in Hg. destruct Hg as ([s' g'] & E & Hin). cbn in E. subst g'.
          rewrite (Hk s f (or_introl eq_refl)), (Hk s' g (or_intror Hin)). apply H1. apply (in_map fst) in Hin. exact Hin.
      + unfold pose_graph. rewrite !map_map. reflexivity.
  Qed.
  (* the points of the global map, filtered or not, in the order of the stamps *)
  Theorem published_filtered vl h sl sg :
    distinct P Pt h ->
    exists K K', ref_run [] h K /\ Permutation K' K /\ StronglySorted (fun f g => fr_ts f < fr_ts g) K' /\
      let pts := flat_map (fun f => map (act (fr_pose f)) (fr_cloud f)) K' in
      publish_map P Pt PP act vox sl sg (run NEARBY vl h (init P Pt PP NEARBY)) = if sl then vox pts else pts.
  Proof.
    intros D. destruct (published_all vl sg h D) as (K & R & _ & K' & Pm & Ss & E). exists K, K'. refine (conj R (conj Pm (conj Ss _))). cbn zeta.
    set (st := run NEARBY vl h (init P Pt PP NEARBY)) in *. clearbody st. unfold publish_map.
    replace (flat_map (fun e => map (act (fr_pose (snd e))) (fr_cloud (snd e))) (m_map st)) with (flat_map (fun f => map (act (fr_pose f)) (fr_cloud f)) K'); [reflexivity|].
    unfold pose_graph in E. injection E as E1 E2. clear - E1 E2. revert K' E1 E2. induction (m_map st) as [|e m IH]; intros [|f K'] E1 E2; try discriminate; [reflexivity|].
    cbn in *. injection E1 as E1 E1'. injection E2 as _ E2 E2'. rewrite E1, E2, (IH K'); auto.
  Qed.

  (* a path that does not name the cloud: no map, nothing added; poses of other keyframes are still updated *)
  Lemma absent_ref cts cloud es : last_pose P cts es = None -> forall K K', ref_path cts cloud K es K' -> stamps K' = stamps K.
  Proof.
    intros L K K' R. induction R as [K|K e K1 es K2 R1 R2 IH]; [reflexivity|]. destruct e as [t p]. cbn [last_pose] in L. destruct (last_pose P cts es); [discriminate|]. destruct (t =? cts) eqn:E; [discriminate|]. rewrite IH by reflexivity.
    inversion R1; subst; try (rewrite Z.eqb_refl in E; discriminate). apply stamps_repose.
  Qed.
  Lemma absent_count cts es : last_pose P cts es = None -> ~ In cts (map fst es).
  Proof.
    induction es as [|[t p] es IH]; cbn [last_pose map fst]; [intros _ []|]. destruct (last_pose P cts es); [discriminate|]. destruct (t =? cts) eqn:E; [discriminate|]. intros _ [->|I]; [rewrite Z.eqb_refl in E; discriminate|exact (IH eq_refl I)].
  Qed.
  Theorem absent_refused K st vl c :
    agrees K st -> last_pose P (c_ts c) (c_path c) = None ->
    exists st' K', callback NEARBY vl st c = (st', Throw) /\ ref_path (c_ts c) (c_cloud c) K (c_path c) K' /\ agrees K' st' /\ stamps K' = stamps K.
  Proof.
    intros A L. assert (C : (count_occ Z.eq_dec (map fst (c_path c)) (c_ts c) + (if in_dec Z.eq_dec (c_ts c) (stamps K) then 1 else 0) <= 1)%nat).
    { rewrite (proj1 (count_occ_not_In Z.eq_dec _ _) (absent_count _ _ L)). destruct (in_dec _ _ _); lia. }
    destruct (loop_agrees (c_ts c) (c_cloud c) (c_path c) K st None A C) as (st' & K' & E & R & A' & _). exists st', K'.
    refine (conj _ (conj R (conj A' (absent_ref _ _ _ L _ _ R)))). unfold seen in E. rewrite L in E. unfold MapModel.callback. destruct (c_path c) eqn:Ep; [cbn in E; injection E as ->; reflexivity|]. rewrite E. reflexivity.
  Qed.
  Theorem absent_never_published me vl st c pts : last_pose P (c_ts c) (c_path c) = None -> snd (callback me vl st c) <> Ok pts.
  Proof.
    intros L. unfold MapModel.callback. destruct (c_path c) as [|e es] eqn:Ep; [discriminate|]. rewrite <- Ep in *.
    assert (G : forall es st, last_pose P (c_ts c) es = None -> forall st' l, path_loop (c_ts c) (c_cloud c) es st None <> (st', Ok (Some l))).
    { clear. induction es as [|e es IH]; intros st L st' l; cbn [MapModel.path_loop]; [discriminate|]. destruct e as [t p]. cbn [last_pose] in L. destruct (last_pose P (c_ts c) es); [discriminate|]. destruct (t =? c_ts c) eqn:E; [discriminate|].
      unfold MapModel.path_step. cbn [fst snd]. rewrite E. destruct (update_map st t (comp p B)) as [st1 [?| |]]; [apply IH; reflexivity|discriminate|discriminate]. }
    specialize (G _ st L). destruct (path_loop (c_ts c) (c_cloud c) (c_path c) st None) as [st' [[l|]| |]]; try discriminate. exfalso. eapply G. reflexivity.
  Qed.
End MapProofs.
