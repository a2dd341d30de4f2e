(* Past mode over whole histories: the map is the list of keyframes, each call publishes the last n keyframes that
   are not newer than its cloud.                                                                                  *)
From Verif Require Import Base MapModel MapSpec MapProofs MapPast.

Section MapPast2.
  Variables P Pt PP : Type.
  Variable comp : P -> P -> P.
  Variable inv : P -> P.
  Variable act : P -> Pt -> Pt.
  Variable pa : P -> PP.
  Variable B : P.
  Variable moved : P -> P -> bool.
  Variable knn : list PP -> PP -> nat -> list Z.
  Variable vox : list Pt -> list Pt.
  Variable n : nat.

  Notation frame := (frame P Pt).
  Notation call := (call P Pt).
  Notation mst := (mst P Pt PP).
  Notation fr_ts := (fr_ts P Pt).
  Notation m_map := (m_map P Pt PP).
  Notation m_cloud := (m_cloud P Pt PP).
  Notation stamps := (stamps P Pt).
  Notation agrees := (agrees P Pt PP pa).
  Notation callback := (callback P Pt PP comp inv act pa B moved knn vox n).
  Notation run := (run P Pt PP comp inv act pa B moved knn vox n).
  Notation outcomes := (outcomes P Pt PP comp inv act pa B moved knn vox n).
  Notation init := (init P Pt PP).
  Notation seen_from := (seen_from P Pt comp inv act).
  Notation c_ts := (c_ts P Pt).
  Notation c_path := (c_path P Pt).
  Notation c_cloud := (c_cloud P Pt).
  Notation path_loop := (path_loop P Pt PP comp pa B moved).
  Notation path_step := (path_step P Pt PP comp pa B moved).
  Notation ref_path := (ref_path P Pt comp B moved).
  Notation past_inv := (past_inv P Pt PP).
  Notation last_pose := (last_pose P).

  (* Specification. The path of a call names no keyframe but possibly the cloud itself. *)
  Definition quiet (K : list frame) (c : call) : Prop :=
    forall s b, In (s, b) (c_path c) -> s <> c_ts c -> ~ In s (stamps K).
  (* keyframes K1 after a history of quiet calls on keyframes K, by the reference rules of MapSpec.v *)
  Inductive quiet_run : list frame -> list call -> list frame -> Prop :=
  | qr_nil K : quiet_run K [] K
  | qr_cons K c K1 h K2 : quiet K c -> ref_path (c_ts c) (c_cloud c) K (c_path c) K1 -> quiet_run K1 h K2 ->
      quiet_run K (c :: h) K2.
  (* L lists the keyframes not newer than ts, the newest first *)
  Definition newest_first (ts : Z) (K L : list frame) : Prop :=
    StronglySorted (fun f g => fr_ts g < fr_ts f) L /\ (forall f, In f L <-> In f K /\ fr_ts f <= ts).
  (* what a call publishes then; no such keyframe: the walk leaves the map *)
  Definition past_result (vl : bool) (l : P) (L : list frame) : res (list Pt) :=
    match L with
    | [] => UB
    | _ => Ok ((if vl then vox else fun x => x) (flat_map (seen_from l) (firstn n L)))
    end.

  (* ---------------------------------------------------------------------------------------------- *)
  Lemma path_loop_inv cts cloud es : forall st found, past_inv st -> past_inv (fst (path_loop cts cloud es st found)).
  Proof.
    induction es as [|e es IH]; intros st found Hi; [exact Hi|]. cbn [MapModel.path_loop].
    destruct (path_step cts cloud st found e) as [st1 r] eqn:E.
    destruct (past_inv_step P Pt PP comp pa B moved cts cloud st found e st1 r Hi E) as (H1 & _).
    destruct r; [apply IH; exact H1 | exact H1 | exact H1].
  Qed.

  Lemma callback_inv vl st c : past_inv st -> past_inv (fst (callback PAST vl st c)).
  Proof.
    intros Hi. unfold MapModel.callback. destruct (c_path c) as [|e es]; [exact Hi|].
    pose proof (path_loop_inv (c_ts c) (c_cloud c) (e :: es) st None Hi) as H.
    destruct (path_loop (c_ts c) (c_cloud c) (e :: es) st None) as [st' [ [?|] | |]]; exact H.
  Qed.

  Lemma run_inv vl h : forall st, past_inv st -> past_inv (run PAST vl h st).
  Proof. induction h as [|c h IH]; intros st Hi; [exact Hi|]. cbn [MapModel.run]. apply IH, callback_inv, Hi. Qed.

  (* undefined behaviour, for every history *)
  Theorem past_names_keyframe vl h c s b :
    let st := run PAST vl h (init PAST) in
    In (s, b) (c_path c) -> s <> c_ts c -> mmem s (m_map st) = true -> snd (callback PAST vl st c) = UB.
  Proof.
    cbn zeta. intros H1 H2 H3. eapply past_mode_ub; eauto. apply run_inv, past_init.
  Qed.

  (* ---------------------------------------------------------------------------------------------- *)
  (* a nearby mode node with the same map *)
  Definition twin (st st2 : mst) : Prop := m_map st = m_map st2 /\ m_cloud st = None.

  Lemma add_twin st st2 ts p cl : twin st st2 -> twin (add_to_map P Pt PP pa st ts p cl) (add_to_map P Pt PP pa st2 ts p cl).
  Proof. intros [H1 H2]. unfold add_to_map. rewrite H2. split; cbn; [|reflexivity]. destruct (m_cloud st2); cbn; rewrite H1; reflexivity. Qed.

  Lemma step_twin K st st2 cts cloud found e :
    agrees K st2 -> twin st st2 -> (fst e <> cts -> ~ In (fst e) (stamps K)) ->
    snd (path_step cts cloud st found e) = snd (path_step cts cloud st2 found e) /\
    twin (fst (path_step cts cloud st found e)) (fst (path_step cts cloud st2 found e)).
  Proof.
    intros A T Q. pose proof T as [H1 H2]. unfold MapModel.path_step. destruct (fst e =? cts) eqn:E.
    - split; [reflexivity|]. cbn [fst]. rewrite H1.
      destruct (last_frame P Pt (m_map st2)) as [f|]; [destruct (moved (comp (snd e) B) (MapModel.fr_pose P Pt f))|];
        try apply add_twin; assumption.
    - apply Z.eqb_neq in E. specialize (Q E). unfold update_map. rewrite H1.
      assert (Hn : mget (fst e) (m_map st2) = None).
      { destruct (mget (fst e) (m_map st2)) as [f|] eqn:Eg; [|reflexivity]. exfalso. apply Q.
        apply (agrees_mem P Pt PP pa K st2 (fst e) A). apply mmem_mget. eauto. }
      rewrite Hn. cbn [fst snd]. auto.
  Qed.

  Lemma loop_twin cts cloud es : forall K st st2 found,
    agrees K st2 -> twin st st2 ->
    (count_occ Z.eq_dec (map fst es) cts + (if in_dec Z.eq_dec cts (stamps K) then 1 else 0) <= 1)%nat ->
    (forall e, In e es -> fst e <> cts -> ~ In (fst e) (stamps K)) ->
    snd (path_loop cts cloud es st found) = snd (path_loop cts cloud es st2 found) /\
    twin (fst (path_loop cts cloud es st found)) (fst (path_loop cts cloud es st2 found)).
  Proof.
    induction es as [|e es IH]; intros K st st2 found A T Hc Q; [auto|].
    cbn [MapModel.path_loop].
    destruct (step_twin K st st2 cts cloud found e A T (Q e (or_introl eq_refl))) as [H1 H2].
    assert (Hown : fst e = cts -> ~ In cts (stamps K)).
    { intros He Hi. cbn [map count_occ] in Hc. destruct (Z.eq_dec (fst e) cts); [|contradiction].
      destruct (in_dec Z.eq_dec cts (stamps K)); [lia|contradiction]. }
    destruct (step_agrees P Pt PP comp pa B moved K st2 cts cloud found e A Hown) as (st2' & K' & E2 & R2 & A2 & S2).
    rewrite E2 in *. destruct (path_step cts cloud st found e) as [st' r]. cbn [fst snd] in H1, H2. subst r.
    apply (IH K'); auto.
    - cbn [map count_occ] in Hc.
      destruct (in_dec Z.eq_dec cts (stamps K')) as [Hin|]; [|destruct (Z.eq_dec (fst e) cts), (in_dec Z.eq_dec cts (stamps K)); lia].
      destruct (S2 _ Hin) as [Hx | [_ Hx] ].
      + destruct (Z.eq_dec (fst e) cts); [exfalso; apply Hown; assumption|].
        destruct (in_dec Z.eq_dec cts (stamps K)); [lia | contradiction].
      + destruct (Z.eq_dec (fst e) cts); [|contradiction]. destruct (in_dec Z.eq_dec cts (stamps K)); lia.
    - intros e' He' Hne Hin. destruct (S2 _ Hin) as [Hx | [Hx _] ]; [|contradiction].
      revert Hx. apply Q; [right; exact He' | exact Hne].
  Qed.

  (* the state of a past mode node: it has the map of some nearby mode node with keyframes K *)
  Definition mapped (K : list frame) (st : mst) : Prop := exists st2, agrees K st2 /\ twin st st2.

  Lemma mapped_init : mapped [] (init PAST).
  Proof. exists (init NEARBY). split; [apply agrees_init | split; reflexivity]. Qed.

  Lemma mapped_past K st ts : mapped K st -> newest_first ts K (past P Pt ts (m_map st)).
  Proof.
    intros (st2 & A & [H1 H2]). rewrite H1. unfold past. split.
    - pose proof (ag_sorted _ _ _ _ _ _ A) as Hs. pose proof (ag_only _ _ _ _ _ _ A) as Ho.
      assert (Hin : forall s f, In (s, f) (m_map st2) -> fr_ts f = s) by (intros s f Hf; apply Ho, In_mget; assumption).
      rewrite <- filter_rev_. apply msorted_rev_desc in Hs.
      assert (Hin' : forall s f, In (s, f) (rev (m_map st2)) -> fr_ts f = s) by (intros s f Hf; apply Hin, in_rev, Hf).
      clear Hin. induction Hs as [|[s f] r Hs IH Hf]; [constructor|]. cbn [filter].
      assert (IH' := IH (fun s0 f0 H => Hin' s0 f0 (or_intror H))).
      destruct (fst (s, f) <=? ts) eqn:E; [|exact IH']. cbn [map snd]. constructor; [exact IH'|].
      apply Forall_forall. intros g Hg. apply in_map_iff in Hg. destruct Hg as ([s' g'] & <- & Hg). apply filter_In in Hg.
      destruct Hg as [Hg _]. cbn [snd]. rewrite (Hin' s' g' (or_intror Hg)), (Hin' s f (or_introl eq_refl)).
      rewrite Forall_forall in Hf. apply (Hf _ Hg).
    - intros f. rewrite in_map_iff. split.
      + intros ([s g] & <- & Hg). apply in_rev in Hg. apply filter_In in Hg. destruct Hg as [Hg Hle]. cbn [fst snd] in *.
        apply In_mget in Hg; [|exact (ag_sorted _ _ _ _ _ _ A)]. pose proof (ag_only _ _ _ _ _ _ A _ _ Hg) as Ht.
        split; [apply (ag_map _ _ _ _ _ _ A); rewrite Ht; exact Hg | lia].
      + intros [Hf Hle]. exists (fr_ts f, f). split; [reflexivity|]. apply -> in_rev. apply filter_In. cbn [fst]. split; [|lia].
        apply mget_In. apply (ag_map _ _ _ _ _ _ A). exact Hf.
  Qed.

  Theorem newest_first_unique ts K L L' : newest_first ts K L -> newest_first ts K L' -> L = L'.
  Proof.
    intros [S1 M1] [S2 M2].
    assert (M : forall f, In f L <-> In f L') by (intros f; rewrite M1, M2; reflexivity). clear M1 M2.
    revert L' S2 M. induction S1 as [|f L S1 IH F1]; intros L' S2 M.
    - destruct L' as [|g L']; [reflexivity|]. destruct (proj2 (M g) (or_introl eq_refl)).
    - inversion S2 as [|g L2 S2' F2]; subst; [destruct (proj1 (M f) (or_introl eq_refl))|].
      rewrite Forall_forall in F1, F2.
      assert (E : f = g).
      { destruct (proj1 (M f) (or_introl eq_refl)) as [H|H]; [auto|].
        destruct (proj2 (M g) (or_introl eq_refl)) as [H'|H']; [auto|].
        pose proof (F2 f H). pose proof (F1 g H'). cbn in *. lia. }
      subst g. f_equal. apply IH; [exact S2'|]. intros x. split; intros Hx.
      + destruct (proj1 (M x) (or_intror Hx)) as [<-|H]; [|exact H]. pose proof (F1 f Hx). cbn in *. lia.
      + destruct (proj2 (M x) (or_intror Hx)) as [<-|H]; [|exact H]. pose proof (F2 f Hx). cbn in *. lia.
  Qed.

  Lemma past_result_eq (vl : bool) st ts l : msorted (m_map st) -> (forall s f, mget s (m_map st) = Some f -> fr_ts f = s) ->
    match extract_past P Pt PP comp inv act n st ts l with Ok pts => Ok (if vl then vox pts else pts) | r => r end =
    past_result vl l (past P Pt ts (m_map st)).
  Proof.
    intros H1 H2. rewrite (extract_past_spec P Pt PP comp inv act n st ts l H1 H2).
    destruct (past P Pt ts (m_map st)) as [|f L]; [reflexivity|]. cbn [past_result]. destruct vl; reflexivity.
  Qed.

  (* one call that names no other keyframe *)
  Lemma call_mapped vl K st c b :
    mapped K st -> ~ In (c_ts c) (stamps K) -> once P Pt c -> last_pose (c_ts c) (c_path c) = Some b -> quiet K c ->
    exists K', ref_path (c_ts c) (c_cloud c) K (c_path c) K' /\ mapped K' (fst (callback PAST vl st c)) /\
      exists L, newest_first (c_ts c) K' L /\ snd (callback PAST vl st c) = past_result vl (comp b B) L.
  Proof.
    intros (st2 & A & T) Hc Ho Hb Q.
    assert (H1 : (count_occ Z.eq_dec (map fst (c_path c)) (c_ts c) +
                (if in_dec Z.eq_dec (c_ts c) (stamps K) then 1 else 0) <= 1)%nat).
    { destruct (in_dec Z.eq_dec (c_ts c) (stamps K)); [contradiction|]. unfold once in Ho. lia. }
    destruct (loop_agrees P Pt PP comp pa B moved (c_ts c) (c_cloud c) (c_path c) K st2 None A H1) as (st2' & K' & E & R & A' & _).
    destruct (loop_twin (c_ts c) (c_cloud c) (c_path c) K st st2 None A T H1) as [E1 T1].
    { intros [s p] He Hne. apply (Q s p He Hne). }
    exists K'. split; [exact R|]. rewrite E in E1, T1. cbn [fst snd] in E1, T1.
    unfold MapModel.callback. destruct (c_path c) as [|e es] eqn:Ep; [discriminate Hb|]. rewrite <- Ep in *. clear e es Ep.
    destruct (path_loop (c_ts c) (c_cloud c) (c_path c) st None) as [st' r]. cbn [fst snd] in E1, T1. subst r.
    unfold seen. rewrite Hb. cbn [fst snd extract].
    assert (M : mapped K' st') by (exists st2'; auto).
    split; [exact M|]. exists (past P Pt (c_ts c) (m_map st')). split; [apply mapped_past, M|].
    apply past_result_eq; rewrite (proj1 T1); [exact (ag_sorted _ _ _ _ _ _ A') | exact (ag_only _ _ _ _ _ _ A')].
  Qed.

  Lemma run_mapped vl h : forall K st K', mapped K st -> distinct P Pt h -> (forall c, In c h -> ~ In (c_ts c) (stamps K)) ->
    Forall (fun c => exists b, last_pose (c_ts c) (c_path c) = Some b) h ->
    quiet_run K h K' -> mapped K' (run PAST vl h st) /\ (forall s, In s (stamps K') -> In s (stamps K) \/ In s (map c_ts h)).
  Proof.
    induction h as [|c h IH]; intros K st K' M [D O] Hk F Q; inversion Q as [|? ? K1 ? ? Q1 R1 Q2]; subst.
    - cbn [MapModel.run]. auto.
    - inversion F as [|? ? (b & Hb) F']; subst. inversion D as [|? ? D1 D2]; subst. inversion O as [|? ? O1 O2]; subst.
      destruct (call_mapped vl K st c b M (Hk c (or_introl eq_refl)) O1 Hb Q1) as (K1' & R1' & M1 & _).
      assert (K1' = K1) as ->.
      { destruct M as (st2 & A & _).
        assert (RR : ref_run P Pt comp B moved K [c] K1') by (econstructor; [exact R1' | constructor]).
        assert (RR' : ref_run P Pt comp B moved K [c] K1) by (econstructor; [exact R1 | constructor]).
        assert (Hnd : NoDup (stamps K)) by exact (ag_nodup _ _ _ _ _ _ A).
        refine (ref_run_det P Pt comp B moved [c] K K1' K1 Hnd _ _ _ RR RR').
        - constructor; cbn; [auto | constructor].
        - constructor; [exact O1 | constructor].
        - intros d [<-|[] ]. apply Hk. left. reflexivity. }
      pose proof (ref_path_stamps P Pt comp B moved (c_ts c) (c_cloud c) (c_path c) K K1 R1) as S1.
      cbn [MapModel.run]. destruct (IH K1 (fst (callback PAST vl st c)) K' M1 (conj D2 O2)) as [MM SS]; auto.
      + intros d Hd Hs. destruct (S1 _ Hs) as [Hx|Hx]; [revert Hx; apply Hk; right; exact Hd|].
        apply D1. rewrite <- Hx. apply in_map. exact Hd.
      + split; [exact MM|]. intros s Hs. destruct (SS s Hs) as [Hx|Hx]; [|right; right; exact Hx].
        destruct (S1 s Hx) as [Hy|Hy]; [left; exact Hy | right; left; auto].
  Qed.

  (* Theorems. After a history of quiet calls K is the list of keyframes of the node. *)
  Theorem past_history vl h K :
    distinct P Pt h -> Forall (fun c => exists b, last_pose (c_ts c) (c_path c) = Some b) h -> quiet_run [] h K ->
    forall s f, mget s (m_map (run PAST vl h (init PAST))) = Some f <-> In f K /\ fr_ts f = s.
  Proof.
    intros D F Q. destruct (run_mapped vl h [] (init PAST) K mapped_init D (fun _ _ H => H) F Q) as [(st2 & A & [E _]) _].
    intros s f. rewrite E. split.
    - intros H. pose proof (ag_only _ _ _ _ _ _ A _ _ H) as Ht. split; [|exact Ht]. apply (ag_map _ _ _ _ _ _ A). rewrite Ht. exact H.
    - intros [H <-]. apply (ag_map _ _ _ _ _ _ A). exact H.
  Qed.

  (* a further call: undefined when its path names an earlier keyframe, else the last n keyframes not newer than it *)
  Theorem past_call vl h K c b :
    distinct P Pt (h ++ [c]) -> Forall (fun c => exists b, last_pose (c_ts c) (c_path c) = Some b) h -> quiet_run [] h K ->
    last_pose (c_ts c) (c_path c) = Some b ->
    let r := snd (callback PAST vl (run PAST vl h (init PAST)) c) in
    (~ quiet K c -> r = UB) /\
    (quiet K c -> exists K' L, ref_path (c_ts c) (c_cloud c) K (c_path c) K' /\
       newest_first (c_ts c) K' L /\ r = past_result vl (comp b B) L).
  Proof.
    intros [D O] F Q Hb. cbn zeta. rewrite map_app in D. apply Forall_app in O. destruct O as [O1 O2].
    assert (D1 : NoDup (map c_ts h)).
    { revert D. clear. induction (map c_ts h) as [|a l IH]; cbn; intros D; [constructor|]. inversion D as [|? ? Ha Hl]; subst.
      constructor; [intros Hi; apply Ha, in_or_app; left; exact Hi | apply IH, Hl]. }
    destruct (run_mapped vl h [] (init PAST) K mapped_init (conj D1 O1) (fun _ _ H => H) F Q) as [M SS].
    assert (Hc : ~ In (c_ts c) (stamps K)).
    { intros Hi. destruct (SS _ Hi) as [[]|Hx]. revert D Hx. clear. induction (map c_ts h) as [|a l IH]; cbn; intros D H; [exact H|].
      inversion D as [|? ? Ha Hl]; subst. destruct H as [->|H]; [apply Ha, in_or_app; right; left; reflexivity | exact (IH Hl H)]. }
    split.
    - intros NQ.
      assert (Hex : exists s p, In (s, p) (c_path c) /\ s <> c_ts c /\ In s (stamps K)).
      { destruct (existsb (fun e => negb (fst e =? c_ts c) && (if in_dec Z.eq_dec (fst e) (stamps K) then true else false)) (c_path c)) eqn:E.
        - apply existsb_exists in E. destruct E as ([s p] & H1 & H2). cbn [fst] in H2. apply andb_true_iff in H2. destruct H2 as [H2 H3].
          destruct (in_dec Z.eq_dec s (stamps K)); [|discriminate]. exists s, p. split; [exact H1|]. split; [lia | assumption].
        - exfalso. apply NQ. intros s p H1 H2 H3.
          assert (Hx : existsb (fun e => negb (fst e =? c_ts c) && (if in_dec Z.eq_dec (fst e) (stamps K) then true else false)) (c_path c) = true).
          { apply existsb_exists. exists (s, p). split; [exact H1|]. cbn [fst]. destruct (in_dec Z.eq_dec s (stamps K)); [|contradiction].
            replace (s =? c_ts c) with false by lia. reflexivity. }
          congruence. }
      destruct Hex as (s & p & H1 & H2 & H3). apply (past_names_keyframe vl h c s p H1 H2).
      destruct M as (st2 & A & [E _]). rewrite E. apply (agrees_mem P Pt PP pa K st2 s A). exact H3.
    - intros QQ. inversion O2 as [|? ? Oc _]; subst.
      destruct (call_mapped vl K _ c b M Hc Oc Hb QQ) as (K' & R & _ & L & HL & E).
      exists K', L. auto.
  Qed.

  (* in time order and naming no earlier keyframe, no call fails *)
  Theorem past_in_order vl h K :
    orderly P Pt h -> quiet_run [] h K -> Forall (fun r => exists pts, r = Ok pts) (outcomes PAST vl h (init PAST)).
  Proof.
    assert (G : forall h K0 st K, StronglySorted (fun c d => c_ts c < c_ts d) h ->
      Forall (fun c => once P Pt c /\ In (c_ts c) (map fst (c_path c))) h ->
      mapped K0 st -> (forall s c, In s (stamps K0) -> In c h -> s < c_ts c) -> quiet_run K0 h K ->
      Forall (fun r => exists pts, r = Ok pts) (outcomes PAST vl h st)).
    { clear h K. induction h as [|c h IH]; intros K0 st K Hs Ho M Hlt Q; [constructor|].
      inversion Hs as [|? ? Hs' Hf]; subst. inversion Ho as [|? ? [Oc Ic] Ho']; subst.
      inversion Q as [|? ? K1 ? ? Q1 R1 Q2]; subst.
      assert (Hc : ~ In (c_ts c) (stamps K0)) by (intros Hi; pose proof (Hlt _ c Hi (or_introl eq_refl)); lia).
      destruct (last_pose_In P (c_ts c) (c_path c) Ic) as (b & Hb).
      destruct (call_mapped vl K0 st c b M Hc Oc Hb Q1) as (K1' & R1' & M1 & L & HL & E).
      assert (K1' = K1) as ->.
      { destruct M as (st2 & A & _).
        assert (RR : ref_run P Pt comp B moved K0 [c] K1') by (econstructor; [exact R1' | constructor]).
        assert (RR' : ref_run P Pt comp B moved K0 [c] K1) by (econstructor; [exact R1 | constructor]).
        assert (Hnd : NoDup (stamps K0)) by exact (ag_nodup _ _ _ _ _ _ A).
        refine (ref_run_det P Pt comp B moved [c] K0 K1' K1 Hnd _ _ _ RR RR').
        - constructor; cbn; [auto | constructor].
        - constructor; [exact Oc | constructor].
        - intros d [<-|[] ]. exact Hc. }
      pose proof (ref_path_stamps P Pt comp B moved (c_ts c) (c_cloud c) (c_path c) K0 K1 R1) as S1.
      cbn [MapPast.outcomes]. constructor.
      - rewrite E. destruct L as [|f L]; [exfalso|eexists; reflexivity].
        assert (Hne : K1 <> []).
        { clear - R1 Ic. revert K0 K1 R1 Ic. induction (c_path c) as [|e es IH]; intros K0 K1 R1 Ic; [destruct Ic|].
          inversion R1 as [|? ? Ka ? ? E1 P1]; subst.
          assert (Keep : forall es K K', ref_path (c_ts c) (c_cloud c) K es K' -> K <> [] -> K' <> []).
          { clear. induction es as [|e es IH]; intros K K' H Hn; inversion H as [|? ? Ka ? ? E1 P1]; subst; [exact Hn|].
            apply (IH _ _ P1). inversion E1; subst; try discriminate; try exact Hn.
            - destruct K; discriminate.
            - destruct K; [congruence | discriminate]. }
          destruct Ic as [Ie|Ic]; [|exact (IH _ _ P1 Ic)]. apply (Keep _ _ _ P1).
          inversion E1; subst; cbn [fst] in Ie; try discriminate.
          - destruct K0; discriminate.
          - match goal with H : newest _ _ Ka _ |- _ => destruct H as [H _]; destruct Ka; [destruct H | discriminate] end.
          - congruence. }
        destruct K1 as [|f K1]; [congruence|]. destruct HL as [_ HL]. apply (HL f). split; [left; reflexivity|].
        destruct (S1 (fr_ts f) (or_introl eq_refl)) as [Hx|Hx]; [pose proof (Hlt _ c Hx (or_introl eq_refl)); lia | lia].
      - apply (IH K1 _ K Hs' Ho' M1); [|exact Q2]. intros s d Hsd Hd.
        assert (c_ts c < c_ts d) by (rewrite Forall_forall in Hf; apply Hf; exact Hd).
        destruct (S1 s Hsd) as [Hx|Hx]; [pose proof (Hlt s c Hx (or_introl eq_refl)); lia | lia]. }
    intros [Hs Ho] Q. apply (G h [] (init PAST) K Hs Ho mapped_init); [intros s c []|exact Q].
  Qed.

  (* ---------------------------------------------------------------------------------------------- *)
  (* Nearby mode: the statements of MapProofs.v about one call, after any history. *)
  Lemma ref_run_stamps h : forall K K', ref_run P Pt comp B moved K h K' ->
    forall s, In s (stamps K') -> In s (stamps K) \/ In s (map c_ts h).
  Proof.
    induction h as [|c h IH]; intros K K' R s Hs; inversion R as [|? ? K1 ? ? R1 R2]; subst; [auto|].
    destruct (IH _ _ R2 s Hs) as [Hx|Hx]; [|right; right; exact Hx].
    destruct (ref_path_stamps P Pt comp B moved _ _ _ _ _ R1 s Hx) as [Hy|Hy]; [left; exact Hy | right; left; auto].
  Qed.

  Lemma distinct_last h c K : distinct P Pt (h ++ [c]) -> ref_run P Pt comp B moved [] h K ->
    distinct P Pt h /\ once P Pt c /\ ~ In (c_ts c) (stamps K).
  Proof.
    intros [D O] R. rewrite map_app in D. apply Forall_app in O. destruct O as [O1 O2]. inversion O2; subst.
    assert (D1 : NoDup (map c_ts h) /\ ~ In (c_ts c) (map c_ts h)).
    { revert D. clear. induction (map c_ts h) as [|a l IH]; cbn; intros D; [split; [constructor | intros []]|].
      inversion D as [|? ? Ha Hl]; subst. destruct (IH Hl) as [I1 I2]. split.
      - constructor; [intros Hi; apply Ha, in_or_app; left; exact Hi | exact I1].
      - intros [->|Hx]; [apply Ha, in_or_app; right; left; reflexivity | exact (I2 Hx)]. }
    destruct D1 as [D1 D2]. split; [split; assumption|]. split; [assumption|].
    intros Hi. destruct (ref_run_stamps h [] K R _ Hi) as [[]|Hx]; exact (D2 Hx).
  Qed.

  Theorem nearby_history nearer vl h K c b :
    knn_ok PP nearer knn -> distinct P Pt (h ++ [c]) -> ref_run P Pt comp B moved [] h K ->
    last_pose (c_ts c) (c_path c) = Some b ->
    exists K', ref_run P Pt comp B moved [] (h ++ [c]) K' /\
      let l := comp b B in
      let near := knn (map (fun f => pa (fr_pose P Pt f)) K') (pa l) (Nat.min n (length K')) in
      length (select P Pt K' near) = Nat.min n (length K') /\ NoDup (select P Pt K' near) /\
      (forall f, In f (select P Pt K' near) -> In f K') /\
      snd (callback NEARBY vl (run NEARBY vl h (init NEARBY)) c) =
        (if existsb (fun f => c_ts c <? fr_ts f) (select P Pt K' near) then Throw
         else Ok ((if vl then vox else fun x => x) (flat_map (seen_from l) (select P Pt K' near)))) /\
      (forall f g, In f (select P Pt K' near) -> In g K' -> ~ In g (select P Pt K' near) ->
         nearer (pa l) (pa (fr_pose P Pt f)) (pa (fr_pose P Pt g))).
  Proof.
    intros Hk D R Hb. destruct (distinct_last h c K D R) as (D1 & O1 & Hc).
    pose proof (run_agrees_all P Pt PP comp inv act pa B moved knn vox n vl h K D1 R) as A.
    destruct (nearby_published P Pt PP comp inv act pa B moved knn vox n nearer K _ vl c b Hk A Hc O1 Hb)
      as (K' & R' & H1 & H2 & H3 & H4 & H5).
    exists K'.
    assert (RR : ref_run P Pt comp B moved [] (h ++ [c]) K').
    { clear - R R'. induction R as [K|K d K1 h K2 Ra Rb IH]; cbn [app]; [econstructor; [exact R' | constructor]|].
      econstructor; [exact Ra | apply IH; exact R']. }
    split; [exact RR|]. cbn zeta in *.
    set (near := knn (map (fun f => pa (fr_pose P Pt f)) K') (pa (comp b B)) (Nat.min n (length K'))) in *.
    assert (Hnd : NoDup (stamps K')).
    { exact (ag_nodup _ _ _ _ _ _ (run_agrees_all P Pt PP comp inv act pa B moved knn vox n vl (h ++ [c]) K' D RR)). }
    assert (Hrange : forall i, In i near -> 0 <= i < Z.of_nat (length K')).
    { assert (E : (Nat.min n (length K') <= length (map (fun f => pa (fr_pose P Pt f)) K'))%nat) by (rewrite map_length; lia).
      destruct (Hk _ (pa (comp b B)) _ E) as (_ & _ & Hr & _). rewrite map_length in Hr. exact Hr. }
    assert (Hsel : forall f, In f (select P Pt K' near) <-> exists i, In i near /\ nth_error K' (Z.to_nat i) = Some f).
    { intros f. unfold select. rewrite in_flat_map. split.
      - intros (i & Hi & Hf). destruct (nth_error K' (Z.to_nat i)) as [g|] eqn:E; [|destruct Hf]. destruct Hf as [<-|[] ]. eauto.
      - intros (i & Hi & Hf). exists i. rewrite Hf. split; [exact Hi | left; reflexivity]. }
    assert (HndK : NoDup K') by (apply (NoDup_map_inv fr_ts); exact Hnd).
    refine (conj H3 (conj _ (conj _ (conj _ _)))).
    - clear - H2 Hrange HndK. induction near as [|i near IH]; [constructor|]. inversion H2 as [|? ? Hi Hn]; subst.
      cbn [select flat_map]. fold (select P Pt K' near). specialize (IH Hn (fun j Hj => Hrange j (or_intror Hj))).
      destruct (nth_error K' (Z.to_nat i)) as [f|] eqn:E; [|exact IH]. cbn [app]. constructor; [|exact IH].
      intros Hf. unfold select in Hf. apply in_flat_map in Hf. destruct Hf as (j & Hj & Hf).
      destruct (nth_error K' (Z.to_nat j)) as [g|] eqn:E'; [|destruct Hf]. destruct Hf as [->|[] ].
      pose proof (Hrange i (or_introl eq_refl)). pose proof (Hrange j (or_intror Hj)).
      assert (Z.to_nat i = Z.to_nat j).
      { apply (proj1 (NoDup_nth_error K') HndK); [apply nth_error_Some; congruence | congruence]. }
      assert (i = j) by lia. subst j. contradiction.
    - intros f Hf. apply Hsel in Hf. destruct Hf as (i & _ & Hf). exact (nth_error_In _ _ Hf).
    - rewrite H4. destruct (existsb _ _); [reflexivity|]. destruct vl; reflexivity.
    - intros f g Hf Hg Hng. apply Hsel in Hf. destruct Hf as (i & Hi & Ef).
      destruct (In_nth_error _ _ Hg) as (j & Ej).
      apply (H5 i (Z.of_nat j) f g Hi); [lia | | exact Ef | rewrite Nat2Z.id; exact Ej].
      intros Hj. apply Hng. apply Hsel. exists (Z.of_nat j). rewrite Nat2Z.id. auto.
  Qed.

  Theorem absent_history vl h K c :
    distinct P Pt h -> ref_run P Pt comp B moved [] h K -> last_pose (c_ts c) (c_path c) = None ->
    exists st' K', callback NEARBY vl (run NEARBY vl h (init NEARBY)) c = (st', Throw) /\
      ref_path (c_ts c) (c_cloud c) K (c_path c) K' /\ stamps K' = stamps K /\
      (forall s f, mget s (m_map st') = Some f <-> In f K' /\ fr_ts f = s).
  Proof.
    intros D R L. pose proof (run_agrees_all P Pt PP comp inv act pa B moved knn vox n vl h K D R) as A.
    destruct (absent_refused P Pt PP comp inv act pa B moved knn vox n K _ vl c A L) as (st' & K' & H1 & H2 & H3 & H4).
    exists st', K'. refine (conj H1 (conj H2 (conj H4 _))). intros s f. split.
    - intros H. pose proof (ag_only _ _ _ _ _ _ H3 _ _ H) as Ht. split; [|exact Ht]. apply (ag_map _ _ _ _ _ _ H3). rewrite Ht. exact H.
    - intros [H <-]. apply (ag_map _ _ _ _ _ _ H3). exact H.
  Qed.
End MapPast2.
