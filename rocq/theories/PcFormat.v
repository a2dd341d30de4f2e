(* Proofs: the point cloud formatter. serpent/src/front_end/lidar/pointcloud_formatter.cpp *)
From Verif Require Import Base PcModel PcSpec PcProofs PcOps.
Local Open Scope Z_scope.

Lemma find_upd_same fs n f' : f_name f' = n -> forall f, find_field fs n = Some f -> find_field (upd_field fs n (fun _ => f')) n = Some f'.
Proof.
  intros N. induction fs as [|a fs IH]; intros f H; cbn in *; [discriminate|]. destruct (String.eqb (f_name a) n) eqn:E; cbn.
  - rewrite N, String.eqb_refl. reflexivity.
  - rewrite E. apply (IH f). exact H.
Qed.
Lemma find_upd_other fs n f' m : f_name f' = n -> m <> n -> find_field (upd_field fs n (fun _ => f')) m = find_field fs m.
Proof.
  intros N NE. induction fs as [|a fs IH]; cbn; [reflexivity|]. destruct (String.eqb (f_name a) n) eqn:E; cbn.
  - apply String.eqb_eq in E. destruct (String.eqb (f_name f') m) eqn:E1; [apply String.eqb_eq in E1; congruence|]. destruct (String.eqb (f_name a) m) eqn:E2; [apply String.eqb_eq in E2; congruence|]. reflexivity.
  - destruct (String.eqb (f_name a) m); [reflexivity|exact IH].
Qed.
Lemma find_rename fs n g m f : (forall h, f_name (g h) = m) -> find_field fs m = None -> find_field fs n = Some f -> find_field (upd_field fs n g) m = Some (g f).
Proof.
  intros N. induction fs as [|a fs IH]; cbn; [discriminate|]. intros H1 H2. destruct (String.eqb (f_name a) m) eqn:E; [discriminate|]. destruct (String.eqb (f_name a) n) eqn:E2; cbn.
  - injection H2 as <-. rewrite N, String.eqb_refl. reflexivity.
  - rewrite E. apply IH; assumption.
Qed.
Lemma wf_frame c s : wf c -> wf (with_frame c s). Proof. intros W. destruct W. constructor; assumption. Qed.

Section F.
Context {V : Type} (K : codec V) (KO : codec_ok K) (ns mm : V -> V) (le : V -> bool).
Notation fmt := (format K ns mm le).

(* ---- which messages are published ---- *)
Theorem format_drop cfg removed msg : (exists r, fmt cfg removed msg = Ok (r, None)) <-> fc_first cfg = true /\ removed = false.
Proof.
  unfold format. destruct (fc_first cfg), removed; cbn [andb negb]; split; try (intros _; split; reflexivity); try (intros [? ?]; discriminate); try (intros _; eexists; reflexivity); intros [r H]; exfalso; revert H;
    match goal with |- rbind ?a _ = _ -> _ => destruct a as [c| |]; cbn [rbind]; try discriminate end; match goal with |- rbind ?a _ = _ -> _ => destruct a as [c'| |]; cbn [rbind]; discriminate end.
Qed.
Theorem format_flag cfg removed msg r o : fmt cfg removed msg = Ok (r, o) -> r = removed || fc_first cfg.
Proof.
  unfold format. destruct (fc_first cfg), removed; cbn [andb negb orb]; try (intros [= <- _]; reflexivity);
    match goal with |- rbind ?a _ = _ -> _ => destruct a as [c| |]; cbn [rbind]; try discriminate end; match goal with |- rbind ?a _ = _ -> _ => destruct a as [c'| |]; cbn [rbind]; try discriminate end; intros [= <- _]; reflexivity.
Qed.
(* the callback over a sequence of messages *)
Fixpoint format_run (cfg : fmt_cfg) (removed : bool) (msgs : list cloud) : res (list (option cloud)) :=
  match msgs with
  | [] => Ok []
  | m :: ms => rbind (fmt cfg removed m) (fun ro => rbind (format_run cfg (fst ro) ms) (fun os => Ok (snd ro :: os)))
  end.
Theorem format_run_drops cfg msgs os : format_run cfg false msgs = Ok os ->
  length os = length msgs /\ forall k, (k < length msgs)%nat -> nth k os None = None <-> (k = 0%nat /\ fc_first cfg = true).
Proof.
  assert (NODROP : forall removed, removed = true \/ fc_first cfg = false -> forall ms os, format_run cfg removed ms = Ok os -> length os = length ms /\ forall k, (k < length ms)%nat -> nth k os None <> None).
  { intros removed H ms. revert removed H. induction ms as [|m ms IH]; intros removed H os' R; cbn [format_run] in R; [injection R as <-; split; [reflexivity|intros k L; cbn in L; lia]|].
    destruct (fmt cfg removed m) as [[r o]| |] eqn:E; cbn [rbind fst snd] in R; try discriminate. destruct (format_run cfg r ms) as [os1| |] eqn:E2; cbn [rbind] in R; try discriminate. injection R as <-.
    pose proof (format_flag _ _ _ _ _ E) as FL. assert (H' : r = true \/ fc_first cfg = false) by (destruct H as [->| ->]; [left; rewrite FL; reflexivity|right; reflexivity]).
    destruct (IH r H' os1 E2) as [A B]. split; [cbn; f_equal; exact A|]. intros [|k] L; cbn; [|apply B; cbn in L; lia]. intros ->. assert (D : exists r, fmt cfg removed m = Ok (r, None)) by (exists r; exact E).
    apply format_drop in D. destruct D as [D1 D2], H; congruence. }
  destruct msgs as [|m ms]; cbn [format_run]; [intros [= <-]; split; [reflexivity|intros k L; cbn in L; lia]|].
  destruct (fmt cfg false m) as [[r o]| |] eqn:E; cbn [rbind fst snd]; try discriminate. destruct (format_run cfg r ms) as [os1| |] eqn:E2; cbn [rbind]; try discriminate. intros [= <-].
  pose proof (format_flag _ _ _ _ _ E) as FL. cbn in FL. assert (H' : r = true \/ fc_first cfg = false) by (rewrite FL; destruct (fc_first cfg); auto). destruct (NODROP r H' ms os1 E2) as [A B].
  split; [cbn; f_equal; exact A|]. intros [|k] L; cbn [nth].
  - split; [intros ->; split; [reflexivity|]|intros [_ F]]; [apply (proj1 (proj1 (format_drop cfg false m) (ex_intro _ r E)))|].
    destruct (proj2 (format_drop cfg false m) (conj F eq_refl)) as [r' Q]. rewrite E in Q. injection Q as _ ->. reflexivity.
  - split; [intros Z; exfalso; apply (B k); [cbn in L; lia|exact Z]|intros [Z _]; discriminate].
Qed.

(* ---- what is published ---- *)
(* the last two steps: time filter, frame *)
Definition publish_of (cfg : fmt_cfg) (removed : bool) (c : cloud) : res (bool * option cloud) :=
  rbind (if fc_time cfg then rbind (get_field c "t"%string) (fun f => if f_ty f =? FLOAT32 then filter_max K FLOAT32 le c f else Throw) else Ok c)
        (fun c => Ok (removed, Some (with_frame c (fc_frame cfg)))).
(* points that survive the time filter *)
Definition in_time (cfg : fmt_cfg) (f : field) (p : bytes) : bool := negb (fc_time cfg) || le (cast K FLOAT32 (pvalue K f p)).
Lemma filter_true {A} (l : list A) : filter (fun _ => true) l = l. Proof. induction l as [|a l IH]; cbn; [reflexivity|]. rewrite IH. reflexivity. Qed.
Lemma publish_ok cfg removed c f : wf c -> find_field (c_fields c) "t" = Some f -> f_ty f = FLOAT32 -> 1 <= f_cnt f ->
  exists out, publish_of cfg removed c = Ok (removed, Some out) /\ wf out /\ c_frame out = fc_frame cfg /\ c_stamp out = c_stamp c /\ c_fields out = c_fields c /\ c_ps out = c_ps c /\
    points out = filter (in_time cfg f) (points c).
Proof.
  intros W FF TY CN. unfold publish_of. destruct (fc_time cfg) eqn:FT.
  - unfold get_field. rewrite FF. cbn [rbind]. rewrite TY, Z.eqb_refl. destruct (find_in _ _ _ FF) as [IN _]. pose proof (scalar_of_field c f W IN ltac:(rewrite TY; reflexivity) CN) as SC.
    destruct (filter_max_spec K FLOAT32 le c f W SC) as [d [Q1 [Q2 [Q3 [_ [_ [_ [_ [Q4 [Q5 [Q6 _]]]]]]]]]]]. rewrite Q1. cbn [rbind]. eexists. split; [reflexivity|]. conj; cbn; try assumption; try reflexivity; [apply wf_frame; exact Q2|].
    change (points d = filter (in_time cfg f) (points c)). rewrite Q3. unfold in_time. rewrite FT. reflexivity.
  - cbn [rbind]. eexists. split; [reflexivity|]. conj; cbn; try reflexivity; [apply wf_frame; exact W|]. change (points c = filter (in_time cfg f) (points c)). unfold in_time. rewrite FT. cbn. symmetry. apply filter_true.
Qed.
Lemma publish_no_t cfg removed c : find_field (c_fields c) "t" = None -> publish_of cfg removed c = if fc_time cfg then Throw else Ok (removed, Some (with_frame c (fc_frame cfg))).
Proof. intros H. unfold publish_of, get_field. rewrite H. destruct (fc_time cfg); reflexivity. Qed.
Lemma publish_bad_t cfg removed c f : find_field (c_fields c) "t" = Some f -> f_ty f <> FLOAT32 -> publish_of cfg removed c = if fc_time cfg then Throw else Ok (removed, Some (with_frame c (fc_frame cfg))).
Proof. intros H T. unfold publish_of, get_field. rewrite H. cbn [rbind]. destruct (f_ty f =? FLOAT32) eqn:E; [lia|]. destruct (fc_time cfg); reflexivity. Qed.

(* CUSTOM: a cloud with a time field called t *)
Theorem format_custom cfg removed msg f : fc_sensor cfg = CUSTOM -> fc_first cfg = false \/ removed = true -> wf msg ->
  find_field (c_fields msg) "t" = Some f -> f_ty f = FLOAT32 -> 1 <= f_cnt f ->
  exists out, fmt cfg removed msg = Ok (removed, Some out) /\ wf out /\ c_frame out = fc_frame cfg /\ c_stamp out = c_stamp msg /\ c_fields out = c_fields msg /\ c_ps out = c_ps msg /\
    points out = filter (in_time cfg f) (points msg).
Proof.
  intros S D W FF TY CN. unfold format. rewrite S. assert (E : fc_first cfg && negb removed = false) by (destruct D as [-> | ->]; [reflexivity|apply andb_false_r]). rewrite E.
  unfold has_field. rewrite FF. cbn [negb andb rbind]. apply publish_ok; assumption.
Qed.
(* CUSTOM: a time field called time is renamed *)
Theorem format_custom_renames cfg removed msg f : fc_sensor cfg = CUSTOM -> fc_first cfg = false \/ removed = true -> wf msg ->
  find_field (c_fields msg) "t" = None -> find_field (c_fields msg) "time" = Some f -> f_ty f = FLOAT32 -> 1 <= f_cnt f ->
  exists out, let f' := mkF "t" (f_off f) (f_ty f) (f_cnt f) in
    fmt cfg removed msg = Ok (removed, Some out) /\ wf out /\ c_frame out = fc_frame cfg /\ c_stamp out = c_stamp msg /\
    c_fields out = upd_field (c_fields msg) "time" (fun f => mkF "t" (f_off f) (f_ty f) (f_cnt f)) /\ find_field (c_fields out) "t" = Some f' /\
    points out = filter (in_time cfg f') (points msg).
Proof.
  intros S D W FT FF TY CN. unfold format. rewrite S. assert (E : fc_first cfg && negb removed = false) by (destruct D as [-> | ->]; [reflexivity|apply andb_false_r]). rewrite E.
  unfold has_field. rewrite FT, FF. cbn [negb andb]. unfold change_field_name, get_field. rewrite FF. cbn [rbind].
  set (c1 := with_fields msg (upd_field (c_fields msg) "time" (fun f0 => mkF "t" (f_off f0) (f_ty f0) (f_cnt f0)))).
  assert (W1 : wf c1) by (apply wf_upd; [exact W|intros h; conj; reflexivity]).
  assert (F1 : find_field (c_fields c1) "t" = Some (mkF "t" (f_off f) (f_ty f) (f_cnt f))) by (unfold c1; cbn [c_fields with_fields]; apply (find_rename (c_fields msg) "time" (fun f0 => mkF "t" (f_off f0) (f_ty f0) (f_cnt f0)) "t" f); [reflexivity|exact FT|exact FF]).
  destruct (publish_ok cfg removed c1 _ W1 F1 TY CN) as [out [Q1 [Q2 [Q3 [Q4 [Q5 [_ Q6]]]]]]]. exists out. cbv zeta. conj; try assumption. rewrite Q5. exact F1.
Qed.
(* the filter needs a FLOAT32 time field *)
Theorem format_custom_throws cfg removed msg : fc_sensor cfg = CUSTOM -> fc_first cfg = false \/ removed = true -> fc_time cfg = true ->
  (forall f, find_field (c_fields msg) "t" = Some f -> f_ty f <> FLOAT32) -> has_field msg "t" = true \/ has_field msg "time" = false -> fmt cfg removed msg = Throw.
Proof.
  intros S D T H F. unfold format. rewrite S. assert (E : fc_first cfg && negb removed = false) by (destruct D as [-> | ->]; [reflexivity|apply andb_false_r]). rewrite E, T.
  assert (Q : negb (has_field msg "t") && has_field msg "time" = false) by (destruct F as [-> | ->]; [reflexivity|apply andb_false_r]). rewrite Q. cbn [rbind]. unfold get_field.
  destruct (find_field (c_fields msg) "t") as [f|]; [|reflexivity]. cbn [rbind]. specialize (H f eq_refl). destruct (f_ty f =? FLOAT32) eqn:EF; [lia|reflexivity].
Qed.

(* OUSTER: time and range converted, then filtered *)
Theorem format_ouster cfg removed msg ft fr : fc_sensor cfg = OUSTER -> fc_first cfg = false \/ removed = true -> wf msg ->
  find_field (c_fields msg) "t" = Some ft -> find_field (c_fields msg) "range" = Some fr ->
  (f_ty ft = UINT32 \/ f_ty ft = INT32) -> (f_ty fr = UINT32 \/ f_ty fr = INT32) -> 1 <= f_cnt ft -> 1 <= f_cnt fr ->
  clear_of ft (f_off fr) 4 ->
  exists out c2, let ft' := mkF (f_name ft) (f_off ft) FLOAT32 (f_cnt ft) in let fr' := mkF (f_name fr) (f_off fr) FLOAT32 (f_cnt fr) in
    fmt cfg removed msg = Ok (removed, Some out) /\ wf out /\ c_frame out = fc_frame cfg /\ c_stamp out = c_stamp msg /\
    find_field (c_fields out) "t" = Some ft' /\ find_field (c_fields out) "range" = Some fr' /\
    (forall n, n <> "t"%string -> n <> "range"%string -> find_field (c_fields out) n = find_field (c_fields msg) n) /\
    points out = filter (in_time cfg ft') (points c2) /\ npts c2 = npts msg /\
    forall i, 0 <= i < npts msg ->
      pvalue K ft' (point c2 i) = cast K FLOAT32 (ns (cast K FLOAT64 (value K msg ft i))) /\
      pvalue K fr' (point c2 i) = cast K FLOAT32 (mm (cast K FLOAT64 (value K msg fr i))) /\
      forall o n, 0 <= o -> 0 <= n -> o + n <= c_ps msg -> clear_of ft o n -> clear_of fr o n -> slice (point c2 i) o n = slice (point msg i) o n.
Proof.
  intros S D W FT FR TT TR CT CR AP. unfold format. rewrite S. assert (E : fc_first cfg && negb removed = false) by (destruct D as [-> | ->]; [reflexivity|apply andb_false_r]). rewrite E.
  assert (FST : fsize (f_ty ft) = 4) by (destruct TT as [-> | ->]; reflexivity). assert (FSR : fsize (f_ty fr) = 4) by (destruct TR as [-> | ->]; reflexivity).
  assert (KT : known (f_ty ft) = true) by (destruct TT as [-> | ->]; reflexivity). assert (KR : known (f_ty fr) = true) by (destruct TR as [-> | ->]; reflexivity).
  destruct (find_in _ _ _ FT) as [INT NMT]. destruct (find_in _ _ _ FR) as [INR NMR].
  destruct (convert_ok K KO FLOAT32 FLOAT64 ns msg "t" ft W eq_refl FT CT KT FST ltac:(destruct TT as [-> | ->]; discriminate)) as [c1 [P1 [P2 [P3 P4]]]].
  set (ft' := mkF (f_name ft) (f_off ft) FLOAT32 (f_cnt ft)) in *. set (fr' := mkF (f_name fr) (f_off fr) FLOAT32 (f_cnt fr)).
  destruct (shape_fields _ _ P3) as [_ [Z1 [_ [Z2 [Z3 [Z4 [_ [Z5 _]]]]]]]]. cbn [with_fields c_stamp c_h c_w c_fields c_ps] in Z1, Z2, Z3, Z4, Z5.
  assert (FR1 : find_field (c_fields c1) "range" = Some fr) by (rewrite Z4, find_upd_other; [exact FR|exact NMT|discriminate]).
  assert (FT1 : find_field (c_fields c1) "t" = Some ft') by (rewrite Z4; apply (find_upd_same _ _ ft' NMT ft); exact FT).
  destruct (convert_ok K KO FLOAT32 FLOAT64 mm c1 "range" fr P2 eq_refl FR1 CR KR FSR ltac:(destruct TR as [-> | ->]; discriminate)) as [c2 [R1 [R2 [R3 R4]]]]. fold fr' in R3, R4.
  destruct (shape_fields _ _ R3) as [_ [Y1 [_ [Y2 [Y3 [Y4 [_ [Y5 _]]]]]]]]. cbn [with_fields c_stamp c_h c_w c_fields c_ps] in Y1, Y2, Y3, Y4, Y5.
  unfold cast_field_with_scale. rewrite P1. cbn [rbind]. rewrite R1. cbn [rbind].
  assert (FT2 : find_field (c_fields c2) "t" = Some ft') by (rewrite Y4, find_upd_other; [exact FT1|exact NMR|discriminate]).
  assert (FR2 : find_field (c_fields c2) "range" = Some fr') by (rewrite Y4; apply (find_upd_same _ _ fr' NMR fr); exact FR1).
  destruct (publish_ok cfg removed c2 ft' R2 FT2 eq_refl CT) as [out [Q1 [Q2 [Q3 [Q4 [Q5 [_ Q6]]]]]]]. exists out, c2. cbv zeta.
  assert (NP1 : npts c1 = npts msg) by (unfold npts; rewrite Z2, Z3; reflexivity). assert (NP2 : npts c2 = npts msg) by (unfold npts; rewrite Y2, Y3, Z2, Z3; reflexivity).
  pose proof (scalar_of_field msg ft W INT KT CT) as SCT. pose proof (scalar_of_field msg fr W INR KR CR) as SCR. assert (PS0 : 0 <= c_ps msg) by (destruct W; assumption).
  assert (PS2 : c_ps c2 = c_ps msg) by congruence. destruct SCT as [_ [T1 T2]]. destruct SCR as [_ [U1 U2]]. rewrite FST in T2. rewrite FSR in U2.
  conj; try assumption; try congruence.
  - intros n N1 N2. rewrite Q5, Y4, find_upd_other by (assumption || exact NMR). rewrite Z4, find_upd_other by (assumption || exact NMT). reflexivity.
  - intros i Hi. destruct (P4 i Hi) as [A1 A2]. destruct (R4 i ltac:(lia)) as [B1 B2]. rewrite Z5 in B2. conj.
    + unfold pvalue. change (fsize (f_ty ft')) with 4. rewrite <- slice_point by (cbn [ft' f_off]; lia). rewrite PS2. cbn [ft' f_off f_ty]. rewrite B2; [|lia|lia|lia|unfold clear_of in *; rewrite FSR; rewrite FST in AP; lia].
      rewrite <- A1. unfold value. cbn [ft' f_off f_ty]. rewrite Z5. reflexivity.
    + assert (SC2 : scalar c2 fr') by (unfold scalar; cbn [fr' f_ty f_off]; rewrite PS2; conj; [reflexivity|lia|change (fsize FLOAT32) with 4; lia]).
      rewrite <- (value_point K c2 fr' i) by (lia || assumption). rewrite B1. do 3 f_equal. unfold value. rewrite Z5, FSR. f_equal. apply A2; [lia|lia|lia|exact AP].
    + intros o n O N ON X Y. rewrite <- !slice_point by lia. rewrite PS2. rewrite B2 by assumption. apply A2; assumption.
Qed.
(* a time field that already is FLOAT32 is published as it is: no scaling *)
Theorem ouster_float_unscaled cfg removed msg ft fr : fc_sensor cfg = OUSTER -> fc_first cfg = false \/ removed = true -> fc_time cfg = false ->
  find_field (c_fields msg) "t" = Some ft -> find_field (c_fields msg) "range" = Some fr -> f_ty ft = FLOAT32 -> f_ty fr = FLOAT32 ->
  fmt cfg removed msg = Ok (removed, Some (with_frame msg (fc_frame cfg))).
Proof.
  intros S D T FT FR TT TR. unfold format. rewrite S. assert (E : fc_first cfg && negb removed = false) by (destruct D as [-> | ->]; [reflexivity|apply andb_false_r]). rewrite E, T.
  unfold cast_field_with_scale. rewrite (convert_same K FLOAT32 FLOAT64 ns msg "t" ft FT TT eq_refl). cbn [rbind]. rewrite (convert_same K FLOAT32 FLOAT64 mm msg "range" fr FR TR eq_refl). reflexivity.
Qed.
Theorem ouster_throws cfg removed msg : fc_sensor cfg = OUSTER -> fc_first cfg = false \/ removed = true ->
  (forall f, find_field (c_fields msg) "t" = Some f -> known (f_ty f) = false \/ fsize (f_ty f) <> 4) -> fmt cfg removed msg = Throw.
Proof.
  intros S D H. unfold format. rewrite S. assert (E : fc_first cfg && negb removed = false) by (destruct D as [-> | ->]; [reflexivity|apply andb_false_r]). rewrite E.
  unfold cast_field_with_scale. rewrite convert_throws; [reflexivity|]. destruct (find_field (c_fields msg) "t") as [f|] eqn:F; [right; exists f; split; [reflexivity|apply H; reflexivity]|left; reflexivity].
Qed.
End F.
