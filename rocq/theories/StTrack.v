(* One call of the tracker, computed on tracks. *)
From Verif Require Import Base StModel StSpec StFilter.

(* ---- lists ---- *)
Lemma diag_length l : forall i, length (diag i l) = length l.
Proof. induction l; intros; cbn; [|rewrite IHl]; reflexivity. Qed.
Lemma diag_app l l' : forall i, diag i (l ++ l') = diag i l ++ diag (i + Z.of_nat (length l)) l'.
Proof.
  induction l as [|t l IH]; intros i; cbn [diag app length].
  - rewrite Z.add_0_r. reflexivity.
  - rewrite IH. do 3 f_equal. lia.
Qed.
Lemma lrm_of_snoc l t : lrm_of (l ++ [t]) =
  Lrm (kL (lrm_of l) ++ [tl t]) (kR (lrm_of l) ++ [tr t])
      (ms (lrm_of l) ++ [Dm (Z.of_nat (length (kL (lrm_of l)))) (Z.of_nat (length (kR (lrm_of l)))) (td t)])
      (ids (lrm_of l) ++ [tid t]).
Proof. unfold lrm_of. cbn [kL kR ms ids]. rewrite !map_app, diag_app, !map_length. reflexivity. Qed.
Lemma nth_mid {A} (l : list A) a r : nth_error (l ++ a :: r) (length l) = Some a.
Proof. rewrite nth_error_app2, Nat.sub_diag by lia. reflexivity. Qed.
Lemma vix_mid {A} (l : list A) a r n : n = length l -> vix (l ++ a :: r) (Z.of_nat n) = Ok a.
Proof. intros ->. apply vix_nat, nth_mid. Qed.
Lemma snoc_cons {A} (l : list A) a r : l ++ a :: r = (l ++ [a]) ++ r.
Proof. rewrite <- app_assoc. reflexivity. Qed.

(* ---- hypotheses ---- *)
Lemma hypotheses_eq : forall rest done fd frest gd grest acc,
  length fd = length done -> length gd = length done -> length frest = length rest -> length grest = length rest ->
  hypotheses (lrm_of (done ++ rest)) (fd ++ frest) (gd ++ grest) (Z.of_nat (length done))
    (diag (Z.of_nat (length done)) rest) (lrm_of acc) =
  Ok (lrm_of (acc ++ survivors rest frest grest)).
Proof.
  induction rest as [|t rest IH]; intros done fd frest gd grest acc F G FR GR; cbn [hypotheses diag].
  - cbn [survivors]. rewrite app_nil_r. reflexivity.
  - destruct frest as [|[p s] frest]; [discriminate|]. destruct grest as [|[q r] grest]; [discriminate|].
    cbn [qi ti dd].
    rewrite (vix_mid fd) by congruence. cbn [rbind]. rewrite (vix_mid gd) by congruence. cbn [rbind survivors].
    assert (K : forall acc', hypotheses (lrm_of (done ++ t :: rest)) (fd ++ (p, s) :: frest) (gd ++ (q, r) :: grest)
        (Z.of_nat (length done) + 1) (diag (Z.of_nat (length done) + 1) rest) (lrm_of acc') =
        Ok (lrm_of (acc' ++ survivors rest frest grest))).
    { intros acc'. rewrite (snoc_cons done), (snoc_cons fd), (snoc_cons gd).
      replace (Z.of_nat (length done) + 1) with (Z.of_nat (length (done ++ [t]))) by (rewrite app_length; cbn; lia).
      apply IH; rewrite ?app_length; cbn in *; lia. }
    destruct (s =? 1); cbn [rbind andb]; [destruct (r =? 1); cbn [rbind andb]|]; [| apply K | apply K].
    assert (V1 : vix (kL (lrm_of (done ++ t :: rest))) (Z.of_nat (length done)) = Ok (tl t)) by (unfold lrm_of; cbn [kL]; rewrite map_app; cbn [map]; apply vix_mid; rewrite map_length; reflexivity).
    assert (V2 : vix (kR (lrm_of (done ++ t :: rest))) (Z.of_nat (length done)) = Ok (tr t)) by (unfold lrm_of; cbn [kR]; rewrite map_app; cbn [map]; apply vix_mid; rewrite map_length; reflexivity).
    assert (V3 : vix (ids (lrm_of (done ++ t :: rest))) (Z.of_nat (length done)) = Ok (tid t)) by (unfold lrm_of; cbn [ids]; rewrite map_app; cbn [map]; apply vix_mid; rewrite map_length; reflexivity).
    rewrite V1, V2, V3. cbn [rbind].
    rewrite (snoc_cons acc). rewrite <- K. f_equal.
    rewrite lrm_of_snoc. reflexivity.
Qed.

(* ---- enumerated tracks ---- *)
Fixpoint enum (i : Z) (l : list track) : list (Z * track) :=
  match l with [] => [] | t :: l' => (i, t) :: enum (i + 1) l' end.
Definition mk (e : Z * track) : dm := Dm (fst e) (fst e) (td (snd e)).
Lemma diag_enum l : forall i, diag i l = map mk (enum i l).
Proof. induction l; intros; cbn; [|rewrite IHl]; reflexivity. Qed.
Lemma enum_snd l : forall i, map snd (enum i l) = l.
Proof. induction l; intros; cbn; [|rewrite IHl]; reflexivity. Qed.
Lemma enum_nth pre l : forall i t, In (i, t) (enum (Z.of_nat (length pre)) l) ->
  0 <= i /\ nth_error (pre ++ l) (Z.to_nat i) = Some t.
Proof.
  revert pre. induction l as [|a l IH]; intros pre i t H; cbn [enum] in H; [destruct H|].
  destruct H as [[= <- <-]|H].
  - rewrite Nat2Z.id. split; [lia | apply nth_mid].
  - rewrite snoc_cons. apply IH. rewrite app_length. cbn.
    replace (Z.of_nat (length pre + 1)) with (Z.of_nat (length pre) + 1) by lia. exact H.
Qed.

Lemma filter_map {A B} (g : A -> B) q l : filter q (map g l) = map g (filter (fun a => q (g a)) l).
Proof. induction l as [|a l IH]; cbn; [reflexivity|]. rewrite IH. destruct (q (g a)); reflexivity. Qed.
Lemma positions_map {A B} (g : A -> B) q l : forall i, positions q i (map g l) = positions (fun a => q (g a)) i l.
Proof. induction l as [|a l IH]; intros i; cbn; [reflexivity|]. rewrite IH. reflexivity. Qed.

Lemma extract_ids_eq {A} (g : A -> Z) r : forall l pre,
  extract_ids (map g (pre ++ l)) (positions r (Z.of_nat (length pre)) l) = Ok (map g (filter r l)).
Proof.
  induction l as [|a l IH]; intros pre; cbn [positions filter]; [reflexivity|].
  assert (K : extract_ids (map g (pre ++ a :: l)) (positions r (Z.of_nat (length pre) + 1) l) = Ok (map g (filter r l))).
  { rewrite snoc_cons. replace (Z.of_nat (length pre) + 1) with (Z.of_nat (length (pre ++ [a]))) by (rewrite app_length; cbn; lia).
    apply IH. }
  destruct (r a); [|exact K]. cbn [extract_ids].
  rewrite map_app. cbn [map]. rewrite vix_mid by (rewrite map_length; reflexivity). cbn [rbind].
  rewrite map_app in K. cbn [map] in K. rewrite K. reflexivity.
Qed.

Lemma extract_kps_eq hs : forall E n, (forall i t, In (i, t) E -> 0 <= i /\ nth_error hs (Z.to_nat i) = Some t) ->
  extract_kps (map tl hs) (map tr hs) n (map mk E) =
  Ok (map (fun e => tl (snd e)) E, map (fun e => tr (snd e)) E, diag n (map snd E)).
Proof.
  induction E as [|[i t] E IH]; intros n H; cbn [map extract_kps]; [reflexivity|].
  destruct (H i t (or_introl eq_refl)) as [H0 Hn]. unfold mk at 1 2. cbn [qi ti fst snd].
  rewrite (proj2 (vix_ok (map tl hs) i (tl t))) by (split; [exact H0 | apply map_nth_error; exact Hn]).
  rewrite (proj2 (vix_ok (map tr hs) i (tr t))) by (split; [exact H0 | apply map_nth_error; exact Hn]).
  cbn [rbind]. rewrite IH by (intros; apply H; right; assumption). reflexivity.
Qed.

Lemma filter_enum (p : track -> bool) l : forall i, map snd (filter (fun e => p (snd e)) (enum i l)) = filter p l.
Proof.
  induction l as [|a l IH]; intros i; cbn [enum filter]; [reflexivity|].
  cbn [snd]. destruct (p a); [cbn [map snd]; rewrite IH; reflexivity | apply IH].
Qed.
Lemma filter_filter {A} (p q : A -> bool) l : filter p (filter q l) = filter (fun a => q a && p a) l.
Proof.
  induction l as [|a l IH]; cbn; [reflexivity|].
  destruct (q a); cbn; [destruct (p a); rewrite ?IH; reflexivity | exact IH].
Qed.
Lemma filter_ext_in' {A} (p q : A -> bool) l : (forall a, In a l -> p a = q a) -> filter p l = filter q l.
Proof.
  induction l as [|a l IH]; intros H; cbn; [reflexivity|]. rewrite (H a) by (left; reflexivity).
  rewrite IH by (intros; apply H; right; assumption). reflexivity.
Qed.
Lemma positions_ext {A} (p q : A -> bool) l : forall i, (forall a, In a l -> p a = q a) -> positions p i l = positions q i l.
Proof.
  induction l as [|a l IH]; intros i H; cbn; [reflexivity|]. rewrite (H a) by (left; reflexivity).
  rewrite IH by (intros; apply H; right; assumption). reflexivity.
Qed.

(* a test on the ends of a match equals the test on the track *)
Lemma on_ends {X} (t : kp -> kp -> X) d hs i tk : 0 <= i -> nth_error hs (Z.to_nat i) = Some tk ->
  (match vat (map tl hs) (qi (mk (i, tk))), vat (map tr hs) (ti (mk (i, tk))) with Ok a, Ok b => t a b | _, _ => d end)
  = t (tl tk) (tr tk).
Proof.
  intros H0 Hn. unfold mk. cbn [qi ti fst snd].
  rewrite (proj2 (vat_ok (map tl hs) i (tl tk))) by (split; [exact H0 | apply map_nth_error; exact Hn]).
  rewrite (proj2 (vat_ok (map tr hs) i (tr tk))) by (split; [exact H0 | apply map_nth_error; exact Hn]).
  reflexivity.
Qed.

Definition sub (hs : list track) (E : list (Z * track)) : Prop :=
  forall i t, In (i, t) E -> 0 <= i /\ nth_error hs (Z.to_nat i) = Some t.
Lemma sub_filter hs E q : sub hs E -> sub hs (filter q E).
Proof. intros H i t Hi. apply filter_In in Hi. apply H. tauto. Qed.
Lemma sub_refers hs E : sub hs E -> forall m, In m (map mk E) -> refers (map tl hs) (map tr hs) m.
Proof.
  intros H m Hm. apply in_map_iff in Hm. destruct Hm as ([i t] & <- & Hi). destruct (H i t Hi) as [H0 Hn].
  assert (L : (Z.to_nat i < length hs)%nat) by (apply nth_error_Some; congruence).
  unfold refers, mk. cbn [qi ti fst]. rewrite !map_length. lia.
Qed.

Lemma stereo_on thr hs E : sub hs E ->
  stereo_filter thr (map tl hs) (map tr hs) (map mk E) =
  Ok (map mk (filter (fun e => stereo_test thr (tl (snd e)) (tr (snd e))) E),
      positions (fun e => stereo_test thr (tl (snd e)) (tr (snd e))) 0 E).
Proof.
  intros H. rewrite stereo_filter_eq by (apply sub_refers; exact H). rewrite filter_map, positions_map.
  assert (X : forall e, In e E -> stereo_q thr (map tl hs) (map tr hs) (mk e) = stereo_test thr (tl (snd e)) (tr (snd e))).
  { intros [i t] Hi. destruct (H i t Hi) as [H0 Hn]. unfold stereo_q.
    exact (on_ends (stereo_test thr) false hs i t H0 Hn). }
  rewrite (filter_ext_in' _ _ E X), (positions_ext _ _ E 0 X). reflexivity.
Qed.
Lemma depth_on f hs E : sub hs E ->
  depth_filter f (map tl hs) (map tr hs) (map mk E) =
  Ok (map mk (filter (fun e => depth_test f (tl (snd e)) (tr (snd e))) E),
      positions (fun e => depth_test f (tl (snd e)) (tr (snd e))) 0 E).
Proof.
  intros H. rewrite depth_filter_eq by (apply sub_refers; exact H). rewrite filter_map, positions_map.
  assert (X : forall e, In e E -> depth_q f (map tl hs) (map tr hs) (mk e) = depth_test f (tl (snd e)) (tr (snd e))).
  { intros [i t] Hi. destruct (H i t Hi) as [H0 Hn]. unfold depth_q.
    exact (on_ends (depth_test f) false hs i t H0 Hn). }
  rewrite (filter_ext_in' _ _ E X), (positions_ext _ _ E 0 X). reflexivity.
Qed.

Lemma remove_close_eq sqr l refs : remove_close sqr l refs = filter (far sqr refs) l.
Proof. reflexivity. Qed.
Lemma far_nil sqr l : filter (far sqr []) l = l.
Proof. induction l as [|k l IH]; cbn; [|rewrite IH]; reflexivity. Qed.

(* ---- the tracked part ---- *)
Definition inv (st : tst) (prev : list track) : Prop :=
  t_prev st = lrm_of prev /\ -1 <= t_frame st /\ (t_frame st = -1 -> prev = []).

Definition surv (st : tst) (prev : list track) (f : frame) : list track :=
  survivors prev (f_flow f (fst (t_images st)) (f_left f) (map (fun t => kpt (tl t)) prev))
                 (f_flow f (snd (t_images st)) (f_right f) (map (fun t => kpt (tr t)) prev)).

Lemma track_previous_eq st prev f : inv st prev -> flow_ok f -> track_previous st f = Ok (lrm_of (surv st prev f)).
Proof.
  intros (P & _ & _) F. unfold track_previous, surv. rewrite P. cbn [kL kR ms lrm_of].
  assert (E : forall a b g (ks : list track),
    match map g ks with [] => [] | _ :: _ => f_flow f a b (map kpt (map g ks)) end = f_flow f a b (map (fun t => kpt (g t)) ks)).
  { intros a b g ks. rewrite map_map. destruct ks; [|reflexivity]. cbn [map].
    pose proof (F a b []) as L. destruct (f_flow f a b []); [reflexivity | discriminate]. }
  rewrite !E. apply (hypotheses_eq prev [] [] _ [] _ []); rewrite ?F, ?map_length; reflexivity.
Qed.

Lemma tracked_part_eq c st prev f n1 n2 : inv st prev -> flow_ok f ->
  let hs := surv st prev f in
  tracked_part c st f n1 n2 =
  Ok (filter (far (c_sqr c) (map tl hs)) n1, filter (far (c_sqr c) (map tr hs)) n2, lrm_of hs,
      lrm_of (filter (passes (c_vert c) (f_depth f)) hs)).
Proof.
  intros I F hs. unfold tracked_part.
  assert (H : (if 0 <? t_frame st + 1 then track_previous st f else Ok lrm0) = Ok (lrm_of hs)).
  { destruct (0 <? t_frame st + 1) eqn:E; [apply track_previous_eq; assumption|].
    destruct I as (P & L & Z0). unfold hs, surv. rewrite (Z0 ltac:(lia)). reflexivity. }
  rewrite H. cbn [rbind]. clear H.
  assert (N : forall (l refs : list kp), (t_frame st = -1 -> refs = []) ->
     (if 0 <? t_frame st + 1 then remove_close (c_sqr c) l refs else l) = filter (far (c_sqr c) refs) l).
  { intros l refs R. destruct (0 <? t_frame st + 1) eqn:E; [apply remove_close_eq|].
    destruct I as (P & L & _). rewrite R by lia. symmetry. apply far_nil. }
  assert (HN : t_frame st = -1 -> hs = []).
  { intros E. destruct I as (_ & _ & Z0). unfold hs, surv. rewrite (Z0 E). reflexivity. }
  rewrite !N by (intros E; unfold lrm_of; cbn [kL kR]; rewrite (HN E); reflexivity). clear N HN I F.
  set (E0 := enum 0 hs).
  assert (S0 : sub hs E0) by (intros i t Hi; apply (enum_nth [] hs); exact Hi).
  change (kL (lrm_of hs)) with (map tl hs). change (kR (lrm_of hs)) with (map tr hs).
  change (ids (lrm_of hs)) with (map tid hs).
  replace (ms (lrm_of hs)) with (map mk E0) by (symmetry; apply diag_enum).
  rewrite stereo_on by exact S0. cbn [rbind].
  set (E1 := filter (fun e => stereo_test (c_vert c) (tl (snd e)) (tr (snd e))) E0).
  assert (S1 : sub hs E1) by (apply sub_filter; exact S0).
  assert (I1 : extract_ids (map tid hs) (positions (fun e => stereo_test (c_vert c) (tl (snd e)) (tr (snd e))) 0 E0) = Ok (map (fun e => tid (snd e)) E1)).
  { pose proof (extract_ids_eq (fun e => tid (snd e)) (fun e => stereo_test (c_vert c) (tl (snd e)) (tr (snd e))) E0 []) as X.
    cbn [app length] in X. fold E1 in X. etransitivity; [|exact X]. f_equal. unfold E0. rewrite <- (enum_snd hs 0) at 1. rewrite map_map. reflexivity. }
  rewrite I1. cbn [rbind].
  assert (K : forall E, sub hs E ->
    rbind (extract_kps (map tl hs) (map tr hs) 0 (map mk E)) (fun '(a, b, m') =>
      Ok (filter (far (c_sqr c) (map tl hs)) n1, filter (far (c_sqr c) (map tr hs)) n2, lrm_of hs,
          Lrm a b m' (map (fun e => tid (snd e)) E))) =
    Ok (filter (far (c_sqr c) (map tl hs)) n1, filter (far (c_sqr c) (map tr hs)) n2, lrm_of hs, lrm_of (map snd E))).
  { intros E SE. rewrite extract_kps_eq by exact SE. cbn [rbind].
    unfold lrm_of. rewrite !map_map. reflexivity. }
  destruct (f_depth f) as [d|].
  - rewrite depth_on by exact S1. cbn [rbind].
    set (E2 := filter (fun e => depth_test d (tl (snd e)) (tr (snd e))) E1).
    pose proof (extract_ids_eq (fun e => tid (snd e)) (fun e => depth_test d (tl (snd e)) (tr (snd e))) E1 []) as X.
    cbn [app length] in X. change (Z.of_nat 0) with 0 in X. rewrite X. cbn [rbind]. fold E2. rewrite K by (apply sub_filter; exact S1).
    do 3 f_equal. unfold E2, E1, E0. rewrite filter_filter.
    apply (filter_enum (fun t => stereo_test (c_vert c) (tl t) (tr t) && depth_test d (tl t) (tr t))).
  - cbn [rbind]. rewrite K by exact S1. do 3 f_equal. unfold E1, E0.
    rewrite (filter_enum (fun t => stereo_test (c_vert c) (tl t) (tr t))).
    apply filter_ext_in'. intros t _. unfold passes, depth_ok. rewrite andb_true_r. reflexivity.
Qed.
