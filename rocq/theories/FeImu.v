(* IMU data used by the front end; no failures under the environment contract. *)
From Verif Require Import Base ImuModel ImuSpec ImuProofs FeModel FeSpec FeBaro FeProofs.

Definition lst (h : list imu) : Z := last (map fst h) 0.
Lemma lst_snoc h t v : lst (h ++ [(t, v)]) = t.
Proof. unfold lst. rewrite map_app. apply last_last. Qed.
Lemma lst_in h : h <> [] -> exists v, In (lst h, v) h.
Proof. intros H. destruct (exists_last H) as (h' & [t v] & ->). exists v. rewrite lst_snoc. apply in_or_app. right. left. reflexivity. Qed.
Lemma lst_max h m : strict h -> In m h -> fst m <= lst h.
Proof.
  intros Hs Hm. destruct h as [|x h] using rev_ind; [destruct Hm|]. destruct x as [t v]. rewrite lst_snoc. apply in_app_or in Hm.
  destruct Hm as [Hm|[<-|[]]]; [|cbn; lia]. destruct (strict_app _ _ Hs) as (_ & _ & H). specialize (H m (t, v) Hm (or_introl eq_refl)). cbn in H. lia.
Qed.
Lemma strict_snoc h m : strict h -> (forall x, In x h -> fst x < fst m) -> strict (h ++ [m]).
Proof.
  induction h as [|x h IH]; intros Hs H; [split; [intros ? []|exact I]|]. destruct Hs as [H1 H2]. cbn [app strict]. split; [|apply IH; [exact H2|intros y Hy; apply H; right; exact Hy]].
  intros y Hy. apply in_app_or in Hy. destruct Hy as [Hy|[<-|[]]]; [auto|apply H; left; reflexivity].
Qed.

(* ---- since ---- *)
Lemma catch_up_since : forall b l, fst (catch_up l b) = since l b.
Proof.
  induction b as [|[t v] b IH]; intros l; [reflexivity|]. cbn [catch_up since]. destruct (l <? t); [|apply IH]. specialize (IH t). destruct (catch_up t b). cbn in *. congruence.
Qed.
Lemma catch_up_end : forall b l, strict b -> snd (catch_up l b) = match b with [] => l | _ => Z.max l (lst b) end.
Proof.
  induction b as [|[t v] b IH]; intros l Hs; [reflexivity|]. destruct Hs as [H1 H2]. cbn [catch_up].
  assert (Hb : lst ((t, v) :: b) = match b with [] => t | _ => lst b end) by (destruct b; reflexivity).
  assert (Hl : b <> [] -> t < lst b). { intros N. destruct (lst_in b N) as (w & Hw). specialize (H1 _ Hw). cbn in H1. exact H1. }
  rewrite Hb. destruct (Z.ltb_spec l t).
  - specialize (IH t H2). destruct (catch_up t b) as [q e]. cbn [snd] in *. rewrite IH. destruct b; [lia|]. specialize (Hl ltac:(discriminate)). lia.
  - rewrite (IH l H2). destruct b; lia.
Qed.
Lemma since_positive : forall b l, preintegrate (since l b) = Ok (since l b).
Proof.
  intros b l. unfold preintegrate. replace (forallb _ _) with true; [reflexivity|]. symmetry. apply forallb_forall. revert l.
  induction b as [|[t v] b IH]; intros l x; [intros []|]. cbn [since]. destruct (Z.ltb_spec l t); [|apply IH]. intros [<-|Hx]; [cbn; lia|eapply IH; eauto].
Qed.
Lemma since_drop l p b : (forall x, In x p -> fst x <= l) -> since l (p ++ b) = since l b.
Proof.
  induction p as [|[t v] p IH]; intros H; [reflexivity|]. cbn [app since]. specialize (H (t, v) (or_introl eq_refl)) as Ht. cbn in Ht. replace (l <? t) with false by lia.
  apply IH. intros x Hx. apply H. right. exact Hx.
Qed.
Lemma since_snoc t v : forall h l, strict (h ++ [(t, v)]) -> (exists m, In m h /\ l <= fst m) -> since l (h ++ [(t, v)]) = since l h ++ [(v, t - lst h)].
Proof.
  induction h as [|[s w] h IH]; intros l Hs (m & Hm & Hl); [destruct Hm|]. cbn [app since]. destruct Hs as [H1 H2]. cbn [fst] in H1.
  assert (Hst : s < t) by (apply (H1 (t, v)); apply in_or_app; right; left; reflexivity).
  destruct h as [|x h].
  - destruct Hm as [<-|[]]. cbn [fst] in Hl. cbn [app since lst map last fst]. destruct (Z.ltb_spec l s); cbn [app].
    + replace (s <? t) with true by lia. reflexivity.
    + replace (l <? t) with true by lia. assert (l = s) by lia. subst. reflexivity.
  - assert (E : lst ((s, w) :: x :: h) = lst (x :: h)) by reflexivity. rewrite E. destruct (Z.ltb_spec l s).
    + cbn [app]. f_equal. apply IH; [exact H2|]. exists x. split; [left; reflexivity|]. assert (s < fst x) by (apply H1; left; reflexivity). lia.
    + apply IH; [exact H2|]. destruct Hm as [<-|Hm]; [|exists m; auto]. exists x. split; [left; reflexivity|]. cbn in Hl. assert (s < fst x) by (apply H1; left; reflexivity). lia.
Qed.
(* each measurement after [l] once, durations adding up to the time since [l] *)
Lemma since_total l h : strict h -> (exists m, In m h /\ l <= fst m) -> total (since l h) = lst h - l.
Proof.
  revert l. induction h as [|[s w] h IH]; intros l Hs (m & Hm & Hl); [destruct Hm|]. destruct Hs as [H1 H2]. cbn [fst] in H1. cbn [since].
  destruct h as [|x h].
  - destruct Hm as [<-|[]]. cbn in *. destruct (Z.ltb_spec l s); cbn; lia.
  - assert (E : lst ((s, w) :: x :: h) = lst (x :: h)) by reflexivity. rewrite E. assert (Hx : s < fst x) by (apply H1; left; reflexivity). destruct (Z.ltb_spec l s).
    + cbn [total fold_right snd]. fold (total (since s (x :: h))). rewrite (IH s H2); [lia|]. exists x. split; [left; reflexivity|lia].
    + apply IH; [exact H2|]. destruct Hm as [<-|Hm]; [|exists m; auto]. exists x. cbn in Hl. split; [left; reflexivity|lia].
Qed.

(* ---- hold ---- *)
Lemma hold_front t m r d : fst m <= t -> exists v, hold t (m :: r) d = Some v.
Proof.
  destruct m as [s v]. intros H. cbn [fst] in H. cbn [hold]. replace (s <=? t) with true by lia. destruct (hold t r (Some v)) as [w|] eqn:E; [exists w; reflexivity|]. exfalso. exact (hold_some _ _ _ E).
Qed.
Lemma hold_suffix t p m r : fst m <= t -> hold t (p ++ m :: r) None = hold t (m :: r) None.
Proof. intros H. rewrite hold_app. destruct m as [s v]. cbn [fst] in H. cbn [hold]. replace (s <=? t) with true by lia. reflexivity. Qed.
Lemma hold_snoc t h m : t < fst m -> hold t (h ++ [m]) None = hold t h None.
Proof. intros H. rewrite hold_app. destruct m as [s v]. cbn [fst] in H. cbn [hold]. replace (s <=? t) with false by lia. reflexivity. Qed.
Lemma delete_front x : forall b, strict b -> In x b -> exists r, delete_old (fst x) b = x :: r.
Proof.
  induction b as [|[s v] b IH]; intros Hs Hx; [destruct Hx|]. destruct Hs as [H1 H2]. cbn [delete_old]. destruct Hx as [<-|Hx].
  - cbn [fst]. rewrite Z.ltb_irrefl. exists b. reflexivity.
  - specialize (H1 x Hx) as L. cbn [fst] in L. replace (s <? fst x) with true by lia. apply IH; assumption.
Qed.

(* ---- contents ---- *)
Lemma follows_mono h m a b s : strict (h ++ [m]) -> (exists x, In x h /\ b <= fst x) -> follows h a b s -> follows (h ++ [m]) a b s.
Proof.
  intros Hs (x & Hx & Hb) [H1 H2]. split; [exact H1|]. intros t Ht. destruct (H2 t Ht) as (v & E1 & E2). exists v. split; [exact E1|]. rewrite hold_snoc; [exact E2|].
  destruct (strict_app _ _ Hs) as (_ & _ & H). specialize (H x m Hx (or_introl eq_refl)). lia.
Qed.
Definition within (h : list imu) (x : fout) : Prop :=
  match x with
  | OArray a b _ => exists m, In m h /\ b <= fst m
  | OCloud u c _ _ => 0 < snd c /\ exists m, In m h /\ from_pcl (fst c) + snd c <= fst m
  | _ => True
  end.
Lemma within_mono h m x : within h x -> within (h ++ [m]) x.
Proof.
  destruct x; cbn; auto; [intros (y & Hy & L)|intros (H & y & Hy & L); split; [exact H|]]; exists y; (split; [apply in_or_app; auto|exact L]).
Qed.
Lemma contents_mono h m : strict (h ++ [m]) -> forall o p, Forall (within h) o -> contents h p o -> contents (h ++ [m]) p o.
Proof.
  intros Hs. induction o as [|x o IH]; intros p F C; [exact I|]. inversion F as [|? ? Fx Fo]; subst. destruct x; cbn [contents] in *; try (apply IH; assumption).
  - destruct C as [(st & E & Ff) C]. split; [|apply IH; assumption]. exists st. split; [exact E|]. apply follows_mono; auto.
  - destruct C as (C1 & C2 & C3). cbn in Fx. destruct Fx as (Hp & y & Hy & L). split; [|split; [|apply IH; assumption]].
    + destruct p; [|exact C1]. apply follows_mono; auto. exists y. split; [exact Hy|lia].
    + apply follows_mono; auto. exists y. auto.
Qed.
Definition lastp (p : option Z) (o : list fout) : option Z := fold_left (fun p x => match x with OCloud u _ _ _ => Some (from_pcl u) | _ => p end) o p.
Lemma contents_app h : forall o p o', contents h p (o ++ o') <-> contents h p o /\ contents h (lastp p o) o'.
Proof.
  induction o as [|x o IH]; intros p o'; [cbn; tauto|]. destruct x; cbn [app contents lastp fold_left]; try apply IH; rewrite IH; unfold lastp; tauto.
Qed.
Lemma lastp_clouds : forall o p, lastp p o = match out_clouds o with [] => p | c => Some (from_pcl (fst (last c (0, (0, 0))))) end.
Proof.
  induction o as [|x o IH] using rev_ind; intros p; [reflexivity|]. unfold lastp, out_clouds in *. rewrite fold_left_app, flat_map_app. destruct x; cbn [flat_map app fold_left]; rewrite ?app_nil_r; try apply IH.
  destruct (flat_map _ o) as [|y l]; [reflexivity|]. cbn [app]. change (y :: l ++ [(u, cl)]) with ((y :: l) ++ [(u, cl)]). rewrite last_last. reflexivity.
Qed.

(* ---- the invariant ---- *)
Definition started (s : fe) : Prop := f_init s = true \/ match f_pc s with PBias _ _ _ | PSkew _ _ _ | PBaro _ _ _ => True | _ => False end.
Record iinv (h : list imu) (s : fe) : Prop := {
  i_strict : strict h;
  i_buf : exists p, h = p ++ f_imu s /\ (p <> [] -> f_init s = true);
  i_front : started s -> exists m r, f_imu s = m :: r /\ fst m <= f_pst s /\ fst m < lst h /\ (f_init s = false -> exists c, f_prev s = Some c /\ fst m <= from_pcl (fst c));
  i_last : f_last s = lst h;
  i_pre : forall l, f_pre s = Some l -> l = since (f_bias s) h /\ exists m, In m h /\ f_bias s <= fst m;
  i_skew : match f_pc s, f_prev s with PSkew _ _ _, Some c => from_pcl (fst c) + snd c <= lst h | _, _ => True end;
  i_cont : contents h None (f_out s);
  i_with : Forall (within h) (f_out s) }.

Lemma iinv_init : iinv [] fe_init.
Proof. constructor; cbn; auto; try discriminate. exists []. split; [reflexivity|congruence]. intros [[=]|[]]. Qed.

Lemma pst_before s done pu psw : tinv s done -> f_init s = true -> f_prev s = Some (pu, psw) -> f_pst s < from_pcl pu.
Proof.
  intros T Hi Hp. destruct T as [Tp Tr Tl Tv Ti Tt Ts Oi Os Oc]. assert (N : done <> []) by (intros ->; congruence). destruct (exists_last N) as (d & r & ->). rewrite (Tt r N), last_last.
  destruct (Tv r N) as (c & E & H). rewrite last_last in H. rewrite Hp in E. injection E as <-. cbn in H. apply Forall_app in Tr. destruct Tr as [_ F].
  pose proof (Forall_inv F) as [[_ H1] _]. rewrite H in H1. exact H1.
Qed.
Lemma chosen_bounds s done u sw new : tinv s done -> (f_pc s = PChosen u sw new \/ f_pc s = PBias u sw new \/ f_pc s = PSkew u sw new \/ f_pc s = PBaro u sw new) ->
  exists c, f_prev s = Some c /\ fst c < u /\ from_pcl (fst c) <= new < from_pcl u.
Proof.
  intros T Hp. destruct T as [Tp Tr Tl Tv Ti Tt Ts Oi Os Oc]. unfold phase_ok in Tp. destruct Hp as [E|[E|[E|E]]]; rewrite E in Tp; destruct Tp as (c & E1 & E2 & [E3 _]); exists c; auto.
Qed.

Record cinv (c : fcfg) (ins : list fin) (s : fe) (done : list rec) : Prop := {
  c_t : tinv s done; c_m : micro s; c_s : seen s (in_clouds ins) done;
  c_cl : strict (in_clouds ins); c_sw : Forall (fun x => 0 < snd x) (in_clouds ins);
  c_i : iinv (in_imu ins) s;
  c_b : fc_baro c = true -> strict (in_baro ins) /\ binv (in_baro ins) (map rt done) (f_bar s) (out_baros (f_out s)) /\ (in_baro ins <> [] -> b_buf (f_bar s) <> []) }.

Lemma cinv_init c : cinv c [] fe_init [].
Proof.
  constructor.
  - apply tinv_init.
  - intros t [].
  - constructor; [constructor|intros ? [=]|intros ? [=]].
  - exact I.
  - constructor.
  - apply iinv_init.
  - intros _. split; [exact I|]. split; [|cbn; congruence]. constructor; cbn; auto. exists []. split; [reflexivity|congruence].
Qed.

(* steps that change neither IMU data nor phase *)
Lemma iinv_same h s s' : iinv h s -> f_imu s' = f_imu s -> f_pst s' = f_pst s -> f_init s' = f_init s -> f_last s' = f_last s -> f_bias s' = f_bias s -> f_pre s' = f_pre s ->
  (started s' -> started s) -> (f_init s = false -> started s' -> f_prev s' = f_prev s) ->
  match f_pc s', f_prev s' with PSkew _ _ _, Some c => from_pcl (fst c) + snd c <= lst h | _, _ => True end ->
  (exists o, f_out s' = f_out s ++ o /\ contents h (lastp None (f_out s)) o /\ Forall (within h) o) -> iinv h s'.
Proof.
  intros [I1 I2 I3 I4 I5 I6 I7 I8] E1 E2 E3 E4 E5 E6 E7 E8 E9 (o & E10 & E11 & E12). constructor; rewrite ?E1, ?E2, ?E3, ?E4, ?E5, ?E6; auto.
  - intros Hs. destruct (I3 (E7 Hs)) as (m & r & F1 & F2 & F3 & F4). exists m, r. conj; auto. intros Hi. rewrite (E8 Hi Hs). apply F4. exact Hi.
  - rewrite E10. apply contents_app. auto.
  - rewrite E10. apply Forall_app. auto.
Qed.
Lemma contents_other h p o : (forall x, In x o -> match x with OArray _ _ _ | OCloud _ _ _ _ => False | _ => True end) -> contents h p o /\ Forall (within h) o.
Proof.
  revert p. induction o as [|x o IH]; intros p H; [split; [exact I|constructor]|]. specialize (H x (or_introl eq_refl)) as Hx.
  destruct (IH p) as [A B]; [intros y Hy; apply H; right; exact Hy|]. destruct x; try destruct Hx; (split; [exact A|constructor; [exact I|exact B]]).
Qed.

Lemma announced_after s done t : tinv s done -> In t (announced (f_out s)) -> (forall x, In x (out_clouds (f_out s)) -> from_pcl (fst x) <= t) -> started s /\ f_pst s <= t.
Proof.
  intros T Ha Hc. destruct T as [Tp Tr Tl Tv Ti Tt Ts Oi Os Oc]. destruct done as [|r0 d0] eqn:Ed.
  - cbn [app] in *. unfold announced in Ha. rewrite Oi, Os in Ha. specialize (Ts eq_refl). unfold current in *.
    destruct (f_pc s) eqn:Ep; cbn in Ha; try destruct Ha; destruct (f_prev s); cbn in Ha; try (destruct Ha; fail); destruct Ha as [<-|[]]; (split; [right; rewrite Ep; exact I|]); cbn in Ts; unfold rt in Ts; cbn in Ts; lia.
  - rewrite <- Ed in *. assert (N : done <> []) by (rewrite Ed; discriminate). split; [left; rewrite Ti; destruct done; [congruence|reflexivity]|].
    destruct (exists_last N) as (d & r & E). rewrite (Tt r N), E, last_last. specialize (Hc (to_pcl (rt r), rc r)). cbn in Hc.
    assert (Hr : rec_ok r) by (rewrite E in Tr; apply Forall_app in Tr; destruct Tr as [_ F]; exact (Forall_inv F)). destruct Hr as [_ Hr]. rewrite Hr in Hc. apply Hc.
    rewrite Oc, E, map_app, map_app. apply in_or_app. left. apply in_or_app. right. left. reflexivity.
Qed.

Lemma increasing_up l : up l -> increasing l.
Proof. induction l as [|x l IH]; cbn; [auto|]. intros [H1 H2]. auto. Qed.
Lemma tinv_up s done : tinv s done -> up (map rt (done ++ current s)).
Proof.
  intros [Tp Tr Tl Tv Ti Tt Ts Oi Os Oc]. apply linked_up; [|exact Tl]. apply Forall_app. split; [exact Tr|]. unfold current, phase_ok in *.
  destruct (f_pc s); try constructor; destruct Tp as (c0 & Ec & _ & Hr); rewrite Ec; constructor; auto.
Qed.

Lemma in_imu_snoc ins i : in_imu (ins ++ [i]) = in_imu ins ++ match i with IImu t v => [(t, v)] | _ => [] end.
Proof. unfold in_imu. rewrite flat_map_app. cbn [flat_map]. rewrite app_nil_r. reflexivity. Qed.
Lemma in_baro_snoc ins i : in_baro (ins ++ [i]) = in_baro ins ++ match i with IBaro t v => [(t, v)] | _ => [] end.
Proof. unfold in_baro. rewrite flat_map_app. cbn [flat_map]. rewrite app_nil_r. reflexivity. Qed.
Lemma in_clouds_snoc ins i : in_clouds (ins ++ [i]) = in_clouds ins ++ match i with ICloud t v => [(t, v)] | _ => [] end.
Proof. unfold in_clouds. rewrite flat_map_app. cbn [flat_map]. rewrite app_nil_r. reflexivity. Qed.

(* the buffer part of a strict history *)
Lemma buf_strict h s : iinv h s -> strict (f_imu s).
Proof. intros [I1 (p & E & _) _ _ _ _ _ _]. rewrite E in I1. apply strict_app in I1. tauto. Qed.
Lemma buf_in h s m : iinv h s -> started s -> In m h -> f_pst s <= fst m -> In m (f_imu s).
Proof.
  intros [I1 (p & E & _) I3 _ _ _ _ _] Hs Hm Hl. destruct (I3 Hs) as (m0 & r & F1 & F2 & _). rewrite E in Hm. apply in_app_or in Hm. destruct Hm as [Hm|Hm]; [|exact Hm].
  exfalso. rewrite E, F1 in I1. destruct (strict_app _ _ I1) as (_ & _ & H). specialize (H m m0 Hm (or_introl eq_refl)). lia.
Qed.
Lemma buf_hold h s t : iinv h s -> started s -> f_pst s <= t -> exists v, hold t (f_imu s) None = Some v /\ hold t h None = Some v.
Proof.
  intros [I1 (p & E & _) I3 _ _ _ _ _] Hs Hl. destruct (I3 Hs) as (m0 & r & F1 & F2 & _). rewrite E, F1. rewrite hold_suffix by lia. destruct (hold_front t m0 r None ltac:(lia)) as (v & Ev). exists v. auto.
Qed.
(* the end of the buffer is the end of the history *)
Lemma lst_app a b : b <> [] -> lst (a ++ b) = lst b.
Proof. intros N. destruct (exists_last N) as (b' & [t v] & ->). rewrite app_assoc, !lst_snoc. reflexivity. Qed.
Lemma buf_lst h s : iinv h s -> f_imu s <> [] -> lst h = lst (f_imu s).
Proof. intros [I1 (p & E & _) _ _ _ _ _ _] N. rewrite E at 1. apply lst_app. exact N. Qed.

Lemma ok_of {A} (r : res A) (P : Prop) : (r = Throw <-> P) -> ~ P -> r <> UB -> exists x, r = Ok x.
Proof. destruct r as [x| |]; [exists x; reflexivity| |congruence]. intros [H _] N. exfalso. apply N, H. reflexivity. Qed.

Lemma c_pos (l : list (Z * Z)) x : Forall (fun x => 0 < snd x) l -> In x l -> 0 < snd x.
Proof. intros F H. rewrite Forall_forall in F. auto. Qed.
Lemma step_imu c ins s done i : cinv c ins s done -> calm c ins s i -> exists s', fe_step c s i = Ok s' /\ iinv (in_imu (ins ++ [i])) s'.
Proof.
  intros [T M S Hcl Hsw II Bb] C. rewrite in_imu_snoc. unfold calm in C. remember (in_imu ins) as h eqn:Eh0. pose proof II as [I1 I2 I3 I4 I5 I6 I7 I8]. pose proof (buf_strict _ _ II) as Hbs.
  destruct i as [t v|t|t p|t|u sw|]; cbn [fe_step] in *; rewrite ?app_nil_r.
  - (* imu *)
    assert (Hs : strict (h ++ [(t, v)])) by (apply strict_snoc; auto).
    assert (Hl : forall m, In m h -> fst m < t) by exact C.
    assert (X : forall pre o, (forall l, pre = Some l -> l = since (f_bias s) (h ++ [(t, v)]) /\ exists m, In m (h ++ [(t, v)]) /\ f_bias s <= fst m) ->
      (forall x, In x o -> match x with OArray _ _ _ | OCloud _ _ _ _ => False | _ => True end) ->
      iinv (h ++ [(t, v)]) (out (mkFe (f_imu s ++ [(t, v)]) (f_st s) (f_bar s) (f_prev s) (f_pst s) (f_init s) t (f_bias s) pre (f_pc s) (f_out s)) o)).
    { intros pre o Hp Ho. constructor; cbn [out f_imu f_pst f_init f_last f_bias f_pre f_pc f_prev f_out]; auto.
      - destruct I2 as (p & E & N). exists p. rewrite E, app_assoc. auto.
      - intros Hst. assert (Hst' : started s) by exact Hst. destruct (I3 Hst') as (m & r & F1 & F2 & F3 & F4). exists m, (r ++ [(t, v)]). rewrite F1, lst_snoc. conj; auto. apply Hl.
        destruct I2 as (p & E & _). rewrite E, F1. apply in_or_app. right. left. reflexivity.
      - rewrite lst_snoc. reflexivity.
      - destruct (f_pc s) eqn:Ep; auto. destruct (f_prev s); auto. rewrite lst_snoc. destruct (I3 ltac:(right; rewrite Ep; exact I)) as (m & r & F1 & _). destruct I2 as (p9 & E & _).
        destruct (lst_in h) as (w & Hw); [rewrite E, F1; destruct p9; discriminate|]. specialize (Hl _ Hw). cbn in Hl. lia.
      - apply contents_app. split; [apply contents_mono; auto|apply contents_other; exact Ho].
      - apply Forall_app. split; [eapply Forall_impl; [|exact I8]; intros x; apply within_mono|]. apply (contents_other _ None). exact Ho. }
    unfold imu_callback. destruct (f_pre s) as [l|] eqn:Ep.
    + destruct (I5 l eq_refl) as (E1 & m & Hm & Lm). unfold preintegrate. cbn [forallb snd]. specialize (Hl m Hm) as Lt. pose proof (lst_max h m I1 Hm) as Ll. rewrite I4.
      destruct (lst_in h) as (w & Hw); [intros E; rewrite E in Hm; destruct Hm|]. pose proof (Hl _ Hw) as L2. cbn in L2. replace (0 <? t - lst h) with true by lia. cbn [andb rbind].
      eexists. split; [reflexivity|]. apply X; [|intros x [<-|[]]; exact I]. intros l' [= <-]. split; [|exists m; split; [apply in_or_app; auto|lia]]. rewrite E1. symmetry. apply since_snoc; [exact Hs|]. exists m. auto.
    + eexists. split; [reflexivity|]. specialize (X None []). unfold out in X. cbn [f_out f_imu f_st f_bar f_prev f_pst f_init f_last f_bias f_pre f_pc] in X. rewrite app_nil_r in X. apply X; [discriminate|intros ? []].
  - (* stereo *) destruct (fc_stereo c); eexists; (split; [reflexivity|]); [|exact II]. unfold stereo_callback. destruct (fc_graph_only c); (eapply iinv_same; [exact II|reflexivity..|auto|auto|exact I6|]).
    + exists []. rewrite app_nil_r. split; [reflexivity|split; [exact I|constructor]].
    + eexists. split; [reflexivity|]. apply contents_other. intros x [<-|[]]. exact I.
  - (* barometer *) destruct (fc_baro c) eqn:Eb; [|exists s; split; [reflexivity|exact II]]. destruct (Bb eq_refl) as (B1 & B2 & B3).
    destruct (event_inv (in_baro ins) (map rt done) (f_bar s) (out_baros (f_out s)) (BM (t, p)) B2 (or_intror (ex_intro _ _ eq_refl))) as (b' & o & E & _).
    + cbn. apply strict_snoc; [exact B1|exact C].
    + cbn. rewrite app_nil_r. eapply increasing_prefix with (b := map rt (current s)). rewrite <- map_app. apply increasing_up, tinv_up, T.
    + cbn [bar_event] in E. rewrite E. cbn [rbind]. eexists. split; [reflexivity|]. unfold set_bar. eapply iinv_same; [exact II|reflexivity..|auto|auto|exact I6|]. eexists. split; [reflexivity|].
      apply contents_other. intros x Hx. apply in_map_iff in Hx. destruct Hx as (y & <- & _). exact I.
  - (* odometry *) destruct C as (C1 & C2 & m1 & Hm1 & C3). destruct (announced_after s done t T C1 C2) as (Hst & Hp). destruct (I3 Hst) as (m & r & F1 & F2 & F3 & F4).
    unfold odometry_callback. assert (Hm1' : In m1 (f_imu s)) by (eapply buf_in; eauto; lia). destruct (neighbours_throw t (f_imu s) (strict_ordered _ Hbs)) as (N1 & N2).
    assert (L2 : (2 <= List.length (f_imu s))%nat). { pose proof (buf_lst _ _ II) as E. rewrite F1 in *. specialize (E ltac:(discriminate)). destruct r as [|y r]; [|cbn; lia]. cbn in E. lia. }
    destruct (ok_of _ _ N2) as (x & Ex); [|exact N1|].
    + intros N. apply N. split; [exact L2|]. split; [exists m; rewrite F1; split; [left; reflexivity|lia]|exists m1; auto].
    + rewrite Ex. cbn [rbind]. pose proof (catch_up_since (f_imu s) t) as A1. pose proof (catch_up_end (f_imu s) t Hbs) as A2. destruct (catch_up t (f_imu s)) as [l e]. cbn [fst snd] in A1, A2. rewrite A1, since_positive. cbn [rbind].
      eexists. split; [reflexivity|].
      assert (Ee : e = lst h). { pose proof (buf_lst _ _ II) as E. rewrite A2. pose proof (lst_max _ _ Hbs Hm1') as Q. rewrite F1 in *. rewrite E by discriminate. lia. }
      constructor; cbn [f_imu f_pst f_init f_last f_bias f_pre f_pc f_prev f_out]; auto. intros l' [= <-]. split; [|exists m1; auto].
      destruct I2 as (p & E & _). rewrite E. rewrite since_drop; [reflexivity|]. intros y Hy. rewrite E, F1 in I1. destruct (strict_app _ _ I1) as (_ & _ & H). specialize (H y m Hy (or_introl eq_refl)). lia.
  - (* cloud *) destruct (f_pc s) eqn:Ep; try (exists s; split; [reflexivity|exact II]). destruct (f_prev s) as [[pu psw]|] eqn:Ev; (eexists; split; [reflexivity|]).
    + eapply iinv_same; [exact II|reflexivity..| | | |exists []; rewrite app_nil_r; split; [reflexivity|split; [exact I|constructor]]]; unfold started; cbn.
      * destruct (fc_stereo c); tauto.
      * destruct (fc_stereo c); reflexivity.
      * destruct (fc_stereo c); exact I.
    + eapply iinv_same; [exact II|reflexivity..| | | |exists []; rewrite app_nil_r; split; [reflexivity|split; [exact I|constructor]]]; unfold started; cbn; auto.
      * tauto.
      * rewrite Ev. intros Hi [Hi'|[]]. congruence.
  - (* poll *) unfold cloud_poll. destruct (f_pc s) eqn:Ep; try (exists s; split; [reflexivity|exact II]; fail); (destruct (f_prev s) as [[pu psw]|] eqn:Ev; [|exists s; split; [reflexivity|exact II]]).
    + (* stereo wait *) destruct (drop_before (from_pcl pu) (f_st s)) as [|t st] eqn:Ed.
      * eexists. split; [reflexivity|]. eapply iinv_same; [exact II|reflexivity..| | | |exists []; rewrite app_nil_r; split; [reflexivity|split; [exact I|constructor]]]; unfold started; cbn; rewrite ?Ep; auto.
      * destruct (t <? from_pcl u); (eexists; split; [reflexivity|]).
        -- eapply iinv_same; [exact II|reflexivity..| | | |]; unfold started; cbn; rewrite ?Ep; auto.
           eexists. split; [reflexivity|]. apply contents_other. intros x Hx. destruct (fc_graph_only c); [destruct Hx as [<-|[]]; exact I|destruct Hx].
        -- eapply iinv_same; [exact II|reflexivity..| | | |exists []; rewrite app_nil_r; split; [reflexivity|split; [exact I|constructor]]]; unfold started; cbn; rewrite ?Ep; auto.
    + (* state time chosen *) destruct C as ((m0 & Hm0 & C0) & C1). destruct (chosen_bounds s done u sw new T) as (c0 & Ec & Hu & Hn); [auto|]. rewrite Ev in Ec. injection Ec as <-. cbn [fst] in *.
      destruct (f_init s) eqn:Ei.
      * specialize (C1 eq_refl). destruct C1 as ((m1 & Hm1 & C1) & (m2 & Hm2 & C2)). assert (Hst : started s) by (left; exact Ei). destruct (I3 Hst) as (m & r & F1 & F2 & F3 & F4).
        pose proof (pst_before s done pu psw T Ei Ev) as Hpst. assert (Hm1' : In m1 (f_imu s)) by (eapply buf_in; eauto; lia).
        destruct (select_spec (f_pst s) new (f_imu s)) as (x & l & E1 & E2 & E3 & E4 & E5 & E6); [lia|exact Hbs|exists m; rewrite F1; split; [left; reflexivity|lia]|exists m1; split; [exact Hm1'|lia]|].
        rewrite E1. destruct m as [t0 v0]. cbn [fst] in F2. rewrite F1. replace (f_pst s <? t0) with false by lia. cbn [rbind]. destruct x as [t1 v1].
        eexists. split; [reflexivity|]. rewrite <- F1.
        destruct (select_integrate (f_pst s) new (f_imu s) ((t1, v1) :: l)) as (Q & _); [lia|exact Hbs|exists (t0, v0); rewrite F1; split; [left; reflexivity|cbn; lia]|exact E1|].
        destruct Q as (steps & Q1 & Q2 & Q3); [exists m1; split; [exact Hm1'|lia]|].
        destruct (E4 (t1, v1) (or_introl eq_refl)) as (Hx & _). destruct (delete_front (t1, v1) _ Hbs Hx) as (rr & Er). cbn [fst] in Er, E2.
        assert (Hin : exists m, In m h /\ new <= fst m) by (exists m2; auto).
        constructor; cbn [go out f_imu f_pst f_init f_last f_bias f_pre f_pc f_prev f_out]; rewrite ?Ei; auto.
        -- destruct I2 as (p & E & _). destruct (delete_old_suffix t1 (f_imu s)) as (q & Eq & _). exists (p ++ q). split; [|auto]. rewrite <- app_assoc, <- Eq. exact E.
        -- intros _. exists (t1, v1), rr. rewrite Er. conj; auto; [|discriminate]. cbn. pose proof (lst_max h m2 I1 Hm2). lia.
        -- apply contents_app. split; [exact I7|]. cbn [contents]. split; [|exact I]. exists steps. split; [exact Q1|]. split; [exact Q2|]. intros t Ht. destruct (buf_hold h s t II Hst ltac:(lia)) as (v & V1 & V2). exists v. rewrite Q3 by exact Ht. auto.
        -- apply Forall_app. split; [exact I8|]. constructor; [exact Hin|constructor].
      * destruct (Z.ltb_spec (f_last s) new); [exists s; split; [reflexivity|exact II]|].
        destruct I2 as (p & E & N). assert (p = []) by (destruct p; [reflexivity|specialize (N ltac:(discriminate)); congruence]). subst p. cbn [app] in E.
        destruct (neighbours_throw new (f_imu s) (strict_ordered _ Hbs)) as (N1 & N2). rewrite E in Hm0. rewrite I4, E in H.
        assert (Hne : f_imu s <> []) by (intros X; rewrite X in Hm0; destruct Hm0). destruct (lst_in _ Hne) as (w & Hw).
        destruct (f_imu s) as [|m r] eqn:Eb; [congruence|].
        assert (Fm : fst m <= fst m0). { destruct Hm0 as [<-|Hm0]; [lia|]. destruct Hbs as [H1 _]. specialize (H1 m0 Hm0). lia. }
        assert (Lr : fst m < lst (m :: r)) by lia.
        destruct (ok_of _ _ N2) as (x & Ex); [|exact N1|].
        -- intros Q. apply Q. split; [destruct r; [unfold lst in Lr; cbn in Lr; lia|cbn; lia]|]. split; [exists m0; split; [exact Hm0|lia]|exists (lst (m :: r), w); split; [exact Hw|cbn [fst]; lia]].
        -- rewrite Ex. cbn [rbind]. eexists. split; [reflexivity|]. constructor; cbn [go out f_imu f_pst f_init f_last f_bias f_pre f_pc f_prev f_out]; rewrite ?Ei, ?Eb; auto.
           ++ exists []. split; [exact E|congruence].
           ++ intros _. exists m, r. rewrite E. conj; auto; [lia|]. intros _. exists (pu, psw). cbn. split; [reflexivity|lia].
           ++ apply contents_app. split; [exact I7|exact I].
           ++ apply Forall_app. split; [exact I8|]. constructor; [exact I|constructor].
    + (* waiting *) destruct (negb _ || _) eqn:Ew; [exists s; split; [reflexivity|exact II]|]. eexists. split; [reflexivity|].
      eapply iinv_same; [exact II|reflexivity..| | | |exists []; rewrite app_nil_r; split; [reflexivity|split; [exact I|constructor]]]; unfold started; cbn; rewrite ?Ep, ?Ev; auto.
      apply orb_false_iff in Ew. destruct Ew as [_ Ew]. cbn. lia.
    + (* deskew *) assert (Hst : started s) by (right; rewrite Ep; exact I). destruct (I3 Hst) as (m & r & F1 & F2 & F3 & F4).
      rewrite ?Ev in I6. cbn [fst snd] in I6. pose proof (c_pos _ _ Hsw (sn_prev _ _ _ S _ Ev)) as Hps. cbn in Hps. rewrite <- Eh0 in C || idtac.
      assert (Fp : fst m <= from_pcl pu). { destruct (f_init s) eqn:Ei; [pose proof (pst_before s done pu psw T Ei Ev); lia|]. destruct (F4 eq_refl) as (c1 & Ec & L). rewrite ?Ev in Ec. injection Ec as <-. exact L. }
      assert (L2 : ~ (List.length (f_imu s) < 2)%nat). { pose proof (buf_lst _ _ II) as E. rewrite F1 in *. specialize (E ltac:(discriminate)). destruct r as [|y r]; [|cbn; lia]. cbn in E. lia. }
      assert (Cb : forall y, In y (f_imu s) -> fst y <> from_pcl pu /\ fst y <> from_pcl pu + psw). { intros y Hy. apply C. destruct I2 as (p & E & _). rewrite E. apply in_or_app. auto. }
      assert (X : forall a, f_pst s <= a \/ fst m <= a -> fst m <= a -> forall t, a <= t -> exists v, hold t (f_imu s) None = Some v /\ hold t h None = Some v).
      { intros a _ Ha t Ht. destruct I2 as (p & E & _). rewrite E, F1, hold_suffix by lia. destruct (hold_front t m r None ltac:(lia)) as (v & Hv). exists v. auto. }
      assert (Y : forall a b, fst m <= a -> a < b -> (forall y, In y (f_imu s) -> fst y <> b) -> exists l, integrate_imu (f_imu s) a b = Ok l /\ follows h a b l).
      { intros a b Ha Hab Hb. destruct (integrate_fails (f_imu s) a b Hbs) as (N2 & N1); [exists m, r; auto|exact Hab|]. destruct (ok_of _ _ N2) as (l & El); [|exact N1|].
        - intros [Q|(y & Hy & Q)]; [exact (L2 Q)|exact (Hb y Hy Q)].
        - exists l. split; [exact El|]. split; [eapply integrate_total; eauto; [apply strict_ordered, Hbs|lia]|]. intros t Ht. destruct (integrate_applied _ _ _ _ t (strict_ordered _ Hbs) El Ht) as (A1 & _).
          destruct (X a (or_intror Ha) Ha t ltac:(lia)) as (v & V1 & V2). exists v. rewrite A1. auto. }
      destruct (Y (from_pcl pu) (from_pcl pu + psw) Fp ltac:(lia)) as (l2 & E2 & G2); [intros y Hy; apply (Cb y Hy)|].
      assert (Z1 : exists l1, (if f_init s then integrate_imu (f_imu s) (f_pst s) (from_pcl pu) else Ok []) = Ok l1 /\ match lastp None (f_out s) with Some a => follows h a (from_pcl pu) l1 | None => l1 = [] end).
      { rewrite lastp_clouds. pose proof T as [Tp Tr Tl Tv Ti Tt Ts Oi Os Oc]. rewrite Oc. unfold clouded. rewrite Ep, app_nil_r. destruct (f_init s) eqn:Ei.
        - pose proof (pst_before s done pu psw T Ei Ev) as Hpst. destruct (Y (f_pst s) (from_pcl pu)) as (l1 & E1 & G1); [lia|exact Hpst|intros y Hy; apply (Cb y Hy)|]. exists l1. split; [exact E1|].
          assert (N : done <> []) by (intros ->; discriminate). destruct (exists_last N) as (d & q & Eq). rewrite Eq, map_app. cbn [map]. destruct (map _ d ++ _) eqn:Em; [destruct d; discriminate|]. rewrite <- Em, last_last.
          cbn [fst]. assert (Hq : rec_ok q) by (rewrite Eq in Tr; apply Forall_app in Tr; destruct Tr as [_ F]; exact (Forall_inv F)). destruct Hq as [_ Hq]. rewrite Hq. rewrite (Tt q N), Eq, last_last in G1. exact G1.
        - destruct done; [|discriminate]. exists []. split; reflexivity. }
      destruct Z1 as (l1 & E1 & G1). rewrite E1. cbn [rbind]. rewrite E2. cbn [rbind]. eexists. split; [reflexivity|].
      eapply iinv_same; [exact II|reflexivity..| | | |]; unfold started; cbn; rewrite ?Ep, ?Ev; auto.
      eexists. split; [reflexivity|]. split; [cbn [contents fst snd]; split; [exact G1|split; [exact G2|exact I]]|]. constructor; [|constructor]. cbn. split; [exact Hps|].
      destruct (lst_in h) as (w & Hw); [destruct I2 as (p & E & _); rewrite E, F1; destruct p; discriminate|]. exists (lst h, w). auto.
    + (* barometer *)
      assert (Hst : started s) by (right; rewrite Ep; exact I). destruct (I3 Hst) as (m & r & F1 & F2 & F3 & F4). destruct (chosen_bounds s done u sw new T) as (c0 & Ec & Hu & Hn); [auto|]. rewrite Ev in Ec. injection Ec as <-. cbn [fst] in *.
      assert (Fn : fst m <= new). { destruct (f_init s) eqn:Ei; [pose proof (pst_before s done pu psw T Ei Ev); lia|]. destruct (F4 eq_refl) as (c1 & Ec & L). rewrite ?Ev in Ec. injection Ec as <-. cbn in L. lia. }
      assert (Z1 : exists s1, (if fc_baro c then rbind (bar_state new (f_bar s)) (fun r0 => Ok (set_bar s r0)) else Ok s) = Ok s1 /\ f_imu s1 = f_imu s /\ f_last s1 = f_last s /\ f_bias s1 = f_bias s /\ f_pre s1 = f_pre s /\
         exists o, f_out s1 = f_out s ++ o /\ contents h (lastp None (f_out s)) o /\ Forall (within h) o).
      { destruct (fc_baro c) eqn:Eb.
        - destruct (Bb eq_refl) as (B1 & B2 & B3). specialize (C eq_refl).
          destruct (event_inv (in_baro ins) (map rt done) (f_bar s) (out_baros (f_out s)) (BS new) B2 (or_introl (B3 C))) as (b' & o & E & _).
          + cbn. rewrite app_nil_r. exact B1.
          + cbn. pose proof (tinv_up _ _ T) as U. unfold current in U. rewrite Ep, Ev, map_app in U. apply increasing_up. exact U.
          + cbn [bar_event] in E. rewrite E. cbn [rbind]. eexists. split; [reflexivity|]. conj; try reflexivity. eexists. split; [reflexivity|].
            apply contents_other. intros x Hx. apply in_map_iff in Hx. destruct Hx as (y & <- & _). exact I.
        - exists s. conj; auto. exists []. rewrite app_nil_r. split; [reflexivity|split; [exact I|constructor]]. }
      destruct Z1 as (s1 & E1 & G1 & G2 & G3 & G4 & o & G5 & G6 & G7). rewrite E1. cbn [rbind]. eexists. split; [reflexivity|].
      constructor; cbn [f_imu f_pst f_init f_last f_bias f_pre f_pc f_prev f_out]; rewrite ?G1, ?G2, ?G3, ?G4; auto.
      * destruct I2 as (p & E & _). exists p. auto.
      * intros _. exists m, r. conj; auto. discriminate.
      * rewrite G5. apply contents_app. auto.
      * rewrite G5. apply Forall_app. auto.
Qed.

Lemma out_baros_app a b : out_baros (a ++ b) = out_baros a ++ out_baros b.
Proof. apply flat_map_app. Qed.
Lemma out_baros_map l : out_baros (map (fun x : Z * src => OBaro (fst x) (snd x)) l) = l.
Proof. induction l as [|[t x] l IH]; [reflexivity|]. cbn. f_equal. exact IH. Qed.

(* everything but the barometer topic and its own poll leaves the barometer alone *)
Lemma step_baro c s i s' : fe_step c s i = Ok s' -> match i with IBaro _ _ => False | IPoll => match f_pc s with PBaro _ _ _ => False | _ => True end | _ => True end ->
  f_bar s' = f_bar s /\ out_baros (f_out s') = out_baros (f_out s).
Proof.
  intros E N. destruct i as [t v|t|t p|t|u sw|]; cbn [fe_step] in E; try destruct N.
  - unfold imu_callback in E. destruct (f_pre s); [|injection E as <-; auto]. destruct (preintegrate _); try discriminate. cbn [rbind] in E. injection E as <-. cbn [out f_out f_bar]. rewrite out_baros_app. cbn. rewrite app_nil_r. auto.
  - destruct (fc_stereo c); injection E as <-; auto. unfold stereo_callback. destruct (fc_graph_only c); cbn [out f_out f_bar]; rewrite ?out_baros_app; cbn; rewrite ?app_nil_r; auto.
  - unfold odometry_callback in E. destruct (imu_neighbours _ _); try discriminate. cbn [rbind] in E. destruct (catch_up t (f_imu s)). destruct (preintegrate _); try discriminate. cbn [rbind] in E. injection E as <-. auto.
  - destruct (f_pc s) eqn:Ep; try (injection E as <-; auto; fail). destruct (f_prev s) as [[pu psw]|]; injection E as <-; auto.
  - unfold cloud_poll in E. destruct (f_pc s) eqn:Ep; try (injection E as <-; auto; fail); try destruct N; (destruct (f_prev s) as [[pu psw]|] eqn:Ev; [|injection E as <-; auto]).
    + destruct (drop_before _ _); [|destruct (_ <? _)]; injection E as <-; cbn [go out f_bar f_out]; rewrite ?out_baros_app; auto. destruct (fc_graph_only c); cbn; rewrite ?app_nil_r; auto.
    + destruct (f_init s).
      * destruct (f_imu s) as [|[]]; [discriminate|]. destruct (_ <? _); [discriminate|]. destruct (select_imu _ _ _) as [[|[] ?]| |]; try discriminate. cbn [rbind] in E. injection E as <-. cbn [go out f_bar f_out]. rewrite out_baros_app. cbn. rewrite app_nil_r. auto.
      * destruct (_ <? _); [injection E as <-; auto|]. destruct (imu_neighbours _ _); try discriminate. cbn [rbind] in E. injection E as <-. cbn [go out f_bar f_out]. rewrite out_baros_app. cbn. rewrite app_nil_r. auto.
    + destruct (_ || _); injection E as <-; auto.
    + destruct (if f_init s then _ else _); try discriminate. cbn [rbind] in E. destruct (integrate_imu _ _ _); try discriminate. cbn [rbind] in E. injection E as <-. cbn [go out f_bar f_out]. rewrite out_baros_app. cbn. rewrite app_nil_r. auto.
Qed.

Lemma step_calm c ins s done i : cinv c ins s done -> calm c ins s i -> exists s', fe_step c s i = Ok s' /\ cinv c (ins ++ [i]) s' (next_done s i done).
Proof.
  intros V C. destruct (step_imu c ins s done i V C) as (s' & E & II). exists s'. split; [exact E|]. destruct V as [T M S Hcl Hsw I0 Bb].
  assert (Co : cloud_ok s i).
  { destruct i as [| | | |u w|]; cbn; auto. intros Ep. unfold newest. rewrite Ep. destruct (f_prev s) as [c0|] eqn:Ev; [|exact I]. cbn. destruct C as [C _]. apply C. eapply sn_prev; eauto. }
  destruct (tinv_step c s i s' done T M Co E) as (M' & T'). constructor; auto.
  - rewrite in_clouds_snoc. pose proof (seen_step c s i s' _ _ S E) as X. replace (in_clouds [i]) with (match i with ICloud u w => [(u, w)] | _ => [] end) in X by (destruct i; reflexivity). exact X.
  - rewrite in_clouds_snoc. destruct i; rewrite ?app_nil_r; auto. apply strict_snoc; [exact Hcl|]. destruct C as [C _]. exact C.
  - rewrite in_clouds_snoc. destruct i; rewrite ?app_nil_r; auto. apply Forall_app. split; [exact Hsw|]. destruct C as [_ C]. constructor; [exact C|constructor].
  - intros Hb. destruct (Bb Hb) as (B1 & B2 & B3). rewrite in_baro_snoc.
    assert (D : (exists t p, i = IBaro t p) \/ (i = IPoll /\ exists u sw new, f_pc s = PBaro u sw new) \/ match i with IBaro _ _ => False | IPoll => match f_pc s with PBaro _ _ _ => False | _ => True end | _ => True end).
    { destruct i; auto; [left; eauto|]. right. destruct (f_pc s); auto. left. split; [reflexivity|]. eauto. }
    destruct D as [(t & p & ->)|[(-> & u & sw & new & Ep)|N]].
    + cbn [fe_step] in E. rewrite Hb in E.
      destruct (event_inv (in_baro ins) (map rt done) (f_bar s) (out_baros (f_out s)) (BM (t, p)) B2 (or_intror (ex_intro _ _ eq_refl))) as (b' & o & Eb & B' & N').
      * cbn. apply strict_snoc; [exact B1|exact C].
      * cbn. rewrite app_nil_r. eapply increasing_prefix with (b := map rt (current s)). rewrite <- map_app. apply increasing_up, tinv_up, T.
      * cbn [bar_event] in Eb. rewrite Eb in E. cbn [rbind] in E. injection E as <-. cbn [next_done]. split; [apply strict_snoc; [exact B1|exact C]|]. cbn [states flat_map measurements app] in B'. rewrite app_nil_r in B'.
        unfold set_bar. cbn [out f_bar f_out fst snd]. rewrite out_baros_app, out_baros_map. auto.
    + rewrite app_nil_r. cbn [fe_step] in E. unfold cloud_poll in E. rewrite Ep in E. cbn [calm] in C. rewrite Ep in C. destruct (chosen_bounds s done u sw new T) as (c0 & Ev & _); [auto|]. rewrite Ev in *. rewrite Hb in E.
      destruct (event_inv (in_baro ins) (map rt done) (f_bar s) (out_baros (f_out s)) (BS new) B2 (or_introl (B3 (C Hb)))) as (b' & o & Eb & B' & N').
      * cbn. rewrite app_nil_r. exact B1.
      * cbn. pose proof (tinv_up _ _ T) as U. unfold current in U. rewrite Ep, Ev, map_app in U. apply increasing_up. exact U.
      * cbn [bar_event] in Eb. rewrite Eb in E. cbn [rbind] in E. destruct c0 as [pu psw]. injection E as <-. split; [exact B1|]. unfold next_done. rewrite Ep. unfold current. rewrite Ep, Ev, map_app. cbn [map rt fst].
        cbn [states flat_map measurements app] in B'. rewrite app_nil_r in B'. unfold set_bar. cbn [out f_bar f_out fst snd]. rewrite out_baros_app, out_baros_map. auto.
    + destruct (step_baro c s i s' E N) as (X1 & X2). rewrite X1, X2. replace (match i with IBaro t v => [(t, v)] | _ => [] end) with (@nil (Z * Z)) by (destruct i; [reflexivity..|destruct N|reflexivity|reflexivity|reflexivity]).
      rewrite app_nil_r. replace (next_done s i done) with done; [auto|]. unfold next_done. destruct i; auto. destruct (f_pc s); auto. destruct N.
Qed.

Lemma run_calm c : forall l ins s done, cinv c ins s done -> calm_run c ins s l -> exists s' done', fe_run c s l = Ok s' /\ cinv c (ins ++ l) s' done'.
Proof.
  induction l as [|i l IH]; intros ins s done V C.
  - exists s, done. rewrite app_nil_r. split; [reflexivity|exact V].
  - cbn [calm_run] in C. destruct C as [C1 C2]. destruct (step_calm c ins s done i V C1) as (s1 & E & V1). rewrite E in C2. destruct (IH _ _ _ V1 C2) as (s2 & d2 & E2 & V2).
    exists s2, d2. cbn [fe_run]. rewrite E. cbn [rbind]. rewrite <- app_assoc in V2. auto.
Qed.

(* under the contract: nothing throws and nothing is undefined; every array and every deskewed cloud follows
   the measurements received; barometer messages answer the state times one to one *)
Lemma calm_outcome c l : calm_run c [] fe_init l -> exists s, fe_run c fe_init l = Ok s /\ contents (in_imu l) None (f_out s) /\
  (forall steps, f_pre s = Some steps -> steps = since (f_bias s) (in_imu l) /\ total steps = lst (in_imu l) - f_bias s) /\
  (fc_baro c = true -> exists rest, map fst (out_baros (f_out s)) ++ b_ts (f_bar s) ++ rest = map (fun x => from_pcl (fst x)) (out_clouds (f_out s)) /\ (List.length rest <= 1)%nat /\
     Forall (faithful (in_baro l)) (out_baros (f_out s))).
Proof.
  intros C. destruct (run_calm c l [] fe_init [] (cinv_init c) C) as (s & done & E & V). cbn [app] in V. exists s. split; [exact E|]. destruct V as [T M S Hcl Hsw II Bb]. split; [apply II|]. split.
  - intros st Hst. destruct II as [I1 I2 I3 I4 I5 I6 I7 I8]. destruct (I5 st Hst) as (-> & m & Hm & L). split; [reflexivity|]. apply since_total; [exact I1|exists m; auto].
  - intros Hb. destruct (Bb Hb) as (_ & [_ B2 B3] & _). destruct T as [Tp Tr Tl Tv Ti Tt Ts Oi Os Oc]. exists (map rt (clouded s)). split; [|split; [|exact B3]].
    + rewrite app_assoc, <- B2, <- map_app, Oc, map_map. apply map_ext_in. intros r Hr. cbn. symmetry. apply in_app_or in Hr. destruct Hr as [Hr|Hr].
      * rewrite Forall_forall in Tr. apply Tr. exact Hr.
      * unfold clouded, current, phase_ok in *. destruct (f_pc s) eqn:Ep; try destruct Hr. destruct Tp as (c0 & Ec & _ & Hk). rewrite Ec in Hr. destruct Hr as [<-|[]]. apply Hk.
    + rewrite map_length. unfold clouded, current. destruct (f_pc s), (f_prev s); cbn; lia.
Qed.
