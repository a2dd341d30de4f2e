(* State times of the front end. *)
From Verif Require Import Base ImuModel ImuSpec ImuProofs FeModel FeSpec.

Lemma flat_map_app' {A B} (f : A -> list B) a b : flat_map f (a ++ b) = flat_map f a ++ flat_map f b.
Proof. apply flat_map_app. Qed.
Lemma pairs_snoc l x y : pairs ((l ++ [x]) ++ [y]) = pairs (l ++ [x]) ++ [(x, y)].
Proof. induction l as [|z l IH]; [reflexivity|]. destruct l as [|w l]; [reflexivity|]. cbn [app pairs] in *. f_equal. exact IH. Qed.
Lemma up_snoc l x : up l -> (forall y, In y l -> y < x) -> up (l ++ [x]).
Proof.
  induction l as [|z l IH]; cbn; [intros _ _; split; [intros ? []|auto]|]. intros [H1 H2] H. split; [|apply IH; auto].
  intros y Hy. apply in_app_or in Hy. destruct Hy as [Hy|[<-|[]]]; auto.
Qed.

(* one finished or chosen state: its time, the cloud it belongs to and the stamp of the next cloud *)
Notation rec := (Z * (Z * Z) * Z)%type.
Definition rt (r : rec) : Z := fst (fst r).
Definition rc (r : rec) : Z * Z := snd (fst r).
Definition rn (r : rec) : Z := snd r.
Definition rec_ok (r : rec) : Prop :=
  from_pcl (fst (rc r)) <= rt r < from_pcl (rn r) /\ from_pcl (to_pcl (rt r)) = rt r.
Fixpoint linked (l : list rec) : Prop :=
  match l with x :: ((y :: _) as l') => rn x = fst (rc y) /\ linked l' | _ => True end.
(* the record being worked on *)
Definition current (s : fe) : list rec :=
  match f_pc s, f_prev s with
  | (PBias u _ new | PSkew u _ new | PBaro u _ new), Some c => [(new, c, u)]
  | _, _ => []
  end.
Definition clouded (s : fe) : list rec := match f_pc s with PBaro _ _ _ => current s | _ => [] end.
Definition phase_ok (s : fe) : Prop :=
  match f_pc s with
  | PIdle => True
  | PStereo u sw => exists c, f_prev s = Some c /\ fst c < u
  | PChosen u sw new => exists c, f_prev s = Some c /\ fst c < u /\ rec_ok (new, c, u)
  | PBias u sw new | PSkew u sw new | PBaro u sw new => exists c, f_prev s = Some c /\ fst c < u /\ rec_ok (new, c, u)
  end.

(* the newest cloud stamp accepted *)
Definition newest (s : fe) : option Z :=
  match f_pc s with
  | PIdle => option_map fst (f_prev s)
  | PStereo u _ | PChosen u _ _ | PBias u _ _ | PSkew u _ _ | PBaro u _ _ => Some u
  end.

Record tinv (s : fe) (done : list rec) : Prop := {
  t_phase : phase_ok s;
  t_recs : Forall rec_ok done;
  t_link : linked (done ++ current s);
  t_prev : forall x, done <> [] -> exists c, f_prev s = Some c /\ rn (last done x) = fst c;
  t_init : f_init s = match done with [] => false | _ => true end;
  t_pst : forall x, done <> [] -> f_pst s = rt (last done x);
  t_start : done = [] -> match current s with r :: _ => f_pst s = rt r | [] => True end;
  t_outi : out_inits (f_out s) = firstn 1 (map rt (done ++ current s));
  t_outs : out_spans (f_out s) = pairs (map rt (done ++ current s));
  t_outc : out_clouds (f_out s) = map (fun r => (to_pcl (rt r), rc r)) (done ++ clouded s) }.

Lemma tinv_init : tinv fe_init [].
Proof. constructor; cbn; auto; congruence. Qed.

(* steps which leave the timeline alone *)
Lemma tinv_same s s' done : tinv s done -> f_pc s' = f_pc s -> f_prev s' = f_prev s -> f_pst s' = f_pst s -> f_init s' = f_init s ->
  out_inits (f_out s') = out_inits (f_out s) -> out_spans (f_out s') = out_spans (f_out s) -> out_clouds (f_out s') = out_clouds (f_out s) -> tinv s' done.
Proof.
  intros [] E1 E2 E3 E4 E5 E6 E7. assert (Ec : current s' = current s) by (unfold current; rewrite E1, E2; reflexivity).
  assert (El : clouded s' = clouded s) by (unfold clouded; rewrite E1, Ec; reflexivity).
  constructor; rewrite ?E2, ?E3, ?E4, ?E5, ?E6, ?E7, ?Ec, ?El; auto. unfold phase_ok. rewrite E1, E2. exact t_phase0.
Qed.
Lemma no_baro (l : list (Z * src)) : out_inits (map (fun x => OBaro (fst x) (snd x)) l) = [] /\ out_spans (map (fun x => OBaro (fst x) (snd x)) l) = [] /\
  out_clouds (map (fun x => OBaro (fst x) (snd x)) l) = [].
Proof. induction l as [|x l IH]; cbn; auto. Qed.

Lemma drop_head t l x r : drop_before t l = x :: r -> t <= x.
Proof. induction l as [|y l IH]; [discriminate|]. cbn. destruct (Z.ltb_spec y t); [exact IH|]. intros [= <- _]. exact H. Qed.
Lemma drop_in t l x : In x (drop_before t l) -> In x l.
Proof. induction l as [|y l IH]; [auto|]. cbn. destruct (y <? t); [intros H; right; auto|auto]. Qed.
Lemma from_to u : from_pcl (to_pcl (from_pcl u)) = from_pcl u.
Proof. unfold from_pcl, to_pcl. rewrite Z.div_mul by lia. reflexivity. Qed.

Definition micro (s : fe) : Prop := forall t, In t (f_st s) -> from_pcl (to_pcl t) = t.
Definition cloud_ok (s : fe) (i : fin) : Prop :=
  match i with ICloud u _ => f_pc s = PIdle -> match newest s with Some p => p < u | None => True end | _ => True end.


Definition next_done (s : fe) (i : fin) (done : list rec) : list rec :=
  match i with IPoll => match f_pc s with PBaro _ _ _ => done ++ current s | _ => done end | _ => done end.
Lemma tinv_step c s i s' done : tinv s done -> micro s -> cloud_ok s i -> fe_step c s i = Ok s' ->
  micro s' /\ tinv s' (next_done s i done).
Proof.
  intros T M C E. destruct i as [t v|t|t p|t|u sw|]; cbn [fe_step] in E; cbn [next_done].
  - (* imu *) unfold imu_callback in E. destruct (f_pre s); [|injection E as <-; split; [exact M| eapply tinv_same; eauto]].
    unfold preintegrate in E. destruct (forallb _ _); [|discriminate]. cbn [rbind] in E. apply Ok_inj in E. subst s'. split; [exact M|].
    eapply tinv_same; eauto; cbn [f_out out]; unfold out_inits, out_spans, out_clouds; rewrite flat_map_app; cbn; apply app_nil_r.
  - (* stereo *) destruct (fc_stereo c); injection E as <-; [|auto]. unfold stereo_callback. destruct (fc_graph_only c); (split; [| eapply tinv_same; eauto; cbn [f_out out];
      unfold out_inits, out_spans, out_clouds; rewrite ?flat_map_app; cbn; rewrite ?app_nil_r; reflexivity]).
    all: intros x Hx; cbn [f_st out] in Hx; apply in_app_or in Hx; destruct Hx as [Hx|[<-|[]]]; [apply M; exact Hx|apply from_to].
  - (* baro *) destruct (fc_baro c); [|injection E as <-; auto]. destruct (bar_measure _ _) as [r| |]; try discriminate. cbn [rbind] in E. injection E as <-. split; [exact M|].
    destruct (no_baro (snd r)) as (N1 & N2 & N3). unfold set_bar.
    eapply tinv_same; eauto; cbn [f_out out]; unfold out_inits, out_spans, out_clouds in *; rewrite flat_map_app, ?N1, ?N2, ?N3; apply app_nil_r.
  - (* odometry *) unfold odometry_callback in E. destruct (imu_neighbours _ _); try discriminate. cbn [rbind] in E. destruct (catch_up t (f_imu s)) as [l e].
    destruct (preintegrate l); try discriminate. cbn [rbind] in E. injection E as <-. split; [exact M|]. eapply tinv_same; eauto.
  - (* cloud *) destruct (f_pc s) eqn:Ep; try (injection E as <-; auto; fail). destruct (f_prev s) as [[pu psw]|] eqn:Ev.
    + injection E as <-. split; [exact M|]. cbn in C. unfold newest in C. rewrite Ep, Ev in C. specialize (C eq_refl). cbn in C.
      assert (Ec : current s = []) by (unfold current; rewrite Ep; reflexivity).
      assert (Ec' : forall p, (p = PStereo u sw \/ p = PChosen u sw (from_pcl pu)) -> current (go s p) = [] /\ clouded (go s p) = []).
      { intros p [-> | ->]; split; reflexivity. }
      destruct (Ec' (if fc_stereo c then PStereo u sw else PChosen u sw (from_pcl pu))) as [X1 X2]; [destruct (fc_stereo c); auto|].
      destruct T. assert (El : clouded s = []) by (unfold clouded; rewrite Ep; reflexivity). rewrite Ec, ?El in *.
      constructor; cbn [go f_out f_prev f_init f_pst]; rewrite ?X1, ?X2, ?Ev; auto.
      * unfold phase_ok. cbn [go f_pc f_prev]. destruct (fc_stereo c); exists (pu, psw); rewrite Ev; [auto|]. conj; auto. unfold rec_ok, rc, rt, rn. cbn. rewrite from_to. unfold from_pcl. lia.
      * intros x Hx. destruct (t_prev0 x Hx) as (c9 & X8 & X9). exists c9. split; [congruence|exact X9].
    + injection E as <-. split; [exact M|]. assert (Ec : current s = []) by (unfold current; rewrite Ep; reflexivity).
      assert (El : clouded s = []) by (unfold clouded; rewrite Ep; reflexivity). destruct T. rewrite Ec, ?El in *.
      assert (done = []). { destruct done as [|r d]; [reflexivity|]. destruct (t_prev0 r ltac:(discriminate)) as (c' & E & _). congruence. } subst done.
      constructor; cbn [f_out f_prev f_init f_pst f_pc current clouded phase_ok]; auto. congruence.
  - (* poll *) unfold cloud_poll in E. unfold next_done. destruct (f_pc s) eqn:Ep; try (injection E as <-; auto; fail); (destruct (f_prev s) as [[pu psw]|] eqn:Ev; [|destruct T as [Tp]; unfold phase_ok in Tp; rewrite Ep, Ev in Tp; destruct Tp as (? & [=] & _)]).
    + (* PStereo *) destruct T. unfold phase_ok in t_phase0. rewrite Ep, Ev in t_phase0. destruct t_phase0 as (c0 & [= <-] & Hu). cbn in Hu.
      assert (Ec : current s = []) by (unfold current; rewrite Ep; reflexivity). assert (El : clouded s = []) by (unfold clouded; rewrite Ep; reflexivity). rewrite Ec, ?El in *.
      destruct (drop_before (from_pcl pu) (f_st s)) as [|t st] eqn:Ed.
      * injection E as <-. split; [intros x []|]. constructor; cbn [f_out f_prev f_init f_pst current clouded f_pc]; rewrite ?Ep, ?Ev; auto.
        -- unfold phase_ok. cbn [f_pc f_prev]. rewrite ?Ep, ?Ev. exists (pu, psw). auto.
        -- intros x Hx. destruct (t_prev0 x Hx) as (c9 & X8 & X9). exists c9. split; [congruence|exact X9].
      * assert (Hin : forall x, In x (t :: st) -> In x (f_st s)) by (intros x Hx; eapply drop_in; rewrite Ed; exact Hx).
        pose proof (drop_head _ _ _ _ Ed) as Ht. destruct (Z.ltb_spec t (from_pcl u)); injection E as <-.
        -- split; [intros x Hx; apply M; apply Hin; right; exact Hx|]. set (o := if fc_graph_only c then [OImage t] else []).
           assert (O1 : out_inits o = [] /\ out_spans o = [] /\ out_clouds o = []) by (unfold o; destruct (fc_graph_only c); auto). destruct O1 as (O1 & O2 & O3).
           constructor; cbn [go out f_out f_prev f_init f_pst current clouded f_pc]; rewrite ?Ev; auto.
           ++ unfold phase_ok. cbn. rewrite ?Ev. exists (pu, psw). conj; auto. unfold rec_ok, rc, rt, rn. cbn. split; [lia|]. apply M. apply Hin. left. reflexivity.
           ++ intros x Hx. destruct (t_prev0 x Hx) as (c9 & X8 & X9). exists c9. split; [congruence|exact X9].
           ++ unfold out_inits. rewrite flat_map_app. fold (out_inits o). rewrite O1, app_nil_r. exact t_outi0.
           ++ unfold out_spans. rewrite flat_map_app. fold (out_spans o). rewrite O2, app_nil_r. exact t_outs0.
           ++ unfold out_clouds. rewrite flat_map_app. fold (out_clouds o). rewrite O3, app_nil_r. exact t_outc0.
        -- split; [intros x Hx; apply M; apply Hin; exact Hx|]. constructor; cbn [go out f_out f_prev f_init f_pst current clouded f_pc]; rewrite ?Ev; auto.
           ++ unfold phase_ok. cbn. rewrite ?Ev. exists (pu, psw). conj; auto. unfold rec_ok, rc, rt, rn. cbn. rewrite from_to. unfold from_pcl. lia.
           ++ intros x Hx. destruct (t_prev0 x Hx) as (c9 & X8 & X9). exists c9. split; [congruence|exact X9].
    + (* PChosen *) destruct T. unfold phase_ok in t_phase0. rewrite Ep, Ev in t_phase0. destruct t_phase0 as (c0 & [= <-] & Hu & Hr).
      assert (Ec : current s = []) by (unfold current; rewrite Ep; reflexivity). assert (El : clouded s = []) by (unfold clouded; rewrite Ep; reflexivity). rewrite Ec, ?El, ?app_nil_r in *.
      destruct (f_init s) eqn:Ei.
      * assert (Dn : done <> []) by (destruct done; discriminate). destruct (f_imu s) as [|[t0 v0] b] eqn:Eb; [discriminate|]. destruct (f_pst s <? t0); [discriminate|].
        destruct (select_imu _ _ _) as [l| |] in E; try discriminate. cbn [rbind] in E. destruct l as [|[t1 v1] l]; [discriminate|]. apply Ok_inj in E. subst s'. split; [exact M|].
        destruct (exists_last Dn) as (d & r & Ed). assert (Hp : f_pst s = rt r) by (rewrite (t_pst0 r Dn), Ed, last_last; reflexivity).
        constructor; cbn [go out f_out f_prev f_init f_pst current clouded f_pc]; rewrite ?Ev, ?Ei, ?app_nil_r; auto.
        -- unfold phase_ok. cbn. rewrite ?Ev. exists (pu, psw). auto.
        -- rewrite Ed in *. destruct (t_prev0 r Dn) as (c' & Ec' & Hn). rewrite last_last in Hn. assert (c' = (pu, psw)) by congruence; subst c'. clear -Hn t_link0. cbn in Hn. induction d as [|x d IH]; [cbn; auto|].
           destruct d as [|y d]; cbn [app linked] in *; [destruct t_link0; split; [assumption|]; cbn; auto|]. destruct t_link0. split; [assumption|]. apply IH. assumption.
        -- intros x Hx. destruct (t_prev0 x Hx) as (c9 & X8 & X9). exists c9. split; [congruence|exact X9].
        -- congruence.
        -- unfold out_inits. rewrite flat_map_app. cbn. rewrite app_nil_r. fold (out_inits (f_out s)). rewrite t_outi0, Ed, !map_app. clear. destruct d; reflexivity.
        -- unfold out_spans. rewrite flat_map_app. cbn. fold (out_spans (f_out s)). rewrite t_outs0, Ed, !map_app. cbn [map]. rewrite pairs_snoc, Hp. reflexivity.
        -- unfold out_clouds. rewrite flat_map_app. cbn. rewrite app_nil_r. exact t_outc0.
      * assert (done = []) by (destruct done; [reflexivity|discriminate]). subst done. destruct (f_last s <? new); [injection E as <-; split; [exact M|]|].
        -- constructor; rewrite ?Ec, ?El, ?Ei; auto; try congruence. unfold phase_ok. rewrite ?Ep, ?Ev. exists (pu, psw). auto.
        -- destruct (imu_neighbours _ _) in E; try discriminate. cbn [rbind] in E. injection E as <-. split; [exact M|].
           constructor; cbn [go out f_out f_prev f_init f_pst current clouded f_pc]; rewrite ?Ev, ?Ei, ?app_nil_r; auto; try congruence.
           ++ unfold phase_ok. cbn. rewrite ?Ev. exists (pu, psw). auto.
           ++ unfold out_inits. rewrite flat_map_app. cbn. fold (out_inits (f_out s)). rewrite t_outi0. reflexivity.
           ++ unfold out_spans. rewrite flat_map_app. cbn. fold (out_spans (f_out s)). rewrite t_outs0. reflexivity.
           ++ unfold out_clouds. rewrite flat_map_app. cbn. rewrite app_nil_r. exact t_outc0.
    + (* PBias *) destruct (_ || _) in E; injection E as <-; [auto|]. split; [exact M|]. destruct T. unfold phase_ok in t_phase0. rewrite Ep, Ev in t_phase0.
      assert (Ec : current s = [(new, (pu, psw), u)]) by (unfold current; rewrite Ep, Ev; reflexivity). assert (El : clouded s = []) by (unfold clouded; rewrite Ep; reflexivity). rewrite Ec, ?El, ?app_nil_r in *.
      constructor; cbn [go out f_out f_prev f_init f_pst current clouded f_pc]; rewrite ?Ev, ?app_nil_r; auto.
      -- unfold phase_ok. cbn. rewrite ?Ev. exact t_phase0.
      -- intros x Hx. destruct (t_prev0 x Hx) as (c9 & X8 & X9). exists c9. split; [congruence|exact X9].
    + (* PSkew *) destruct (if f_init s then _ else _) as [l1| |] in E; try discriminate. cbn [rbind] in E. destruct (integrate_imu _ _ _) as [l2| |] in E; try discriminate. cbn [rbind] in E. apply Ok_inj in E. subst s'.
      split; [exact M|]. destruct T. unfold phase_ok in t_phase0. rewrite Ep, Ev in t_phase0.
      assert (Ec : current s = [(new, (pu, psw), u)]) by (unfold current; rewrite Ep, Ev; reflexivity). assert (El : clouded s = []) by (unfold clouded; rewrite Ep; reflexivity). rewrite Ec, ?El, ?app_nil_r in *.
      constructor; cbn [go out f_out f_prev f_init f_pst current clouded f_pc]; rewrite ?Ev, ?app_nil_r; auto.
      -- unfold phase_ok. cbn. rewrite ?Ev. exact t_phase0.
      -- intros x Hx. destruct (t_prev0 x Hx) as (c9 & X8 & X9). exists c9. split; [congruence|exact X9].
      -- unfold out_inits. rewrite flat_map_app. cbn. rewrite app_nil_r. exact t_outi0.
      -- unfold out_spans. rewrite flat_map_app. cbn. rewrite app_nil_r. exact t_outs0.
      -- unfold out_clouds. rewrite flat_map_app. cbn. fold (out_clouds (f_out s)). rewrite t_outc0, map_app. reflexivity.
    + (* PBaro *) 
      assert (Q : exists o, out_inits o = [] /\ out_spans o = [] /\ out_clouds o = [] /\ f_st s' = f_st s /\ f_pst s' = new /\ f_init s' = true /\ f_pc s' = PIdle /\ f_prev s' = Some (u, sw) /\ f_out s' = f_out s ++ o).
      { destruct (fc_baro c); cbn [rbind] in E.
        - destruct (bar_state _ _) as [r| |]; try discriminate. cbn [rbind] in E. injection E as <-. destruct (no_baro (snd r)) as (N1 & N2 & N3). eexists. conj; [exact N1|exact N2|exact N3|..]; reflexivity.
        - injection E as <-. exists []. rewrite app_nil_r. auto 10. }
      destruct Q as (o & O1 & O2 & O3 & Q1 & Q2 & Q3 & Q4 & Q5 & Q6). split; [intros x Hx; rewrite Q1 in Hx; apply M; exact Hx|].
      destruct T. unfold phase_ok in t_phase0. rewrite Ep, Ev in t_phase0. destruct t_phase0 as (c0 & [= <-] & Hu & Hr).
      assert (Ec : current s = [(new, (pu, psw), u)]) by (unfold current; rewrite Ep, Ev; reflexivity). assert (El : clouded s = [(new, (pu, psw), u)]) by (unfold clouded; rewrite Ep; exact Ec). rewrite Ec, ?El in *.
      assert (X1 : current s' = []) by (unfold current; rewrite Q4; reflexivity). assert (X2 : clouded s' = []) by (unfold clouded; rewrite Q4; reflexivity).
      constructor; rewrite ?X1, ?X2, ?Q2, ?Q3, ?Q5, ?Q6, ?app_nil_r; auto.
      * unfold phase_ok. rewrite Q4. exact I.
      * apply Forall_app. split; [exact t_recs0|]. constructor; [exact Hr|constructor].
      * intros x _. exists (u, sw). rewrite last_last. auto.
      * destruct done; reflexivity.
      * intros x _. rewrite last_last. reflexivity.
      * unfold out_inits. rewrite flat_map_app. fold (out_inits (f_out s)) (out_inits o). rewrite O1, app_nil_r. exact t_outi0.
      * unfold out_spans. rewrite flat_map_app. fold (out_spans (f_out s)) (out_spans o). rewrite O2, app_nil_r. exact t_outs0.
      * unfold out_clouds. rewrite flat_map_app. fold (out_clouds (f_out s)) (out_clouds o). rewrite O3, app_nil_r. exact t_outc0.
Qed.

(* ---- clouds used are clouds received ---- *)
Definition cloud_of (p : phase) : option (Z * Z) :=
  match p with PIdle => None | PStereo u w | PChosen u w _ | PBias u w _ | PSkew u w _ | PBaro u w _ => Some (u, w) end.
Lemma step_clouds c s i s' : fe_step c s i = Ok s' ->
  (f_prev s' = f_prev s /\ cloud_of (f_pc s') = cloud_of (f_pc s)) \/
  (exists u w, i = ICloud u w /\ f_pc s = PIdle /\ ((f_prev s = None /\ f_prev s' = Some (u, w) /\ f_pc s' = PIdle) \/ (f_prev s' = f_prev s /\ cloud_of (f_pc s') = Some (u, w)))) \/
  (f_prev s' = cloud_of (f_pc s) /\ cloud_of (f_pc s) <> None /\ f_pc s' = PIdle).
Proof.
  intros E. destruct i as [t v|t|t p|t|u sw|]; cbn [fe_step] in E.
  - unfold imu_callback in E. destruct (f_pre s); [|injection E as <-; auto]. destruct (preintegrate _); try discriminate. cbn [rbind] in E. injection E as <-. auto.
  - unfold stereo_callback in E. destruct (fc_stereo c), (fc_graph_only c); injection E as <-; auto.
  - destruct (fc_baro c); [|injection E as <-; auto]. destruct (bar_measure _ _); try discriminate. cbn [rbind] in E. injection E as <-. auto.
  - unfold odometry_callback in E. destruct (imu_neighbours _ _); try discriminate. cbn [rbind] in E. destruct (catch_up t (f_imu s)). destruct (preintegrate _); try discriminate. cbn [rbind] in E. injection E as <-. auto.
  - destruct (f_pc s) eqn:Ep; try (injection E as <-; rewrite Ep; auto; fail). right. left. exists u, sw. conj; auto. destruct (f_prev s) as [[pu psw]|] eqn:Ev; injection E as <-; [right|left]; auto.
    cbn. destruct (fc_stereo c); auto.
  - unfold cloud_poll in E. destruct (f_pc s) eqn:Ep; try (injection E as <-; rewrite ?Ep; auto; fail); (destruct (f_prev s) as [[pu psw]|] eqn:Ev; [|injection E as <-; rewrite ?Ep, ?Ev; auto]).
    + destruct (drop_before _ _); [|destruct (_ <? _)]; injection E as <-; cbn; rewrite ?Ep, ?Ev; auto.
    + destruct (f_init s).
      * destruct (f_imu s) as [|[]]; [discriminate|]. destruct (_ <? _); [discriminate|]. destruct (select_imu _ _ _) as [[|[] ?]| |]; try discriminate. cbn [rbind] in E. injection E as <-. cbn. auto.
      * destruct (_ <? _); [injection E as <-; rewrite ?Ep, ?Ev; auto|]. destruct (imu_neighbours _ _); try discriminate. cbn [rbind] in E. injection E as <-. cbn. auto.
    + destruct (_ || _); injection E as <-; cbn; rewrite ?Ep, ?Ev; auto.
    + destruct (if f_init s then _ else _); try discriminate. cbn [rbind] in E. destruct (integrate_imu _ _ _); try discriminate. cbn [rbind] in E. injection E as <-. cbn. auto.
    + right. right. destruct (if fc_baro c then _ else _); try discriminate. cbn [rbind] in E. injection E as <-. cbn. conj; auto. discriminate.
Qed.

Record seen (s : fe) (cl : list (Z * Z)) (done : list rec) : Prop := {
  sn_done : Forall (fun r => In (rc r) cl) done;
  sn_prev : forall c, f_prev s = Some c -> In c cl;
  sn_cur : forall c, cloud_of (f_pc s) = Some c -> In c cl }.

Lemma strict_prefix a b : strict (a ++ b) -> strict a. Proof. intros H. apply strict_app in H. tauto. Qed.

Lemma seen_step c s i s1 cl done : seen s cl done -> fe_step c s i = Ok s1 -> seen s1 (cl ++ in_clouds [i]) (next_done s i done).
Proof.
  intros S E1.
  assert (S0 : forall d, (d = done \/ exists r, current s = [r] /\ d = done ++ [r]) -> seen s1 (cl ++ in_clouds [i]) d).
  { intros d Hdd. destruct S as [S1 S2 S3]. assert (D0 : Forall (fun r => In (rc r) (cl ++ in_clouds [i])) done).
    { eapply Forall_impl; [|exact S1]. intros r Hr. apply in_or_app. auto. }
    constructor.
    - destruct Hdd as [->|(r & Hr & ->)]; [exact D0|]. apply Forall_app. split; [exact D0|]. constructor; [|constructor]. apply in_or_app. left. apply S2.
      unfold current in Hr. destruct (f_pc s); try discriminate; destruct (f_prev s); try discriminate; injection Hr as <-; reflexivity.
    - intros c0 Hc. destruct (step_clouds c s i s1 E1) as [[A B]|[(u & w & -> & A & [(B1 & B2 & B3)|(B1 & B2)])|(A & B & C)]].
      + apply in_or_app. left. apply S2. congruence.
      + apply in_or_app. right. left. congruence.
      + apply in_or_app. left. apply S2. congruence.
      + apply in_or_app. left. apply S3. congruence.
    - intros c0 Hc. destruct (step_clouds c s i s1 E1) as [[A B]|[(u & w & -> & A & [(B1 & B2 & B3)|(B1 & B2)])|(A & B & C)]].
      + apply in_or_app. left. apply S3. congruence.
      + rewrite B3 in Hc. discriminate.
      + apply in_or_app. right. left. congruence.
      + rewrite C in Hc. discriminate. }
  apply S0. unfold next_done. destruct i; auto. destruct (f_pc s) eqn:Ep; auto. unfold current. rewrite Ep. destruct (f_prev s) as [c0|]; [right; exists (new, c0, u); auto|left; apply app_nil_r].
Qed.

Lemma timeline_run c : forall l s cl done s', tinv s done -> micro s -> seen s cl done -> strict (cl ++ in_clouds l) -> fe_run c s l = Ok s' ->
  exists done', tinv s' done' /\ micro s' /\ seen s' (cl ++ in_clouds l) done'.
Proof.
  induction l as [|i l IH]; intros s cl done s' T M S Hs E.
  - cbn in E. injection E as <-. exists done. cbn. rewrite app_nil_r. auto.
  - cbn [fe_run] in E. destruct (fe_step c s i) as [s1| |] eqn:E1; try discriminate. cbn [rbind] in E.
    assert (Ei : in_clouds (i :: l) = in_clouds [i] ++ in_clouds l) by (unfold in_clouds; cbn [flat_map]; rewrite app_nil_r; reflexivity). rewrite Ei, app_assoc in *.
    assert (Co : cloud_ok s i).
    { destruct i as [| | | |u w|]; cbn; auto. intros Ep. unfold newest. rewrite Ep. destruct (f_prev s) as [c0|] eqn:Ev; [|exact I]. cbn.
      destruct (strict_app _ _ (strict_prefix _ _ Hs)) as (_ & _ & H). apply (H c0 (u, w)); [eapply sn_prev; eauto|left; reflexivity]. }
    destruct (tinv_step c s i s1 done T M Co E1) as (M1 & T1).
    eapply IH; eauto. eapply seen_step; eauto.
Qed.

Lemma linked_up : forall l, Forall rec_ok l -> linked l -> up (map rt l).
Proof.
  induction l as [|x l IH]; intros F L; [exact I|]. inversion F as [|? ? Fx Fl]; subst. cbn [map up].
  assert (Ll : linked l) by (destruct l; [exact I|destruct L; assumption]). split; [|auto].
  clear IH. revert x Fx F L. induction l as [|y l IH]; intros x Fx F L z; [intros []|]. cbn [linked] in L. destruct L as [L1 L2]. inversion Fl as [|? ? Fy Fl']; subst.
  intros [<-|Hz].
  - unfold rec_ok in *. rewrite L1 in Fx. lia.
  - assert (rt x < rt y) by (unfold rec_ok in *; rewrite L1 in Fx; lia).
    assert (rt y < z); [|lia]. apply (IH Fl' ltac:(destruct l; [exact I|destruct L2; assumption]) y Fy); auto.
Qed.

Lemma linked_mid a r1 r2 b : linked (a ++ r1 :: r2 :: b) -> rn r1 = fst (rc r2).
Proof.
  induction a as [|z a IH]; [intros [H _]; exact H|]. intros H. apply IH. cbn [app] in H. destruct (a ++ r1 :: r2 :: b); [exact I|]. destruct H. assumption.
Qed.

(* C25: the state times are one strictly increasing sequence: the initial odometry carries the first, the
   published IMU arrays span consecutive ones, the deskewed clouds carry them in order (the last one may
   still be in preparation); each cloud's stamp lies in the interval between its own original stamp and the
   next cloud's, and it is made of a cloud that was received *)
Lemma timeline c l s : strict (in_clouds l) -> fe_run c fe_init l = Ok s ->
  exists times, up times /\ out_inits (f_out s) = firstn 1 times /\ out_spans (f_out s) = pairs times /\
    (exists rest, times = map (fun x => from_pcl (fst x)) (out_clouds (f_out s)) ++ rest /\ (List.length rest <= 1)%nat) /\
    (forall x, In x (out_clouds (f_out s)) -> In (snd x) (in_clouds l) /\ fst (snd x) <= fst x) /\
    (forall a x y b, out_clouds (f_out s) = a ++ x :: y :: b -> fst x < fst (snd y)).
Proof.
  intros Hs E. destruct (timeline_run c l fe_init [] [] s) as (done & T & M & S); auto.
  - apply tinv_init.
  - intros t [].
  - constructor; [constructor|intros ? [=]|intros ? [=]].
  - cbn [app] in S. destruct T, S.
    assert (Fc : Forall (fun r => rec_ok r /\ In (rc r) (in_clouds l)) (current s)).
    { unfold current, phase_ok in *. destruct (f_pc s); try constructor; destruct t_phase0 as (c0 & Ec & _ & Hr); rewrite Ec; constructor; auto; (split; [exact Hr|apply sn_prev0; exact Ec]). }
    assert (Fa : Forall rec_ok (done ++ current s)). { apply Forall_app. split; [exact t_recs0|]. eapply Forall_impl; [|exact Fc]. cbn. intros ? [? _]. assumption. }
    assert (Cl : exists rest, done ++ current s = (done ++ clouded s) ++ rest /\ (List.length rest <= 1)%nat).
    { unfold clouded. assert (List.length (current s) <= 1)%nat by (unfold current; destruct (f_pc s), (f_prev s); cbn; lia). destruct (f_pc s); try (exists (current s); rewrite app_nil_r; auto; fail).
      exists []. rewrite app_nil_r. cbn. auto. }
    destruct Cl as (rest & Er & Lr). exists (map rt (done ++ current s)). split; [apply linked_up; assumption|]. split; [exact t_outi0|]. split; [exact t_outs0|].
    assert (Fd : forall r, In r (done ++ clouded s) -> rec_ok r /\ In (rc r) (in_clouds l)).
    { intros r Hr. apply in_app_or in Hr. destruct Hr as [Hr|Hr].
      - rewrite Forall_forall in t_recs0, sn_done0. auto.
      - rewrite Forall_forall in Fc. apply Fc. unfold clouded in Hr. destruct (f_pc s); try destruct Hr; auto. }
    split; [|split].
    + exists (map rt rest). rewrite map_length. split; [|exact Lr]. rewrite t_outc0, Er, map_app, map_map. f_equal. apply map_ext_in. intros r Hr. cbn. symmetry. apply (Fd r Hr).
    + intros x Hx. rewrite t_outc0 in Hx. apply in_map_iff in Hx. destruct Hx as (r & <- & Hr). cbn. destruct (Fd r Hr) as [[R1 R2] R3]. split; [exact R3|].
      unfold from_pcl in *. unfold to_pcl. apply Z.div_le_lower_bound; lia.
    + intros a x y b Ex. rewrite t_outc0 in Ex. 
      assert (Q : exists a' r1 r2 b', done ++ clouded s = a' ++ r1 :: r2 :: b' /\ x = (to_pcl (rt r1), rc r1) /\ y = (to_pcl (rt r2), rc r2)).
      { clear -Ex. revert a Ex. induction (done ++ clouded s) as [|r1 q IH]; intros a Ex; [destruct a; discriminate|]. destruct a as [|z a].
        - destruct q as [|r2 q]; [discriminate|]. cbn [map app] in Ex. injection Ex as <- <- _. exists [], r1, r2, q. auto.
        - cbn [map app] in Ex. injection Ex as _ Ex. destruct (IH a Ex) as (a' & s1 & s2 & b' & -> & X). exists (r1 :: a'), s1, s2, b'. auto. }
      destruct Q as (a' & r1 & r2 & b' & Eq & -> & ->). cbn. assert (Li : rn r1 = fst (rc r2)).
      { rewrite Er, Eq, <- app_assoc in t_link0. cbn [app] in t_link0. eapply linked_mid. exact t_link0. }
      destruct (Fd r1) as [[R1 R2] _]; [rewrite Eq; apply in_or_app; right; left; reflexivity|]. rewrite Li in R1. unfold from_pcl, to_pcl in *. apply Z.div_lt_upper_bound; lia.
Qed.
