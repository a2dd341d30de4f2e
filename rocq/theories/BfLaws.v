(* Body frames: laws of the transforms, refusals, static broadcast. *)
From Coq Require Import ZArith Reals List Bool String Lia Lra Permutation.
From Verif Require Import Base Interp Geo EgModel EgProofs BfModel BfSpec BfProofs BfLoad BfMain BfTheorems.
Import ListNotations.
Open Scope string_scope.
Open Scope list_scope.

(* transforms from tf have unit quaternions *)
Definition tf_motions (look : string -> string -> Z -> res iso) : Prop := forall a c time t, look a c time = Ok t -> motion t.
Lemma turns_proper q m : turns q m -> proper m.
Proof. intros [[_ ->]|(u & n & U & _ & _ & ->)]; [apply proper_I|apply qmat_proper; exact U]. Qed.
Lemma stands_motion look body root f t : tf_motions look -> stands look body root f t -> motion t.
Proof.
  intros M H. induction H as [|p f v t u D S H IH L]; [apply motion_id|]. apply motion_mul; [exact IH|]. unfold local in L. destruct (declared_lookup v); [destruct L as (a & c & _ & _ & L); eapply M; exact L|]. destruct L as [_ L]. apply turns_proper in L. exact L.
Qed.
Lemma static_value look look' cfg b f : load look cfg = Ok b -> tf_motions look -> is_dynamic b f = Ok false ->
  exists t, motion t /\ forall time, body_to_frame look' b f time = Ok t /\ frame_to_body look' b f time = Ok (iinv t).
Proof.
  intros H M D. destruct (load_transforms look look' cfg b H) as (body & root & E & A & B & _). destruct (B f 0%Z D) as (t & T1 & T2). exists t. split; [apply (A f 0%Z t D) in T1; eapply stands_motion; eassumption|].
  intros time. unfold body_to_frame, frame_to_body in *. rewrite D in *. cbn in *. auto.
Qed.
Theorem static_laws look look' cfg b f g h time : load look cfg = Ok b -> tf_motions look -> is_dynamic b f = Ok false -> is_dynamic b g = Ok false -> is_dynamic b h = Ok false ->
  exists x y, motion x /\ frame_to_frame look' b f g time = Ok x /\ frame_to_frame look' b g h time = Ok y /\ frame_to_frame look' b f h time = Ok (imul x y) /\ frame_to_frame look' b g f time = Ok (iinv x) /\ frame_to_frame look' b f f time = Ok iid /\
  frame_to_frame look' b (body_frame b) f time = body_to_frame look' b f time /\ frame_to_frame look' b f (body_frame b) time = frame_to_body look' b f time.
Proof.
  intros H M F G K. destruct (static_value look look' cfg b f H M F) as (tf & MF & VF). destruct (static_value look look' cfg b g H M G) as (tg & MG & VG). destruct (static_value look look' cfg b h H M K) as (th & MH & VH).
  destruct (load_rep _ _ _ H) as (body & root & -> & R). pose proof (r_body _ _ _ _ _ R) as BB. unfold body_frame. rewrite BB. assert (DB : is_dynamic b body = Ok false) by (apply (R_dyn _ _ _ _ R); left; auto).
  assert (VB : forall time, body_to_frame look' b body time = Ok iid /\ frame_to_body look' b body time = Ok iid).
  { intros tm. unfold body_to_frame, frame_to_body. rewrite DB. cbn. rewrite !at_ok, (R_from _ _ _ _ R), (r_bval _ _ _ _ _ R), iinv_iid. auto. }
  unfold frame_to_frame. rewrite F, G, K, DB. cbn [rbind]. rewrite !(proj1 (VF _)), !(proj2 (VF _)), !(proj1 (VG _)), !(proj2 (VG _)), !(proj1 (VH _)), ?(proj2 (VH _)), ?(proj1 (VB _)), ?(proj2 (VB _)). cbn [rbind].
  exists (imul (iinv tf) tg), (imul (iinv tg) th). split; [apply motion_mul; [apply motion_inv|]; assumption|]. do 2 (split; [reflexivity|]). apply motion_rigid in MF, MG, MH.
  split; [f_equal; rewrite <- imul_assoc, (imul_assoc tg), imul_inv_r by assumption; rewrite imul_id_l; reflexivity|].
  split; [f_equal; rewrite iinv_mul, iinv_inv by (try apply rigid_inv; assumption); reflexivity|].
  split; [f_equal; apply imul_inv_l; assumption|]. rewrite imul_id_l, imul_id_r. auto.
Qed.
(* with moving frames: if tf reports poses that agree with the static frames, every transform is that of the poses *)
Theorem tf_laws look look' cfg b pose time : load look cfg = Ok b -> (forall i, motion (pose i)) -> (forall i j, look' i j time = Ok (imul (iinv (pose i)) (pose j))) ->
  (forall f i t bid, is_dynamic b f = Ok false -> frame_id b f = Ok i -> body_frame_id b = Ok bid -> body_to_frame look' b f time = Ok t -> t = imul (iinv (pose bid)) (pose i)) ->
  forall f g i j, frame_id b f = Ok i -> frame_id b g = Ok j -> frame_to_frame look' b f g time = Ok (imul (iinv (pose i)) (pose j)).
Proof.
  intros H MP LK AG f g i j I J. assert (DY : forall f i, frame_id b f = Ok i -> exists d, is_dynamic b f = Ok d).
  { intros k n E. destruct (load_rep _ _ _ H) as (body & root & -> & R). apply (R_id _ _ _ _ R) in E. destruct E as [[-> _]|(p & v & D & _)]; eexists; apply (R_dyn _ _ _ _ R); [left; auto|right; exists p, v; auto]. }
  destruct (DY f i I) as [d DF], (DY g j J) as [d' DG]. assert (LT : lookup_transform look' b f g time = Ok (imul (iinv (pose i)) (pose j))) by (unfold lookup_transform; unfold frame_id in I, J; rewrite I, J; cbn; apply LK).
  unfold frame_to_frame. rewrite DF. destruct d; cbn [rbind]; [exact LT|]. rewrite DG. destruct d'; cbn [rbind]; [exact LT|].
  destruct (load_transforms look look' cfg b H) as (body & root & E & A & B & _). destruct (B f time DF) as (tf & F1 & F2). destruct (B g time DG) as (tg & G1 & G2).
  assert (X : frame_to_body look' b f 0 = Ok (iinv tf) /\ body_to_frame look' b g 0 = Ok tg) by (unfold frame_to_body, body_to_frame in *; rewrite DF, DG in *; cbn in *; auto). destruct X as [X1 X2]. rewrite X1. cbn [rbind]. rewrite X2. cbn [rbind]. f_equal.
  assert (BID : exists bid, body_frame_id b = Ok bid) by (destruct (load_names look cfg b H) as (? & ? & _ & _ & Q & _); eauto). destruct BID as [bid BID].
  rewrite (AG f i tf bid DF I BID F1), (AG g j tg bid DG J BID G1). assert (RB : rigid (pose bid)) by (apply motion_rigid, MP). assert (RI : rigid (pose i)) by (apply motion_rigid, MP).
  rewrite iinv_mul, iinv_inv by (try apply rigid_inv; assumption). rewrite <- imul_assoc, (imul_assoc (pose bid)), imul_inv_r by assumption. rewrite imul_id_l. reflexivity.
Qed.

(* ---- which configurations load ---- *)
Lemma step_typed look e b b' : step look e b = Ok b' -> typed (nd e) /\ frames_typed (nd e) = true.
Proof.
  destruct e as [[f v] p]. cbn [step nd fst snd]. intros H. apply rbind_ok in H. destruct H as (pre & _ & H). apply rbind_ok in H. destruct H as ([b1 t] & E & H). destruct (frames_typed v); [|discriminate]. apply enter_ok in E. destruct E as (T & _). auto.
Qed.
Lemma run_typed look l : forall b b', run look l b = Ok b' -> Forall (fun e => typed (nd e) /\ frames_typed (nd e) = true) l.
Proof. induction l as [|e l IH]; cbn [run]; intros b b' H; [constructor|]. apply rbind_ok in H. destruct H as (b1 & E & H). constructor; [eapply step_typed; exact E|eapply IH; exact H]. Qed.
Lemma frames_typed_iff v : frames_typed v = true <-> if_given "frames" v struct.
Proof.
  unfold frames_typed, if_given, struct. destruct (member "frames" v) as [w|]; [|split; [discriminate|reflexivity]]. split.
  - intros H w' [= <-]. destruct w; try discriminate. eauto.
  - intros H. destruct (H w eq_refl) as [l ->]. reflexivity.
Qed.
Lemma perm_names look body root done b : rep look body root done b -> Permutation (map fst (bf_ids b)) (body :: map nm done).
Proof. intros R. rewrite (r_ids _ _ _ _ _ R), map_app, map_map. cbn. rewrite Permutation_app_comm. cbn. constructor. rewrite map_rev. symmetry. apply Permutation_rev. Qed.
Lemma perm_ids look body root done b : rep look body root done b -> Permutation (map fst (bf_names b)) (declared_id body root :: flat_map (fun e => eid e :: Al (nd e)) done).
Proof.
  intros R. rewrite (r_names _ _ _ _ _ R), map_app. cbn. rewrite Permutation_app_comm. cbn. constructor. rewrite <- (rev_involutive done) at 2. generalize (rev done). intros l.
  induction l as [|e l IH]; [constructor|]. cbn [flat_map rev]. rewrite flat_map_app, map_app, map_app, map_rev, map_map. cbn [map fst flat_map app]. rewrite map_id. rewrite IH. rewrite Permutation_app_comm. apply Permutation_app_head. rewrite app_nil_r. rewrite Permutation_app_comm. cbn. constructor. symmetry. apply Permutation_rev.
Qed.
Lemma names_eq body root : names body root = body :: map nm (entries body root). Proof. reflexivity. Qed.
Lemma ids_eq body root : ids body root = declared_id body root :: flat_map (fun e => eid e :: Al (nd e)) (entries body root). Proof. reflexivity. Qed.
Lemma has_id_unique body root f i j : NoDup (names body root) -> has_id body root f i -> has_id body root f j -> i = j.
Proof.
  intros N. rewrite names_eq in N. inversion N as [|? ? N1 N2]; subst. assert (NB : forall p v, ~ declared body root p body v) by (intros p v D; apply entries_declared in D; apply N1; apply (in_map nm) in D; exact D).
  intros [[-> ->]|(p & v & D & ->)] [[E ->]|(p' & v' & D' & ->)]; [reflexivity|destruct (NB _ _ D')|subst f; destruct (NB _ _ D)|].
  apply entries_declared in D, D'. assert (X : (f, v, p) = (f, v', p')); [|congruence]. revert N2 D D'. generalize (entries body root). intros l N2 D D'. clear - N2 D D'. induction l as [|x l IH]; [destruct D|]. cbn in N2. inversion N2 as [|? ? A B]; subst.
  destruct D as [->|D], D' as [E|D']; auto; [exfalso|exfalso]; apply A; [apply (in_map nm) in D'; exact D'|apply (in_map nm) in D; subst x; exact D].
Qed.
Lemma run_complete look body root : NoDup (names body root) -> NoDup (ids body root) -> Forall (well_formed look body root) (entries body root) ->
  forall l done b, rep look body root done b -> entries body root = done ++ l -> exists b', run look l b = Ok b'.
Proof.
  intros ND1 ND2 WF. induction l as [|e l IH]; intros done b R E; [exists b; reflexivity|]. cbn [run].
  enough (S : exists b1, step look e b = Ok b1).
  { destruct S as [b1 S]. rewrite S. cbn [rbind]. apply (IH (done ++ [e])); [eapply step_rep; eassumption|]. rewrite E, <- app_assoc. reflexivity. }
  assert (IE : In e (entries body root)) by (rewrite E; apply in_or_app; right; left; reflexivity). pose proof (proj1 (Forall_forall _ _) WF) as W. clear WF. assert (PA : exists pre, sget (par e) (bf_to b) = Some pre).
  { destruct (listings_order body (children root) done e l E) as [->|(w & q & I1 & I2)]; [exists iid; apply (r_bval _ _ _ _ _ R)|].
    assert (WW : well_formed look body root (par e, w, q)) by (apply W; rewrite E; apply in_or_app; left; exact I1). assert (DW : declared_dynamic w = false).
    { destruct WW as (_ & _ & WW). destruct (declared_dynamic w); [|reflexivity]. unfold children in I2. rewrite (WW "frames") in I2 by (cbn; auto 6). destruct I2. }
    destruct (r_val _ _ _ _ _ R _ _ _ I1 DW) as (x & u & _ & _ & X). eauto. }
  destruct PA as [pre PA]. pose proof (W e IE) as WE. destruct e as [[f v] p]. cbn [par snd] in PA. destruct WE as (T1 & T2 & T3).
  assert (NF : ~ In f (map fst (bf_ids b))).
  { intros I. apply (Permutation_in _ (perm_names _ _ _ _ _ R)) in I. rewrite names_eq, E, map_app in ND1. cbn [map nm fst] in ND1. change (body :: map nm done ++ f :: map nm l) with ((body :: map nm done) ++ f :: map nm l) in ND1. apply NoDup_remove_2 in ND1. apply ND1. apply in_or_app. left. exact I. }
  assert (NI : NoDup (declared_id f v :: Al v) /\ forall a, In a (declared_id f v :: Al v) -> ~ In a (map fst (bf_names b))).
  { rewrite ids_eq, E, flat_map_app in ND2. cbn [flat_map] in ND2. unfold eid at 2 in ND2. cbn [nm nd fst snd] in ND2. change (declared_id body root :: flat_map (fun e => eid e :: Al (nd e)) done ++ (declared_id f v :: Al v) ++ flat_map (fun e => eid e :: Al (nd e)) l)
      with ((declared_id body root :: flat_map (fun e => eid e :: Al (nd e)) done) ++ (declared_id f v :: Al v) ++ flat_map (fun e => eid e :: Al (nd e)) l) in ND2.
    pose proof (perm_ids _ _ _ _ _ R) as PI. revert ND2 PI. generalize (declared_id body root :: flat_map (fun e => eid e :: Al (nd e)) done) as A, (declared_id f v :: Al v) as B, (flat_map (fun e => eid e :: Al (nd e)) l) as C. clear. intros A B C N PI. split.
    - clear PI. induction A as [|a A IH]; [|inversion N; auto]. cbn in N. induction B as [|x B IH]; [constructor|]. cbn in N. inversion N as [|? ? N1 N2]; subst. constructor; [|auto]. intros I. apply N1. apply in_or_app. auto.
    - intros a I J. apply (Permutation_in _ PI) in J. clear PI. induction A as [|x A IH]; [destruct J|]. cbn in N. inversion N as [|? ? N1 N2]; subst. destruct J as [->|J]; [|auto]. apply N1. apply in_or_app. right. apply in_or_app. auto. }
  destruct NI as [NI1 NI2].
  assert (FR : fresh f v b).
  { unfold fresh. split; [apply sget_None; exact NF|]. rewrite !sget_None. assert (D1 : map fst (bf_dyn b) = map fst (bf_ids b)) by (rewrite (r_dyn _ _ _ _ _ R), (r_ids _ _ _ _ _ R), !map_app, !map_map; reflexivity). assert (D2 : map fst (bf_look b) = map fst (bf_ids b)) by (rewrite (r_look _ _ _ _ _ R), (r_ids _ _ _ _ _ R), !map_app, !map_map; reflexivity). rewrite D1, D2.
    split; [exact NF|]. split; [exact NF|]. split.
    - intros I. apply (NI2 _ (or_introl eq_refl)). rewrite (r_al _ _ _ _ _ R), map_app, map_map in I. cbn [map fst] in I. rewrite (r_names _ _ _ _ _ R), map_app. cbn [map fst]. apply in_or_app. apply in_app_or in I. destruct I as [I|I]; [left|right; exact I].
      apply in_map_iff in I. destruct I as (e' & E' & I). rewrite <- E'. apply in_map_iff. exists (eid e', nm e'). split; [reflexivity|]. apply in_flat_map. exists e'. split; [exact I|]. apply in_or_app. right. left. reflexivity.
    - split.
      + intros _. assert (NT : ~ In f (map fst (bf_to b))).
        { rewrite (r_to _ _ _ _ _ R). intros I. apply NF. rewrite (r_ids _ _ _ _ _ R), map_app, map_map. cbn [map fst]. apply in_or_app. apply in_app_or in I. destruct I as [I|I]; [left|right; exact I]. apply in_map_iff in I. destruct I as (e' & <- & I). apply filter_In in I. apply in_map. apply I. }
        split; [exact NT|]. rewrite (r_from _ _ _ _ _ R), map_map. exact NT.
      + split; [exact NI1|]. intros a I. apply sget_None. apply NI2. exact I. }
  assert (GI : forall g i, has_id body root g i -> (g = f \/ In g (map fst (bf_ids b))) -> sget g ((f, declared_id f v) :: bf_ids b) = Some i).
  { intros g i HI IN. rewrite sget_cons. destruct (String.eqb_spec g f) as [->|NE].
    - f_equal. apply (has_id_unique body root f); [exact ND1|right; exists p, v; split; [apply entries_declared; exact IE|reflexivity]|exact HI].
    - destruct IN as [?|IN]; [congruence|]. apply in_map_iff in IN. destruct IN as ([g' j] & EG & IN). cbn in EG. subst g'. rewrite (In_sget g j _ (r_nd1 _ _ _ _ _ R) IN). f_equal. apply (has_id_unique body root g); [exact ND1| |exact HI].
      rewrite (r_ids _ _ _ _ _ R) in IN. apply in_app_or in IN. destruct IN as [IN|[[= <- <-]|[]]]; [|left; auto]. apply in_map_iff in IN. destruct IN as ([[g2 v2] p2] & [= <- <-] & IN). right. exists p2, v2. split; [apply entries_declared; rewrite E; apply in_or_app; left; apply in_rev; exact IN|reflexivity]. }
  assert (PIN : In p (map fst (bf_ids b))).
  { apply sget_In in PA. apply (in_map fst) in PA. cbn in PA. rewrite (r_to _ _ _ _ _ R) in PA. rewrite (r_ids _ _ _ _ _ R), map_app, map_map. cbn [map fst]. apply in_or_app. apply in_app_or in PA. destruct PA as [I|I]; [left|right; exact I]. apply in_map_iff in I. destruct I as (e' & <- & I). apply filter_In in I. apply in_map. apply I. }
  destruct (declared_dynamic v) eqn:DY.
  - exists (after f v None b). cbn [step]. apply rbind_ok. exists pre. split; [apply at_ok; exact PA|]. apply rbind_ok. exists (after f v None b, None). split.
    + apply enter_ok. split; [split; [exact T1|split; [exact T2|rewrite DY; exact T3]]|]. split; [exact FR|]. split; [reflexivity|]. rewrite DY. reflexivity.
    + replace (frames_typed v) with true; [reflexivity|]. unfold frames_typed. rewrite (T3 "frames") by (cbn; auto 6). reflexivity.
  - destruct T3 as (T3 & T4 & T5 & T6 & T7). assert (FO : exists u, found look ((f, declared_id f v) :: bf_ids b) p f v u).
    { unfold found. unfold declared_lookup in T7. rewrite DY in T7. cbn [negb andb] in T7. destruct (declared_flag "lookup_tf" v).
      - destruct T7 as (a & c & t & HA & HC & L). exists t, a, c. split; [apply GI; [exact HA|right; exact PIN]|]. split; [apply GI; [exact HC|left; reflexivity]|exact L].
      - exists (given v). split; [exact T7|reflexivity]. }
    destruct FO as [u FO]. exists (after f v (Some (imul pre u)) b). cbn [step]. apply rbind_ok. exists pre. split; [apply at_ok; exact PA|]. apply rbind_ok. exists (after f v (Some (imul pre u)) b, Some (imul pre u)). split.
    + apply enter_ok. split; [split; [exact T1|split; [exact T2|rewrite DY; auto]]|]. split; [exact FR|]. split; [reflexivity|]. rewrite DY. exists u. auto.
    + apply frames_typed_iff in T6. rewrite T6. reflexivity.
Qed.
Theorem load_iff look cfg : (exists b, load look cfg = Ok b) <-> exists body root, cfg = XStruct [(body, root)] /\ struct root /\ if_given "frame_id" root is_string /\ if_given "frames" root struct /\
  NoDup (names body root) /\ NoDup (ids body root) /\ Forall (well_formed look body root) (entries body root).
Proof.
  split.
  - intros [b H]. pose proof H as H0. apply load_run in H0. destruct H0 as (body & root & -> & A & B & C & RU). exists body, root. do 4 (split; [auto|]). pose proof (run_rep look body root _ [] _ _ (rep_start look body root) RU) as R. cbn [app] in R.
    split; [rewrite names_eq; apply (Permutation_NoDup (perm_names _ _ _ _ _ R)); apply (r_nd1 _ _ _ _ _ R)|]. split; [rewrite ids_eq; apply (Permutation_NoDup (perm_ids _ _ _ _ _ R)); apply (r_nd2 _ _ _ _ _ R)|].
    apply run_typed in RU. rewrite Forall_forall in *. intros [[f v] p] I. destruct (RU _ I) as [(T1 & T2 & T3) T4]. cbn [nd fst snd] in *. split; [exact T1|]. split; [exact T2|]. destruct (declared_dynamic v) eqn:DY; [exact T3|]. destruct T3 as (T3 & T5 & T6). do 3 (split; [assumption|]).
    split; [apply frames_typed_iff; exact T4|]. destruct (r_val _ _ _ _ _ R f v p I DY) as (t & u & _ & FO & _). unfold declared_lookup. rewrite DY. cbn [negb andb]. unfold found in FO. destruct (declared_flag "lookup_tf" v); [|apply FO].
    destruct FO as (a & c & SA & SC & L). exists a, c, u. split; [apply (R_id _ _ _ _ R); apply at_ok; exact SA|]. split; [apply (R_id _ _ _ _ R); apply at_ok; exact SC|exact L].
  - intros (body & root & -> & A & B & C & N1 & N2 & W). destruct (run_complete look body root N1 N2 W (entries body root) [] _ (rep_start look body root) eq_refl) as [b RU]. exists b. apply load_run. exists body, root. auto 6.
Qed.
(* every other configuration is refused: loading never runs into undefined behaviour *)
Lemma emplace_ub {A} k (a : A) m : emplace k a m <> UB. Proof. unfold emplace. destruct (sget k m); discriminate. Qed.
Lemma at_ub {A} k (m : smap A) : at_ k m <> UB. Proof. unfold at_. destruct (sget k m); discriminate. Qed.
Lemma add_aliases_ub l f : forall b, add_aliases l f b <> UB.
Proof. induction l as [|w l IH]; intros b; cbn; [discriminate|]. destruct w; try discriminate. apply not_ub; [apply emplace_ub|]. intros n. apply not_ub; [apply IH|]. intros [? ?]. discriminate. Qed.
Ltac noub := repeat (first [discriminate | apply emplace_ub | apply at_ub | apply not_ub; intros | match goal with |- (match ?x with _ => _ end) <> UB => destruct x end]).
Theorem load_defined look cfg : (forall a c t, look a c t <> UB) -> load look cfg <> UB.
Proof.
  intros L. assert (E : forall f v pre p b, enter look f v pre p b <> UB).
  { intros f v pre p b. unfold enter. apply not_ub; [unfold node_id; noub|]. intros id. apply not_ub; [unfold add_frame_strings; noub|]. intros b1. apply not_ub; [unfold flag; noub|]. intros d. apply not_ub; [noub|]. intros dm. destruct d; [noub|].
    apply not_ub.
    - unfold transform_from_node. destruct (is_struct v); [|discriminate]. apply not_ub; [unfold flag; noub|]. intros lk. apply not_ub; [noub|]. intros m. destruct lk.
      + apply not_ub; [|discriminate]. unfold lookup_transform. apply not_ub; [noub|]. intros x. apply not_ub; [noub|]. intros y. apply L.
      + apply not_ub; [unfold node_translation, coordinate, as_double; noub|]. intros x. apply not_ub; [unfold node_rotation, component, as_double; noub|]. discriminate.
    - intros [b3 t]. apply not_ub; [unfold add_frame_transforms; noub|]. intros b4. apply not_ub; [unfold node_aliases; destruct (member "aliases" v) as [[]|]; try discriminate; apply add_aliases_ub|]. intros [b5 al]. noub. }
  assert (ST : forall e b, step look e b <> UB).
  { intros [[f v] p] b. cbn [step]. apply not_ub; [apply at_ub|]. intros pre. apply not_ub; [apply E|]. intros [b' t]. destruct (frames_typed v); discriminate. }
  assert (RU : forall l b, run look l b <> UB) by (induction l as [|e l IH]; intros b; cbn [run]; [discriminate|]; apply not_ub; [apply ST|apply IH]).
  destruct cfg as [| | | | | |[|[body root] [|? ?]]]; try discriminate. cbn [load]. apply not_ub; [unfold node_id; noub|]. intros id. cbn -[process_frames is_struct member]. unfold add_frame_strings, add_frame_transforms. cbn -[process_frames is_struct member]. destruct (is_struct root); [|discriminate].
  unfold process_frames. destruct (member "frames" root) as [[]|]; try discriminate. rewrite (process_list_run look l body iid); [apply RU|]. cbn. rewrite String.eqb_refl. reflexivity.
Qed.
