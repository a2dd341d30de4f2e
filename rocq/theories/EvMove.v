(* Evaluation scripts: what moving the trajectories does, recomputation from a first pose, length, interpolation. *)
From Coq Require Import Reals List ZArith Lra Lia Bool.
From Verif Require Import Base Interp Geo EgModel EgProofs MsModel RoModel BfModel EvModel EvSpec EvProofs EvPose.
Import ListNotations.
Open Scope R_scope.

(* ---- the loop on changed inputs ---- *)
Definition rmap {A B} (f : A -> B) (r : res A) : res B := match r with Ok a => Ok (f a) | Throw => Throw | UB => UB end.
Definition change {A} (f : A -> A) (e : R * A) : R * A := (fst e, f (snd e)).
Section Changed.
Context {A B C E : Type} (whole : A -> B) (mixture : A -> A -> R -> B) (interp : R -> R -> A -> A -> R -> res B) (conv : C -> B).
Hypothesis interp_is : forall t1 t2 a b t, interp t1 t2 a b t = coefficient t1 t2 t (mixture a b).
Variables (phi : A -> A) (mu nu : B -> B) (goodA : A -> Prop) (goodB : B -> Prop).
Hypothesis whole_ok : forall a, goodA a -> whole (phi a) = mu (whole a) /\ goodB (whole a).
Hypothesis mix_ok : forall a b c, goodA a -> goodA b -> 0 <= c <= 1 -> mixture (phi a) (phi b) c = mu (mixture a b c) /\ goodB (mixture a b c).
Variables (abs1 abs2 : B -> B -> E) (rel1 rel2 : B -> B -> B -> B -> E).
Hypothesis abs_ok : forall g v, goodB g -> goodB v -> abs2 (mu g) (nu v) = abs1 g v.
Hypothesis rel_ok : forall pg pv g v, goodB pg -> goodB pv -> goodB g -> goodB v -> rel2 (mu pg) (nu pv) (mu g) (nu v) = rel1 pg pv g v.
Definition good_list (l : list (R * A)) : Prop := forall e, In e l -> goodA (snd e).
Definition good_before (b : option (R * A)) : Prop := forall e, b = Some e -> goodA (snd e).
Lemma advance_change t : forall rest before, advance (option_map (change phi) before) (map (change phi) rest) t = (option_map (change phi) (fst (advance before rest t)), map (change phi) (snd (advance before rest t))).
Proof. induction rest as [|e rest IH]; intros before; cbn [advance map]; [reflexivity|]. unfold change at 1. cbn [fst]. destruct (rltb (fst e) t); [apply (IH (Some e))|reflexivity]. Qed.
Lemma advance_good t : forall rest before, good_before before -> good_list rest -> good_before (fst (advance before rest t)) /\ good_list (snd (advance before rest t)).
Proof.
  induction rest as [|e rest IH]; intros before Hb Hr; cbn [advance]; [split; assumption|]. destruct (rltb (fst e) t); [|split; assumption]. apply IH.
  - intros e' [= <-]. apply Hr. left. reflexivity.
  - intros e' He. apply Hr. right. exact He.
Qed.
Lemma coefficient_map {X Y} (f : X -> Y) t1 t2 t (g : R -> X) (h : R -> Y) : (forall c, 0 <= c <= 1 -> h c = f (g c)) -> coefficient t1 t2 t h = rmap f (coefficient t1 t2 t g).
Proof.
  intros H. unfold coefficient. destruct (Req_EM_T t1 t2); [destruct (Req_EM_T t t1); reflexivity|]. destruct (rltb _ 0) eqn:C1; [reflexivity|]. destruct (rltb 1 _) eqn:C2; [reflexivity|]. cbn. rewrite H; [reflexivity|]. apply rltb_f in C1. apply rltb_f in C2. lra.
Qed.
Lemma coefficient_good {X} (P : X -> Prop) t1 t2 t (g : R -> X) v : (forall c, 0 <= c <= 1 -> P (g c)) -> coefficient t1 t2 t g = Ok v -> P v.
Proof.
  intros H. unfold coefficient. destruct (Req_EM_T t1 t2); [destruct (Req_EM_T t t1); discriminate|]. destruct (rltb _ 0) eqn:C1; [discriminate|]. destruct (rltb 1 _) eqn:C2; [discriminate|]. cbn. intros [= <-]. apply H. apply rltb_f in C1. apply rltb_f in C2. lra.
Qed.
Lemma at_time_change z t : good_before (fst z) -> good_list (snd z) -> at_time whole interp (option_map (change phi) (fst z), map (change phi) (snd z)) t = rmap mu (at_time whole interp z t) /\ (forall v, at_time whole interp z t = Ok v -> goodB v).
Proof.
  intros Hb Hr. unfold at_time. cbn [fst snd]. destruct (snd z) as [|e r]; [split; [reflexivity|discriminate]|]. assert (Ge : goodA (snd e)) by (apply Hr; left; reflexivity). cbn [map]. unfold change at 1 2 3. cbn [fst snd].
  destruct (Req_EM_T (fst e) t); [destruct (whole_ok (snd e) Ge) as [W1 W2]; split; [cbn; rewrite W1; reflexivity|intros v [= <-]; exact W2]|].
  destruct (fst z) as [b|]; [|split; [reflexivity|discriminate]]. cbn [option_map]. unfold change. cbn [fst snd]. assert (Gb : goodA (snd b)) by (apply Hb; reflexivity). rewrite !interp_is. split; [apply coefficient_map; intros c Hc; apply (mix_ok _ _ _ Gb Ge Hc)|intros v Hv; exact (coefficient_good _ _ _ _ _ _ (fun c Hc => proj2 (mix_ok _ _ _ Gb Ge Hc)) Hv)].
Qed.
Definition matched (e e' : R * C) : Prop := fst e' = fst e /\ conv (snd e') = nu (conv (snd e)) /\ goodB (conv (snd e)).
Lemma loop_change : forall l l', Forall2 matched l l' -> forall before rest prev, good_before before -> good_list rest -> (forall p, prev = Some p -> goodB (fst p) /\ goodB (snd p)) ->
  errors_loop whole interp conv abs2 rel2 (option_map (change phi) before) (map (change phi) rest) (option_map (fun p => (mu (fst p), nu (snd p))) prev) l' = errors_loop whole interp conv abs1 rel1 before rest prev l.
Proof.
  induction 1 as [|[t x] [t' x'] l l' (M1 & M2 & M3) HM IH]; intros before rest prev Hb Hr Hp; cbn [errors_loop]; [reflexivity|]. cbn [fst snd] in *. subst t'. cbv zeta. rewrite advance_change. destruct (advance_good t rest before Hb Hr) as [Gb Gr]. destruct (at_time_change (advance before rest t) t Gb Gr) as [E1 E2]. rewrite E1.
  destruct (at_time whole interp (advance before rest t) t) as [g| |]; cbn [rmap rbind]; try reflexivity. specialize (E2 g eq_refl). cbn [fst snd]. rewrite M2.
  assert (IH' := IH (fst (advance before rest t)) (snd (advance before rest t)) (Some (g, conv x)) Gb Gr ltac:(intros p [= <-]; split; assumption)). cbn [option_map fst snd] in IH'. rewrite IH'. destruct (errors_loop whole interp conv abs1 rel1 _ _ (Some (g, conv x)) l) as [r| |]; cbn [rbind]; try reflexivity. rewrite abs_ok by assumption. destruct prev as [[pg pv]|]; cbn [option_map fst snd]; [|reflexivity]. destruct (Hp _ eq_refl). cbn [fst snd] in *. rewrite rel_ok by assumption. reflexivity.
Qed.
Lemma last_change (gt : list (R * A)) d : last (map (change phi) gt) (change phi d) = change phi (last gt d).
Proof. induction gt as [|e gt IH]; [reflexivity|]. destruct gt as [|e' gt]; [reflexivity|]. exact IH. Qed.
Lemma inside_change gt : forall l l', Forall2 matched l l' -> Forall2 matched (inside gt l) (inside (map (change phi) gt) l').
Proof.
  intros l l' H. destruct gt as [|f gt]; [constructor|]. cbn [inside map]. fold (map (change phi) gt). change (change phi f :: map (change phi) gt) with (map (change phi) (f :: gt)). rewrite last_change. cbn [fst change]. induction H as [|e e' l l' M HM IH]; [constructor|]. cbn [filter]. destruct M as (M1 & M2 & M3). rewrite M1. destruct (rleb _ _ && rleb _ _); [constructor; [split; [exact M1|split; assumption]|exact IH]|exact IH].
Qed.
Lemma matched_stamps l l' : Forall2 matched l l' -> map fst l' = map fst l.
Proof. induction 1 as [|e e' l l' (M1 & _) HM IH]; [reflexivity|]. cbn. rewrite M1, IH. reflexivity. Qed.
Lemma errors_change gt l l' : good_list gt -> Forall2 matched l l' -> errors whole interp conv abs2 rel2 (map (change phi) gt) l' = errors whole interp conv abs1 rel1 gt l.
Proof.
  intros G M. unfold errors. destruct gt as [|f gt]; [reflexivity|]. cbn [map]. fold (map (change phi) gt). change (change phi f :: map (change phi) gt) with (map (change phi) (f :: gt)). cbv zeta. pose proof (inside_change (f :: gt) l l' M) as MI.
  assert (LC := loop_change _ _ MI None (f :: gt) None ltac:(intros e; discriminate) G ltac:(intros p; discriminate)). cbn [option_map] in LC. rewrite LC. rewrite (matched_stamps _ _ MI). reflexivity.
Qed.
End Changed.

(* the relative entries do not depend on what is computed for the absolute ones *)
Section Apart.
Context {A B C E : Type} (whole : A -> B) (interp : R -> R -> A -> A -> R -> res B) (conv : C -> B) (abs1 abs2 : B -> B -> E) (rel : B -> B -> B -> B -> E).
Lemma loop_apart : forall l before rest prev r, errors_loop whole interp conv abs1 rel before rest prev l = Ok r -> exists a, errors_loop whole interp conv abs2 rel before rest prev l = Ok (a, snd r).
Proof.
  induction l as [|[t x] l IH]; intros before rest prev r H; cbn [errors_loop] in *; [injection H as <-; eexists; reflexivity|]. cbv zeta in *. destruct (at_time whole interp (advance before rest t) t) as [g| |]; cbn [rbind] in *; try discriminate.
  destruct (errors_loop whole interp conv abs1 rel _ _ (Some (g, conv x)) l) as [r1| |] eqn:E1; cbn [rbind] in *; try discriminate. injection H as <-. destruct (IH _ _ _ _ E1) as [a Ea]. rewrite Ea. cbn [rbind fst snd]. eexists. reflexivity.
Qed.
Lemma errors_apart gt l o : errors whole interp conv abs1 rel gt l = Ok o -> exists a, errors whole interp conv abs2 rel gt l = Ok (mkEO a (eo_abs_t o) (eo_rel o) (eo_rel_t o)).
Proof.
  unfold errors. destruct gt as [|f gt]; [discriminate|]. cbv zeta. destruct (errors_loop whole interp conv abs1 rel None (f :: gt) None (inside (f :: gt) l)) as [r| |] eqn:E1; cbn [rbind]; try discriminate. intros [= <-]. destruct (loop_apart _ _ _ _ _ E1) as [a Ea]. rewrite Ea. cbn. eexists. reflexivity.
Qed.
End Apart.

Lemma moved_change t q l : moved_all t q l = map (change (moved t q)) l. Proof. reflexivity. Qed.
Lemma Forall2_map_self {X} (P : X -> X -> Prop) (f : X -> X) l : (forall x, In x l -> P x (f x)) -> Forall2 P l (map f l).
Proof. induction l as [|x l IH]; intros H; [constructor|]. cbn. constructor; [apply H; left; reflexivity|apply IH; intros y Hy; apply H; right; exact Hy]. Qed.

Section Poses.
Variable mixq : quat -> quat -> R -> quat.
Variable r2q : mat3 -> quat.
Hypothesis unit_mix : stays_unit mixq.
Hypothesis along : turns_along mixq.
Hypothesis reads : reads_rotation r2q.

Lemma raw_motion a b c : oriented a -> oriented b -> 0 <= c <= 1 -> motion (raw_between mixq a b c).
Proof. intros Ha Hb Hc. rewrite (raw_eq mixq unit_mix) by assumption. unfold motion, pose_between. cbn [lin]. apply qmat_proper. apply unit_mix; [apply qnormalise_unit; exact Ha|apply qnormalise_unit; exact Hb|exact Hc]. Qed.
Lemma raw_moved t q a b c : qunit q -> oriented a -> oriented b -> 0 <= c <= 1 -> raw_between mixq (moved t q a) (moved t q b) c = imul (to_transform t q) (raw_between mixq a b c).
Proof.
  intros U Ha Hb Hc. assert (Ua : qunit (qnormalise (mp_ori a))) by (apply qnormalise_unit; exact Ha). assert (Ub : qunit (qnormalise (mp_ori b))) by (apply qnormalise_unit; exact Hb). assert (Um := unit_mix _ _ c Ua Ub Hc).
  unfold raw_between, moved. cbn [mp_pos mp_ori]. rewrite !qnormalise_mul by assumption. rewrite along by assumption. rewrite (qnormalise_id (qmul q _)) by (apply qunit_mul; assumption). rewrite (qnormalise_id (mixq _ _ c)) by exact Um.
  unfold to_transform, imul. cbn [lin tr]. rewrite qmat_mul by assumption. f_equal. rewrite mapply_add, mapply_scale. unfold vsub. rewrite mapply_add, mapply_opp. set (x := mapply (qmat q) (mp_pos a)). set (y := mapply (qmat q) (mp_pos b)). destruct x as [[x1 x2] x3], y as [[y1 y2] y3], t as [[t1 t2] t3]. unfold vadd, vscale, vopp. apply triple_eq; ring.
Qed.
Lemma rigid_tt t q : qunit q -> rigid (to_transform t q). Proof. apply rigid_to_transform. Qed.
Definition ape (g x : iso) : iso := ldiv g x.
Definition rpe (pg px g x : iso) : iso := ldiv (ldiv pg g) (ldiv px x).
Lemma rpe_moved m n pg px g x : rigid m -> rigid n -> rigid pg -> rigid px -> rpe (imul m pg) (imul n px) (imul m g) (imul n x) = rpe pg px g x.
Proof. intros Hm Hn H1 H2. unfold rpe. rewrite !ldiv_left by assumption. reflexivity. Qed.
Lemma pe_errors gt l : compute_pose_errors mixq gt l = errors pose_to_matrix (interp_transform mixq) pose_to_matrix ape rpe gt l. Proof. reflexivity. Qed.

(* the same trajectory seen from elsewhere: matrices multiplied from the left by n *)
Definition displaced (n : iso) (l l' : list (R * mpose)) : Prop := Forall2 (fun e e' => fst e' = fst e /\ pose_to_matrix (snd e') = imul n (pose_to_matrix (snd e))) l l'.
Lemma displaced_moved t q l : qunit q -> all_oriented l -> displaced (to_transform t q) l (moved_all t q l).
Proof. intros U O. apply Forall2_map_self. intros e He. split; [reflexivity|]. cbn [snd]. apply moved_matrix; [exact U|apply O; exact He]. Qed.
Lemma displaced_matched n l l' : all_oriented l -> displaced n l l' -> Forall2 (matched pose_to_matrix (imul n) rigid) l l'.
Proof. intros O H. induction H as [|e e' l l' [H1 H2] H IH]; [constructor|]. constructor; [split; [exact H1|]; split; [exact H2|apply motion_rigid, pose_motion, O; left; reflexivity]|apply IH; intros x Hx; apply O; right; exact Hx]. Qed.

(* both moved alike: the report is the same *)
Lemma errors_together t q gt l : qunit q -> all_oriented gt -> all_oriented l -> compute_pose_errors mixq (moved_all t q gt) (moved_all t q l) = compute_pose_errors mixq gt l.
Proof.
  intros U Og Ol. rewrite !pe_errors, (moved_change t q gt). apply (errors_change pose_to_matrix (raw_between mixq) (interp_transform mixq) pose_to_matrix (raw_is mixq) (moved t q) (imul (to_transform t q)) (imul (to_transform t q)) oriented rigid).
  - intros a Ha. split; [apply moved_matrix; assumption|apply motion_rigid, pose_motion; exact Ha].
  - intros a b c Ha Hb Hc. split; [apply raw_moved; assumption|apply motion_rigid, raw_motion; assumption].
  - intros g v Hg Hv. apply ldiv_left; [apply rigid_tt; exact U|exact Hg].
  - intros pg pv g v H1 H2 H3 H4. apply rpe_moved; try assumption; apply rigid_tt; exact U.
  - exact Og.
  - apply displaced_matched; [exact Ol|]. apply displaced_moved; assumption.
Qed.
(* moved apart: the relative part is the same *)
Lemma relative_displaced n gt l l' o : rigid n -> all_oriented gt -> all_oriented l -> displaced n l l' -> compute_pose_errors mixq gt l = Ok o ->
  exists a, compute_pose_errors mixq gt l' = Ok (mkEO a (eo_abs_t o) (eo_rel o) (eo_rel_t o)).
Proof.
  intros Hn Og Ol D H. rewrite pe_errors in *. apply (errors_apart _ _ _ _ (fun g v => ape g (imul n v))) in H. destruct H as [a Ha]. exists a. rewrite <- Ha. replace gt with (map (change (fun p : mpose => p)) gt) at 1.
  2:{ rewrite <- (map_id gt) at 2. apply map_ext. intros [t p]. reflexivity. }
  apply (errors_change pose_to_matrix (raw_between mixq) (interp_transform mixq) pose_to_matrix (raw_is mixq) (fun p => p) (fun g => g) (imul n) oriented rigid).
  - intros p Hp. split; [reflexivity|apply motion_rigid, pose_motion; exact Hp].
  - intros p q c Hp Hq Hc. split; [reflexivity|apply motion_rigid, raw_motion; assumption].
  - reflexivity.
  - intros pg pv g v H1 H2 H3 H4. unfold rpe. rewrite ldiv_left by assumption. reflexivity.
  - exact Og.
  - apply displaced_matched; assumption.
Qed.
Lemma relative_reference t q gt l o : qunit q -> all_oriented gt -> all_oriented l -> compute_pose_errors mixq gt l = Ok o ->
  exists a, compute_pose_errors mixq (moved_all t q gt) l = Ok (mkEO a (eo_abs_t o) (eo_rel o) (eo_rel_t o)).
Proof.
  intros U Og Ol H. rewrite pe_errors in *. apply (errors_apart _ _ _ _ (fun g v => ape (imul (to_transform t q) g) v)) in H. destruct H as [a Ha]. exists a. rewrite <- Ha, moved_change.
  apply (errors_change pose_to_matrix (raw_between mixq) (interp_transform mixq) pose_to_matrix (raw_is mixq) (moved t q) (imul (to_transform t q)) (fun v => v) oriented rigid).
  - intros p Hp. split; [apply moved_matrix; assumption|apply motion_rigid, pose_motion; exact Hp].
  - intros p p' c Hp Hq Hc. split; [apply raw_moved; assumption|apply motion_rigid, raw_motion; assumption].
  - reflexivity.
  - intros pg pv g v H1 H2 H3 H4. unfold rpe. rewrite (ldiv_left (to_transform t q)) by (try assumption; apply rigid_tt; exact U). reflexivity.
  - exact Og.
  - assert (Hs : forall m, all_oriented m -> Forall2 (matched pose_to_matrix (fun v => v) rigid) m m); [|apply Hs; exact Ol]. induction m as [|e m IH]; intros Om; [constructor|]. constructor; [split; [reflexivity|]; split; [reflexivity|apply motion_rigid, pose_motion, Om; left; reflexivity]|apply IH; intros x Hx; apply Om; right; exact Hx].
Qed.

(* ---- recomputation from a first pose ---- *)
Lemma to_pose_back x : motion x -> pose_to_matrix (matrix_to_pose r2q x) = x /\ oriented (matrix_to_pose r2q x) /\ mp_pos (matrix_to_pose r2q x) = tr x.
Proof.
  intros M. destruct (quat_of_spec (lin x) M) as [E U]. pose proof (reads _ U) as [R1 R2]. rewrite E in R1, R2. unfold matrix_to_pose. split; [|split; [apply qunit_oriented; exact R1|reflexivity]]. rewrite pose_unit by exact R1. cbn [mp_pos mp_ori]. unfold to_transform. rewrite R2. destruct x. reflexivity.
Qed.
Lemma recompute_displaced m : motion m -> forall l prev, motion prev -> all_oriented l -> displaced m l (recompute_loop r2q prev (imul m prev) l) /\ all_oriented (recompute_loop r2q prev (imul m prev) l).
Proof.
  intros Hm. induction l as [|[t p] l IH]; intros prev Hp O; cbn [recompute_loop]; [split; [constructor|intros e []]|]. cbv zeta. assert (Mp : motion (pose_to_matrix p)) by (apply pose_motion, (O (t, p)); left; reflexivity).
  assert (E : imul (imul m prev) (ldiv prev (pose_to_matrix p)) = imul m (pose_to_matrix p)). { unfold ldiv. rewrite <- imul_assoc, (imul_assoc prev), imul_inv_r, imul_id_l by (apply motion_rigid; exact Hp). reflexivity. }
  rewrite E. destruct (IH (pose_to_matrix p) Mp (fun e He => O e (or_intror He))) as [D A]. destruct (to_pose_back (imul m (pose_to_matrix p)) (motion_mul _ _ Hm Mp)) as (B1 & B2 & _). split; [constructor; [split; [reflexivity|exact B1]|exact D]|]. intros e [<-|He]; [exact B2|apply A; exact He].
Qed.
(* the motion that carries the first pose to the wanted one *)
Lemma recompute_is l first : all_oriented l -> oriented first -> match l with [] => recompute_trajectory r2q l first = Throw | (t, p) :: _ =>
  exists l', recompute_trajectory r2q l first = Ok ((t, first) :: l') /\ displaced (imul (pose_to_matrix first) (iinv (pose_to_matrix p))) l ((t, first) :: l') /\ all_oriented ((t, first) :: l') end.
Proof.
  intros O Of. destruct l as [|[t p] l]; [reflexivity|]. eexists. split; [reflexivity|]. assert (Mp : motion (pose_to_matrix p)) by (apply pose_motion, (O (t, p)); left; reflexivity). set (m := imul (pose_to_matrix first) (iinv (pose_to_matrix p))).
  assert (Hm : motion m) by (apply motion_mul; [apply pose_motion; exact Of|apply motion_inv; exact Mp]). assert (E : pose_to_matrix first = imul m (pose_to_matrix p)) by (unfold m; rewrite <- imul_assoc, imul_inv_l, imul_id_r by (apply motion_rigid; exact Mp); reflexivity).
  destruct (recompute_displaced m Hm l (pose_to_matrix p) Mp (fun e He => O e (or_intror He))) as [D A]. rewrite E. split; [constructor; [split; [reflexivity|exact E]|exact D]|]. intros e [<-|He]; [exact Of|apply A; exact He].
Qed.
(* the same relative errors, whatever the first pose *)
Lemma recompute_relative gt l first l' o : all_oriented gt -> all_oriented l -> oriented first -> recompute_trajectory r2q l first = Ok l' -> compute_pose_errors mixq gt l = Ok o ->
  exists a, compute_pose_errors mixq gt l' = Ok (mkEO a (eo_abs_t o) (eo_rel o) (eo_rel_t o)).
Proof.
  intros Og Ol Of H Ho. pose proof (recompute_is l first Ol Of) as I. destruct l as [|[t p] l]; [congruence|]. destruct I as (l2 & E & D & A). rewrite E in H. injection H as <-. eapply relative_displaced; [|exact Og|exact Ol|exact D|exact Ho]. apply motion_rigid, motion_mul; [apply pose_motion; exact Of|apply motion_inv, pose_motion, (Ol (t, p)); left; reflexivity].
Qed.
(* aligned to the reference: nothing is wrong with the first pose *)
Lemma advance_before_none {A} (gt : list (R * A)) t : snd (advance None gt t) = gt \/ exists b, fst (advance None gt t) = Some b.
Proof. destruct (advance_link gt t gt None (link_start gt)) as (_ & _ & [[_ H]|(b & H & _)]); [left; exact H|right; exists b; exact H]. Qed.
Lemma aligned_first ref l l' : in_order ref -> all_oriented ref -> all_oriented l -> align_to_first_pose mixq r2q ref l = Ok l' ->
  exists t p rest first g, l = (t, p) :: rest /\ nth_error l' 0 = Some (t, first) /\ value_at pose_to_matrix (pose_between mixq) ref t g /\ pose_to_matrix first = g /\ displaced (imul g (iinv (pose_to_matrix p))) l l' /\ all_oriented l'.
Proof.
  intros O Or Ol H. unfold align_to_first_pose in H. destruct l as [|[t p] l]; [discriminate|]. destruct (at_time pose_to_matrix (interp_transform mixq) (advance None ref t) t) as [g| |] eqn:Ea; cbn [rbind] in H; try discriminate.
  pose proof (at_time_sound _ _ _ (raw_is mixq) ref None ref t g O (link_start ref) Ea) as V. apply (value_eq mixq unit_mix ref t g Or) in V. pose proof (value_motion mixq unit_mix ref t g Or V) as Mg. destruct (to_pose_back g Mg) as (B1 & B2 & _).
  destruct (recompute_is ((t, p) :: l) (matrix_to_pose r2q g) Ol B2) as (l2 & E & D & A). rewrite E in H. injection H as <-. exists t, p, l, (matrix_to_pose r2q g), g. rewrite B1 in D. repeat split; assumption.
Qed.
Lemma aligned_total ref t p l : in_order ref -> covered ref t -> exists l', align_to_first_pose mixq r2q ref ((t, p) :: l) = Ok l'.
Proof.
  intros O (a & b & Ha & Hb & H). unfold align_to_first_pose. assert (N : ref <> []) by (destruct ref; [destruct Ha|discriminate]). destruct (at_time_total pose_to_matrix (raw_between mixq) (interp_transform mixq) (raw_is mixq) ref None ref t N O (link_start ref) I) as (v & Ev & _).
  - intros c Hc. apply In_nth_error in Ha. destruct Ha as [i Hi]. pose proof (O 0%nat i c a Hc Hi ltac:(lia)). lra.
  - exists b. split; [exact Hb|lra].
  - rewrite Ev. cbn [rbind recompute_trajectory]. eexists. reflexivity.
Qed.
Lemma aligned_no_error ref l l' o : in_order ref -> all_oriented ref -> all_oriented l -> align_to_first_pose mixq r2q ref l = Ok l' -> compute_pose_errors mixq ref l' = Ok o -> nth_error (eo_abs o) 0 = Some iid.
Proof.
  intros O Or Ol H Ho. unfold align_to_first_pose in H. destruct l as [|[t p] l]; [discriminate|]. destruct (at_time pose_to_matrix (interp_transform mixq) (advance None ref t) t) as [g| |] eqn:Ea; cbn [rbind] in H; try discriminate.
  pose proof (at_time_sound _ _ _ (raw_is mixq) ref None ref t g O (link_start ref) Ea) as V. pose proof (value_eq mixq unit_mix ref t g Or V) as V'. pose proof (value_motion mixq unit_mix ref t g Or V') as Mg. destruct (to_pose_back g Mg) as (B1 & B2 & _). cbn [recompute_trajectory] in H. injection H as <-.
  assert (Cov : covered ref t). { destruct V as [(a & Ha & _)|(l1 & l2 & t1 & a & t2 & b & c & E & Ht & _)]; [exists (t, a), (t, a); cbn; repeat split; try assumption; lra|]. exists (t1, a), (t2, b). rewrite E. split; [apply in_or_app; right; left; reflexivity|]. split; [apply in_or_app; right; right; left; reflexivity|]. cbn. lra. }
  unfold compute_pose_errors, errors in Ho. destruct ref as [|f ref'] eqn:Eref; [discriminate|]. rewrite <- Eref in *. assert (N : ref <> []) by (rewrite Eref; discriminate). cbv zeta in Ho. rewrite inside_filter in Ho by exact N. cbn [filter] in Ho. assert (IR : in_range ref (t, matrix_to_pose r2q g) = true) by (apply in_range_covered; assumption). rewrite IR in Ho.
  cbn [errors_loop] in Ho. cbv zeta in Ho. rewrite Ea in Ho. cbn [rbind] in Ho. destruct (errors_loop _ _ _ _ _ _ _ _ _) as [r| |]; cbn [rbind] in Ho; try discriminate. injection Ho as <-. cbn [eo_abs fst nth_error]. rewrite B1. f_equal. apply ldiv_id; [apply motion_rigid; exact Mg|reflexivity].
Qed.

(* ---- length ---- *)
Lemma step_length a b : rigid a -> vnorm (tr (ldiv a b)) = vnorm (vsub (tr b) (tr a)).
Proof.
  intros H. unfold ldiv, imul, iinv. cbn [lin tr]. rewrite <- mapply_opp, <- mapply_add. fold (vsub (tr b) (tr a)). unfold vnorm. rewrite orth_dot by (apply orth_T; exact H). reflexivity.
Qed.
Lemma length_loop_path : forall l p, oriented p -> (forall e, In e l -> oriented e) -> length_loop (pose_to_matrix p) l = path_length (map mp_pos (p :: l)).
Proof.
  induction l as [|x l IH]; intros p Hp O; [reflexivity|]. cbn [length_loop map path_length]. cbv zeta. rewrite step_length by (apply motion_rigid, pose_motion; exact Hp). rewrite IH; [reflexivity|apply O; left; reflexivity|intros e He; apply O; right; exact He].
Qed.
Lemma length_is l : l <> [] -> (forall e, In e l -> oriented e) -> compute_trajectory_length l = Ok (path_length (map mp_pos l)).
Proof. intros N O. destruct l as [|p l]; [congruence|]. cbn [compute_trajectory_length]. rewrite length_loop_path; [reflexivity|apply O; left; reflexivity|intros e He; apply O; right; exact He]. Qed.
Lemma path_moved n : rigid n -> forall l, path_length (map (iapp n) l) = path_length l.
Proof. intros H. induction l as [|a l IH]; [reflexivity|]. destruct l as [|b l]; [reflexivity|]. cbn [map path_length] in *. rewrite rigid_dist by exact H. rewrite IH. reflexivity. Qed.
Lemma displaced_points n l l' : displaced n l l' -> map (fun e => mp_pos (snd e)) l' = map (iapp n) (map (fun e => mp_pos (snd e)) l).
Proof. induction 1 as [|e e' l l' [H1 H2] H IH]; [reflexivity|]. cbn [map]. rewrite IH. f_equal. assert (E : tr (pose_to_matrix (snd e')) = tr (imul n (pose_to_matrix (snd e)))) by (rewrite H2; reflexivity). exact E. Qed.
Lemma length_displaced n l l' : rigid n -> all_oriented l -> all_oriented l' -> displaced n l l' -> compute_trajectory_length (map snd l') = compute_trajectory_length (map snd l).
Proof.
  intros Hn O O' D. destruct l as [|e l]; [inversion D; reflexivity|]. destruct l' as [|e' l']; [inversion D|]. rewrite !length_is; try discriminate.
  - rewrite !map_map. rewrite (displaced_points n _ _ D), path_moved by exact Hn. reflexivity.
  - intros x Hx. apply in_map_iff in Hx. destruct Hx as (y & <- & Hy). apply O. exact Hy.
  - intros x Hx. apply in_map_iff in Hx. destruct Hx as (y & <- & Hy). apply O'. exact Hy.
Qed.
End Poses.
