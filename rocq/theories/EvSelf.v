(* Evaluation scripts: a trajectory against itself, and functions that meet the contracts. *)
From Coq Require Import Reals List ZArith Lra Lia Bool.
From Verif Require Import Base Interp Geo EgModel EgProofs MsModel RoModel RoSpec RoProofs BfModel EvModel EvSpec EvProofs EvPose EvMove EvInter EvAlign.
Import ListNotations.
Open Scope R_scope.

Lemma nth_error_combine_inv {X Y} : forall (l : list X) (m : list Y) i x y, nth_error (combine l m) i = Some (x, y) -> nth_error l i = Some x /\ nth_error m i = Some y.
Proof. induction l as [|a l IH]; intros [|b m] [|i] x y H; try discriminate; cbn in *; [injection H as <- <-; split; reflexivity|apply IH; exact H]. Qed.
Section Self.
Variable mixq : quat -> quat -> R -> quat.
Variable r2q : mat3 -> quat.
Hypothesis unit_mix : stays_unit mixq.
Hypothesis ends : keeps_ends mixq.
Hypothesis reads : reads_rotation r2q.
Lemma start_is a b : oriented a -> oriented b -> pose_between mixq a b 0 = pose_to_matrix a.
Proof.
  intros Ha Hb. unfold pose_between, pose_to_matrix, to_transform. destruct (ends (qnormalise (mp_ori a)) (qnormalise (mp_ori b)) (qnormalise_unit _ Ha) (qnormalise_unit _ Hb)) as [-> _]. f_equal. unfold between_points. destruct (mp_pos a) as [[? ?] ?], (mp_pos b) as [[? ?] ?]. unfold vadd, vscale. apply triple_eq; ring.
Qed.
Lemma increasing_order {A} (l : list (R * A)) : increasing l -> in_order l.
Proof. intros O i j a b Ha Hb Hij. destruct (Nat.eq_dec i j) as [->|Ne]; [rewrite Ha in Hb; injection Hb as <-; lra|]. pose proof (O i j a b Ha Hb ltac:(lia)). lra. Qed.
Lemma increasing_once {A} (l : list (R * A)) t a b : increasing l -> In (t, a) l -> In (t, b) l -> a = b.
Proof.
  intros O Ha Hb. apply In_nth_error in Ha. apply In_nth_error in Hb. destruct Ha as [i Hi], Hb as [j Hj]. destruct (lt_eq_lt_dec i j) as [[L|E]|L].
  - pose proof (O i j _ _ Hi Hj L) as C. cbn in C. lra.
  - subst j. rewrite Hi in Hj. injection Hj as ->. reflexivity.
  - pose proof (O j i _ _ Hj Hi L) as C. cbn in C. lra.
Qed.
(* at a recorded time there is one value *)
Lemma value_own l t a v : increasing l -> all_oriented l -> In (t, a) l -> value_at pose_to_matrix (pose_between mixq) l t v -> v = pose_to_matrix a.
Proof.
  intros O A Ha [(b & Hb & ->)|(l1 & l2 & t1 & x & t2 & y & c & E & Ht & Hc & ->)]; [rewrite (increasing_once l t a b O Ha Hb); reflexivity|]. assert (Hx : In (t1, x) l) by (rewrite E; apply in_or_app; right; left; reflexivity). assert (Hy : In (t2, y) l) by (rewrite E; apply in_or_app; right; right; left; reflexivity).
  destruct (Req_dec t t1) as [Q|Q].
  - assert (c = 0) by nra. subst c. rewrite Q in Ha. rewrite (increasing_once l t1 a x O Ha Hx). apply start_is; [apply (A _ Hx)|apply (A _ Hy)].
  - exfalso. apply In_nth_error in Ha. destruct Ha as [i Hi]. assert (Ex : nth_error l (length l1) = Some (t1, x)) by (rewrite E, nth_error_app2, Nat.sub_diag by lia; reflexivity). assert (Ey : nth_error l (S (length l1)) = Some (t2, y)) by (rewrite E, nth_error_app2 by lia; replace (S (length l1) - length l1)%nat with 1%nat by lia; reflexivity).
    destruct (le_lt_dec i (length l1)) as [L|L].
    + pose proof (increasing_order l O i (length l1) _ _ Hi Ex L) as C. cbn in C. lra.
    + pose proof (increasing_order l O (S (length l1)) i _ _ Ey Hi ltac:(lia)) as C. cbn in C. lra.
Qed.
(* what was recorded is without error *)
Lemma no_error gt l o : increasing gt -> all_oriented gt -> incl l gt -> compute_pose_errors mixq gt l = Ok o -> (forall e, In e (eo_abs o) -> e = iid) /\ (forall e, In e (eo_rel o) -> e = iid).
Proof.
  intros O A I H. destruct (pose_errors_report mixq unit_mix gt l o (increasing_order gt O) A H) as (f & gs & Hf & K). cbv zeta in K. destruct K as (K1 & K2 & K3 & _ & _ & K6 & K7). set (kept := filter f l) in *.
  assert (Own : forall i t x g, nth_error kept i = Some (t, x) -> nth_error gs i = Some g -> g = pose_to_matrix x /\ motion g). { intros i t x g Hk Hg. destruct (K6 i t x g Hk Hg) as [V _]. split; [|exact (value_motion mixq unit_mix gt t g A V)]. apply (value_own gt t x g O A); [|exact V]. apply I. apply nth_error_In in Hk. apply filter_In in Hk. apply Hk. }
  split; intros e He; apply In_nth_error in He; destruct He as [i Hi].
  - assert (Li : (i < length kept)%nat) by (rewrite <- K2; apply nth_error_Some; rewrite Hi; discriminate). destruct (nth_error kept i) as [[t x]|] eqn:Ek; [|apply nth_error_None in Ek; lia]. destruct (nth_error gs i) as [g|] eqn:Eg; [|apply nth_error_None in Eg; lia].
    destruct (K6 i t x g Ek Eg) as [_ E]. rewrite Hi in E. injection E as ->. destruct (Own i t x g Ek Eg) as [-> M]. apply imul_inv_l. apply motion_rigid. exact M.
  - assert (Li : (S i < length kept)%nat) by (assert (i < length (eo_rel o))%nat by (apply nth_error_Some; rewrite Hi; discriminate); lia). destruct (nth_error kept i) as [[tx x]|] eqn:Ek; [|apply nth_error_None in Ek; lia]. destruct (nth_error gs i) as [g|] eqn:Eg; [|apply nth_error_None in Eg; lia]. destruct (nth_error kept (S i)) as [[ty y]|] eqn:Ek'; [|apply nth_error_None in Ek'; lia]. destruct (nth_error gs (S i)) as [h|] eqn:Eg'; [|apply nth_error_None in Eg'; lia].
    pose proof (K7 i tx x g ty y h Ek Eg Ek' Eg') as E. rewrite Hi in E. injection E as ->. destruct (Own i tx x g Ek Eg) as [-> M]. destruct (Own (S i) ty y h Ek' Eg') as [-> M']. apply imul_inv_l. apply rigid_mul; [apply rigid_inv|]; apply motion_rigid; assumption.
Qed.
(* aligned to itself by gradient descent *)
Lemma self_pairs l iref al : increasing l -> all_oriented l -> interpolate_trajectory mixq r2q (map fst l) l = Ok iref -> (exists t first rest, iref = (t, first) :: rest /\ recompute_trajectory r2q l first = Ok al) ->
  forall e, In e (combine (map (fun x : R * mpose => mp_pos (snd x)) al) (map (fun x : R * mpose => mp_pos (snd x)) iref)) -> fst e = snd e.
Proof.
  intros O A Ei (t0 & first & rest & Er & Ea) e He. destruct (interpolate_sound mixq r2q unit_mix ends reads _ _ _ (increasing_order l O) A Ei) as [S1 S2].
  assert (P : forall i t x t' y, nth_error l i = Some (t, x) -> nth_error iref i = Some (t', y) -> pose_to_matrix y = pose_to_matrix x /\ oriented y). { intros i t x t' y Hl Hi. assert (t' = t) as ->. { assert (E1 : nth_error (map fst iref) i = Some t') by (rewrite nth_error_map, Hi; reflexivity). rewrite S1, nth_error_map, Hl in E1. cbn in E1. congruence. } destruct (S2 t y (nth_error_In _ _ Hi)) as [V Oy]. split; [|exact Oy]. apply (value_own l t x _ O A (nth_error_In _ _ Hl) V). }
  destruct l as [|[t x] l']; [discriminate|]. rewrite Er in *. destruct (P 0%nat t x t0 first eq_refl eq_refl) as [P0 Of]. destruct (recompute_is r2q reads ((t, x) :: l') first A Of) as (l2 & E2 & D & _). rewrite E2 in Ea. injection Ea as <-.
  assert (Mx : motion (pose_to_matrix x)) by (apply pose_motion, (A (t, x)); left; reflexivity). rewrite P0, imul_inv_r in D by (apply motion_rigid; exact Mx). pose proof (displaced_points _ _ _ D) as Pt. rewrite Pt in He. replace (map (iapp iid) (map (fun e0 : R * mpose => mp_pos (snd e0)) ((t, x) :: l'))) with (map (fun e0 : R * mpose => mp_pos (snd e0)) ((t, x) :: l')) in He by (rewrite map_map; apply map_ext; intros q; rewrite iapp_id; reflexivity).
  apply In_nth_error in He. destruct He as [i Hi]. destruct e as [a b]. cbn [fst snd]. apply nth_error_combine_inv in Hi. destruct Hi as [H1 H2]. rewrite nth_error_map in H1, H2. destruct (nth_error ((t, x) :: l') i) as [[t1 x1]|] eqn:E1; [|discriminate]. destruct (nth_error ((t0, first) :: rest) i) as [[t3 x3]|] eqn:E3; [|discriminate]. cbn in H1, H2. injection H1 as <-. injection H2 as <-. destruct (P i t1 x1 t3 x3 E1 E3) as [Pm _]. assert (Q : tr (pose_to_matrix x3) = tr (pose_to_matrix x1)) by (rewrite Pm; reflexivity). symmetry. exact Q.
Qed.
Lemma align_self p l : increasing l -> all_oriented l -> (2 <= length l)%nat -> 0 <= ap_max_r p -> 0 <= ap_max_t p ->
  (ap_iterations p = 1%nat -> align_trajectory mixq r2q p l l = UB) /\
  (ap_iterations p = 2%nat -> 0 < ap_max_r p -> exists l' Rc, align_trajectory mixq r2q p l l = Ok l' /\ rotation_vector (ap_max_r p, ap_max_r p, ap_max_r p) Rc /\ displaced (mkIso Rc (ap_max_t p, ap_max_t p, ap_max_t p)) l l').
Proof.
  intros O A Len Hr Ht. assert (Nl : l <> []) by (destruct l; [cbn in Len; lia|discriminate]).
  destruct (interpolate_total mixq r2q (map fst l) l O Len) as [iref Ei].
  { destruct l; [congruence|discriminate]. }
  { intros i j s t Hi Hj Hij. rewrite nth_error_map in Hi, Hj. destruct (nth_error l i) as [a|] eqn:Ea; [|discriminate]. destruct (nth_error l j) as [b|] eqn:Eb; [|discriminate]. injection Hi as <-. injection Hj as <-. exact (increasing_order l O i j a b Ea Eb Hij). }
  { intros t Hin. apply in_map_iff in Hin. destruct Hin as (a & <- & Ha). exists a, a. repeat split; try assumption; lra. }
  destruct (interpolate_sound mixq r2q unit_mix ends reads _ _ _ (increasing_order l O) A Ei) as [S1 S2]. destruct iref as [|[t0 first] rest] eqn:Eiref; [destruct l; [congruence|discriminate]|]. rewrite <- Eiref in *.
  destruct (S2 t0 first) as [V Of]; [rewrite Eiref; left; reflexivity|]. destruct l as [|[t x] l'] eqn:El; [congruence|]. rewrite <- El in *. assert (t0 = t) as -> by (rewrite Eiref, El in S1; cbn in S1; congruence).
  assert (E0 : pose_to_matrix first = pose_to_matrix x) by (apply (value_own l t x _ O A); [rewrite El; left; reflexivity|exact V]).
  assert (Mx : motion (pose_to_matrix x)) by (apply pose_motion, (A (t, x)); rewrite El; left; reflexivity).
  pose proof (recompute_is r2q reads l first A Of) as RI. rewrite El in RI. destruct RI as (al' & Ea & _). rewrite <- El in Ea.
  assert (Fit := self_pairs l iref ((t, first) :: al') O A Ei (ex_intro _ t (ex_intro _ first (ex_intro _ rest (conj Eiref Ea))))).
  assert (U : align_trajectory mixq r2q p l l = (let s := align_steps p (combine (map (fun e : R * mpose => mp_pos (snd e)) ((t, first) :: al')) (map (fun e : R * mpose => mp_pos (snd e)) iref)) (ap_iterations p) astate0 in
    match as_R s with None => UB | Some Rc => recompute_trajectory r2q l (matrix_to_pose r2q (imul (mkIso Rc (as_t s)) (pose_to_matrix first))) end)).
  { unfold align_trajectory. rewrite Ei. cbn [rbind]. rewrite Eiref at 1. rewrite Ea. cbn [rbind]. reflexivity. }
  set (pairs := combine _ _) in U. fold pairs in Fit. split.
  - intros I1. rewrite U, I1. cbn [align_steps]. rewrite fitting_step by assumption. reflexivity.
  - intros I2 Hr0. rewrite U, I2. cbv zeta. destruct (fitting_second p pairs Hr Ht Fit) as [F1 F2]. set (s := align_steps p pairs 2 astate0) in *. assert (SS : sound_state s) by (apply steps_sound, start_sound).
    assert (ER : as_R s = correction (as_r s)) by reflexivity. destruct (as_R s) as [Rc|] eqn:Ec.
    + destruct (SS Rc Ec) as [P Q]. rewrite F1 in Q. assert (Mn : motion (imul (mkIso Rc (as_t s)) (pose_to_matrix first))) by (apply motion_mul; [exact P|rewrite E0; exact Mx]). destruct (to_pose_back r2q reads _ Mn) as (B1 & B2 & _). set (fp := matrix_to_pose r2q (imul (mkIso Rc (as_t s)) (pose_to_matrix first))) in *. clearbody fp.
      pose proof (recompute_is r2q reads l _ A B2) as RI. rewrite El in RI. destruct RI as (l2 & E2 & D & _). rewrite <- El in E2, D. exists ((t, fp) :: l2), Rc. split; [exact E2|]. split; [exact Q|]. rewrite B1, E0, <- imul_assoc, imul_inv_r, imul_id_r, F2 in D by (apply motion_rigid; exact Mx). exact D.
    + exfalso. rewrite F1 in ER. unfold correction in ER. destruct (Req_EM_T (vnorm (ap_max_r p, ap_max_r p, ap_max_r p)) 0) as [E|]; [|discriminate]. apply norm0 in E. unfold v0 in E. injection E as E _ _. lra.
Qed.
End Self.

(* ---- the contracts can be met ---- *)
Definition mix_turn (p q : quat) (c : R) : quat := qnormalise (slerp (/ 2) c p q).
Lemma qdot_along g p q : qunit g -> qdot (qmul g p) (qmul g q) = qdot p q.
Proof. intros U. assert (E : qdot (qmul g p) (qmul g q) = qdot g g * qdot p q) by (destruct g as [[[a b] c] d], p as [[[e f] h] i], q as [[[j k] l] m]; unfold qdot, qmul; ring). rewrite E, U. ring. Qed.
Lemma qlin_along g x y p q : qlin x y (qmul g p) (qmul g q) = qmul g (qlin x y p q).
Proof. destruct g as [[[a b] c] d], p as [[[e f] h] i], q as [[[j k] l] m]. unfold qlin, qmul. apply quad_eq; ring. Qed.
Lemma slerp_along e g p q c : qunit g -> slerp e c (qmul g p) (qmul g q) = qmul g (slerp e c p q).
Proof. intros U. unfold slerp. rewrite qdot_along by exact U. destruct (Rle_dec (1 - e) (Rabs (qdot p q))); apply qlin_along. Qed.
Lemma slerp_oriented p q c : qunit p -> qunit q -> 0 <= c <= 1 -> qdot (slerp (/ 2) c p q) (slerp (/ 2) c p q) <> 0.
Proof.
  intros Up Uq Hc. destruct (Rlt_dec (Rabs (qdot p q)) (1 - / 2)) as [L|L]; [rewrite (slerp_unit (/ 2) c p q) by (try assumption; lra); lra|]. unfold slerp. destruct (Rle_dec (1 - / 2) (Rabs (qdot p q))) as [_|N]; [|lra]. rewrite qdot_lin, Up, Uq. set (d := qdot p q) in *. apply Rgt_not_eq. assert (K : 0 <= c * (1 - c)) by (apply Rmult_le_pos; lra). assert (K2 : c * (1 - c) <= / 4) by (pose proof (Rle_0_sqr (c - / 2)); unfold Rsqr in *; nra). destruct (Rlt_dec d 0) as [D|D].
  - rewrite Rabs_left in L by exact D. assert (0 <= c * (1 - c) * (- d - / 2)) by (apply Rmult_le_pos; lra). nra.
  - rewrite Rabs_pos_eq in L by lra. assert (0 <= c * (1 - c) * (d - / 2)) by (apply Rmult_le_pos; lra). nra.
Qed.
Lemma mix_turn_contracts : stays_unit mix_turn /\ keeps_ends mix_turn /\ turns_along mix_turn.
Proof.
  split; [|split].
  - intros p q c Up Uq Hc. apply qnormalise_unit. apply slerp_oriented; assumption.
  - intros p q Up Uq. unfold mix_turn. destruct (slerp_ends (/ 2) p q ltac:(lra) Up Uq) as [E0 E1]. rewrite E0, (qnormalise_id p Up). split; [reflexivity|]. assert (Un : qunit (qneg q)) by (unfold qunit in *; rewrite <- Uq; destruct q as [[[a b] c] d]; unfold qneg, qdot; ring). destruct E1 as [E1|E1]; rewrite E1; [rewrite (qnormalise_id q Uq); reflexivity|rewrite (qnormalise_id _ Un); apply qmat_neg].
  - intros g p q c Ug Up Uq Hc. unfold mix_turn. rewrite slerp_along by exact Ug. apply qnormalise_mul; [exact Ug|]. apply slerp_oriented; assumption.
Qed.
Lemma quat_of_reads : reads_rotation quat_of.
Proof. intros q U. destruct (quat_of_spec (qmat q) (qmat_proper q U)) as [A B]. split; assumption. Qed.
