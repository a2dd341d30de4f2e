(* Reports of the evaluation scripts: frames, alignment, recorded poses, twists. *)
From Coq Require Import Reals List ZArith Lra Lia Bool.
From Verif Require Import Base Interp Geo EgModel EgProofs MsModel RoModel RoSpec RcModel RoProofs BfModel EvModel EvSpec EvProofs EvPose EvMove EvInter EvAlign EvSelf EvTrack EvData EvDataSpec EvDataProofs.
Import ListNotations.
Open Scope R_scope.

Section Report.
Variable mixq : quat -> quat -> R -> quat.
Variable r2q : mat3 -> quat.
Variable r2a : mat3 -> vec3 * R.
Variable q2a : quat -> vec3 * R.
Hypothesis unit_mix : stays_unit mixq.
Hypothesis ends : keeps_ends mixq.
Hypothesis along : turns_along mixq.
Hypothesis reads : reads_rotation r2q.
Hypothesis axis : reads_axis r2a.
Hypothesis axisq : reads_quaternion q2a.

(* ---- an aligned estimate: its frame does not matter ---- *)
Lemma stamped_moved t q l : stamped od_pose (map (moved_msg t q) l) = moved_all t q (stamped od_pose l).
Proof. unfold stamped, moved_all. rewrite !map_map. reflexivity. Qed.
Lemma inside_moved t q gt (l : list (R * mpose)) : inside gt (moved_all t q l) = moved_all t q (inside (A := mpose) gt l).
Proof. unfold inside, moved_all. destruct gt as [|f gt]; [reflexivity|]. rewrite filter_map. reflexivity. Qed.
Lemma recompute_loop_moved t q : qunit q -> forall l prev al, rigid prev -> all_oriented l -> recompute_loop r2q (imul (to_transform t q) prev) al (moved_all t q l) = recompute_loop r2q prev al l.
Proof.
  intros U. induction l as [|[s p] l IH]; intros prev al Hp O; [reflexivity|]. cbn [moved_all map recompute_loop fst snd]. cbv zeta. assert (Op : oriented p) by (apply (O (s, p)); left; reflexivity). rewrite moved_matrix by assumption. rewrite ldiv_left by (try assumption; apply rigid_tt; exact U). f_equal. apply IH; [apply motion_rigid, pose_motion; exact Op|intros e He; apply O; right; exact He].
Qed.
Lemma recompute_moved t q l first : qunit q -> all_oriented l -> recompute_trajectory r2q (moved_all t q l) first = recompute_trajectory r2q l first.
Proof.
  intros U O. destruct l as [|[s p] l]; [reflexivity|]. cbn [moved_all map recompute_trajectory fst snd]. assert (Op : oriented p) by (apply (O (s, p)); left; reflexivity). rewrite moved_matrix by assumption. f_equal. f_equal. apply recompute_loop_moved; [exact U|apply motion_rigid, pose_motion; exact Op|intros e He; apply O; right; exact He].
Qed.
Lemma moved_stamps t q l : map fst (moved_all t q l) = map fst l. Proof. unfold moved_all. rewrite map_map. reflexivity. Qed.
Lemma align_moved first fit p gt t q l : first || fit = true -> qunit q -> all_oriented l -> align mixq r2q first fit p gt (moved_all t q l) = align mixq r2q first fit p gt l.
Proof.
  intros B U O. unfold align. destruct first; [|destruct fit; [|discriminate]].
  - unfold align_to_first_pose. destruct l as [|[s x] l]; [reflexivity|]. cbn [moved_all map fst snd]. destruct (at_time _ _ _ _); cbn [rbind]; try reflexivity. apply (recompute_moved t q ((s, x) :: l)); assumption.
  - unfold align_trajectory. rewrite moved_stamps. destruct (interpolate_trajectory _ _ _ _) as [iref| |]; cbn [rbind]; try reflexivity. destruct iref as [|[s f] iref]; [reflexivity|]. rewrite recompute_moved by assumption. destruct (recompute_trajectory r2q l f); cbn [rbind]; try reflexivity. cbv zeta. destruct (as_R _); [|reflexivity]. apply recompute_moved; assumption.
Qed.
Lemma inside_oriented gt (l : list (R * mpose)) : all_oriented l -> all_oriented (inside (A := mpose) gt l).
Proof. intros O e He. unfold inside in He. destruct gt; [destruct He|]. apply filter_In in He. apply O. apply He. Qed.
Theorem aligned_frame_free b first fit p gt odoms odoms' : first || fit = true -> (forall msgs, In msgs odoms -> posed msgs) -> Forall2 same_run odoms odoms' ->
  compute_pose_data mixq r2q r2a q2a b first fit p gt odoms' = compute_pose_data mixq r2q r2a q2a b first fit p gt odoms.
Proof.
  intros B P F. unfold compute_pose_data. destruct (first && fit); [reflexivity|]. destruct (time_filter b (stamped od_pose gt)) as [g| |]; cbn [rbind]; try reflexivity. destruct (make_track q2a g); cbn [rbind]; try reflexivity.
  assert (E : map_res (pose_entry_of mixq r2q r2a q2a first fit p g) odoms' = map_res (pose_entry_of mixq r2q r2a q2a first fit p g) odoms); [|rewrite E; reflexivity].
  induction F as [|msgs msgs' odoms odoms' (t & q & U & ->) F IH]; [reflexivity|]. cbn [map_res]. rewrite IH by (intros x Hx; apply P; right; exact Hx). assert (E : pose_entry_of mixq r2q r2a q2a first fit p g (map (moved_msg t q) msgs) = pose_entry_of mixq r2q r2a q2a first fit p g msgs); [|rewrite E; reflexivity].
  unfold pose_entry_of. destruct g as [|g0 g]; [reflexivity|]. rewrite stamped_moved, inside_moved, align_moved; [reflexivity|exact B|exact U|]. apply inside_oriented, posed_oriented, P. left. reflexivity.
Qed.

(* ---- alignment does not touch the relative errors and the length ---- *)
Lemma make_track_ok l tk : make_track q2a l = Ok tk -> compute_trajectory_length (map snd l) = Ok (tk_length tk).
Proof. unfold make_track. destruct (compute_trajectory_length _); cbn [rbind]; intros H; try discriminate. injection H as <-. reflexivity. Qed.
Theorem alignment_keeps b first fit p gt odoms d d' : 0 <= ap_max_r p -> 0 <= ap_max_t p -> ordered gt -> posed gt -> (forall msgs, In msgs odoms -> posed msgs) ->
  compute_pose_data mixq r2q r2a q2a b false false p gt odoms = Ok d -> compute_pose_data mixq r2q r2a q2a b first fit p gt odoms = Ok d' ->
  pr_gt d' = pr_gt d /\ forall i e e', nth_error (pr_entries d) i = Some e -> nth_error (pr_entries d') i = Some e' -> pe_rpe e' = pe_rpe e /\ tk_length (pe_track e') = tk_length (pe_track e) /\ es_t (pe_ape e') = es_t (pe_ape e).
Proof.
  intros Hr Ht O Pg Po H H'. destruct (data_parts _ _ _ _ _ _ _ _ _ _ _ H) as (_ & ref & tk & es & Rf & Et & Ee & ->). destruct (data_parts _ _ _ _ _ _ _ _ _ _ _ H') as (B & ref' & tk' & es' & Rf' & Et' & Ee' & ->). assert (ref' = ref) as -> by apply (part_unique _ _ _ _ Rf' Rf). cbn [pr_gt pr_entries]. split; [congruence|]. intros i e e' He He'.
  destruct (map_res_nth _ _ _ Ee) as [L Nth]. destruct (map_res_nth _ _ _ Ee') as [L' Nth']. destruct (nth_error odoms i) as [msgs|] eqn:Em; [|apply nth_error_None in Em; assert (X : (i < length es)%nat) by (apply nth_error_Some; congruence); lia]. destruct (Nth i msgs Em) as (x & Hx & Ex). rewrite He in Hx. injection Hx as <-. destruct (Nth' i msgs Em) as (x & Hx & Ex'). rewrite He' in Hx. injection Hx as <-.
  assert (Or := reference_in_order b gt ref O Rf). assert (Pr := posed_part _ _ _ Rf Pg). assert (Pm := Po msgs (nth_error_In _ _ Em)). assert (Ar := posed_oriented ref Pr). unfold pose_entry_of in Ex, Ex'. assert (N : ref <> []) by (intros ->; discriminate). destruct (stamped od_pose ref) as [|r0 rs] eqn:Es; [discriminate|]. rewrite <- Es in *. clear r0 rs Es.
  destruct (inside_is od_pose ref msgs N Or) as (kept & K & Ei). rewrite Ei in Ex, Ex'. assert (Pk := posed_part _ _ _ K Pm). cbn [align] in Ex. cbn [rbind] in Ex. destruct (align mixq r2q first fit p (stamped od_pose ref) (stamped od_pose kept)) as [l| |] eqn:El; cbn [rbind] in Ex'; try discriminate.
  destruct (align_places mixq r2q unit_mix ends reads first fit p ref kept l Hr Ht N Or Pr Pk B El) as (n & (D & A & M) & _). destruct (make_track q2a (stamped od_pose kept)) as [tk1| |] eqn:E1; cbn [rbind] in Ex; try discriminate. destruct (make_track q2a l) as [tk2| |] eqn:E2; cbn [rbind] in Ex'; try discriminate.
  destruct (compute_pose_errors mixq (stamped od_pose ref) (stamped od_pose kept)) as [o| |] eqn:Eo; cbn [rbind] in Ex; try discriminate. destruct (relative_displaced mixq unit_mix n _ _ l o (motion_rigid _ M) Ar (posed_oriented kept Pk) D Eo) as [a Ea]. rewrite Ea in Ex'. cbn [rbind split_poses eo_abs eo_rel eo_abs_t eo_rel_t] in Ex, Ex'. injection Ex as <-. injection Ex' as <-. cbn [pe_rpe pe_track pe_ape es_t make_errs]. split; [reflexivity|]. split; [|reflexivity].
  apply make_track_ok in E1. apply make_track_ok in E2. pose proof (length_displaced n _ _ (motion_rigid _ M) (posed_oriented kept Pk) A D) as EL. congruence.
Qed.

(* ---- reference and estimates moved together ---- *)
Lemma filter_moved t q b (l : list (R * mpose)) : time_filter b (moved_all t q l) = rmap (moved_all t q) (time_filter b l).
Proof. destruct b as [[s d]|]; [|reflexivity]. destruct l as [|e l]; [reflexivity|]. cbn [time_filter]. unfold moved_all at 1. cbn [map]. cbv zeta. cbn [fst rmap]. f_equal. unfold moved_all. change ((fst e, moved t q (snd e)) :: map (fun e0 => (fst e0, moved t q (snd e0))) l) with (map (fun e0 => (fst e0, moved t q (snd e0))) (e :: l)). rewrite filter_map. reflexivity. Qed.
Lemma inside_both t q (gt l : list (R * mpose)) : inside (moved_all t q gt) (moved_all t q l) = moved_all t q (inside gt l).
Proof.
  unfold inside. destruct gt as [|f gt]; [reflexivity|]. cbn [moved_all map]. assert (E : fst (last (moved_all t q (f :: gt)) (fst f, moved t q (snd f))) = fst (last (f :: gt) f)).
  { assert (X : forall l d, fst (last (moved_all t q l) (fst d, moved t q (snd d))) = fst (last l d)); [|apply X]. clear. intros l d. unfold moved_all. induction l as [|a l IH]; [reflexivity|]. cbn [map last]. destruct l as [|b l]; [reflexivity|]. exact IH. }
  unfold moved_all in E. cbn [map] in E. rewrite E. unfold moved_all. rewrite filter_map. reflexivity.
Qed.
Lemma length_moved t q (l : list (R * mpose)) : qunit q -> all_oriented l -> compute_trajectory_length (map snd (moved_all t q l)) = compute_trajectory_length (map snd l).
Proof.
  intros U O. apply (length_displaced (to_transform t q)); [apply rigid_tt; exact U|exact O| |apply displaced_moved; assumption]. intros e He. apply in_map_iff in He. destruct He as (x & <- & Hx). cbn [snd]. apply moved_oriented; [exact U|apply O; exact Hx].
Qed.
Lemma entry_both t q p g msgs e : qunit q -> all_oriented g -> posed msgs -> pose_entry_of mixq r2q r2a q2a false false p g msgs = Ok e ->
  exists e', pose_entry_of mixq r2q r2a q2a false false p (moved_all t q g) (map (moved_msg t q) msgs) = Ok e' /\ pe_ape e' = pe_ape e /\ pe_rpe e' = pe_rpe e /\ tk_length (pe_track e') = tk_length (pe_track e).
Proof.
  intros U Og P H. unfold pose_entry_of in *. destruct g as [|g0 g1] eqn:Eg; [discriminate|]. rewrite <- Eg in *. assert (N : exists a l, moved_all t q g = a :: l) by (rewrite Eg; eexists; eexists; reflexivity). destruct N as (a & l & N). rewrite N. rewrite <- N. clear a l N Eg g0 g1. rewrite stamped_moved, inside_both. cbn [align rbind] in *. set (k := inside g (stamped od_pose msgs)) in *. assert (Ok' : all_oriented k) by (apply inside_oriented, posed_oriented; exact P).
  destruct (make_track q2a k) as [tk| |] eqn:Et; cbn [rbind] in H; try discriminate. apply make_track_ok in Et. unfold make_track. rewrite length_moved, Et by assumption. cbn [rbind]. rewrite (errors_together mixq unit_mix along) by assumption. destruct (compute_pose_errors mixq g k) as [o| |]; cbn [rbind] in *; try discriminate. cbn [split_poses] in *. injection H as <-. eexists. split; [reflexivity|]. repeat split.
Qed.
Theorem moved_together b p gt odoms d t q : qunit q -> posed gt -> (forall msgs, In msgs odoms -> posed msgs) -> compute_pose_data mixq r2q r2a q2a b false false p gt odoms = Ok d ->
  exists d', compute_pose_data mixq r2q r2a q2a b false false p (map (moved_msg t q) gt) (map (map (moved_msg t q)) odoms) = Ok d' /\ tk_length (pr_gt d') = tk_length (pr_gt d) /\
    Forall2 (fun e e' => pe_ape e' = pe_ape e /\ pe_rpe e' = pe_rpe e /\ tk_length (pe_track e') = tk_length (pe_track e)) (pr_entries d) (pr_entries d').
Proof.
  intros U Pg Po H. destruct (data_parts _ _ _ _ _ _ _ _ _ _ _ H) as (_ & ref & tk & es & Rf & Et & Ee & ->). unfold compute_pose_data. cbn [andb]. rewrite stamped_moved, filter_moved. destruct (filtered_is od_pose b gt) as [(-> & _ & E)|(ref' & E & Rf')].
  - destruct Rf as (f & _ & ->). discriminate.
  - rewrite (part_unique _ _ _ _ Rf' Rf) in E. rewrite E. cbn [rmap rbind]. assert (Ar := posed_oriented ref (posed_part _ _ _ Rf Pg)). apply make_track_ok in Et. unfold make_track at 1. rewrite length_moved, Et by assumption. cbn [rbind].
    assert (X : exists es', map_res (pose_entry_of mixq r2q r2a q2a false false p (moved_all t q (stamped od_pose ref))) (map (map (moved_msg t q)) odoms) = Ok es' /\ Forall2 (fun e e' => pe_ape e' = pe_ape e /\ pe_rpe e' = pe_rpe e /\ tk_length (pe_track e') = tk_length (pe_track e)) es es').
    { clear H E Et. revert es Ee. induction odoms as [|msgs odoms IH]; intros es Ee; cbn [map_res map] in *; [injection Ee as <-; exists []; split; [reflexivity|constructor]|]. destruct (pose_entry_of _ _ _ _ _ _ _ _ msgs) as [e| |] eqn:E1; cbn [rbind] in Ee; try discriminate. destruct (map_res _ odoms) as [es1| |]; cbn [rbind] in Ee; try discriminate. injection Ee as <-.
      destruct (entry_both t q p _ msgs e U Ar (Po msgs (or_introl eq_refl)) E1) as (e' & E1' & C). destruct (IH (fun x Hx => Po x (or_intror Hx)) es1 eq_refl) as (es' & Es' & F). rewrite E1', Es'. cbn [rbind]. exists (e' :: es'). split; [reflexivity|]. constructor; assumption. }
    destruct X as (es' & Es' & F). rewrite Es'. cbn [rbind]. eexists. split; [reflexivity|]. cbn [pr_gt pr_entries tk_length]. split; [reflexivity|exact F].
Qed.

(* ---- an estimate made of recorded poses ---- *)
Lemma strictly_ordered l : strictly l -> ordered l. Proof. apply increasing_order. Qed.
Lemma part_strictly P l k : part_of P l k -> strictly l -> strictly k.
Proof.
  intros (f & _ & ->) O. unfold strictly, stamped in *. induction l as [|m l IH]; intros i j a b' Ha Hb L; [destruct i; discriminate|]. cbn [filter] in Ha, Hb. assert (O' : increasing (map (fun m => (stamp_of m, od_pose m)) l)) by (intros i' j' x y Hx Hy L'; apply (O (S i') (S j') x y Hx Hy); lia). destruct (f m) eqn:Ef; [|apply (IH O' i j a b' Ha Hb L)].
  cbn [map] in Ha, Hb. destruct i as [|i], j as [|j]; cbn [nth_error] in Ha, Hb; try lia; [|apply (IH O' i j a b' Ha Hb ltac:(lia))].
  injection Ha as <-. rewrite nth_error_map in Hb. destruct (nth_error (filter f l) j) as [y|] eqn:Ey; [|discriminate]. injection Hb as <-. apply nth_error_In in Ey. apply filter_In in Ey. destruct Ey as [Ey _]. apply In_nth_error in Ey. destruct Ey as [k Hk]. apply (O 0%nat (S k) (stamp_of m, od_pose m) (stamp_of y, od_pose y)); [reflexivity|cbn; rewrite nth_error_map, Hk; reflexivity|lia].
Qed.
Lemma dist_self v : dist v v = 0.
Proof. unfold dist. replace (vsub v v) with v0 by (destruct v as [[? ?] ?]; unfold v0, vsub, vadd, vopp; apply triple_eq; ring). apply norm_v0. Qed.
Lemma all_zero (l : list R) (n : nat) : length l = n -> (forall k, (k < n)%nat -> nth_error l k = Some 0) -> forall x, In x l -> x = 0.
Proof. intros L H x Hx. apply In_nth_error in Hx. destruct Hx as [k Hk]. assert (k < n)%nat by (rewrite <- L; apply nth_error_Some; congruence). rewrite H in Hk by assumption. congruence. Qed.
Theorem recorded_no_error b first p gt odoms d i msgs e : 0 <= ap_max_r p -> 0 <= ap_max_t p -> strictly gt -> posed gt -> (forall l, In l odoms -> posed l) -> compute_pose_data mixq r2q r2a q2a b first false p gt odoms = Ok d ->
  nth_error odoms i = Some msgs -> nth_error (pr_entries d) i = Some e -> (forall m, In m msgs -> exists m', In m' gt /\ stamp_of m' = stamp_of m /\ od_pose m' = od_pose m /\ wanted b (stamped od_pose gt) (stamp_of m)) ->
  es_rmse1 (pe_ape e) = Some 0 /\ es_rmse2 (pe_ape e) = Some 0 /\ (forall x, In x (es_norm1 (pe_rpe e)) -> x = 0) /\ (forall x, In x (es_norm2 (pe_rpe e)) -> x = 0) /\
  es_rmse1 (pe_rpe e) = (if Nat.leb 2 (length (es_t (pe_ape e))) then Some 0 else None).
Proof.
  intros Hr Ht O Pg Po H Hi He Rec. destruct (pose_report_says mixq r2q r2a q2a unit_mix ends reads axis axisq b first false p gt odoms d Hr Ht (strictly_ordered _ O) Pg Po H) as (ref & Rf & _ & _ & _ & _ & S). destruct (S i msgs Hi) as (e1 & kept & n & He1 & K & Ne & Mn & Says & N1 & N2). rewrite He in He1. injection He1 as <-. clear S.
  assert (Sr := part_strictly _ _ _ Rf O). assert (Pr := posed_part _ _ _ Rf Pg). assert (Ar := posed_oriented ref Pr). assert (Pk := posed_part _ _ _ K (Po msgs (nth_error_In _ _ Hi))).
  assert (Own : forall m g, In m kept -> value_at pose_to_matrix (pose_between mixq) (stamped od_pose ref) (stamp_of m) g -> g = matrix_of m).
  { intros m g Hm V. destruct (Rec m (proj1 (proj1 (part_in _ _ _ m K) Hm))) as (m' & H1 & H2 & H3 & H4). assert (Hr' : In m' ref) by (apply (part_in _ _ _ m' Rf); split; [exact H1|rewrite H2; exact H4]). unfold matrix_of. rewrite <- H3. apply (value_own mixq ends _ (stamp_of m) (od_pose m') g Sr Ar); [|exact V]. apply stamped_in. exists m'. rewrite H2. split; [exact Hr'|reflexivity]. }
  assert (Nn : n = iid). { destruct first; [|apply N1; reflexivity]. destruct (N2 eq_refl) as (m & rest & g & -> & V & E). pose proof (Own m g (or_introl eq_refl) V) as ->. assert (Rm : rigid (matrix_of m)) by (apply motion_rigid, pose_motion, Pk; left; reflexivity). rewrite <- (imul_id_r n). rewrite <- (imul_inv_r (matrix_of m) Rm), imul_assoc, E. reflexivity. }
  subst n. destruct Says as (gs & Lg & T1 & T2 & L1 & L2 & L3 & L4 & A & B & R1 & R2 & R3 & R4 & _).
  assert (G : forall k m g, nth_error kept k = Some m -> nth_error gs k = Some g -> g = matrix_of m /\ motion g). { intros k m g Hm Hg. destruct (A k m g Hm Hg) as [V _]. pose proof (Own m g (nth_error_In _ _ Hm) V) as E. split; [exact E|]. rewrite E. apply pose_motion, Pk. apply nth_error_In in Hm. exact Hm. }
  assert (At : forall k, (k < length kept)%nat -> exists m g, nth_error kept k = Some m /\ nth_error gs k = Some g). { intros k Hk. destruct (nth_error kept k) as [m|] eqn:E1; [|apply nth_error_None in E1; lia]. destruct (nth_error gs k) as [g|] eqn:E2; [|apply nth_error_None in E2; lia]. exists m, g. split; reflexivity. }
  assert (Z1 : forall x, In x (es_norm1 (pe_ape e)) -> x = 0). { apply (all_zero _ (length kept) L1). intros k Hk. destruct (At k Hk) as (m & g & Hm & Hg). destruct (A k m g Hm Hg) as (_ & E & _). rewrite E. destruct (G k m g Hm Hg) as [-> _]. rewrite imul_id_l, dist_self. reflexivity. }
  assert (Z2 : forall x, In x (es_norm2 (pe_ape e)) -> x = 0). { apply (all_zero _ (length kept) L2). intros k Hk. destruct (At k Hk) as (m & g & Hm & Hg). destruct (A k m g Hm Hg) as (_ & _ & (a & Ea & T) & _). rewrite Ea. f_equal. destruct (G k m g Hm Hg) as [-> [Mo _]]. apply (turn_angle_unique _ a 0 T). cbn [lin iid]. rewrite mmul_I_l. destruct Mo as [Mo _]. rewrite Mo. apply turn_angle_zero; [apply proper_I|reflexivity]. }
  assert (Z3 : forall x, In x (es_norm1 (pe_rpe e)) -> x = 0). { apply (all_zero _ (pred (length kept)) L3). intros k Hk. destruct (At k ltac:(lia)) as (m & g & Hm & Hg). destruct (At (S k) ltac:(lia)) as (m' & g' & Hm' & Hg'). destruct (B k m g m' g' Hm Hg Hm' Hg') as (E & _). rewrite E. destruct (G k m g Hm Hg) as [-> _]. destruct (G (S k) m' g' Hm' Hg') as [-> _]. rewrite dist_self. reflexivity. }
  assert (Z4 : forall x, In x (es_norm2 (pe_rpe e)) -> x = 0). { apply (all_zero _ (pred (length kept)) L4). intros k Hk. destruct (At k ltac:(lia)) as (m & g & Hm & Hg). destruct (At (S k) ltac:(lia)) as (m' & g' & Hm' & Hg'). destruct (B k m g m' g' Hm Hg Hm' Hg') as (_ & a & Ea & T). rewrite Ea. f_equal. destruct (G k m g Hm Hg) as [-> M1]. destruct (G (S k) m' g' Hm' Hg') as [-> M2]. apply (turn_angle_unique _ a 0 T). pose proof (motion_ldiv _ _ M1 M2) as [[Mo _] _]. unfold ldiv in Mo. rewrite Mo. apply turn_angle_zero; [apply proper_I|reflexivity]. }
  assert (Root : forall l r, root_mean_square l r -> l <> [] -> (forall x, In x l -> x = 0) -> r = Some 0). { intros l [r|] Rr Nl Z; [|cbn in Rr; congruence]. f_equal. apply (root_zero l r Rr). exact Z. }
  assert (NE : forall l : list R, length l = length kept -> l <> []) by (intros l Ll ->; destruct kept; [congruence|discriminate]).
  split; [apply (Root _ _ R1 (NE _ L1) Z1)|]. split; [apply (Root _ _ R2 (NE _ L2) Z2)|]. split; [exact Z3|]. split; [exact Z4|]. rewrite T1, map_length. destruct (Nat.leb 2 (length kept)) eqn:E2.
  - apply Nat.leb_le in E2. apply (Root _ _ R3); [|exact Z3]. intros E. rewrite E in L3. cbn in L3. lia.
  - apply Nat.leb_gt in E2. destruct (es_rmse1 (pe_rpe e)) as [r|]; [|reflexivity]. destruct R3 as (N3 & _). exfalso. apply N3. apply length_zero_iff_nil. lia.
Qed.
End Report.

(* ---- twists ---- *)
Lemma dist_sym a b : dist a b = dist b a.
Proof. unfold dist, vnorm. f_equal. destruct a as [[? ?] ?], b as [[? ?] ?]. unfold vdot, vsub, vadd, vopp. ring. Qed.
Lemma vector_part (f : odom -> vec3) ref kept o : ordered ref -> (forall m, In m kept -> covered (stamped od_pose ref) (stamp_of m)) -> compute_vector_errors (stamped f ref) (stamped f kept) = Ok o ->
  exists gs, length gs = length kept /\ eo_abs_t o = map stamp_of kept /\ eo_rel_t o = tl (map stamp_of kept) /\ length (eo_abs o) = length kept /\ length (eo_rel o) = pred (length kept) /\
    (forall k m v, nth_error kept k = Some m -> nth_error gs k = Some v -> value_at (fun x => x) between_points (stamped f ref) (stamp_of m) v /\ nth_error (eo_abs o) k = Some (vsub (f m) v)) /\
    (forall k m v m' v', nth_error kept k = Some m -> nth_error gs k = Some v -> nth_error kept (S k) = Some m' -> nth_error gs (S k) = Some v' -> nth_error (eo_rel o) k = Some (vsub (vsub v' v) (vsub (f m') (f m)))).
Proof.
  intros O C H. destruct (vector_errors_report _ _ o (stamped_order od_pose f ref O) H) as (g & gs & Hg & K). cbv zeta in K. assert (F : filter g (stamped f kept) = stamped f kept). { apply filter_all. intros e He. apply Hg; [exact He|]. apply stamped_in in He. destruct He as (m & Hm & ->). cbn [fst]. apply (stamped_covered od_pose). apply C. exact Hm. }
  rewrite F in K. destruct K as (L1 & L2 & L3 & T1 & T2 & A & B). assert (Ls : length (stamped f kept) = length kept) by apply map_length. assert (St : map fst (stamped f kept) = map stamp_of kept) by (unfold stamped; rewrite map_map; reflexivity). rewrite Ls in *. rewrite St in *.
  assert (Nth : forall k m, nth_error kept k = Some m -> nth_error (stamped f kept) k = Some (stamp_of m, f m)) by (intros k m Hm; unfold stamped; rewrite nth_error_map, Hm; reflexivity).
  exists gs. split; [exact L1|]. split; [exact T1|]. split; [exact T2|]. split; [exact L2|]. split; [exact L3|]. split.
  - intros k m v Hm Hv. apply (A k (stamp_of m) (f m) v (Nth k m Hm) Hv).
  - intros k m v m' v' Hm Hv Hm' Hv'. apply (B k (stamp_of m) (f m) v (stamp_of m') (f m') v' (Nth k m Hm) Hv (Nth _ m' Hm') Hv').
Qed.
Lemma parts_stamped {X} (f : vec3 * vec3 -> X) l : map (fun e => (fst e, f (snd e))) (stamped (fun m => (od_lin m, od_ang m)) l) = stamped (fun m => f (od_lin m, od_ang m)) l.
Proof. apply stamped_map. Qed.
Lemma twist_entry_parts ref msgs : ref <> [] -> ordered ref -> exists kept, in_reference ref msgs kept /\ twist_entry_of (stamped (fun m => (od_lin m, od_ang m)) ref) msgs =
  rbind (compute_vector_errors (stamped od_lin ref) (stamped od_lin kept)) (fun ol => rbind (compute_vector_errors (stamped od_ang ref) (stamped od_ang kept)) (fun oa =>
    Ok (mkTE (map stamp_of kept) (map od_lin kept) (map od_ang kept) (map (fun m => vnorm (od_lin m)) kept) (map (fun m => vnorm (od_ang m)) kept)
        (make_errs (eo_abs_t ol) (eo_abs ol) (eo_abs oa)) (make_errs (eo_rel_t ol) (eo_rel ol) (eo_rel oa))))).
Proof.
  intros N O. destruct (inside_is (fun m => (od_lin m, od_ang m)) ref msgs N O) as (kept & K & E). exists kept. split; [exact K|]. unfold twist_entry_of. destruct (stamped (fun m => (od_lin m, od_ang m)) ref) as [|r0 rs] eqn:Er; [destruct ref; [congruence|discriminate]|]. rewrite <- Er in *. rewrite E. cbv zeta. rewrite !parts_stamped. cbn [fst snd]. unfold stamped. rewrite !map_map. cbn [fst snd]. reflexivity.
Qed.
Theorem twist_report_exists b gt odoms : ordered gt -> (forall msgs, In msgs odoms -> ordered msgs) -> (exists ref, reference b gt ref /\ ref <> []) -> exists es, compute_twist_data b gt odoms = Ok es.
Proof.
  intros O Oo (ref & Rf & N). unfold compute_twist_data. destruct (filtered_is (fun m => (od_lin m, od_ang m)) b gt) as [(-> & _ & E)|(ref' & E & Rf')]; [destruct Rf as (f & _ & ->); exfalso; apply N; reflexivity|]. rewrite (part_unique _ _ _ _ Rf' Rf) in E. rewrite E. cbn [rbind]. apply map_res_total. intros msgs Hm. assert (Or := reference_in_order b gt ref O Rf).
  destruct (twist_entry_parts ref msgs N Or) as (kept & K & ->). assert (Ok' := part_order _ _ _ K (Oo msgs Hm)).
  assert (T : forall f, exists o, compute_vector_errors (stamped f ref) (stamped f kept) = Ok o) by (intros f; apply vector_errors_total; [destruct ref; [congruence|discriminate]|apply (stamped_order od_pose f ref Or)|apply (stamped_order od_pose f kept Ok')]).
  destruct (T od_lin) as [ol ->]. destruct (T od_ang) as [oa ->]. cbn [rbind]. eexists. reflexivity.
Qed.
Theorem twist_report_says b gt odoms es : ordered gt -> odoms <> [] -> compute_twist_data b gt odoms = Ok es ->
  exists ref, reference b gt ref /\ ref <> [] /\ length es = length odoms /\ forall i msgs, nth_error odoms i = Some msgs -> exists e kept, nth_error es i = Some e /\ in_reference ref msgs kept /\ twist_says ref kept e.
Proof.
  intros O No H. unfold compute_twist_data in H. destruct (filtered_is (fun m => (od_lin m, od_ang m)) b gt) as [(-> & _ & E)|(ref & E & Rf)]; rewrite E in H; cbn [rbind] in H; [discriminate|]. assert (N : ref <> []). { intros ->. destruct odoms as [|msgs odoms]; [congruence|]. discriminate. } assert (Or := reference_in_order b gt ref O Rf). exists ref. split; [exact Rf|]. split; [exact N|]. destruct (map_res_nth _ _ _ H) as [L Nth]. split; [exact L|].
  intros i msgs Hi. destruct (Nth i msgs Hi) as (e & He & Ee). destruct (twist_entry_parts ref msgs N Or) as (kept & K & Eq). rewrite Eq in Ee. exists e, kept. split; [exact He|]. split; [exact K|].
  destruct (compute_vector_errors (stamped od_lin ref) (stamped od_lin kept)) as [ol| |] eqn:E1; cbn [rbind] in Ee; try discriminate. destruct (compute_vector_errors (stamped od_ang ref) (stamped od_ang kept)) as [oa| |] eqn:E2; cbn [rbind] in Ee; try discriminate. injection Ee as <-.
  assert (C : forall m, In m kept -> covered (stamped od_pose ref) (stamp_of m)) by (intros m Hm; apply (covered_first ref msgs kept m K Hm)). destruct (vector_part od_lin ref kept ol Or C E1) as (gl & G1 & G2 & G3 & G4 & G5 & G6 & G7). destruct (vector_part od_ang ref kept oa Or C E2) as (ga & A1 & A2 & A3 & A4 & A5 & A6 & A7).
  unfold twist_says. cbn [te_t te_lin te_ang te_ae te_re make_errs es_t es_1 es_2 es_norm1 es_norm2 es_rmse1 es_rmse2]. split; [reflexivity|]. split; [reflexivity|]. split; [reflexivity|]. exists gl, ga. rewrite !map_length. repeat (split; [first [assumption|lia]|]). split; [|split; [|split; [apply rms_is|split; [apply rms_is|split; apply rms_is]]]].
  - intros k m v w Hm Hv Hw. destruct (G6 k m v Hm Hv) as [V1 V2]. destruct (A6 k m w Hm Hw) as [W1 W2]. rewrite !nth_error_map, V2, W2. repeat split; assumption.
  - intros k m v w m' v' w' Hm Hv Hw Hm' Hv' Hw'. rewrite !nth_error_map, (G7 k m v m' v' Hm Hv Hm' Hv'), (A7 k m w m' w' Hm Hw Hm' Hw'). cbn [option_map]. split; f_equal; apply dist_sym.
Qed.
