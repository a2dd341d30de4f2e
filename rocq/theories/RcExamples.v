(* The hypotheses of the registration covariance theorems are met; and what the code does not do. *)
From Coq Require ClassicalDedekindReals.
From Coq Require Import Reals Lra Lia Psatz List Qreals QArith Classical_Prop.
From Verif Require Import Base Mx Interp Geo EgModel EgProofs CfgModel NetModel NetSpec CfgSpec CfgProofs RcGen RcModel RcSpec RcCov RcMat RcProofs RcComp RcEst RcMain RcRegModel RcRegSpec RcReg RcTop.
Import ListNotations.
Open Scope string_scope.
Open Scope list_scope.
Open Scope R_scope.

(* an inverse: entry (i, j) is the least upper bound of the values below the entry of some inverse matrix *)
Definition below (M : mx) (i j : nat) (x : R) : Prop := exists B, inverse_of 6 M B /\ x <= B i j.
Lemma below_bound M i j : (i < 6)%nat -> (j < 6)%nat -> bound (below M i j).
Proof.
  intros Hi Hj. destruct (classic (exists B, inverse_of 6 M B)) as [[B I]|N].
  - exists (B i j). intros x (B' & I' & L). rewrite (inverse_unique 6 M B B' I I' i j Hi Hj). exact L.
  - exists 0. intros x (B & I & _). exfalso. apply N. exists B. exact I.
Qed.
Lemma exists_inverts : exists inverse, inverts inverse.
Proof.
  assert (K : forall M, { B : mx | inverse_of 6 M B } + { forall B, ~ inverse_of 6 M B }).
  { intros M. destruct (ClassicalDedekindReals.sig_not_dec (exists B, inverse_of 6 M B)) as [Y|N]; [left|right; intros B I; apply N; exists B; exact I].
    assert (Y' : exists B, inverse_of 6 M B) by (apply NNPP; exact Y).
    assert (T : forall i j, (i < 6)%nat -> (j < 6)%nat -> exists x, below M i j x) by (intros i j _ _; destruct Y' as [B I]; exists (B i j), B; split; [exact I|lra]).
    exists (fun i j => match lt_dec i 6, lt_dec j 6 with left a, left b => proj1_sig (completeness (below M i j) (below_bound M i j a b) (T i j a b)) | _, _ => 0 end).
    assert (V : forall B, inverse_of 6 M B -> eqm 6 6 (fun i j => match lt_dec i 6, lt_dec j 6 with left a, left b => proj1_sig (completeness (below M i j) (below_bound M i j a b) (T i j a b)) | _, _ => 0 end) B).
    { intros B I i j Hi Hj. destruct (lt_dec i 6) as [a|]; [|contradiction]. destruct (lt_dec j 6) as [b|]; [|contradiction]. destruct (completeness _ _ _) as [x [U L]]. cbn.
      apply Rle_antisym; [apply L; intros y (B' & I' & Ly); rewrite (inverse_unique 6 M B B' I I' i j Hi Hj); exact Ly|apply U; exists B; split; [exact I|lra]]. }
    destruct Y' as [B I]. specialize (V B I). destruct I as [X Y0]. split.
    - intros i j Hi Hj. rewrite <- (X i j Hi Hj). apply (mulm_ext 6 6 6); [apply eqm_refl|exact V|exact Hi|exact Hj].
    - intros i j Hi Hj. rewrite <- (Y0 i j Hi Hj). apply (mulm_ext 6 6 6); [exact V|apply eqm_refl|exact Hi|exact Hj]. }
  exists (fun M => match K M with inleft (exist _ B _) => Some B | inright _ => None end). intros M. destruct (K M) as [[B I]|N]; [exact I|exact N].
Qed.

(* searching through all points *)
Fixpoint search (cloud : list rpt) (p : vec3) : option (nat * R) :=
  match cloud with
  | [] => None
  | q :: cloud => let d := distance (p_x q) p * distance (p_x q) p in
      match search cloud p with Some (j, e) => if Rle_dec d e then Some (0%nat, d) else Some (S j, e) | None => Some (0%nat, d) end
  end.
Lemma search_nearest : finds_nearest search.
Proof.
  intros cloud p. induction cloud as [|q cloud IH]; [reflexivity|]. cbn [search]. destruct (search cloud p) as [[j e]|].
  - destruct IH as (t & Et & Ed & Min). pose proof (distance_pos (p_x q) p) as P1. pose proof (distance_pos (p_x t) p) as P2. destruct (Rle_dec _ e) as [L|L].
    + exists q. split; [reflexivity|]. split; [reflexivity|]. intros q' [<-|H]; [lra|]. specialize (Min q' H). subst e. apply (proj1 (sq_le _ _ P1 P2)) in L. lra.
    + exists t. split; [exact Et|]. split; [exact Ed|]. intros q' [<-|H]; [|apply Min; exact H]. subst e. apply Rnot_le_lt in L. apply (proj1 (sq_le _ _ P2 P1)). lra.
  - subst cloud. exists q. split; [reflexivity|]. split; [reflexivity|]. intros q' [<-|[]]. lra.
Qed.
Fixpoint search_in (cloud : list rpt) (indices : list nat) (p : vec3) : option (nat * R) :=
  match indices with
  | [] => None
  | i :: indices =>
      match nth_error cloud i with
      | None => search_in cloud indices p
      | Some q => let d := distance (p_x q) p * distance (p_x q) p in
          match search_in cloud indices p with Some (j, e) => if Rle_dec d e then Some (i, d) else Some (j, e) | None => Some (i, d) end
      end
  end.
Lemma search_in_nearest : finds_nearest_among search_in.
Proof.
  intros cloud indices p V. induction indices as [|i indices IH]; [reflexivity|]. cbn [search_in].
  destruct (nth_error cloud i) as [q|] eqn:Eq; [|apply nth_error_None in Eq; specialize (V i (or_introl eq_refl)); lia].
  specialize (IH (fun k H => V k (or_intror H))). destruct (search_in cloud indices p) as [[j e]|].
  - destruct IH as (Hj & t & Et & Ed & Min). pose proof (distance_pos (p_x q) p) as P1. pose proof (distance_pos (p_x t) p) as P2. destruct (Rle_dec _ e) as [L|L].
    + split; [left; reflexivity|]. exists q. split; [exact Eq|]. split; [reflexivity|]. subst e. apply (proj1 (sq_le _ _ P1 P2)) in L. intros i' q' [<-|H] E; [rewrite Eq in E; injection E as <-; lra|]. specialize (Min i' q' H E). lra.
    + split; [right; exact Hj|]. exists t. split; [exact Et|]. split; [exact Ed|]. subst e. apply Rnot_le_lt in L. intros i' q' [<-|H] E; [rewrite Eq in E; injection E as <-|apply (Min i' q' H E)]. apply (proj1 (sq_le _ _ P2 P1)). lra.
  - subst indices. split; [left; reflexivity|]. exists q. split; [exact Eq|]. split; [reflexivity|]. intros i' q' [<-|[]] E. rewrite Eq in E. injection E as <-. lra.
Qed.

(* six points on three walls, registered onto themselves *)
Definition walls : list rpt :=
  [mkRpt (1, 0, 0) (1, 0, 0) (1, 0, 0); mkRpt (0, 1, 0) (0, 1, 0) (0, 1, 0); mkRpt (0, 0, 1) (0, 0, 1) (0, 0, 1);
   mkRpt (0, 2, 0) (0, 0, 1) (0, 1, 0); mkRpt (0, 0, 2) (1, 0, 0) (0, 0, 1); mkRpt (2, 0, 0) (0, 1, 0) (1, 0, 0)].
Lemma motion_id : motion iid. Proof. exact proper_I. Qed.
Lemma dist0 p q : distance p q <= 0 -> p = q.
Proof.
  intros L. pose proof (distance_pos p q) as P. assert (E : distance p q = 0) by lra. unfold distance, vnorm in E. apply sqrt_eq_0 in E; [|generalize (vsub p q); intros [[x y] z]; cbn; nra].
  destruct p as [[a b] c], q as [[d e] f]. cbn in E.
  assert (S : forall x y z, x * x + y * y + z * z = 0 -> x = 0) by (intros x y z H; apply Rsqr_0_uniq; unfold Rsqr; nra).
  assert (a - d = 0) by (apply (S _ (b - e) (c - f)); lra). assert (b - e = 0) by (apply (S _ (a - d) (c - f)); lra). assert (c - f = 0) by (apply (S _ (a - d) (b - e)); lra). tup; lra.
Qed.
Lemma dist_self p : distance p p = 0. Proof. unfold distance, vnorm. replace (vdot (vsub p p) (vsub p p)) with 0 by (destruct p as [[? ?] ?]; cbn; ring). apply sqrt_0. Qed.
Lemma onto_itself cloud l cs : (forall a b, In a cloud -> In b cloud -> p_x a = p_x b -> a = b) -> all_matched (iapp iid) cloud cloud 1 l -> Forall2 (of_pair cloud cloud) l cs ->
  forall s, In s cloud -> exists c, In c cs /\ k_p c = p_x s /\ k_n c = p_n s.
Proof.
  intros D (_ & A & B) F s Hs. apply In_nth_error in Hs as [i Es]. destruct (B i s s Es (nth_error_In _ _ Es)) as [j Hj]; [rewrite iapp_id, dist_self; lra|].
  assert (C : exists c, In c cs /\ of_pair cloud cloud (i, j) c).
  { clear - F Hj. induction F as [|ij c l cs O F IH]; [destruct Hj|]. destruct Hj as [->|Hj]; [exists c; split; [left; reflexivity|exact O]|]. destruct (IH Hj) as (c' & H & O'). exists c'. split; [right; exact H|exact O']. }
  destruct C as (c & Hc & s' & t & E1 & E2 & K1 & _ & K3 & _). cbn in E1, E2. rewrite Es in E1. injection E1 as <-.
  destruct (A i j Hj) as (s' & t' & E1 & E3 & _ & _ & Min). rewrite Es in E1. injection E1 as <-. rewrite E2 in E3. injection E3 as <-.
  specialize (Min s (nth_error_In _ _ Es)). rewrite iapp_id, dist_self in Min. apply dist0 in Min. rewrite (D t s (nth_error_In _ _ E2) (nth_error_In _ _ Es) Min) in K3. exists c. split; [exact Hc|]. split; assumption.
Qed.
Lemma walls_distinct : forall a b, In a walls -> In b walls -> p_x a = p_x b -> a = b.
Proof.
  intros a b Ha Hb E. cbn in Ha, Hb. repeat destruct Ha as [<-|Ha]; try contradiction; repeat destruct Hb as [<-|Hb]; try contradiction; cbn in E; try reflexivity; exfalso; injection E; intros; lra.
Qed.
Definition nothing_set : params := fun _ => None.
Example walls_defined : exists inverse cfg cs C, inverts inverse /\ reg_config nothing_set = Ok cfg /\ method_is nothing_set "CENSI" /\ points_are nothing_set "RANGE" /\ model_is nothing_set PlaneLinearised /\
  (exists ns, lidar_nodes nothing_set = Ok (Some (ns, true))) /\
  correspondences search search_in iid walls (whole walls) walls 1 = Ok cs /\ ~ slides cs /\
  covariance_from_registration search search_in inverse cfg true iid walls (whole walls) walls 1 = Ok (Some C) /\ symmetric 6 C /\ psd 6 C.
Proof.
  destruct exists_inverts as [inverse IV]. destruct (reg_config nothing_set) as [cfg| |] eqn:R; [|discriminate R|discriminate R].
  destruct (correspondences_matched search search_in iid walls walls 1 search_nearest ltac:(lra)) as (l & cs & E & AM & F).
  pose proof (onto_itself walls l cs walls_distinct AM F) as K.
  assert (NS : ~ slides cs).
  { intros (u & v & N & S). destruct u as [[u1 u2] u3], v as [[v1 v2] v3].
    assert (T : forall s, In s walls -> vdot (p_n s) (vadd (vcross (u1, u2, u3) (p_x s)) (v1, v2, v3)) = 0).
    { intros s Hs. destruct (K s Hs) as (c & Hc & <- & <-). apply S. exact Hc. }
    pose proof (T _ (or_introl eq_refl)) as T1. pose proof (T _ (or_intror (or_introl eq_refl))) as T2. pose proof (T _ (or_intror (or_intror (or_introl eq_refl)))) as T3.
    pose proof (T _ (or_intror (or_intror (or_intror (or_introl eq_refl))))) as T4. pose proof (T _ (or_intror (or_intror (or_intror (or_intror (or_introl eq_refl)))))) as T5.
    pose proof (T _ (or_intror (or_intror (or_intror (or_intror (or_intror (or_introl eq_refl))))))) as T6. cbn in T1, T2, T3, T4, T5, T6.
    assert (u1 = 0) by lra. assert (u2 = 0) by lra. assert (u3 = 0) by lra. assert (v1 = 0) by lra. assert (v2 = 0) by lra. assert (v3 = 0) by lra. subst. destruct N as [N|N]; apply N; reflexivity. }
  assert (LN : exists ns, lidar_nodes nothing_set = Ok (Some (ns, true))) by (eexists; reflexivity). destruct LN as [ns LN].
  destruct (pipeline_returns search search_in inverse nothing_set ns true cfg iid walls walls 1 search_nearest ltac:(lra) LN R) as [o EO].
  assert (MK : model_is nothing_set PlaneLinearised) by (right; right; left; reflexivity).
  destruct (proj2 (defined search search_in inverse nothing_set cfg true PlaneLinearised iid walls walls 1 cs o search_nearest IV motion_id ltac:(lra) R ltac:(discriminate) (or_intror eq_refl) MK E EO) NS) as [C ->].
  exists inverse, cfg, cs, C. split; [exact IV|]. split; [reflexivity|]. split; [reflexivity|]. split; [reflexivity|]. split; [exact MK|]. split; [exists ns; exact LN|]. split; [exact E|]. split; [exact NS|]. split; [exact EO|].
  destruct (valid search search_in inverse nothing_set cfg true iid walls walls 1 C search_nearest IV motion_id ltac:(lra) R EO) as [S P]. split; [exact S|]. apply P. left. discriminate.
Qed.

(* with a selection of indices the pairs name positions in the selection, so other points are read *)
Lemma subset_refuted : exists source indices target l c, NoDup indices /\ (forall k, In k indices -> (k < length source)%nat) /\
  registration_pairs search search_in false false iid source indices target 1 = Ok l /\ correspondences search search_in iid source indices target 1 = Ok [c] /\ 1 < distance (k_q c) (iapp iid (k_p c)).
Proof.
  set (a := mkRpt (0, 0, 0) (1, 0, 0) (1, 0, 0)). set (b := mkRpt (5, 0, 0) (1, 0, 0) (1, 0, 0)).
  exists [a; b], [1%nat], [b], [(0%nat, 0%nat)], (mkCorr (0, 0, 0) (5, 0, 0) (1, 0, 0) (1, 0, 0) (1, 0, 0)).
  assert (E : registration_pairs search search_in false false iid [a; b] [1%nat] [b] 1 = Ok [(0%nat, 0%nat)]).
  { unfold registration_pairs. cbn [forward_pairs nth_error rbind search]. rewrite iapp_id. unfold b. cbn [p_x]. rewrite dist_self. destruct (Rle_dec _ _) as [L|L]; [reflexivity|exfalso; lra]. }
  split; [repeat constructor; intros []|]. split; [intros k [<-|[]]; cbn; lia|]. split; [exact E|]. split; [unfold correspondences; rewrite E; reflexivity|].
  cbn [k_p k_q]. rewrite iapp_id. unfold distance, vnorm. replace (vdot (vsub (5, 0, 0) (0, 0, 0)) (vsub (5, 0, 0) (0, 0, 0))) with (5 * 5) by (cbn; ring). rewrite sqrt_square by lra. lra.
Qed.
(* the branch called reciprocal pairs a source point with a target point that is not the nearest to it *)
Lemma not_mutual_refuted : exists source target l i j s t t', registration_pairs search search_in true true iid source (whole source) target 5 = Ok l /\ In (i, j) l /\
  nth_error source i = Some s /\ nth_error target j = Some t /\ In t' target /\ distance (p_x t') (iapp iid (p_x s)) < distance (p_x t) (iapp iid (p_x s)).
Proof.
  set (a := mkRpt (0, 0, 0) (1, 0, 0) (1, 0, 0)). set (b := mkRpt (1, 0, 0) (1, 0, 0) (1, 0, 0)). set (c := mkRpt (2, 0, 0) (1, 0, 0) (1, 0, 0)).
  assert (D : forall x, 0 <= x -> distance (x, 0, 0) (0, 0, 0) = x). { intros x Hx. unfold distance, vnorm. replace (vdot (vsub (x, 0, 0) (0, 0, 0)) (vsub (x, 0, 0) (0, 0, 0))) with (x * x) by (cbn; ring). apply sqrt_square. exact Hx. }
  destruct (reciprocal_pairs search search_in iid [a] (whole [a]) [b; c] 5 search_in_nearest motion_id ltac:(lra)) as (l & E & _ & A & B); [intros k [<-|[]]; cbn; lia|].
  destruct (B 1%nat c 0%nat a eq_refl (or_introl eq_refl) eq_refl) as [i Hi]; [rewrite iapp_id; unfold a, c; cbn [p_x]; rewrite D; lra|].
  destruct (A i 1%nat Hi) as (s & t & I & Es & _). destruct I as [<-|[]]. cbn in Es. injection Es as <-.
  exists [a], [b; c], l, 0%nat, 1%nat, a, c, b. split; [exact E|]. split; [exact Hi|]. split; [reflexivity|]. split; [reflexivity|]. split; [left; reflexivity|]. rewrite iapp_id. unfold a, b, c. cbn [p_x]. rewrite !D by lra. lra.
Qed.

(* Range and bias: the noise of a point is not spread along its ray, the estimate is not the one for that noise *)
Definition tripod : list corr := let u := (3 / 5, 4 / 5, 0) in
  [mkCorr (1, 0, 0) (1, 0, 0) (1, 0, 0) u u; mkCorr (0, 1, 0) (0, 1, 0) (1, 0, 0) u u; mkCorr (0, 0, 1) (0, 0, 1) (1, 0, 0) u u].
Lemma tripod_spread : ~ on_a_line tripod.
Proof.
  intros ([[a b] c] & [[d e] f] & N & S). pose proof (S _ (or_introl eq_refl)) as S1. pose proof (S _ (or_intror (or_introl eq_refl))) as S2. pose proof (S _ (or_intror (or_intror (or_introl eq_refl)))) as S3.
  cbn in S1, S2, S3. injection S1 as X1 X2 X3. injection S2 as Y1 Y2 Y3. injection S3 as Z1 Z2 Z3. apply N. unfold v0. tup; lra.
Qed.
Lemma unsandwich H B X X' : inverse_of 6 H B -> eqm 6 6 (mulm 6 (mulm 6 B X) B) (mulm 6 (mulm 6 B X') B) -> eqm 6 6 X X'.
Proof.
  intros [HB BH] E. assert (K : forall Y, eqm 6 6 (mulm 6 H (mulm 6 (mulm 6 (mulm 6 B Y) B) H)) Y).
  { intros Y i j Hi Hj. rewrite <- (mulm_assoc 6 6 H). rewrite (mulm_ext 6 6 6 (mulm 6 H (mulm 6 (mulm 6 B Y) B)) (mulm 6 Y B) H H); [|intros a b Ha Hb|apply eqm_refl|exact Hi|exact Hj].
    - rewrite mulm_assoc. rewrite (mulm_ext 6 6 6 Y Y (mulm 6 B H) idm (eqm_refl _ _ _) BH i j Hi Hj). apply (mulm_id_r 6 6); assumption.
    - rewrite <- (mulm_assoc 6 6 H). apply (mulm_ext 6 6 6); [|apply eqm_refl|exact Ha|exact Hb]. intros p q Hp Hq. rewrite <- mulm_assoc. rewrite (mulm_ext 6 6 6 (mulm 6 H B) idm Y Y HB (eqm_refl _ _ _) p q Hp Hq). apply (mulm_id_l 6 6); assumption. }
  intros i j Hi Hj. rewrite <- (K X i j Hi Hj), <- (K X' i j Hi Hj). apply (mulm_ext 6 6 6); [apply eqm_refl| |exact Hi|exact Hj]. apply (mulm_ext 6 6 6); [exact E|apply eqm_refl].
Qed.

Lemma half_cross_unique k l r t D D' : half_total_cross k l r t D -> half_total_cross k l r t D' -> eqm 6 (6 * length l) D D'.
Proof. intros A B i j Hi Hj. pose proof (mixed2_unique _ _ _ (A i j Hi Hj) (B i j Hi Hj)). lra. Qed.
Lemma half_hessian_unique k l r t D D' : half_total_hessian k l r t D -> half_total_hessian k l r t D' -> eqm 6 6 D D'.
Proof. intros A B i j Hi Hj. pose proof (mixed2_unique _ _ _ (A i j Hi Hj) (B i j Hi Hj)). lra. Qed.
Lemma formula_unique k l r t H D S H' D' S' C : half_total_hessian k l r t H -> half_total_hessian k l r t H' -> half_total_cross k l r t D -> half_total_cross k l r t D' ->
  censi_formula (scalem 2 H) (scalem 2 D) S (6 * length l) C -> censi_formula (scalem 2 H') (scalem 2 D') S' (6 * length l) C ->
  eqm 6 6 (mulm (6 * length l) (mulm (6 * length l) D S) (trm D)) (mulm (6 * length l) (mulm (6 * length l) D S') (trm D)).
Proof.
  intros TH TH' TD TD' (B & I & E) (B' & I' & E'). set (n := (6 * length l)%nat) in *.
  assert (EH : eqm 6 6 (scalem 2 H) (scalem 2 H')) by (intros i j Hi Hj; unfold scalem; rewrite (half_hessian_unique k l r t H H' TH TH' i j Hi Hj); reflexivity).
  assert (ED : eqm 6 n (scalem 2 D') (scalem 2 D)) by (intros i j Hi Hj; unfold scalem; rewrite (half_cross_unique k l r t D D' TD TD' i j Hi Hj); reflexivity).
  assert (I2 : inverse_of 6 (scalem 2 H) B').
  { destruct I' as [X Y]. split; [apply (eqm_trans 6 6 _ (mulm 6 (scalem 2 H') B')); [apply (mulm_ext 6 6 6); [exact EH|apply eqm_refl]|exact X]|].
    apply (eqm_trans 6 6 _ (mulm 6 B' (scalem 2 H'))); [apply (mulm_ext 6 6 6); [apply eqm_refl|exact EH]|exact Y]. }
  pose proof (inverse_unique 6 _ B B' I I2) as EB.
  assert (F : forall T, eqm 6 6 (mulm n (mulm n (scalem 2 D) T) (trm (scalem 2 D))) (fun i j => 4 * mulm n (mulm n D T) (trm D) i j)).
  { intros T i j _ _. unfold mulm, scalem, trm. rewrite <- sum_scale. apply sum_ext. intros b _. rewrite (sum_ext n _ (fun k => 2 * (D i k * T k b))) by (intros; ring). rewrite sum_scale. ring. }
  assert (U : eqm 6 6 (fun i j => 4 * mulm n (mulm n D S) (trm D) i j) (fun i j => 4 * mulm n (mulm n D S') (trm D) i j)).
  { apply (eqm_trans 6 6 _ (mulm n (mulm n (scalem 2 D) S) (trm (scalem 2 D)))); [apply eqm_sym; apply F|]. apply (eqm_trans 6 6 _ (mulm n (mulm n (scalem 2 D) S') (trm (scalem 2 D)))); [|apply F].
    apply (unsandwich (scalem 2 H) B _ _ I). apply (eqm_trans 6 6 _ C); [apply eqm_sym; exact E|]. apply (eqm_trans 6 6 _ (mulm 6 (mulm 6 B' (mulm n (mulm n (scalem 2 D') S') (trm (scalem 2 D')))) B')); [exact E'|].
    apply (mulm_ext 6 6 6); [|apply eqm_sym; exact EB]. apply (mulm_ext 6 6 6); [apply eqm_sym; exact EB|]. apply (mulm_ext 6 n 6); [apply (mulm_ext 6 n n); [exact ED|apply eqm_refl]|]. intros i j Hi Hj. unfold trm. apply ED; assumption. }
  intros i j Hi Hj. specialize (U i j Hi Hj). cbv beta in U. lra.
Qed.
Lemma bias_refuted inverse : inverts inverse -> exists l C, censi_bias inverse PointLinearised (components_rt v0 v0) l 1 1 = Some C /\
  forall H D, half_total_hessian PointLinearised l v0 v0 H -> half_total_cross PointLinearised l v0 v0 D -> ~ censi_formula (scalem 2 H) (scalem 2 D) (biased_ranges l 1 1) (6 * length l) C.
Proof.
  intros IV. exists tripod. assert (G : good (components_rt v0 v0)) by (exists v0, v0; reflexivity).
  destruct (defined_parts inverse PointLinearised (components_rt v0 v0) tripod IV G (or_introl eq_refl)) as (H0 & EH & EM & DF). destruct (proj2 DF tripod_spread) as [hi EI].
  assert (EC : exists C, censi_bias inverse PointLinearised (components_rt v0 v0) tripod 1 1 = Some C). { unfold censi_bias. rewrite EH. cbn [obind]. rewrite EM. cbn [obind]. rewrite EI. eexists. reflexivity. }
  destruct EC as [C EC]. exists C. split; [exact EC|]. intros H D TH TD F. destruct (bias_formula inverse _ _ _ _ _ _ _ IV EC) as (H1 & D1 & TH1 & TD1 & F1).
  pose proof (formula_unique _ _ _ _ H D _ H1 D1 _ C TH TH1 TD TD1 F F1 3%nat 4%nat ltac:(lia) ltac:(lia)) as U.
  assert (R : forall e a, (e < 3)%nat -> (a < 18)%nat -> D (3 + e)%nat a = if Nat.eqb (a mod 6) e then 1 else if Nat.eqb (a mod 6) (3 + e) then -1 else 0).
  { intros e a He Ha. destruct (total_cross PointLinearised v0 v0 tripod ltac:(intros [N|N]; discriminate N)) as (ds & ED & _ & TC). rewrite EM in ED. injection ED as <-.
    rewrite (half_cross_unique _ _ _ _ _ _ TD TC) by (cbn; lia).
    destruct e as [|[|[|e]]]; [| | |lia]; do 18 (destruct a as [|a]; [cbn; unfold v0; ring|]); lia. }
  pose proof (fun a => R 0%nat a ltac:(lia)) as Rx. pose proof (fun a => R 1%nat a ltac:(lia)) as Ry. cbn [Nat.add] in Rx, Ry.
  change (6 * length tripod)%nat with 18%nat in U. unfold mulm, trm in U.
  rewrite (sum_ext 18 (fun l => sum 18 (fun l0 => D 3%nat l0 * biased_ranges tripod 1 1 l0 l) * D 4%nat l) (fun l => sum 18 (fun l0 => (if Nat.eqb (l0 mod 6) 0 then 1 else if Nat.eqb (l0 mod 6) 3 then -1 else 0) * biased_ranges tripod 1 1 l0 l) * (if Nat.eqb (l mod 6) 1 then 1 else if Nat.eqb (l mod 6) 4 then -1 else 0))) in U.
  2:{ intros b Hb. rewrite (Ry b Hb). f_equal. apply sum_ext. intros a Ha. rewrite (Rx a Ha). reflexivity. }
  rewrite (sum_ext 18 (fun l => sum 18 (fun l0 => D 3%nat l0 * coordinate_noise tripod 1 1 l0 l) * D 4%nat l) (fun l => sum 18 (fun l0 => (if Nat.eqb (l0 mod 6) 0 then 1 else if Nat.eqb (l0 mod 6) 3 then -1 else 0) * coordinate_noise tripod 1 1 l0 l) * (if Nat.eqb (l mod 6) 1 then 1 else if Nat.eqb (l mod 6) 4 then -1 else 0))) in U.
  2:{ intros b Hb. rewrite (Ry b Hb). f_equal. apply sum_ext. intros a Ha. rewrite (Rx a Ha). reflexivity. }
  revert U. clear. unfold biased_ranges, independent_ranges, coordinate_noise, ray. cbn. lra.
Qed.
