(* Transforming a cloud moves each point once, and transforms compose. *)
From Coq Require Import Reals List Lra Lia Bool.
From Verif Require Import Base Interp Geo EgModel TfModel TfSpec.
Import ListNotations.
Open Scope R_scope.

Lemma finite3_spec v : finite3 v = true <-> is_finite v.
Proof. destruct v as [[[x|] [y|]] [z|]]; cbn; split; try discriminate; try (intros _; exists (x, y, z); reflexivity); try reflexivity; intros [[[a b] c] E]; discriminate. Qed.
Lemma fin_cases v : (exists x, v = fin x) \/ (~ is_finite v).
Proof. destruct (finite3 v) eqn:E; [left; apply finite3_spec; exact E|right; intros K; apply finite3_spec in K; congruence]. Qed.
Lemma fin_inj x y : fin x = fin y -> x = y. Proof. destruct x as [[? ?] ?], y as [[? ?] ?]. cbn. congruence. Qed.
Lemma fdot_fin a x : fdot a (fin x) = Some (vdot a x). Proof. destruct a as [[? ?] ?], x as [[? ?] ?]. reflexivity. Qed.
Lemma fdot_none a v : ~ is_finite v -> fdot a v = None.
Proof. intros H. destruct a as [[? ?] ?], v as [[[x|] [y|]] [z|]]; cbn; try reflexivity. exfalso. apply H. exists (x, y, z). reflexivity. Qed.
Lemma so3_fin t x : so3 t (fin x) = fin (mapply (lin t) x).
Proof. unfold so3. destruct (lin t) as [[r0 r1] r2]. rewrite !fdot_fin. reflexivity. Qed.
Lemma so3_none t v : ~ is_finite v -> so3 t v = (None, None, None).
Proof. intros H. unfold so3. destruct (lin t) as [[r0 r1] r2]. rewrite !fdot_none by exact H. reflexivity. Qed.
Lemma se3_fin t x : se3 t (fin x) = fin (iapp t x).
Proof. unfold se3, iapp. rewrite so3_fin. destruct (mapply (lin t) x) as [[a b] c], (tr t) as [[d e] f]. reflexivity. Qed.
Lemma se3_none t v : ~ is_finite v -> se3 t v = (None, None, None).
Proof. intros H. unfold se3. rewrite so3_none by exact H. destruct (tr t) as [[d e] f]. reflexivity. Qed.
Lemma none_not_finite : ~ is_finite (None, None, None). Proof. intros [[[a b] c] E]. discriminate. Qed.
Lemma se3_mapped t v : mapped (iapp t) v (se3 t v). Proof. split; [intros x ->; apply se3_fin|apply se3_none]. Qed.
Lemma so3_mapped t v : mapped (mapply (lin t)) v (so3 t v). Proof. split; [intros x ->; apply so3_fin|apply so3_none]. Qed.
Lemma so3_mul t s v : so3 t (so3 s v) = so3 (imul t s) v.
Proof. destruct (fin_cases v) as [[x ->]|N]; [rewrite !so3_fin; cbn [imul lin]; rewrite mapply_mul; reflexivity|]. rewrite (so3_none s v N), (so3_none _ v N). apply so3_none, none_not_finite. Qed.
Lemma se3_mul t s v : se3 t (se3 s v) = se3 (imul t s) v.
Proof. destruct (fin_cases v) as [[x ->]|N]; [rewrite !se3_fin, iapp_mul; reflexivity|]. rewrite (se3_none s v N), (se3_none _ v N). apply se3_none, none_not_finite. Qed.
Lemma se3_finite t v : finite3 (se3 t v) = finite3 v.
Proof.
  destruct (fin_cases v) as [[x ->]|N]; [rewrite se3_fin; destruct (iapp t x) as [[? ?] ?], x as [[? ?] ?]; reflexivity|]. rewrite (se3_none t v N).
  destruct (finite3 v) eqn:E; [apply finite3_spec in E; contradiction|reflexivity].
Qed.
Lemma se3_id v : whole v -> se3 iid v = v.
Proof. intros [[x ->]| ->]; [rewrite se3_fin, iapp_id; reflexivity|apply se3_none, none_not_finite]. Qed.
Lemma so3_id v : whole v -> so3 iid v = v.
Proof. intros [[x ->]| ->]; [rewrite so3_fin; unfold iid; cbn [lin]; rewrite mapply_I; reflexivity|apply so3_none, none_not_finite]. Qed.

(* covariances *)
Definition finm (m : mat3) : fmat := let '(a, b, c) := m in (fin a, fin b, fin c).
Lemma frow_fin m i : frow (finm m) i = fin (row3 m i). Proof. destruct m as [[a b] c]. destruct i as [|[|i]]; reflexivity. Qed.
Lemma frotate_fin r m : frotate r (finm m) = finm (rotate_point_covariance m r).
Proof.
  unfold rotate_point_covariance. destruct r as [[[[r00 r01] r02] [[r10 r11] r12]] [[r20 r21] r22]], m as [[[[a b] c] [[d e] f]] [[g h] i]]. unfold frotate, finm. vred. cbn [fin fcol frow fget row3 fdot flift]. tup; try (f_equal; ring).
Qed.
Lemma get_is_cov c m : is_cov c m -> get_covariance c = finm m /\ mT m = m.
Proof. destruct m as [[[[a b] d] [[b' e] f]] [[d' f'] g]]. cbn. intros (-> & -> & -> & ->). split; reflexivity. Qed.
Lemma set_is_cov m : mT m = m -> is_cov (set_covariance (finm m)) m.
Proof. destruct m as [[[[a b] d] [[b' e] f]] [[d' f'] g]]. cbn. intros H. injection H. intros. subst. repeat split. Qed.
Lemma rotate_sym m r : mT m = m -> mT (rotate_point_covariance m r) = rotate_point_covariance m r.
Proof. intros H. unfold rotate_point_covariance. rewrite !mT_mul, mT_T, H, mmul_assoc. reflexivity. Qed.
Lemma rotate_mul m r s : rotate_point_covariance (rotate_point_covariance m s) r = rotate_point_covariance m (mmul r s).
Proof. unfold rotate_point_covariance. rewrite mT_mul, !mmul_assoc. reflexivity. Qed.
Lemma rotate_variance m r u : orth r -> variance (rotate_point_covariance m r) (mapply r u) = variance m u.
Proof.
  intros [A _]. unfold variance, rotate_point_covariance. rewrite !mapply_mul, <- (mapply_mul (mT r) r), A, mapply_I. rewrite vdot_mapply, <- mapply_mul, A, mapply_I. reflexivity.
Qed.
Lemma cov_moved t c m : rigid t -> is_cov c m ->
  is_cov (set_covariance (frotate (lin t) (get_covariance c))) (rotate_point_covariance m (lin t)).
Proof. intros _ H. destruct (get_is_cov c m H) as [E Sy]. rewrite E, frotate_fin. apply set_is_cov. apply rotate_sym. exact Sy. Qed.

(* clouds *)
Lemma zip_self {A C} (f : A -> A -> C) l : zip_with f l l = map (fun a => f a a) l. Proof. induction l as [|a l IH]; cbn; [reflexivity|]. rewrite IH. reflexivity. Qed.
Lemma copied {P} (d : P) pos write inp out : transform_cloud d pos write true inp out = transform_in_place pos write inp.
Proof. reflexivity. Qed.
Lemma in_place_points {P} (pos : P -> fvec) write c :
  k_points (transform_in_place pos write c) = map (fun a => if k_dense c then write a a else if finite3 (pos a) then write a a else a) (k_points c).
Proof. unfold transform_in_place, transform_points. cbn [k_points]. apply zip_self. Qed.
Lemma moves_cloud {P} (pos : P -> fvec) write (moved : P -> P -> Prop) c : (forall a, moved a (write a a)) -> moved_cloud pos moved c (transform_in_place pos write c).
Proof.
  intros W. unfold moved_cloud. do 5 (split; [reflexivity|]). rewrite in_place_points. split; [apply map_length|]. intros i a E.
  exists (if k_dense c then write a a else if finite3 (pos a) then write a a else a). split; [apply (map_nth_error (fun a => if k_dense c then write a a else if finite3 (pos a) then write a a else a) _ _ E)|]. split.
  - intros [D|F]; [rewrite D; apply W|]. destruct (k_dense c); [apply W|]. apply finite3_spec in F. rewrite F. apply W.
  - intros [D N]. rewrite D. destruct (finite3 (pos a)) eqn:F; [apply finite3_spec in F; contradiction|reflexivity].
Qed.
Lemma compose_cloud {P} (pos : P -> fvec) (w1 w2 w3 : P -> P -> P) c : (forall a, w2 (w1 a a) (w1 a a) = w3 a a) -> (forall a, finite3 (pos (w1 a a)) = finite3 (pos a)) ->
  transform_in_place pos w2 (transform_in_place pos w1 c) = transform_in_place pos w3 c.
Proof.
  intros W F. unfold transform_in_place at 1 3. cbn [k_header k_width k_height k_dense k_sensor]. f_equal. unfold transform_points. rewrite !zip_self, in_place_points, map_map. change (k_dense (transform_in_place pos w1 c)) with (k_dense c). apply map_ext. intros a.
  destruct (k_dense c); [apply W|]. destruct (finite3 (pos a)) eqn:E; [rewrite F, E; apply W|rewrite E; reflexivity].
Qed.
Lemma same_cloud {P} (pos : P -> fvec) (w : P -> P -> P) c : (forall a, In a (k_points c) -> w a a = a) -> transform_in_place pos w c = c.
Proof.
  intros W. unfold transform_in_place, transform_points. rewrite zip_self. destruct c as [h wd ht de se pts]. cbn [k_header k_width k_height k_dense k_sensor k_points] in *. f_equal.
  rewrite <- (map_id pts) at 2. apply map_ext_in. intros a I. destruct de; [apply W; exact I|]. destruct (finite3 (pos a)); [apply W; exact I|reflexivity].
Qed.

(* points with unit vectors *)
Lemma unit_def t c o : transform_pointcloud_unit t c o = transform_in_place u_pos (write_unit t) c. Proof. reflexivity. Qed.
Lemma cov_def t c o : transform_pointcloud_cov t c o = transform_in_place c_pos (write_cov t) c. Proof. reflexivity. Qed.
Lemma normal_def {A} (d : A) t c o : transform_pointcloud_normal d t c o = transform_in_place n_pos (write_normal t) c. Proof. reflexivity. Qed.
Lemma unit_moved t c out : rigid t -> moved_cloud u_pos (fun a b => moved_unit t a b /\ u_curv b = u_curv a) c (transform_pointcloud_unit t c out).
Proof. intros _. rewrite unit_def. apply moves_cloud. intros a. split; [|reflexivity]. split; [apply se3_mapped|]. split; apply so3_mapped. Qed.
Lemma unit_compose t s c o1 o2 o3 : transform_pointcloud_unit t (transform_pointcloud_unit s c o1) o2 = transform_pointcloud_unit (imul t s) c o3.
Proof.
  rewrite !unit_def. apply compose_cloud; intros a; unfold write_unit; cbn [u_pos u_nrm u_curv u_unit]; [rewrite se3_mul, !so3_mul; reflexivity|apply se3_finite].
Qed.
Definition whole_unit (a : pnu) : Prop := whole (u_pos a) /\ whole (u_nrm a) /\ whole (u_unit a).
Lemma unit_inverse t c o1 o2 : rigid t -> (forall a, In a (k_points c) -> whole_unit a) -> transform_pointcloud_unit (iinv t) (transform_pointcloud_unit t c o1) o2 = c.
Proof.
  intros Rt W. rewrite (unit_compose (iinv t) t c o1 o2 c), (imul_inv_l t Rt), unit_def. apply same_cloud. intros a I. destruct (W a I) as (A & B & C). unfold write_unit. rewrite (se3_id _ A), (so3_id _ B), (so3_id _ C). destruct a; reflexivity.
Qed.
(* points with covariances *)
Lemma cov_moved_cloud t c out : rigid t -> moved_cloud c_pos (fun a b => moved_cov t a b /\ c_curv b = c_curv a) c (transform_pointcloud_cov t c out).
Proof.
  intros Rt. rewrite cov_def. apply moves_cloud. intros a. split; [|reflexivity]. split; [apply se3_mapped|]. split; [apply so3_mapped|]. intros m Hm. exists (rotate_point_covariance m (lin t)).
  split; [apply cov_moved; assumption|]. intros u. apply rotate_variance. exact Rt.
Qed.
Definition whole_cov (c : cov6) : Prop := (exists m, is_cov c m) \/ c = mkCov None None None None None None.
Lemma none_rotated r : frotate r (get_covariance (mkCov None None None None None None)) = get_covariance (mkCov None None None None None None).
Proof. destruct r as [[[[r00 r01] r02] [[r10 r11] r12]] [[r20 r21] r22]]. reflexivity. Qed.
Lemma rotate_I m : rotate_point_covariance m mI = m. Proof. unfold rotate_point_covariance. rewrite mT_I, mmul_I_l, mmul_I_r. reflexivity. Qed.
Lemma is_cov_unique c m m' : is_cov c m -> is_cov c m' -> m = m'.
Proof.
  destruct m as [[[[a b] d] [[b' e] f]] [[d' f'] g]], m' as [[[[a1 b1] d1] [[b1' e1] f1]] [[d1' f1'] g1]]. cbn. intros (-> & -> & -> & ->) (-> & -> & -> & E). injection E as -> -> -> -> -> ->. reflexivity.
Qed.
Lemma is_cov_eq c c' m : is_cov c m -> is_cov c' m -> c = c'.
Proof. destruct m as [[[[a b] d] [[b' e] f]] [[d' f'] g]]. cbn. intros (_ & _ & _ & ->) (_ & _ & _ & ->). reflexivity. Qed.
Definition turn_cov (t : iso) (c : cov6) : cov6 := set_covariance (frotate (lin t) (get_covariance c)).
Lemma turn_cov_mul t s c : rigid t -> rigid s -> whole_cov c -> turn_cov t (turn_cov s c) = turn_cov (imul t s) c.
Proof.
  intros Rt Rs [[m H]| ->].
  - apply (is_cov_eq _ _ (rotate_point_covariance (rotate_point_covariance m (lin s)) (lin t))); [apply cov_moved; [exact Rt|]; apply cov_moved; assumption|].
    rewrite rotate_mul. apply (cov_moved (imul t s)); [apply rigid_mul; assumption|exact H].
  - unfold turn_cov. rewrite none_rotated. cbn [set_covariance get_covariance cxx cxy cxz cyy cyz czz]. rewrite !none_rotated. reflexivity.
Qed.
Lemma turn_cov_id c : whole_cov c -> turn_cov iid c = c.
Proof.
  intros [[m H]| ->]; [|unfold turn_cov; rewrite none_rotated; reflexivity]. apply (is_cov_eq _ _ m); [|exact H]. pose proof (cov_moved iid c m rigid_id H) as K. cbn [iid lin] in K. rewrite rotate_I in K. exact K.
Qed.
Lemma cov_compose t s c o1 o2 o3 : rigid t -> rigid s -> (forall a, In a (k_points c) -> whole_cov (c_cov a)) ->
  transform_pointcloud_cov t (transform_pointcloud_cov s c o1) o2 = transform_pointcloud_cov (imul t s) c o3.
Proof.
  intros Rt Rs W. rewrite !cov_def. unfold transform_in_place at 1 3. cbn [k_header k_width k_height k_dense k_sensor]. f_equal. unfold transform_points. rewrite !zip_self, in_place_points, map_map. change (k_dense (transform_in_place c_pos (write_cov s) c)) with (k_dense c). apply map_ext_in. intros a I.
  assert (E : write_cov t (write_cov s a a) (write_cov s a a) = write_cov (imul t s) a a).
  { unfold write_cov. cbn [c_pos c_nrm c_curv c_cov]. rewrite se3_mul, so3_mul. f_equal. apply turn_cov_mul; [exact Rt|exact Rs|]. apply W. exact I. }
  destruct (k_dense c); [exact E|]. destruct (finite3 (c_pos a)) eqn:F; [|rewrite F; reflexivity]. unfold write_cov at 1. cbn [c_pos]. rewrite se3_finite, F. exact E.
Qed.
Lemma cov_inverse t c o1 o2 : rigid t -> (forall a, In a (k_points c) -> whole (c_pos a) /\ whole (c_nrm a) /\ whole_cov (c_cov a)) -> transform_pointcloud_cov (iinv t) (transform_pointcloud_cov t c o1) o2 = c.
Proof.
  intros Rt W. rewrite (cov_compose (iinv t) t c o1 o2 c); [|apply rigid_inv; exact Rt|exact Rt|intros a I; apply W; exact I]. rewrite (imul_inv_l t Rt), cov_def. apply same_cloud. intros a I. destruct (W a I) as (A & B & C).
  unfold write_cov. rewrite (se3_id _ A), (so3_id _ B). change (set_covariance (frotate (lin iid) (get_covariance (c_cov a)))) with (turn_cov iid (c_cov a)). rewrite (turn_cov_id _ C). destruct a; reflexivity.
Qed.
(* points with normals only *)
Lemma normal_moved {A} (d : A) t c out : rigid t -> moved_cloud n_pos (fun a b => moved_normal t a b /\ n_rest b = n_rest a) c (transform_pointcloud_normal d t c out).
Proof. intros _. rewrite normal_def. apply moves_cloud. intros a. split; [|reflexivity]. split; [apply se3_mapped|apply so3_mapped]. Qed.

Lemma normal_compose {A} (d : A) t s c o1 o2 o3 : transform_pointcloud_normal d t (transform_pointcloud_normal d s c o1) o2 = transform_pointcloud_normal d (imul t s) c o3.
Proof. rewrite !normal_def. apply compose_cloud; intros a; unfold write_normal; cbn [n_pos n_nrm n_rest]; [rewrite se3_mul, so3_mul; reflexivity|apply se3_finite]. Qed.
Lemma normal_back {A} (d : A) t c o1 o2 : rigid t -> (forall a, In a (k_points c) -> whole (n_pos a) /\ whole (n_nrm a)) ->
  transform_pointcloud_normal d (iinv t) (transform_pointcloud_normal d t c o1) o2 = c.
Proof.
  intros Rt W. rewrite (normal_compose d (iinv t) t c o1 o2 c), (imul_inv_l t Rt), normal_def. apply same_cloud. intros a I. destruct (W a I) as (X & Y). unfold write_normal. rewrite (se3_id _ X), (so3_id _ Y). destruct a; reflexivity.
Qed.

(* what a rigid motion keeps: distances, distances from planes, lengths of normals, and the ray from the place of the sensor *)
Lemma geometry_kept t : rigid t -> (forall p q, vnorm (vsub (iapp t p) (iapp t q)) = vnorm (vsub p q)) /\
  (forall n p q, vdot (mapply (lin t) n) (vsub (iapp t p) (iapp t q)) = vdot n (vsub p q)) /\
  (forall n, vnorm (mapply (lin t) n) = vnorm n) /\
  (forall p u k, p = vscale k u -> vsub (iapp t p) (iapp t v0) = vscale k (mapply (lin t) u)).
Proof.
  intros Rt. split; [intros p q; apply rigid_dist; exact Rt|]. assert (E : forall p q, vsub (iapp t p) (iapp t q) = mapply (lin t) (vsub p q)) by (intros p q; unfold iapp; destruct t as [m s]; cbn [lin tr]; vring).
  split; [intros n p q; rewrite E; apply orth_dot; exact Rt|]. split; [intros n; unfold vnorm; f_equal; apply orth_dot; exact Rt|].
  intros p u k ->. rewrite E, <- mapply_scale. f_equal. vring.
Qed.

(* not all fields copied: the transformed fields are the same, the others those the output point already had *)
Lemma zip_nth {A B C} (f : A -> B -> C) l : forall m i a b, nth_error l i = Some a -> nth_error m i = Some b -> nth_error (zip_with f l m) i = Some (f a b).
Proof. induction l as [|x l IH]; intros m [|i] a b E F; try discriminate; destruct m as [|y m]; try discriminate; cbn in *; [congruence|]. apply IH; assumption. Qed.
Lemma resize_nth {P} (d : P) n l i : (i < n)%nat -> nth_error (resize n d l) i = Some (nth i l d).
Proof.
  intros L. unfold resize. destruct (Nat.lt_ge_cases i (length l)) as [H|H].
  - rewrite nth_error_app1 by (rewrite firstn_length; lia). rewrite <- (firstn_skipn n l) at 2. rewrite app_nth1 by (rewrite firstn_length; lia). apply nth_error_nth'. rewrite firstn_length. lia.
  - rewrite nth_error_app2 by (rewrite firstn_length; lia). rewrite firstn_length, (nth_overflow l d H). rewrite Nat.min_r by lia. apply (nth_error_repeat d). lia.
Qed.
Lemma not_copied {P} (d : P) pos write inp out i a : nth_error (k_points inp) i = Some a ->
  nth_error (k_points (transform_cloud d pos write false inp out)) i =
    Some (if k_dense inp then write a (nth i (k_points out) d) else if finite3 (pos a) then write a (nth i (k_points out) d) else nth i (k_points out) d).
Proof.
  intros E. unfold transform_cloud, transform_points, prepare. cbn [k_points k_dense]. erewrite zip_nth; [reflexivity|exact E|]. apply resize_nth. apply nth_error_Some. congruence.
Qed.

(* check_normals *)
Lemma check_normals_spec th l : check_normals th l = length (filter (fun nv => counted th (fst nv) (snd nv)) l).
Proof. induction l as [|[n v] l IH]; cbn; [reflexivity|]. rewrite IH. destruct (counted th n v); reflexivity. Qed.
Lemma check_normals_zero th l : check_normals th l = 0%nat <-> forall n v, In (n, v) l -> (forall x, v = fin x -> Rabs (vnorm x - 1) <= th) /\ (~ is_finite v -> n = true).
Proof.
  induction l as [|[n v] l IH]; cbn [check_normals In]; [split; [intros _ ? ? []|reflexivity]|]. split.
  - intros E. assert (C : counted th n v = false) by (destruct (counted th n v); [lia|reflexivity]). rewrite C in E. cbn in E. intros n' v' [[= <- <-]|I]; [|apply IH; assumption]. split.
    + intros [[x y] z] ->. cbn in C. destruct (Rlt_dec _ _); [discriminate|lra].
    + intros N. destruct v as [[[x|] [y|]] [z|]]; cbn in C; try (destruct n; [reflexivity|discriminate]). exfalso. apply N. exists (x, y, z). reflexivity.
  - intros H. assert (C : counted th n v = false).
    { destruct (H n v (or_introl eq_refl)) as [A B]. destruct (fin_cases v) as [[x ->]|N].
      - specialize (A x eq_refl). destruct x as [[x y] z]. cbn. destruct (Rlt_dec _ _); [lra|reflexivity].
      - rewrite (B N). destruct v as [[[x|] [y|]] [z|]]; try reflexivity. exfalso. apply N. exists (x, y, z). reflexivity. }
    rewrite C. cbn. apply IH. intros n' v' I. apply H. right. exact I.
Qed.

(* times in seconds: nothing is lost of a floating point field, an integer field is rounded down *)
Lemma seconds_kept l i t : nth_error l i = Some t -> exists s, nth_error (ns_to_s l) i = Some s /\ s * 1000000000 = t.
Proof. intros H. unfold ns_to_s. rewrite nth_error_map, H. eexists. split; [reflexivity|]. field. Qed.
Lemma seconds_whole l i t : nth_error l i = Some t -> (0 <= t)%Z -> exists s, nth_error (ns_to_s_int l) i = Some s /\ (s * 1000000000 <= t < (s + 1) * 1000000000)%Z.
Proof.
  intros H Ht. unfold ns_to_s_int. rewrite nth_error_map, H. eexists. split; [reflexivity|]. rewrite Z.quot_div_nonneg by lia. pose proof (Z.div_mod t 1000000000 ltac:(lia)). pose proof (Z.mod_pos_bound t 1000000000 ltac:(lia)). lia.
Qed.
Lemma seconds_length l l' : List.length (ns_to_s l) = List.length l /\ List.length (ns_to_s_int l') = List.length l'.
Proof. split; apply map_length. Qed.
