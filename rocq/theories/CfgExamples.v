(* Concrete configurations.                                                                            *)
From Verif Require Import Base NetModel NetSpec NetMore CfgModel CfgSpec CfgKeys CfgProofs CfgMore.
From Coq Require Import QArith Qabs.
Open Scope string_scope.
Open Scope list_scope.

(* the empty server: voxel grid and range filter, unit vectors, normals *)
Definition none : params := of_list [].
Example default_enabled : enabled_in none filters [KVoxel; KRange].
Proof. apply (enabled_filters none). Qed.
Definition default_nodes : list (nd op) := match lidar_nodes none with Ok (Some (ns, _)) => ns | _ => [] end.
Example default_pipeline :
  lidar_nodes none = Ok (Some (default_nodes, true)) /\
  map (fun n => (n_sub op n, kind_of (n_op op n), n_pub op n)) default_nodes =
  [("/serpent/frontend/deskewed_pointcloud", KVoxel, "/serpent/filter/voxel_filtered_pointcloud");
   ("/serpent/filter/voxel_filtered_pointcloud", KRange, "/serpent/filter/filtered_pointcloud");
   ("/serpent/filter/filtered_pointcloud", KUnit, "/serpent/add_unit_vectors/pointcloud");
   ("/serpent/add_unit_vectors/pointcloud", KNormal, "/serpent/normal_estimation/pointcloud")].
Proof. split; vm_compute; reflexivity. Qed.
(* everything on, constant covariance *)
Definition all_on : params := of_list
  [("body_filter/enabled", VBool true); ("statistical_outlier_removal/enabled", VBool true); ("random_sample_filter/enabled", VBool true);
   ("random_sample_filter/sample_size", VInt 2); ("registration_covariance/method", VStr "CONSTANT");
   ("body_filter/min/x", VInt (-1)); ("body_filter/max/x", VInt 1)].
Example all_on_enabled : enabled_in all_on filters [KVoxel; KBody; KRange; KSor; KRand].
Proof. apply (enabled_filters all_on). Qed.
Example all_on_pipeline : exists ns, lidar_nodes all_on = Ok (Some (ns, false)) /\ length ns = 6%nat.
Proof. eexists. split; vm_compute; reflexivity. Qed.
Definition all_off : params := of_list [("voxel_grid_filter/enabled", VBool false); ("range_filter/enabled", VBool false)].
Example all_off_enabled : enabled_in all_off filters [].
Proof. apply (enabled_filters all_off). Qed.

(* points on a line; a voxel grid that halves, the other libraries as identities *)
Definition ex_inside (mn mx tr rot : Q * Q * Q) (p : Q) : bool := Qle_bool (fst (fst mn)) (p - fst (fst tr)) && Qle_bool (p - fst (fst tr)) (fst (fst mx)).
Definition ex_f := apply_op Q ex_inside (fun p => Some (Qabs p)) (fun leaf _ l => firstn (Nat.div2 (length l)) l) (fun _ _ l => l)
                            (fun n _ l => firstn (Z.to_nat n) l) (fun c => c) (fun c => c).
Definition c1 : cloud Q := Cloud Q true [1; 2; 3; 4]%Q.
Definition c2 : cloud Q := Cloud Q true [5; 6]%Q.
Definition ex_labs : list (lab (cloud Q)) :=
  let I := In_ (cloud Q) t_in in let S := Start (cloud Q) in let F := Fin (cloud Q) in
  [I c1; S 0%nat; I c2; F 0%nat; S 1%nat; S 0%nat; F 0%nat; F 1%nat; S 2%nat; S 1%nat; F 2%nat; F 1%nat; S 3%nat; S 2%nat; F 2%nat; F 3%nat; S 3%nat; F 3%nat].
Example ex_runs : exists s, exec (cloud Q) op ex_f 100 ex_labs (init (cloud Q) op default_nodes) = Some (Ok s) /\
  on (cloud Q) t_out (log (cloud Q) op s) = [Cloud Q true [1; 2]%Q; Cloud Q true [5%Q]] /\ feeds (cloud Q) t_in ex_labs.
Proof.
  eexists. split; [vm_compute; reflexivity|]. split; [vm_compute; reflexivity|].
  intros t m H. unfold ex_labs in H. cbn in H. repeat destruct H as [H|H]; try discriminate H; try contradiction; injection H; auto.
Qed.
Example ex_inflight : at_most_in_flight (cloud Q) op ex_f 100 t_in t_out (init (cloud Q) op default_nodes) ex_labs.
Proof.
  intros l1 l2 s El Er.
  assert (Hn : exists n, (n <= 18)%nat /\ l1 = firstn n ex_labs).
  { exists (length l1). rewrite El, firstn_app, Nat.sub_diag, firstn_all. cbn. rewrite app_nil_r. split; [|reflexivity].
    assert (L : length ex_labs = 18%nat) by reflexivity. rewrite El, app_length in L. lia. }
  destruct Hn as (n & Hn & ->). clear El.
  do 19 (destruct n as [|n]; [vm_compute in Er; injection Er as <-; vm_compute; lia|]). lia.
Qed.

(* without ranges the default configuration takes the process down *)
Lemma no_range_refuted : exists ls, feeds (cloud Q) t_in ls /\ ins (cloud Q) ls = [Cloud Q false [1%Q]] /\
  exec (cloud Q) op ex_f 100 ls (init (cloud Q) op default_nodes) = Some Throw.
Proof.
  exists [In_ (cloud Q) t_in (Cloud Q false [1%Q]); Start (cloud Q) 0; Fin (cloud Q) 0; Start (cloud Q) 1; Fin (cloud Q) 1].
  split; [|split; [reflexivity | vm_compute; reflexivity]].
  intros t m H. cbn in H. repeat destruct H as [H|H]; try discriminate H; try contradiction; injection H; auto.
Qed.

(* The body filter is documented to remove the points of the body.  It removes all others: of the points
   -1/2 (on the body) and 5 (in the world) with a body from -1 to 1, the first is kept.                   *)
Definition ex_body : op := OBody (inject_Z (-1), 0, 0)%Q (1, 0, 0)%Q (0, 0, 0)%Q (0, 0, 0)%Q false.
Example ex_body_configured : exists ns, filter_ctor all_on "x" = Ok ns /\ In ex_body (map (n_op op) ns).
Proof. eexists. split; [vm_compute; reflexivity|]. vm_compute. auto. Qed.
Lemma body_filter_refuted : exists P input ns o c c', filter_ctor P input = Ok ns /\ In o (map (n_op op) ns) /\ kind_of o = KBody /\
  ex_f o c = Ok c' /\ pts Q c = [(-1#2)%Q; 5%Q] /\ pts Q c' = [(-1#2)%Q] /\
  match o with OBody mn mx tr rot _ => map (ex_inside mn mx tr rot) (pts Q c) = [true; false] | _ => False end.
Proof.
  exists all_on, "x". eexists. exists ex_body, (Cloud Q true [(-1#2)%Q; 5%Q]). eexists.
  split; [vm_compute; reflexivity|]. split; [vm_compute; auto|]. split; [reflexivity|]. split; [vm_compute; reflexivity|].
  split; [reflexivity|]. split; [reflexivity | vm_compute; reflexivity].
Qed.

(* the default flow settings are those of the code even if the documented keys say otherwise *)
Definition documented_flow : params := of_list
  [("stereo_tracking/sparse_optical_flow/pyrlk/min_eig_threshold", VDouble (1#10000)); ("stereo_tracking/sparse_optical_flow/pyrlk/max_level", VInt 5)].
Lemma documented_flow_refuted : exists P, P "stereo_tracking/sparse_optical_flow/pyrlk/min_eig_threshold" = Some (VDouble (1#10000)) /\
  exists c, flow_config P = Ok c /\ fl_eig c = 0%Q /\ fl_level c = 3%Z.
Proof. exists documented_flow. split; [reflexivity|]. eexists. split; [vm_compute; reflexivity|]. split; reflexivity. Qed.
Lemma documented_keys_refuted : ~ (forall k, In k documented -> exists P v, configure (pset P k v) <> configure P).
Proof.
  intros H. destruct (H "statistical_outlier_removal/mean_k") as (P & v & N).
  - apply inb_In. vm_compute. reflexivity.
  - apply N. apply (unread_ignored "statistical_outlier_removal/mean_k"). vm_compute. reflexivity.
Qed.

(* a misspelt estimator is accepted *)
Lemma robust_null_refuted : exists P, P "stereo_factors/robust/type" = Some (VStr "Huber") /\ robust_model P = Ok None.
Proof. exists (of_list [("stereo_factors/robust/type", VStr "Huber")]). split; vm_compute; reflexivity. Qed.
(* the constant method does not use the point covariance, but the node refuses to start on its name *)
Lemma unused_name_refuted : exists P c, reg_config P = Ok c /\ rc_method c = CM_CONSTANT /\ lidar_nodes P = Throw.
Proof.
  exists (of_list [("registration_covariance/method", VStr "CONSTANT"); ("registration_covariance/point_covariance/method", VStr "NONE")]).
  eexists. split; [vm_compute; reflexivity|]. split; vm_compute; reflexivity.
Qed.
(* LLS with the default point covariance: the pipeline is built for unit vectors, then registration refuses *)
Lemma lls_default_refuted : exists P, P "registration_covariance/method" = Some (VStr "LLS") /\
  (forall k, k <> "registration_covariance/method" -> P k = None) /\ reg_config P = Throw.
Proof.
  exists (of_list [("registration_covariance/method", VStr "LLS")]). split; [reflexivity|]. split; [|vm_compute; reflexivity].
  intros k Hk. cbn. unfold pset. destruct (String.eqb_spec "registration_covariance/method" k); congruence.
Qed.
Example reg_accepts : exists c, reg_config none = Ok c /\ rc_point c = Some PM_RANGE.
Proof. eexists. split; vm_compute; reflexivity. Qed.
