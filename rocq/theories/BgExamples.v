(* Cases of the reading of bags, and what is not so *)
From Coq Require Import String List Bool Arith Lia.
From Verif Require Import Base BgModel BgSpec BgProofs.
Import ListNotations.
Open Scope nat_scope.

Definition pose_type : string := "geometry_msgs/PoseWithCovarianceStamped".
Definition odom_type : string := "nav_msgs/Odometry".
(* a bag of a baseline, with odometry only, and one of an estimate, with odometry and poses of the registration *)
Definition base_bag : list (brec nat) := [mkBR "/lo/odometry" odom_type 1; mkBR "/lo/odometry" odom_type 2].
Definition own_bag : list (brec nat) := [mkBR "/odometry" odom_type 3; mkBR "/transform" pose_type 4; mkBR "/odometry" odom_type 5; mkBR "/transform" pose_type 6; mkBR "/odometry" pose_type 7].
Definition two_files (p : string) : option (list (brec nat)) := if String.eqb p "d/a.bag" then Some base_bag else if String.eqb p "d/b.bag" then Some own_bag else None.

Example odom_case : odom_read two_files (srow ["a"; "b"]%string) "d/" "a.bag" "/lo/odometry" (srow ["d/"]%string) (srow ["a.bag"; "b.bag"]%string) (srow ["/lo/odometry"; "/odometry"]%string) = Ok (srow ["a"; "b"]%string, [1; 2], [[1; 2]; [3; 5]]).
Proof. reflexivity. Qed.
Example registration_case : registration two_files (fun l => Ok l) (srow ["b"]%string) (srow ["d/b.bag"]%string) (srow ["/transform"]%string) = ([("registration_covariance_b"%string, [4; 6])], false).
Proof. reflexivity. Qed.
Example jacobian_case : jacobian_read (fun _ => Some [mkBR "/j" "std_msgs/Float64MultiArray" 8])%string (srow ["a"]%string) (srow ["d/"; "e/"]%string) (srow ["x.bag"]%string) "/j" = Ok (srow ["a"]%string, [[8]; [8]]).
Proof. reflexivity. Qed.

(* a baseline has no poses of the registration, and its topic is left empty as in main.m 55, 87, 129, 175: the other file, which has them, gets no figure either *)
Lemma placeholder_refuted : ~ forall (store : string -> option (list (brec nat))) (names paths topics : list string) k p t l n,
  nth_error paths k = Some p -> nth_error topics k = Some t -> recorded store p t pose_type l -> nth_error names k = Some n ->
  In (("registration_covariance_" ++ n)%string, l) (fst (registration store (fun l => Ok l) (srow names) (srow paths) (srow topics))).
Proof.
  intros H. specialize (H two_files ["a"; "b"]%string ["d/a.bag"; "d/b.bag"]%string [""; "/transform"]%string 1 "d/b.bag"%string "/transform"%string [4; 6] "b"%string eq_refl eq_refl). apply H; [|reflexivity].
  apply read_bag_is. reflexivity.
Qed.
(* topics of main.m 55, 56 with its eleven files: whatever the bags hold, as long as no topic has an empty name *)
Lemma main_topics {F} (store : string -> option (list (brec nat))) (figure_of : list nat -> res F) names p paths : (forall q b r, store q = Some b -> In r b -> br_topic r <> ""%string) ->
  registration store figure_of names (srow (p :: paths)) (srow (""%string :: ""%string :: repeat "/serpent/registration/transform"%string 10)) = ([], true).
Proof.
  intros H. apply (registration_none store figure_of names (p :: paths) _ 0 p eq_refl). intros t l T (b & B & P & N). injection T as <-. apply N. assert (Hb : forall r, In r b -> br_topic r <> ""%string) by (intros r; apply (H p b r B)).
  clear B N. induction P as [|r b l E _ _ _|r b l _ _ IH]; [reflexivity|exfalso; exact (Hb r (or_introl eq_refl) E)|apply IH; intros x Hx; apply Hb; right; exact Hx].
Qed.
Example main_topics_met : forall q b r, two_files q = Some b -> In r b -> br_topic r <> ""%string.
Proof. intros q b r. unfold two_files. destruct (String.eqb _ _); [|destruct (String.eqb _ _); [|discriminate]]; intros H; injection H as <-; cbn; intros X; repeat (destruct X as [<-|X]; [discriminate|]); destruct X. Qed.
(* main.m 57, 58: six topics for the statistics of eleven files *)
Lemma main_statistics (store : string -> option (list (brec nat))) paths ty : List.length paths = 11 ->
  ~ exists out, raw_data store (srow paths) (srow (""%string :: repeat "/serpent/stereo/track_points_with_distances/statistics"%string 5)) ty = Ok out.
Proof. intros L. apply few_topics. cbn. lia. Qed.
(* the number of names is not compared with the number of files *)
Lemma names_refuted : ~ forall (store : string -> option (list (brec nat))) names gd gf gtop dirs files topics n g out,
  odom_read store (srow names) gd gf gtop (srow dirs) (srow files) (srow topics) = Ok (n, g, out) -> List.length out = List.length names.
Proof. intros H. specialize (H two_files [] "d/" "a.bag" "/lo/odometry" ["d/"] ["b.bag"] ["/odometry"] (srow []) [1; 2] [[3; 5]])%string. discriminate (H eq_refl). Qed.
(* a row of directories with a column of file names: every name of the column is looked for in the first directory *)
Lemma mixed_refuted : ~ forall dirs files a k d f p, List.length dirs = List.length files -> splus (srow dirs) (scol files) = Ok a -> nth_error dirs k = Some d -> nth_error files k = Some f -> sindex a k = Ok p -> p = (d ++ f)%string.
Proof. intros H. discriminate (H ["d/"; "e/"] ["a"; "b"] _ 1 "e/" "b" "d/b" eq_refl eq_refl eq_refl eq_refl eq_refl)%string. Qed.
(* one topic for several files is refused, although one directory serves for all *)
Lemma one_topic_refuted : ~ forall (store : string -> option (list (brec nat))) paths t ty, (forall p, In p paths -> exists l, recorded store p t ty l) -> exists out, raw_data store (srow paths) (srow [t]) ty = Ok out.
Proof.
  intros H. apply (few_topics two_files ["d/b.bag"; "d/b.bag"]%string ["/odometry"]%string odom_type); [cbn; lia|]. apply H. intros p [<-|[<-|[]]]; exists [3; 5]; apply read_bag_is; reflexivity.
Qed.
