(* The statements of GmValues, GmStereo and GmIds about states that satisfy the invariant, after any history of calls. *)
From Verif Require Import Base GmModel GmSpec GmInv GmProofs GmFactors GmValues GmHist GmKeys GmStereo GmIds.

Section Reach.
Variable bp : Z -> Z -> Z -> Z -> Z.
Notation st ops := (gm_run bp igm_init ops).

Lemma reach_inv ops : igm_inv (st ops).
Proof. apply gm_run_inv, igm_init_inv. Qed.
Lemma reach_gm ops : gm_inv (i_gm (st ops)).
Proof. exact (inv_gm _ (reach_inv ops)). Qed.

(* reading past the last pending value *)
Theorem end_iterator_ub ops m :
  let g := i_gm (st ops) in
  idx_ok m = true -> (forall rk, In rk (mkeys (g_new_val g)) -> rk <= raw SymX m) ->
  gm_extract_values None m g = (g, UB).
Proof. cbn zeta. apply extract_values_ub, reach_gm. Qed.

Theorem no_frame_at_first ops e first last :
  let g := i_gm (st ops) in
  e < raw SymB 0 -> idx_ok first = true -> idx_ok last = true -> mmem first (g_ids g) = false ->
  exists vs, gm_values (Some e) first last g = Ok vs /\
    (forall n, idx_ok n = true -> mget (raw SymS n) vs = None).
Proof. cbn zeta. apply values_range_no_frame, reach_gm. Qed.

Theorem gap_previous_pose ops k f j f1 rest id meas p :
  let g := i_gm (st ops) in
  msorted f -> snd (gm_create_stereo bp k f g) = Ok tt ->
  rev (g_feat g) = (j, f1) :: rest -> j < k -> idx_ok j = true -> idx_ok id = true ->
  mget id f = Some meas -> mget id f1 = Some p ->
  match rest with [] => True | (_, f2) :: _ => mget id f2 = None end ->
  let new := flat_map (track_factors k) (stereo_done k f g) in
  filter (is_pair (k - 1) id) new = [stereo_factor (k - 1) id p] /\
  (filter (is_pair j id) new = [stereo_factor j id p] <-> j = k - 1).
Proof. cbn zeta. apply gap_attaches_previous_pose, reach_gm. Qed.

Theorem missing_pose ops k f :
  let s := st ops in
  g_feat (i_gm s) <> [] -> mmem k (g_feat (i_gm s)) = false ->
  gm_has SymX k (i_gm s) <> Ok true ->
  snd (gm_step bp s (OStereo k f)) = Throw /\
  g_val (i_gm (fst (gm_step bp s (OStereo k f)))) = g_val (i_gm s) /\
  mmem k (g_feat (i_gm (fst (gm_step bp s (OStereo k f))))) = true.
Proof. cbn zeta. apply missing_pose_fails, reach_inv. Qed.

(* once a frame has been recorded for key k every later stereo call at k fails *)
Theorem retry_after ops ops' k f :
  mmem k (g_feat (i_gm (st ops))) = true ->
  let s' := st (ops ++ ops') in gm_step bp s' (OStereo k f) = (s', Throw).
Proof.
  cbn zeta. intros H.
  assert (E : forall a b s, gm_run bp s (a ++ b) = gm_run bp (gm_run bp s a) b).
  { induction a as [|o a IH]; intros b s; [reflexivity|]. cbn [app gm_run]. apply IH. }
  rewrite E. apply (retry_fails bp ops' (st ops) k f (reach_inv ops) H).
Qed.

Theorem success_registers_all ops k f k1 fi k2 im1 rest :
  let g := i_gm (st ops) in
  snd (gm_create_stereo bp k f g) = Ok tt ->
  rev (mput k f (g_feat g)) = (k1, fi) :: (k2, im1) :: rest ->
  let im2 := match rest with [] => None | (_, f2) :: _ => Some f2 end in
  mmem k (g_feat g) = false /\ idx_ok k = true /\
  (exists p c, mget (raw SymX k) (g_val g) = Some p /\ g_cam g = Some c) /\
  forallb (track_ok k) (tracks_of fi im1 im2) = true /\
  stereo_done k f g = tracks_of fi im1 im2 /\
  (tracks_of fi im1 im2 = [] \/ exists kal, g_calib g = Some kal).
Proof. cbn zeta. apply stereo_ok_all, reach_gm. Qed.
End Reach.
