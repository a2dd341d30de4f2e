(* While the front end deskews a cloud, no optimised odometry reaches it: FE 452-454. *)
From Verif Require Import Base ImuModel FeModel FeSpec FeBaro FeProofs FeImu RegModel GmModel BeModel BeInv BeSect BeHealthy BeLive LpModel LpSpec LpProofs LpInv LpLive.
Local Open Scope Z_scope.

Section Pipe.
Variable bp : Z -> Z -> Z -> Z -> Z.
Variable al_s al_m : Z -> Z -> Z -> Z.
Variable fc : fcfg.
Variable c : config.
Variable s2m : bool.
Notation lreach := (lreach bp al_s al_m fc c s2m).

Theorem skew_undisturbed p s u sw new : matching fc c -> c_reg c = true -> lreach p s -> f_pc (l_f s) = PSkew u sw new ->
  lstep bp al_s al_m fc c s2m s LOdom = None.
Proof.
  intros Hm Hr H Ep. destruct (lreach_inv _ _ _ _ _ _ Hm _ _ H) as [d V]. pose proof (c_t _ _ _ _ (v_f _ _ _ _ _ _ _ _ _ V)) as T.
  pose proof (odoms_clouds _ _ _ _ _ _ _ _ _ Hm Hr V) as O. pose proof (v_paid _ _ _ _ _ _ _ _ _ V) as Pd. unfold paid in Pd. rewrite Ep in Pd. destruct Pd as [P1 P2]; [lia|].
  assert (Lc : List.length (cloud_stamps (l_f s)) = List.length d).
  { unfold cloud_stamps. rewrite map_length, (t_outc _ _ T), map_length. unfold clouded. rewrite Ep, app_nil_r. reflexivity. }
  cbn [lstep]. replace (nth_error (odoms (y_ev (l_b s))) (l_odo s)) with (@None (Z * Z)); [reflexivity|]. symmetry. apply nth_error_None. lia.
Qed.
End Pipe.
