(* What the registration module should publish, from its inputs alone.                              *)
From Verif Require Import Base RegModel.

Section RegSpec.
  Variables C T : Type.
  Variable al_s al_m : C -> C -> T -> T.

  (* the inputs of the two callbacks, in order of delivery *)
  Definition scans (ls : list (lab C T)) : list (C * T) :=
    flat_map (fun l => match l with InS _ _ c g => [(c, g)] | _ => [] end) ls.
  Definition maps (ls : list (lab C T)) : list C :=
    flat_map (fun l => match l with InM _ _ m => [m] | _ => [] end) ls.

  (* each scan after the first, with its scan-to-scan registration against its predecessor *)
  Fixpoint chain (p : C) (l : list (C * T)) : list (C * T) :=
    match l with
    | [] => []
    | (c, g) :: l' => (c, al_s c p g) :: chain c l'
    end.
  Definition s2s_all (l : list (C * T)) : list (C * T) :=
    match l with [] => [] | (c, _) :: l' => chain c l' end.

  (* the n-th refinement: n-th registered scan, n-th map *)
  Definition refine (x : (C * T) * C) : C * T := (fst (fst x), al_m (fst (fst x)) (snd x) (snd (fst x))).
  Definition s2m_all (l : list (C * T)) (ms : list C) : list (C * T) := map refine (combine (s2s_all l) ms).
End RegSpec.
