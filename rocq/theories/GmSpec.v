(* Specification vocabulary for the graph manager properties, independent of the loops of the model. *)
From Coq Require Import Ascii.
From Verif Require Import Base GmModel.

(* ---- values: a write log ---- *)
(* [apply_writes]: the store after a list of (variable, value) assignments *)
Definition apply_writes (ws : list (Z * Z)) (m : omap Z) : omap Z :=
  fold_left (fun m w => mput (fst w) (snd w) m) ws m.

Fixpoint last_write (rk : Z) (ws : list (Z * Z)) : option Z :=
  match ws with
  | [] => None
  | (k, v) :: ws' =>
      match last_write rk ws' with Some v' => Some v' | None => if rk =? k then Some v else None end
  end.

(* ---- stereo: what one call is supposed to register ---- *)
(* an id seen in the current frame (measurement t_meas) and the previous one (t_prev); t_first: not in
   the frame before the previous one *)
Record track := mkTrack { t_id : Z; t_prev : Z; t_meas : Z; t_first : bool }.

Definition tracks_of (fi im1 : omap Z) (im2 : option (omap Z)) : list track :=
  flat_map (fun e =>
    match mget (fst e) im1 with
    | Some p => [mkTrack (fst e) p (snd e)
                   (match im2 with Some f => negb (mmem (fst e) f) | None => true end)]
    | None => []
    end) fi.

Fixpoint take_while {A} (p : A -> bool) (l : list A) : list A :=
  match l with [] => [] | a :: l' => if p a then a :: take_while p l' else [] end.

(* tracks whose variables are representable *)
Definition track_ok (k : Z) (t : track) : bool := idx_ok (t_id t) && (negb (t_first t) || idx_ok (k - 1)).

Definition track_factors (k : Z) (t : track) : list factor :=
  (if t_first t then [mkFactor FStereo [raw SymX (k - 1); raw SymS (t_id t)] (t_prev t)] else [])
  ++ [mkFactor FStereo [raw SymX k; raw SymS (t_id t)] (t_meas t)].

Section Spec.
Variable backproject : Z -> Z -> Z -> Z -> Z.

(* the tracks a stereo call at key k registers in state g: those of the two newest frames, up to the
   first unrepresentable one; none if the call is rejected before *)
Definition stereo_done (k : Z) (f : omap Z) (g : gm) : list track :=
  if mmem k (g_feat g) then []
  else match rev (mput k f (g_feat g)) with
       | (_, fi) :: (_, im1) :: rest =>
           if idx_ok k then
             match mget (raw SymX k) (g_val g), g_cam g with
             | Some _, Some _ =>
                 take_while (track_ok k)
                   (tracks_of fi im1 (match rest with [] => None | (_, f2) :: _ => Some f2 end))
             | _, _ => []
             end
           else []
       | _ => []
       end.

Definition stereo_writes (k : Z) (f : omap Z) (g : gm) : list (Z * Z) :=
  match mget (raw SymX k) (g_val g), g_cam g, g_calib g with
  | Some p, Some c, Some kal =>
      map (fun t => (raw SymS (t_id t), backproject p c kal (t_meas t))) (stereo_done k f g)
  | _, _, _ => []
  end.

(* did the optimiser accept the data handed to it? *)
Definition accepted (o : oracle) (m : Z) (s : igm) : bool :=
  match igm_extract o m (i_gm s) with
  | (_, Ok (fs, vs)) => update_ok (i_vars s) fs vs && o_solve o
  | _ => false
  end.

(* variables the optimiser holds right after an accepted update, with their new estimates *)
Definition estimates (o : oracle) (m : Z) (s : igm) : list (Z * Z) :=
  match igm_extract o m (i_gm s) with
  | (_, Ok (fs, vs)) => estimate o (i_vars s ++ mkeys vs)
  | _ => []
  end.

(* the value assignments performed by one call *)
Definition writes (s : igm) (op : gmop) : list (Z * Z) :=
  let g := i_gm s in
  let one c k v := if idx_ok k then [(raw c k, v)] else [] in
  match op with
  | OSetPose k v => one SymX k v
  | OSetVel k v => one SymV k v
  | OSetBias k v => one SymB k v
  | OSetBaro k v => one SymP k v
  | OSetNavstate k p v => one SymX k p ++ one SymV k v
  | OStereo k f => stereo_writes k f g
  | OUpdateAll l => take_while (fun w => mmem (fst w) (g_val g)) l
  | OOptimise o m => if accepted o m s then estimates o m s else []
  | _ => []
  end.

Fixpoint run_writes (s : igm) (ops : list gmop) : list (Z * Z) :=
  match ops with
  | [] => []
  | op :: ops' => writes s op ++ run_writes (fst (gm_step backproject s op)) ops'
  end.

(* ---- factors: a creation log ---- *)
(* gtsam::Symbol(c, i).key() written out: the character in the top byte, the index below *)
Definition gkey (c : ascii) (i : Z) : Z := Z.of_N (N_of_ascii c) * 2 ^ 56 + i.

(* the variables each kind of factor must connect: x pose, v velocity, b IMU bias, p barometer bias *)
Definition spec_vars (kind : fkind) (k : Z) : list (ascii * Z) :=
  match kind with
  | FPriorPose => [("x"%char, k)]
  | FPriorVel => [("v"%char, k)]
  | FPriorBias => [("b"%char, k)]
  | FPriorBaro => [("p"%char, k)]
  | FBetweenPose => [("x"%char, k - 1); ("x"%char, k)]
  | FImu => [("x"%char, k - 1); ("v"%char, k - 1); ("x"%char, k); ("v"%char, k); ("b"%char, k - 1); ("b"%char, k)]
  | FBaro => [("x"%char, k); ("p"%char, k)]
  | FBaroBias => [("p"%char, k - 1); ("p"%char, k)]
  | FStereo => []
  end.

Definition creations (s : igm) (op : gmop) : list (Z * factor) :=
  match op with
  | OCreate FStereo _ _ => []
  | OCreate kind k meas =>
      if forallb (fun v => (0 <=? snd v) && (snd v <? 2 ^ 56)) (spec_vars kind k)
      then [(k, mkFactor kind (map (fun v => gkey (fst v) (snd v)) (spec_vars kind k)) meas)]
      else []
  | OStereo k f => map (fun x => (k, x)) (flat_map (track_factors k) (stereo_done k f (i_gm s)))
  | _ => []
  end.

Fixpoint run_creations (s : igm) (ops : list gmop) : list (Z * factor) :=
  match ops with
  | [] => []
  | op :: ops' => creations s op ++ run_creations (fst (gm_step backproject s op)) ops'
  end.

(* does a call ask the optimiser to take over everything up to m? *)
Definition opt_bound (op : gmop) : option Z := match op with OOptimise _ m => Some m | _ => None end.

(* the creation log entries not yet handed over *)
Fixpoint run_pending (s : igm) (ops : list gmop) (pend : list (Z * factor)) : list (Z * factor) :=
  match ops with
  | [] => pend
  | op :: ops' =>
      let pend1 := pend ++ creations s op in
      let pend2 := match opt_bound op with
                   | Some m => filter (fun e => m <? fst e) pend1
                   | None => pend1 end in
      run_pending (fst (gm_step backproject s op)) ops' pend2
  end.
End Spec.

(* entries of a log with a given key, in order *)
Definition at_key {A} (k : Z) (l : list (Z * A)) : list A := map snd (filter (fun e => fst e =? k) l).

(* stable sort by key: the specification of "increasing key order, creation order within a key" *)
Fixpoint insert_key {A} (e : Z * A) (l : list (Z * A)) : list (Z * A) :=
  match l with
  | [] => [e]
  | e' :: l' => if fst e <=? fst e' then e :: l else e' :: insert_key e l'
  end.
Fixpoint sort_key {A} (l : list (Z * A)) : list (Z * A) :=
  match l with [] => [] | e :: l' => insert_key e (sort_key l') end.

(* ---- named keys ---- *)
(* effect of a call on one name: an assignment, an increment of an existing name, or nothing *)
Definition named_after (name : string) (op : gmop) (cur : option (Z * Z)) : option (Z * Z) :=
  match op with
  | OSetNamedKey n k p => if String.eqb name n then Some (k, p) else cur
  | OIncrement n =>
      if String.eqb name n then match cur with Some (k, p) => Some (k + 1, p) | None => None end else cur
  | _ => cur
  end.

(* timestamps *)
Definition stamp_after (k : Z) (op : gmop) (cur : option Z) : option Z :=
  match op with
  | OSetTimestamp k' t => if (k =? k') && (0 <=? k') then Some t else cur
  | _ => cur
  end.

(* ---- a platform on which reading past the last value is harmless (libstdc++) ---- *)
Definition end_harmless (e : option Z) : Prop := exists k, e = Some k /\ k < raw SymB 0.
