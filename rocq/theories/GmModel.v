(* Model of serpent::GraphManager / ISAM2GraphManager.
   Source: serpent/src/back_end/graph_manager.cpp (GM), include/serpent/back_end/graph_manager-inl.hpp
   (GMI), include/serpent/back_end/graph_manager.hpp (GMH).

   Simplifications common to the whole file:
   - int / unsigned are unbounded Z; poses, velocities, biases, points, measurements, calibrations are
     opaque tokens (Z): the manager only stores and forwards them;
   - noise models are forwarded unchanged by the code and are left out of factors;
   - assert(key_ >= 0) aborts in debug builds and is absent in release builds, where the following
     gtsam::Symbol construction throws for a negative index: both are [Throw] here. *)
From Verif Require Import Base.

(* ---------------------------------------------------------------------------------------------- *)
(* GM 11-15: symbol shorthands; gtsam::Symbol packs (character, 56-bit index) into a 64-bit key and
   throws std::invalid_argument when the index does not fit (a negative int converts to a huge
   unsigned). Characters are the lower case letters used by gtsam::symbol_shorthand. *)
Inductive sym := SymB | SymP | SymS | SymV | SymX.

Definition sym_char (c : sym) : Z :=
  match c with SymB => 98 | SymP => 112 | SymS => 115 | SymV => 118 | SymX => 120 end.

Definition idx_lim : Z := 72057594037927936.  (* 2^56 *)

Definition raw (c : sym) (i : Z) : Z := sym_char c * idx_lim + i.

Definition idx_ok (i : Z) : bool := (0 <=? i) && (i <? idx_lim).

Definition sym_key (c : sym) (i : Z) : res Z := if idx_ok i then Ok (raw c i) else Throw.

(* Factor kinds created by the manager (GM 84-127, 170-188). *)
Inductive fkind := FPriorPose | FPriorVel | FPriorBias | FPriorBaro | FBetweenPose | FImu | FBaro
                 | FBaroBias | FStereo.

(* A factor: kind, involved variables in constructor order, measurement token. *)
Record factor := mkFactor { f_kind : fkind; f_vars : list Z; f_meas : Z }.

(* GMH 371-462: data members of GraphManager *)
Record gm := mkGm {
  g_keys : smap (Z * Z);            (* named keys: key, priority (GMH 377-385, 419) *)
  g_ts : omap Z;                    (* timestamps_ *)
  g_calib : option Z;               (* K, null initially *)
  g_cam : option Z;                 (* body_to_stereo_left_cam *)
  g_feat : omap (omap Z);           (* stereo_features *)
  g_ids : omap (list Z);            (* stereo_landmark_ids *)
  g_new_ids : omap (list Z);        (* new_stereo_landmark_ids *)
  g_fac : omap (list factor);       (* factors_ *)
  g_new_fac : omap (list factor);   (* new_factors_ *)
  g_val : omap Z;                   (* values_ (ordered by gtsam::Key) *)
  g_new_val : omap Z;               (* new_values_ *)
  g_unm : omap (list Z)             (* unmarginalised_keys_ *)
}.

Definition gm_init : gm := mkGm [] [] None None [] [] [] [] [] [] [] [].

Definition with_keys x g := mkGm x (g_ts g) (g_calib g) (g_cam g) (g_feat g) (g_ids g) (g_new_ids g) (g_fac g) (g_new_fac g) (g_val g) (g_new_val g) (g_unm g).
Definition with_ts x g := mkGm (g_keys g) x (g_calib g) (g_cam g) (g_feat g) (g_ids g) (g_new_ids g) (g_fac g) (g_new_fac g) (g_val g) (g_new_val g) (g_unm g).
Definition with_calib x g := mkGm (g_keys g) (g_ts g) x (g_cam g) (g_feat g) (g_ids g) (g_new_ids g) (g_fac g) (g_new_fac g) (g_val g) (g_new_val g) (g_unm g).
Definition with_cam x g := mkGm (g_keys g) (g_ts g) (g_calib g) x (g_feat g) (g_ids g) (g_new_ids g) (g_fac g) (g_new_fac g) (g_val g) (g_new_val g) (g_unm g).
Definition with_feat x g := mkGm (g_keys g) (g_ts g) (g_calib g) (g_cam g) x (g_ids g) (g_new_ids g) (g_fac g) (g_new_fac g) (g_val g) (g_new_val g) (g_unm g).
Definition with_ids x y g := mkGm (g_keys g) (g_ts g) (g_calib g) (g_cam g) (g_feat g) x y (g_fac g) (g_new_fac g) (g_val g) (g_new_val g) (g_unm g).
Definition with_fac x y g := mkGm (g_keys g) (g_ts g) (g_calib g) (g_cam g) (g_feat g) (g_ids g) (g_new_ids g) x y (g_val g) (g_new_val g) (g_unm g).
Definition with_val x y g := mkGm (g_keys g) (g_ts g) (g_calib g) (g_cam g) (g_feat g) (g_ids g) (g_new_ids g) (g_fac g) (g_new_fac g) x y (g_unm g).
Definition with_unm x g := mkGm (g_keys g) (g_ts g) (g_calib g) (g_cam g) (g_feat g) (g_ids g) (g_new_ids g) (g_fac g) (g_new_fac g) (g_val g) (g_new_val g) x.

(* ---------------------------------------------------------------------------------------------- *)
(* std::map::emplace(key, T{}).first->second.push_back... : append to the list stored at a key,
   creating an empty list first. GM 559-569. *)
Definition mentry {A} (k : Z) (m : omap (list A)) : list A :=
  match mget k m with Some l => l | None => [] end.
Definition mtouch {A} (k : Z) (m : omap (list A)) : omap (list A) := mput k (mentry k m) m.
Definition mpush {A} (k : Z) (a : A) (m : omap (list A)) : omap (list A) := mput k (mentry k m ++ [a]) m.

(* GMI 28-35 update: values_.update throws if the key does not exist; new_values_ only if present.
   gtsam::Values::update also throws on a type change, impossible here because the dynamic type is
   determined by the symbol character in every setter. *)
Definition gm_update (rk v : Z) (g : gm) : gm * res unit :=
  if mmem rk (g_val g) then
    (with_val (mput rk v (g_val g))
              (if mmem rk (g_new_val g) then mput rk v (g_new_val g) else g_new_val g) g, Ok tt)
  else (g, Throw).

(* GMI 8-15 add: gtsam::Values::insert throws if the key exists *)
Definition gm_add (c : sym) (k v : Z) (g : gm) : gm * res unit :=
  match sym_key c k with
  | Ok rk =>
      if mmem rk (g_val g) then (g, Throw)
      else let g1 := with_val (mput rk v (g_val g)) (g_new_val g) g in
           if mmem rk (g_new_val g) then (g1, Throw)
           else let g2 := with_val (g_val g1) (mput rk v (g_new_val g)) g1 in
                (with_unm (mpush k rk (g_unm g)) g2, Ok tt)
  | _ => (g, Throw)
  end.

(* GMI 17-26 set *)
Definition gm_set (c : sym) (k v : Z) (g : gm) : gm * res unit :=
  match sym_key c k with
  | Ok rk => if mmem rk (g_val g) then gm_update rk v g else gm_add c k v g
  | _ => (g, Throw)
  end.

(* GM 341-345 set_navstate: pose, then velocity *)
Definition gm_set_navstate (k p v : Z) (g : gm) : gm * res unit :=
  match gm_set SymX k p g with
  | (g1, Ok _) => gm_set SymV k v g1
  | r => r
  end.

(* getters GM 75-78, 233-236, 273-276, 403-405, 488-491: values_.at throws if absent *)
Definition gm_get (c : sym) (k : Z) (g : gm) : res Z :=
  match sym_key c k with
  | Ok rk => match mget rk (g_val g) with Some v => Ok v | None => Throw end
  | _ => Throw
  end.

(* GM 220-223 has_pose (and 229-231 has_stereo_landmark) *)
Definition gm_has (c : sym) (k : Z) (g : gm) : res bool :=
  match sym_key c k with Ok rk => Ok (mmem rk (g_val g)) | _ => Throw end.

(* GM 497-501 add_factor *)
Definition gm_add_factor (k : Z) (f : factor) (g : gm) : gm :=
  with_fac (mpush k f (g_fac g)) (mpush k f (g_new_fac g)) g.

(* sequence of symbol constructions; the first out-of-range index throws *)
Fixpoint sym_keys (l : list (sym * Z)) : res (list Z) :=
  match l with
  | [] => Ok []
  | (c, i) :: l' => rbind (sym_key c i) (fun k => rbind (sym_keys l') (fun ks => Ok (k :: ks)))
  end.

Definition gm_create (kind : fkind) (k : Z) (vars : list (sym * Z)) (meas : Z) (g : gm) : gm * res unit :=
  match sym_keys vars with
  | Ok vs => (gm_add_factor k (mkFactor kind vs meas) g, Ok tt)
  | _ => (g, Throw)
  end.

(* GM 84-127: variables of each factor as a function of its key *)
Definition factor_vars (kind : fkind) (k : Z) : list (sym * Z) :=
  match kind with
  | FPriorPose => [(SymX, k)]
  | FPriorVel => [(SymV, k)]
  | FPriorBias => [(SymB, k)]
  | FPriorBaro => [(SymP, k)]
  | FBetweenPose => [(SymX, k - 1); (SymX, k)]
  | FImu => [(SymX, k - 1); (SymV, k - 1); (SymX, k); (SymV, k); (SymB, k - 1); (SymB, k)]
  | FBaro => [(SymX, k); (SymP, k)]          (* GTSAM >= 4.2 branch, GM 89-92 *)
  | FBaroBias => [(SymP, k - 1); (SymP, k)]
  | FStereo => []                            (* created by gm_create_stereo only *)
  end.

(* ---------------------------------------------------------------------------------------------- *)
(* GM 335-339 set_named_key, 242-244 increment, 246-248 key, 288-290 priority *)
Definition gm_set_named_key (name : string) (k p : Z) (g : gm) : gm :=
  with_keys (sput name (k, p) (g_keys g)) g.

Definition gm_increment (name : string) (g : gm) : gm * res unit :=
  match sget name (g_keys g) with
  | Some (k, p) => (with_keys (sput name (k + 1, p) (g_keys g)) g, Ok tt)
  | None => (g, Throw)
  end.

Definition gm_key (name : string) (offset : Z) (g : gm) : res Z :=
  match sget name (g_keys g) with Some (k, _) => Ok (k + offset) | None => Throw end.

Definition gm_priority (name : string) (g : gm) : res Z :=
  match sget name (g_keys g) with Some (_, p) => Ok p | None => Throw end.

(* GM 250-263 minimum_key: running minimum starting at INT_MAX *)
Definition int_max : Z := 2147483647.

Definition min_key_loop (p : Z) (m : smap (Z * Z)) : bool * Z :=
  fold_left (fun acc e => let '(_, (k, pr)) := e in
                          if pr <=? p then (true, Z.min (snd acc) k) else acc) m (false, int_max).

Definition gm_minimum_key (p : Z) (g : gm) : res Z :=
  let '(found, k) := min_key_loop p (g_keys g) in if found then Ok k else Throw.

(* GM 372-376 set_timestamp; 435-438 timestamp; 426-428 time_between. Times are integer ns. *)
Definition gm_set_timestamp (k t : Z) (g : gm) : gm * res unit :=
  if 0 <=? k then (with_ts (mput k t (g_ts g)) g, Ok tt) else (g, Throw).

Definition gm_timestamp (k : Z) (g : gm) : res Z :=
  if 0 <=? k then match mget k (g_ts g) with Some t => Ok t | None => Throw end else Throw.

Definition gm_time_between (k1 k2 : Z) (g : gm) : res Z :=
  rbind (gm_timestamp k2 g) (fun t2 => rbind (gm_timestamp k1 g) (fun t1 => Ok (t2 - t1))).

(* ---------------------------------------------------------------------------------------------- *)
(* gtsam::StereoCamera::backproject(pose of the body, body_to_stereo_left_cam, calibration, measurement) *)
Section Stereo.
Variable backproject : Z -> Z -> Z -> Z -> Z.

(* GM 167-179: when the id is not in the frame before the previous one, the factor between the previous
   pose and the landmark is created and the id is registered as new *)
Definition stereo_first (k : Z) (im2 : option (omap Z)) (id meas1 : Z) (g : gm) : gm * res unit :=
  let first_time := match im2 with None => true | Some f => negb (mmem id f) end in  (* GM 167-168 *)
  if first_time then
    match sym_keys [(SymX, k - 1); (SymS, id)] with                    (* GM 170-172 *)
    | Ok vs =>
        let f := mkFactor FStereo vs meas1 in
        let g1 := gm_add_factor k f g in                                (* GM 173-174 *)
        (with_ids (mpush k id (g_ids g1)) (mpush k id (g_new_ids g1)) g1, Ok tt)  (* GM 177-178 *)
    | _ => (g, Throw)
    end
  else (g, Ok tt).

(* loop body GM 164-192 for one feature of the current frame; [im1], [im2] are the previous frames *)
Definition stereo_feature (k : Z) (im1 : omap Z) (im2 : option (omap Z)) (pose cam : Z)
    (id meas : Z) (g : gm) : gm * res unit :=
  match mget id im1 with
  | None => (g, Ok tt)                                                        (* GM 165 *)
  | Some meas1 =>
      match stereo_first k im2 id meas1 g with
      | (g1, Ok _) =>
          match g_calib g1 with
          | None => (g1, UB)                       (* null calibration dereferenced in backproject, GM 182 *)
          | Some kal =>
              match gm_set SymS id (backproject pose cam kal meas) g1 with    (* GM 182-184 *)
              | (g2, Ok _) =>
                  match sym_keys [(SymX, k); (SymS, id)] with                 (* GM 187-190 *)
                  | Ok vs => (gm_add_factor k (mkFactor FStereo vs meas) g2, Ok tt)
                  | _ => (g2, Throw)
                  end
              | r => r
              end
          end
      | r => r
      end
  end.

Fixpoint stereo_features_loop (k : Z) (im1 : omap Z) (im2 : option (omap Z)) (pose cam : Z)
    (fi : omap Z) (g : gm) : gm * res unit :=
  match fi with
  | [] => (g, Ok tt)
  | (id, meas) :: fi' =>
      match stereo_feature k im1 im2 pose cam id meas g with
      | (g1, Ok _) => stereo_features_loop k im1 im2 pose cam fi' g1
      | r => r
      end
  end.

(* GM 129-194 create_stereo_factors_and_values *)
Definition gm_create_stereo (k : Z) (features : omap Z) (g : gm) : gm * res unit :=
  if mmem k (g_feat g) then (g, Throw)                                        (* GM 132-135 *)
  else
    let g1 := with_feat (mput k features (g_feat g)) g in
    let g2 := with_fac (mtouch k (g_fac g1)) (mtouch k (g_new_fac g1)) g1 in  (* GM 142-143 *)
    match rev (g_feat g2) with                                                (* GM 138-139: rbegin, next *)
    | (_, fi) :: (_, im1) :: rest =>
        let im2 := match rest with [] => None | (_, f) :: _ => Some f end in  (* GM 148 *)
        match gm_has SymX k g2 with                                           (* GM 151-154 *)
        | Ok true =>
            match gm_get SymX k g2, g_cam g2 with                             (* GM 157, 398-401 *)
            | Ok pose, Some cam =>
                let g3 := with_ids (mtouch k (g_ids g2)) (mtouch k (g_new_ids g2)) g2 in  (* GM 160-163 *)
                stereo_features_loop k im1 im2 pose cam fi g3
            | _, _ => (g2, Throw)                                             (* optional::value() throws *)
            end
        | _ => (g2, Throw)
        end
    | _ => (g2, Ok tt)
    end.

End Stereo.

(* ---------------------------------------------------------------------------------------------- *)
(* queries *)
(* the integers first..last *)
Definition zrange (first last : Z) : list Z :=
  map (fun i => first + Z.of_nat i) (seq 0 (Z.to_nat (last - first + 1))).

(* GM 196-206 factors(first, last). (The int loop counter would overflow for last = INT_MAX.) *)
Definition gm_factors (first last : Z) (g : gm) : list factor :=
  concat (map (fun i => mentry i (g_fac g)) (zrange first last)).

(* GM 503-509 all_factors *)
Definition gm_all_factors (g : gm) : list factor := concat (map snd (g_fac g)).

(* GM 208-218 factors_for_key *)
Definition gm_factors_for_key (rk : Z) (g : gm) : list factor :=
  concat (map (fun e => filter (fun f => existsb (Z.eqb rk) (f_vars f)) (snd e)) (g_fac g)).

(* gtsam::Values::insert *)
Definition values_insert (k v : Z) (m : omap Z) : res (omap Z) :=
  if mmem k m then Throw else Ok (mput k v m).

Fixpoint lower_bound {A} (k : Z) (m : omap A) : omap A :=
  match m with
  | [] => []
  | (k', a) :: m' => if k' <? k then lower_bound k m' else m
  end.

(* GM 454-461 add_values. [endk]: what reading it->key yields when it is the end iterator.
   [None]: the C++ standard (undefined behaviour). [Some e]: a platform on which it reads as e; with
   libstdc++ this is the number of stored values, far below every symbol key. If e fell inside the
   range the loop would insert garbage: also [UB]. *)
Fixpoint add_values_loop (endk : option Z) (first last : Z) (it : omap Z) (ext : omap Z) : res (omap Z) :=
  match it with
  | [] =>
      match endk with
      | None => UB
      | Some e => if (first <=? e) && (e <=? last) then UB else Ok ext
      end
  | (k, v) :: it' =>
      if (first <=? k) && (k <=? last)
      then rbind (values_insert k v ext) (add_values_loop endk first last it')
      else Ok ext
  end.

Definition add_values (endk : option Z) (values : omap Z) (first last : Z) (ext : omap Z) : res (omap Z) :=
  add_values_loop endk first last (lower_bound first values) ext.

(* the four calls GM 465-468 / 526-529 with their symbol constructions *)
Definition add_values_sym (endk : option Z) (values : omap Z) (c : sym) (first last : Z) (ext : omap Z)
  : res (omap Z) :=
  rbind (sym_key c first) (fun a => rbind (sym_key c last) (fun b => add_values endk values a b ext)).

Definition add_values4 (endk : option Z) (values : omap Z) (first last : Z) : res (omap Z) :=
  rbind (add_values_sym endk values SymB first last []) (fun e1 =>
  rbind (add_values_sym endk values SymX first last e1) (fun e2 =>
  rbind (add_values_sym endk values SymV first last e2) (fun e3 =>
  add_values_sym endk values SymP first last e3))).

(* inner loops GM 472-474 / 533-535 *)
Fixpoint add_landmarks (values : omap Z) (ids : list Z) (ext : omap Z) : res (omap Z) :=
  match ids with
  | [] => Ok ext
  | id :: ids' =>
      rbind (sym_key SymS id) (fun rk =>
        match mget rk values with
        | None => Throw
        | Some v => rbind (values_insert rk v ext) (add_landmarks values ids')
        end)
  end.

(* std::map::find as an iterator: the suffix of the entries starting at the key *)
Fixpoint find_it {A} (k : Z) (m : omap A) : omap A :=
  match m with
  | [] => []
  | (k', a) :: m' => if k =? k' then m else find_it k m'
  end.

Fixpoint values_ids_loop (values : omap Z) (last : Z) (it : omap (list Z)) (ext : omap Z) : res (omap Z) :=
  match it with
  | [] => Ok ext
  | (k, ids) :: it' =>
      if k <=? last then rbind (add_landmarks values ids ext) (values_ids_loop values last it') else Ok ext
  end.

(* GM 463-478 values(first, last) *)
Definition gm_values (endk : option Z) (first last : Z) (g : gm) : res (omap Z) :=
  rbind (add_values4 endk (g_val g) first last) (fun ext =>
    values_ids_loop (g_val g) last (find_it first (g_ids g)) ext).

(* GM 407-424 stereo_landmarks: std::map::emplace keeps the first of duplicate ids *)
Fixpoint landmarks_of (values : omap Z) (ids : list Z) (ext : omap Z) : res (omap Z) :=
  match ids with
  | [] => Ok ext
  | id :: ids' =>
      rbind (sym_key SymS id) (fun rk =>
        match mget rk values with
        | None => Throw
        | Some v => landmarks_of values ids' (if mmem id ext then ext else mput id v ext)
        end)
  end.

Definition gm_stereo_landmarks (k : Z) (g : gm) : res (omap Z) :=
  if k =? -1 then landmarks_of (g_val g) (concat (map snd (g_ids g))) []
  else landmarks_of (g_val g) (mentry k (g_ids g)) [].

(* ---------------------------------------------------------------------------------------------- *)
(* extraction of pending data *)
(* while (it != end && it->first <= max_key) { push_back(it->second); erase } :
   GM 511-522 extract_new_factors, GM 547-557 extract_unmarginalised_keys *)
Fixpoint take_upto {A} (m : Z) (l : omap (list A)) : list A * omap (list A) :=
  match l with
  | [] => ([], [])
  | (k, fs) :: l' =>
      if k <=? m then let '(out, rest) := take_upto m l' in (fs ++ out, rest) else ([], l)
  end.

Definition gm_extract_factors (m : Z) (g : gm) : gm * list factor :=
  let '(out, rest) := take_upto m (g_new_fac g) in (with_fac (g_fac g) rest g, out).

Definition gm_extract_unm (m : Z) (g : gm) : gm * list Z :=
  let '(out, rest) := take_upto m (g_unm g) in (with_unm rest g, out).

(* GM 530-539: processed id lists are erased one map entry at a time *)
Fixpoint new_ids_loop (values : omap Z) (m : Z) (it : omap (list Z)) (ext : omap Z)
  : omap (list Z) * res (omap Z) :=
  match it with
  | [] => ([], Ok ext)
  | (k, ids) :: it' =>
      if k <=? m then
        match add_landmarks values ids ext with
        | Ok ext' => new_ids_loop values m it' ext'
        | Throw => (it, Throw)
        | UB => (it, UB)
        end
      else (it, Ok ext)
  end.

(* GM 524-545 extract_new_values *)
Definition gm_extract_values (endk : option Z) (m : Z) (g : gm) : gm * res (omap Z) :=
  match add_values4 endk (g_new_val g) 0 m with
  | Ok ext =>
      let '(ids', r) := new_ids_loop (g_new_val g) m (g_new_ids g) ext in
      let g1 := with_ids (g_ids g) ids' g in
      match r with
      | Ok ext' => (with_val (g_val g) (fold_left (fun nv e => mdel (fst e) nv) ext' (g_new_val g)) g1, Ok ext')
      | Throw => (g1, Throw)
      | UB => (g1, UB)
      end
  | Throw => (g, Throw)
  | UB => (g, UB)
  end.

(* GM 448-452 update_from_values *)
Fixpoint gm_update_all (l : omap Z) (g : gm) : gm * res unit :=
  match l with
  | [] => (g, Ok tt)
  | (k, v) :: l' => match gm_update k v g with (g1, Ok _) => gm_update_all l' g1 | r => r end
  end.

(* ---------------------------------------------------------------------------------------------- *)
(* ISAM2GraphManager. The gtsam::ISAM2 object is abstracted to the set of variables it currently
   holds and the list of factors it received. Its contract used here: update() throws on a variable it
   already has and on a factor mentioning an unknown variable; otherwise it either throws (numerical
   failure, oracle) or succeeds; calculateEstimate() returns some value (oracle) for exactly the variables
   it holds; marginalizeLeaves() throws for unknown variables or if not leaves (oracle), and removes
   them. *)
Record igm := mkIgm {
  i_gm : gm;
  i_vars : list Z;           (* variables currently in the optimiser *)
  i_facs : list factor;      (* factors received so far *)
  i_opt : Z;                 (* opt_key_ *)
  i_marg_on : bool;          (* marginalisation *)
  i_marg_key : Z;            (* marginalisation_key_ *)
  i_window : Z               (* marginalisation_window_size *)
}.

(* GM 571-576 *)
Definition igm_init : igm := mkIgm gm_init [] [] (-1) false (-1) 0.

Definition with_gm g s := mkIgm g (i_vars s) (i_facs s) (i_opt s) (i_marg_on s) (i_marg_key s) (i_window s).

Definition zmem (k : Z) (l : list Z) : bool := existsb (Z.eqb k) l.

(* outcomes chosen by the numerical library during one call *)
Record oracle := mkOracle {
  o_end : option Z;         (* reading the end iterator, see add_values_loop *)
  o_values_first : bool;    (* unspecified argument evaluation order in GM 605 *)
  o_solve : bool;           (* numerical success of update *)
  o_est : Z -> Z;           (* estimate *)
  o_leaves : bool           (* the variables to marginalise are leaves *)
}.

(* GM 605: extraction of both arguments in either order *)
Definition igm_extract (o : oracle) (m : Z) (g : gm) : gm * res (list factor * omap Z) :=
  if o_values_first o then
    match gm_extract_values (o_end o) m g with
    | (g1, Ok vs) => let '(g2, fs) := gm_extract_factors m g1 in (g2, Ok (fs, vs))
    | (g1, Throw) => (g1, Throw)
    | (g1, UB) => (g1, UB)
    end
  else
    let '(g1, fs) := gm_extract_factors m g in
    match gm_extract_values (o_end o) m g1 with
    | (g2, Ok vs) => (g2, Ok (fs, vs))
    | (g2, Throw) => (g2, Throw)
    | (g2, UB) => (g2, UB)
    end.

(* precondition of gtsam::ISAM2::update *)
Definition update_ok (vars : list Z) (fs : list factor) (vs : omap Z) : bool :=
  forallb (fun k => negb (zmem k vars)) (mkeys vs)
  && forallb (fun f => forallb (fun k => zmem k vars || mmem k vs) (f_vars f)) fs.

(* calculateEstimate as an ordered gtsam::Values *)
Definition estimate (o : oracle) (vars : list Z) : omap Z :=
  fold_left (fun m k => mput k (o_est o k) m) vars [].

(* GM 594-601 marginalise *)
Definition igm_marginalise (o : oracle) (k : Z) (s : igm) : igm * res (list Z) :=
  if i_opt s <? k then (s, Throw)
  else
    let '(g1, ks) := gm_extract_unm k (i_gm s) in
    let s1 := mkIgm g1 (i_vars s) (i_facs s) (i_opt s) (i_marg_on s) k (i_window s) in
    if forallb (fun x => zmem x (i_vars s)) ks && o_leaves o
    then (mkIgm g1 (filter (fun x => negb (zmem x ks)) (i_vars s)) (i_facs s) (i_opt s) (i_marg_on s) k (i_window s),
          Ok ks)
    else (s1, Throw).

(* GM 603-613 optimise; returns what was handed to the optimiser and which variables were marginalised *)
Definition igm_optimise (o : oracle) (m : Z) (s : igm)
  : igm * res (list factor * omap Z * list Z) :=
  match igm_extract o m (i_gm s) with
  | (g1, Ok (fs, vs)) =>
      let s1 := with_gm g1 s in
      if update_ok (i_vars s) fs vs && o_solve o then
        let s2 := mkIgm g1 (i_vars s ++ mkeys vs) (i_facs s ++ fs) m (i_marg_on s) (i_marg_key s) (i_window s) in
        match gm_update_all (estimate o (i_vars s2)) g1 with
        | (g2, Ok _) =>
            let s3 := with_gm g2 s2 in
            let nk := m - i_window s in
            if i_marg_on s && (i_marg_key s <=? nk) then
              match igm_marginalise o nk s3 with
              | (s4, Ok ks) => (s4, Ok (fs, vs, ks))
              | (s4, Throw) => (s4, Throw)
              | (s4, UB) => (s4, UB)
              end
            else (s3, Ok (fs, vs, []))
        | (g2, Throw) => (with_gm g2 s2, Throw)
        | (g2, UB) => (with_gm g2 s2, UB)
        end
      else (s1, Throw)
  | (g1, Throw) => (with_gm g1 s, Throw)
  | (g1, UB) => (with_gm g1 s, UB)
  end.

(* GM 623-628 set_marginalisation *)
Definition igm_set_marg (enabled : bool) (w : Z) (s : igm) : igm :=
  mkIgm (i_gm s) (i_vars s) (i_facs s) (i_opt s) enabled (i_marg_key s) (if enabled then w else i_window s).

(* ---------------------------------------------------------------------------------------------- *)
(* The public calls as one alphabet, so that histories are lists of calls. *)
Inductive gmop :=
| OSetPose (k v : Z) | OSetVel (k v : Z) | OSetBias (k v : Z) | OSetBaro (k v : Z)
| OSetNavstate (k p v : Z)
| OSetNamedKey (name : string) (k p : Z)
| OIncrement (name : string)
| OSetTimestamp (k t : Z)
| OSetCalib (c : Z) | OSetCam (c : Z)
| OCreate (kind : fkind) (k meas : Z)
| OStereo (k : Z) (features : omap Z)
| OUpdateAll (l : omap Z)
| OOptimise (o : oracle) (m : Z)
| OMarginalise (o : oracle) (k : Z)
| OSetMarg (enabled : bool) (w : Z).

(* observable result of a call: exception/UB, factors and values given to the optimiser, variables
   marginalised *)
Definition obs : Type := res (list factor * omap Z * list Z).
Definition obs_of {A} (r : res A) : obs :=
  match r with Ok _ => Ok ([], [], []) | Throw => Throw | UB => UB end.

Section Step.
Variable backproject : Z -> Z -> Z -> Z -> Z.

Definition lift (s : igm) (r : gm * res unit) : igm * obs := (with_gm (fst r) s, obs_of (snd r)).

Definition gm_step (s : igm) (op : gmop) : igm * obs :=
  let g := i_gm s in
  match op with
  | OSetPose k v => lift s (gm_set SymX k v g)
  | OSetVel k v => lift s (gm_set SymV k v g)
  | OSetBias k v => lift s (gm_set SymB k v g)
  | OSetBaro k v => lift s (gm_set SymP k v g)
  | OSetNavstate k p v => lift s (gm_set_navstate k p v g)
  | OSetNamedKey n k p => lift s (gm_set_named_key n k p g, Ok tt)
  | OIncrement n => lift s (gm_increment n g)
  | OSetTimestamp k t => lift s (gm_set_timestamp k t g)
  | OSetCalib c => lift s (with_calib (Some c) g, Ok tt)
  | OSetCam c => lift s (with_cam (Some c) g, Ok tt)
  | OCreate FStereo _ _ => (s, Throw)       (* no such public call *)
  | OCreate kind k meas => lift s (gm_create kind k (factor_vars kind k) meas g)
  | OStereo k f => lift s (gm_create_stereo backproject k f g)
  | OUpdateAll l => lift s (gm_update_all l g)
  | OOptimise o m => igm_optimise o m s
  | OMarginalise o k =>
      match igm_marginalise o k s with
      | (s', Ok ks) => (s', Ok ([], [], ks)) | (s', Throw) => (s', Throw) | (s', UB) => (s', UB)
      end
  | OSetMarg e w => (igm_set_marg e w s, Ok ([], [], []))
  end.

(* state after a history, and the observations along it *)
Fixpoint gm_run (s : igm) (ops : list gmop) : igm :=
  match ops with [] => s | op :: ops' => gm_run (fst (gm_step s op)) ops' end.

Fixpoint gm_trace (s : igm) (ops : list gmop) : list obs :=
  match ops with [] => [] | op :: ops' => snd (gm_step s op) :: gm_trace (fst (gm_step s op)) ops' end.

End Step.
