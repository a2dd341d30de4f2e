(* Point clouds as bytes: pcl::PCLPointCloud2 and the utilities on it.
   pointcloud_tools/src/pclpointcloud2_utilities.cpp (PU), pointcloud_tools/include/pointcloud_tools/impl/pclpointcloud2_utilities.hpp (PI),
   serpent/src/front_end/lidar/pointcloud_formatter.cpp (PF).
   Sizes and offsets are the mathematical values of the unsigned members; arithmetic that the code does in std::uint32_t is
   reduced modulo 2^32 (u32), std::size_t arithmetic (64 bit) is not.  Reading or writing outside a buffer is UB. *)
From Verif Require Import Base.
Local Open Scope Z_scope.

Notation bytes := (list Z).   (* std::vector<std::uint8_t> *)
Definition zlen (d : bytes) : Z := Z.of_nat (length d).
Definition u32 (x : Z) : Z := x mod 4294967296.
Definition u64 (x : Z) : Z := x mod 18446744073709551616.

(* pcl::PCLPointField *)
Record field := mkF { f_name : string; f_off : Z; f_ty : Z; f_cnt : Z }.
(* pcl::PCLPointCloud2; header.seq is kept with the frame as it is only ever copied *)
Record cloud := mkC { c_seq : Z; c_stamp : Z; c_frame : string; c_h : Z; c_w : Z; c_fields : list field; c_big : Z;
                      c_ps : Z; c_rs : Z; c_data : bytes; c_dense : Z }.

(* pcl::PCLPointField::PointFieldTypes *)
Definition INT8 : Z := 1. Definition UINT8 : Z := 2. Definition INT16 : Z := 3. Definition UINT16 : Z := 4.
Definition INT32 : Z := 5. Definition UINT32 : Z := 6. Definition FLOAT32 : Z := 7. Definition FLOAT64 : Z := 8.
(* the cases of the switch statements, PI 131-166 *)
Definition known (ty : Z) : bool := (1 <=? ty) && (ty <=? 8).
(* pcl::getFieldSize: 0 for types it does not know *)
Definition fsize (ty : Z) : Z :=
  if (ty =? 1) || (ty =? 2) then 1 else if (ty =? 3) || (ty =? 4) then 2
  else if (ty =? 5) || (ty =? 6) || (ty =? 7) then 4 else if ty =? 8 then 8 else 0.
(* is_8bit ... is_64bit, PU 251-333, is_same_bit_depth PI 415-453: throw for an unknown run-time type *)
Definition same_depth (ty rt : Z) : res bool := if known rt then Ok (fsize ty =? fsize rt) else Throw.

(* memcpy out of / into a vector at index i: &data[i] needs i < size *)
Definition slice (d : bytes) (i n : Z) : bytes := firstn (Z.to_nat n) (skipn (Z.to_nat i) d).
Definition splice (d : bytes) (i : Z) (b : bytes) : bytes := firstn (Z.to_nat i) d ++ b ++ skipn (Z.to_nat (i + zlen b)) d.
Definition rd (d : bytes) (i n : Z) : res bytes :=
  if (0 <=? i) && (i <? zlen d) && (i + n <=? zlen d) then Ok (slice d i n) else UB.
Definition wr (d : bytes) (i : Z) (b : bytes) : res bytes :=
  if (0 <=? i) && (i <? zlen d) && (i + zlen b <=? zlen d) then Ok (splice d i b) else UB.
(* std::vector<std::uint8_t>::resize *)
Definition vresize (d : bytes) (n : Z) : bytes := firstn (Z.to_nat n) d ++ repeat 0 (Z.to_nat n - length d)%nat.

(* PU 381-383, 392-394, 410-416 *)
Definition point_step (f : field) : Z := u32 (f_off f + fsize (f_ty f) * f_cnt f).
Definition row_step (ps w : Z) : Z := u32 (ps * w).
Definition size_bytes (c : cloud) : Z := u32 (c_h c * c_rs c).
Definition size_points (c : cloud) : Z := u32 (c_h c * c_w c).
(* PU 184-186 *)
Definition empty (c : cloud) : bool := size_points c =? 0.

Definition with_data (c : cloud) (d : bytes) : cloud :=
  mkC (c_seq c) (c_stamp c) (c_frame c) (c_h c) (c_w c) (c_fields c) (c_big c) (c_ps c) (c_rs c) d (c_dense c).
Definition with_fields (c : cloud) (fs : list field) : cloud :=
  mkC (c_seq c) (c_stamp c) (c_frame c) (c_h c) (c_w c) fs (c_big c) (c_ps c) (c_rs c) (c_data c) (c_dense c).
Definition with_stamp (c : cloud) (t : Z) : cloud :=
  mkC (c_seq c) t (c_frame c) (c_h c) (c_w c) (c_fields c) (c_big c) (c_ps c) (c_rs c) (c_data c) (c_dense c).
Definition with_frame (c : cloud) (s : string) : cloud :=
  mkC (c_seq c) (c_stamp c) s (c_h c) (c_w c) (c_fields c) (c_big c) (c_ps c) (c_rs c) (c_data c) (c_dense c).

(* PU 199-224 *)
Fixpoint find_field (fs : list field) (name : string) : option field :=
  match fs with [] => None | f :: fs' => if String.eqb (f_name f) name then Some f else find_field fs' name end.
Definition get_field (c : cloud) (name : string) : res field :=
  match find_field (c_fields c) name with Some f => Ok f | None => Throw end.
Definition has_field (c : cloud) (name : string) : bool :=
  match find_field (c_fields c) name with Some _ => true | None => false end.
(* assignment through the reference that the non-const get_field returns *)
Fixpoint upd_field (fs : list field) (name : string) (g : field -> field) : list field :=
  match fs with [] => [] | f :: fs' => if String.eqb (f_name f) name then g f :: fs' else f :: upd_field fs' name g end.
(* PU 180-182 *)
Definition change_field_name (c : cloud) (from to : string) : res cloud :=
  rbind (get_field c from) (fun _ => Ok (with_fields c (upd_field (c_fields c) from (fun f => mkF to (f_off f) (f_ty f) (f_cnt f))))).

(* ---- adding fields: PU 17-39 ---- *)
Fixpoint append_fields (fs : list field) (names : list string) (ty cnt : Z) : list field :=
  match names with
  | [] => fs
  | n :: ns => append_fields (fs ++ [mkF n (match rev fs with [] => 0 | l :: _ => point_step l end) ty cnt]) ns ty cnt
  end.
(* the loop of 35-37; UB also when the fuel (one step per byte of dest) runs out *)
Fixpoint copy_points (fuel : nat) (src : bytes) (dps sps i j : Z) (dst : bytes) : res bytes :=
  if i <? zlen dst then
    match fuel with
    | O => UB
    | S k => rbind (rd src j sps) (fun b => rbind (wr dst i b) (fun dst' => copy_points k src dps sps (i + dps) (j + sps) dst'))
    end
  else Ok dst.
Definition add_fields (src : cloud) (names : list string) (ty cnt : Z) : res cloud :=
  let fs := append_fields (c_fields src) names ty cnt in
  match rev fs with
  | [] => UB   (* dest.fields.back() of an empty vector, 31 *)
  | l :: _ =>
      let ps := point_step l in
      let rs := row_step ps (c_w src) in
      let dst := vresize [] (u32 (c_h src * rs)) in
      rbind (copy_points (length dst) (c_data src) ps (c_ps src) 0 0 dst) (fun d =>
      Ok (mkC (c_seq src) (c_stamp src) (c_frame src) (c_h src) (c_w src) fs (c_big src) ps rs d (c_dense src)))
  end.

(* PU 385-390 *)
Definition resize (c : cloud) (w h : Z) : cloud :=
  let rs := row_step (c_ps c) w in
  mkC (c_seq c) (c_stamp c) (c_frame c) h w (c_fields c) (c_big c) (c_ps c) rs (vresize (c_data c) (u32 (h * rs))) (c_dense c).

(* ---- values ----
   A codec stands for the machine's number formats: dec reads the object representation of a value of a field type, enc
   writes it, cast is static_cast to the type (the identity on values of that type). V holds the values of all types. *)
Record codec (V : Type) := mkK { dec : Z -> bytes -> V; enc : Z -> V -> bytes; cast : Z -> V -> V }.
Arguments dec {V}. Arguments enc {V}. Arguments cast {V}.

Section Values.
Variable V : Type.
Variable K : codec V.

(* the lambdas of PI 27-31, 51-55, 78-82, 95-97, 112-116, 168-170 *)
Definition read_field (out : Z) (f : field) (c : cloud) (i : Z) : res V :=
  rbind (rd (c_data c) (i * c_ps c + f_off f) (fsize (f_ty f))) (fun b => Ok (cast K out (dec K (f_ty f) b))).
(* the lambdas of PI 190-193, 215-217, 240-242, 255-256, 271-275, 327-329 *)
Definition write_field (f : field) (c : cloud) (i : Z) (v : V) : res cloud :=
  rbind (wr (c_data c) (i * c_ps c + f_off f) (enc K (f_ty f) (cast K (f_ty f) v))) (fun d => Ok (with_data c d)).
(* create_get_field_data_function<OutT>, PI 128-171, and its use (376-379) *)
Definition field_data (out : Z) (f : field) (c : cloud) (i : Z) : res V :=
  if known (f_ty f) then read_field out f c i else Throw.
(* create_set_field_data_function<InT>, PI 287-330, and its use (666-670) *)
Definition set_field_data (f : field) (c : cloud) (i : Z) (v : V) : res cloud :=
  if known (f_ty f) then write_field f c i v else Throw.

(* for (i = 0; i < n; ++i) *)
Fixpoint for_points (n : nat) (i : Z) (step : Z -> cloud -> res cloud) (c : cloud) : res cloud :=
  match n with O => Ok c | S k => rbind (step i c) (fun c' => for_points k (i + 1) step c') end.

(* cast_field, PI 332-352; cast_field_with_scale, PI 354-374. via is the type read by the getter, g the scaling *)
Definition convert_field (ty via : Z) (g : V -> V) (c : cloud) (name : string) : res cloud :=
  rbind (get_field c name) (fun f =>
  rbind (same_depth ty (f_ty f)) (fun same =>
  if negb same then Throw
  else if f_ty f =? ty then Ok c
  else
    let f' := mkF (f_name f) (f_off f) ty (f_cnt f) in
    let c' := with_fields c (upd_field (c_fields c) name (fun _ => f')) in
    for_points (Z.to_nat (size_points c')) 0
      (fun i c => rbind (read_field via f c i) (fun v => write_field f' c i (g v))) c')).
Definition cast_field (ty : Z) (c : cloud) (name : string) : res cloud := convert_field ty ty (fun v => v) c name.
Definition cast_field_with_scale (mul : V -> V) (ty : Z) (c : cloud) (name : string) : res cloud := convert_field ty FLOAT64 mul c name.

(* scale_field, PU 396-407; scale_and_cast_field (PI 636-644) has the same body, its type parameter is not used *)
Definition scale_field_at (mul : V -> V) (c : cloud) (f : field) : res cloud :=
  if known (f_ty f) then
    for_points (Z.to_nat (size_points c)) 0 (fun i c => rbind (read_field FLOAT64 f c i) (fun v => write_field f c i (mul v))) c
  else Throw.
Definition scale_field (mul : V -> V) (c : cloud) (name : string) : res cloud := rbind (get_field c name) (scale_field_at mul c).

(* ---- filter_max, PI 381-413 ---- *)
(* le v: the comparison of the value read with max (false for NaN); T the type of max; w counts dest.width *)
Fixpoint filter_loop (n : nat) (i : Z) (T : Z) (le : V -> bool) (f : field) (src : cloud) (w : Z) (dst : bytes) : res (Z * bytes) :=
  match n with
  | O => Ok (w, dst)
  | S k =>
      rbind (read_field T f src i) (fun v =>
      if le v then
        rbind (rd (c_data src) (i * c_ps src) (c_ps src)) (fun b =>
        rbind (wr dst (u32 (w * c_ps src)) b) (fun dst' => filter_loop k (i + 1) T le f src (u32 (w + 1)) dst'))
      else filter_loop k (i + 1) T le f src w dst)
  end.
Definition filter_max (T : Z) (le : V -> bool) (src : cloud) (f : field) : res cloud :=
  if known (f_ty f) then
    rbind (filter_loop (Z.to_nat (size_points src)) 0 T le f src 0 (vresize [] (size_bytes src))) (fun wd =>
    let rs := row_step (c_ps src) (fst wd) in
    Ok (mkC (c_seq src) (c_stamp src) (c_frame src) 1 (fst wd) (c_fields src) (c_big src) (c_ps src) rs
            (vresize (snd wd) (u32 (1 * rs))) 0))
  else Throw.

(* ---- folds over a field: max 587-599, min 617-629, sum 692-701 (all PI) ---- *)
Fixpoint fold_field (n : nat) (i : Z) (T : Z) (op : V -> V -> V) (f : field) (c : cloud) (acc : V) : res V :=
  match n with O => Ok acc | S k => rbind (read_field T f c i) (fun v => fold_field k (i + 1) T op f c (op acc v)) end.
Definition fold_all (T : Z) (op : V -> V -> V) (init : V) (c : cloud) (f : field) : res V :=
  if known (f_ty f) then fold_field (Z.to_nat (size_points c)) 0 T op f c init else Throw.
(* lowest / highest: numeric_limits<T>; op = std::max, std::min *)
Definition field_extreme (T : Z) (op : V -> V -> V) (limit : V) (c : cloud) (f : field) : res V :=
  if empty c then Throw else fold_all T op limit c f.

(* ---- PointcloudFormatter, PF 27-79 ---- *)
Inductive sensor := OUSTER | CUSTOM.
Record fmt_cfg := mkFC { fc_sensor : sensor; fc_time : bool; fc_first : bool; fc_frame : string }.
(* ns, mm: multiplication in double by 1e-9 and 1e-3; le: comparison with max_time_threshold.
   The result is the flag first_pointcloud_removed with the published cloud, if any. *)
Definition format (ns mm : V -> V) (le : V -> bool) (cfg : fmt_cfg) (removed : bool) (msg : cloud) : res (bool * option cloud) :=
  if fc_first cfg && negb removed then Ok (true, None) else
  rbind (match fc_sensor cfg with
         | OUSTER => rbind (cast_field_with_scale ns FLOAT32 msg "t"%string) (fun c => cast_field_with_scale mm FLOAT32 c "range"%string)
         | CUSTOM => if negb (has_field msg "t"%string) && has_field msg "time"%string
                     then change_field_name msg "time"%string "t"%string else Ok msg
         end) (fun c =>
  rbind (if fc_time cfg then
           rbind (get_field c "t"%string) (fun f => if f_ty f =? FLOAT32 then filter_max FLOAT32 le c f else Throw)
         else Ok c) (fun c => Ok (removed, Some (with_frame c (fc_frame cfg))))).
End Values.
Arguments read_field {V}. Arguments write_field {V}. Arguments field_data {V}. Arguments set_field_data {V}.
Arguments convert_field {V}. Arguments cast_field {V}. Arguments cast_field_with_scale {V}.
Arguments scale_field_at {V}. Arguments scale_field {V}. Arguments filter_loop {V}. Arguments filter_max {V}.
Arguments fold_field {V}. Arguments fold_all {V}. Arguments field_extreme {V}. Arguments format {V}.
