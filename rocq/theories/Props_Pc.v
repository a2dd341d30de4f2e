(* Properties C41-C44, C69-C72 (point clouds). Proofs in PcProofs.v, PcOps.v, PcGeomProofs.v, PcFormat.v; cases in PcExamples.v. *)
From Coq Require Import Reals.
From Verif Require Import Base Interp Geo PcModel PcSpec PcProofs PcOps PcGeom PcGeomProofs PcFormat PcExamples.
Open Scope Z_scope.

(* C41 *)
Theorem C41_add_fields :
  forall (src : cloud) (names : list string) (ty cnt : Z),
    wf src ->
    0 <= cnt ->
    names <> [] ->
    fits src names ty cnt ->
    c_ps src = last_end (c_fields src) ->
    exists (d : cloud) (new : list field),
      add_fields src names ty cnt = Ok d /\
      wf d /\
      c_fields d = c_fields src ++ new /\
      map f_name new = names /\
      (forall g : field, In g new -> f_ty g = ty /\ f_cnt g = cnt) /\
      (forall f g : field, In f (c_fields src) -> In g new -> apart f g) /\
      pairwise new /\
      c_stamp d = c_stamp src /\
      c_frame d = c_frame src /\
      c_h d = c_h src /\
      c_w d = c_w src /\
      c_big d = c_big src /\
      c_dense d = c_dense src /\
      (forall i : Z,
       0 <= i < npts src ->
       (forall f : field, In f (c_fields src) -> fbytes d f i = fbytes src f i) /\ (forall g : field, In g new -> fbytes d g i = zeros (fwidth g))).
Proof. exact @add_fields_preserves. Qed.
Theorem C41_overrun_exactly :
  forall (src : cloud) (names : list string) (ty cnt : Z),
    wf src ->
    0 <= cnt ->
    names <> [] -> fits src names ty cnt -> add_fields src names ty cnt = UB <-> 0 < npts src /\ 0 < new_step src names ty cnt < c_ps src.
Proof. exact @add_fields_overruns. Qed.
Theorem C41_padding_refuted :
  exists (src : cloud) (names : list string) (ty cnt : Z),
      wf src /\ names <> [] /\ 0 < cnt /\ known ty = true /\ fits src names ty cnt /\ add_fields src names ty cnt = UB.
Proof. exact @add_fields_refuted. Qed.

(* C42 *)
Theorem C42_write_then_read :
  forall (V : Type) (K : codec V),
    codec_ok K ->
    forall (c : cloud) (f : field) (i : Z) (v : V),
    wf c ->
    scalar c f ->
    0 <= i < npts c ->
    exists c' : cloud,
      set_field_data K f c i v = Ok c' /\
      same_shape c c' /\
      wf c' /\
      value K c' f i = cast K (f_ty f) v /\
      (forall out : Z, field_data K out f c' i = Ok (cast K out (cast K (f_ty f) v))) /\
      (forall j o n : Z,
       0 <= j < npts c ->
       0 <= o ->
       0 <= n -> o + n <= c_ps c -> j <> i \/ clear_of f o n -> slice (c_data c') (j * c_ps c' + o) n = slice (c_data c) (j * c_ps c + o) n).
Proof. exact @set_get. Qed.
Theorem C42_read :
  forall (V : Type) (K : codec V) (c : cloud) (f : field) (i out : Z),
    wf c -> scalar c f -> 0 <= i < npts c -> field_data K out f c i = Ok (cast K out (value K c f i)).
Proof. exact @get_ok. Qed.
Theorem C42_unknown_type :
  forall (V : Type) (K : codec V) (c : cloud) (f : field) (i out : Z), known (f_ty f) = false -> field_data K out f c i = Throw.
Proof. exact @get_unknown. Qed.

(* C43 *)
Theorem C43_filter :
  forall (V : Type) (K : codec V) (T : Z) (le : V -> bool) (src : cloud) (f : field),
    wf src ->
    scalar src f ->
    exists d : cloud,
      filter_max K T le src f = Ok d /\
      wf d /\
      points d = filter (fun p : bytes => le (cast K T (pvalue K f p))) (points src) /\
      c_h d = 1 /\
      c_w d = Z.of_nat (Datatypes.length (filter (fun p : bytes => le (cast K T (pvalue K f p))) (points src))) /\
      c_rs d = c_ps d * c_w d /\
      zlen (c_data d) = c_h d * c_rs d /\
      c_fields d = c_fields src /\ c_ps d = c_ps src /\ c_stamp d = c_stamp src /\ c_frame d = c_frame src /\ c_big d = c_big src /\ c_dense d = 0.
Proof. exact @filter_max_spec. Qed.
Theorem C43_unknown_type :
  forall (V : Type) (K : codec V) (T : Z) (le : V -> bool) (src : cloud) (f : field), known (f_ty f) = false -> filter_max K T le src f = Throw.
Proof. exact @filter_max_unknown. Qed.

(* C44 *)
Theorem C44_deskew :
  forall K : codec R,
    codec_ok K ->
    forall (eps prec : R) (t : vec3) (q : quat) (dt : R) (new_time : Z) (src : cloud) (fx fy fz ft : field),
    (0 < eps)%R ->
    exact_rotation eps q ->
    near_identity prec t q = false ->
    (0 < dt)%R ->
    wf src ->
    find_field (c_fields src) "x" = Some fx ->
    find_field (c_fields src) "y" = Some fy ->
    find_field (c_fields src) "z" = Some fz ->
    find_field (c_fields src) "t" = Some ft ->
    scalar src fx ->
    scalar src fy ->
    scalar src fz ->
    scalar src ft ->
    disjoint [fx; fy; fz; ft] ->
    exists d : cloud,
      deskew K eps prec t q dt new_time src = Ok d /\
      same_shape (with_stamp src new_time) d /\
      (forall i : Z,
       0 <= i < npts src ->
       let s := cast K FLOAT64 (value K src ft i) in
       (exists p' : vec3,
          iapp (pose_at eps t q (new_fraction dt new_time (c_stamp src))) p' =
          iapp (pose_at eps t q (s / dt)) (vec_of K FLOAT64 fx fy fz (point src i)) /\ stored K fx fy fz (point d i) = rounded K fx fy fz p') /\
       ((s / dt)%R = new_fraction dt new_time (c_stamp src) -> widening K -> stored K fx fy fz (point d i) = stored K fx fy fz (point src i)) /\
       value K d ft i = cast K (f_ty ft) 0%R /\ untouched (c_ps src) [fx; fy; fz; ft] (point src i) (point d i)).
Proof. exact @deskew_spec. Qed.
Theorem C44_no_motion :
  forall (K : codec R) (eps prec : R) (t : vec3) (q : quat) (dt : R) (new_time : Z) (src : cloud),
    near_identity prec t q = true -> deskew K eps prec t q dt new_time src = Ok (with_stamp src new_time).
Proof. exact @deskew_identity. Qed.
Theorem C44_refusals :
  forall (K : codec R) (eps prec : R) (t : vec3) (q : quat) (dt : R) (new_time : Z) (src : cloud),
    near_identity prec t q = false ->
    (dt <= 0)%R \/ has_field src "x" = false \/ has_field src "y" = false \/ has_field src "z" = false \/ has_field src "t" = false ->
    deskew K eps prec t q dt new_time src = Throw.
Proof. exact @deskew_throws. Qed.
Theorem C44_pose_at_start :
  forall (eps : R) (t : vec3) (q : quat), (0 < eps)%R -> exact_rotation eps q -> pose_at eps t q 0 = iid.
Proof. exact @pose_start. Qed.
Theorem C44_pose_at_end :
  forall (eps : R) (t : vec3) (q : quat), (0 < eps)%R -> exact_rotation eps q -> pose_at eps t q 1 = {| lin := qmat q; tr := t |}.
Proof. exact @pose_end. Qed.
Theorem C44_constant_rate :
  forall (eps x y : R) (q : quat), (0 < eps)%R -> exact_rotation eps q -> slerp eps (x + y) qI q = qmul (slerp eps x qI q) (slerp eps y qI q).
Proof. exact @slerp_additive. Qed.
Theorem C44_pose_rigid :
  forall (eps : R) (t : vec3) (q : quat) (x : R), (0 < eps)%R -> exact_rotation eps q -> rigid (pose_at eps t q x).
Proof. exact @pose_rigid. Qed.
Theorem C44_early_reference_refuted :
  forall (dt : R) (stamp d : Z),
    (0 < dt)%R ->
    0 < d <= stamp ->
    stamp < 18446744073709551616 ->
    new_fraction dt (stamp - d) stamp = ((18446744073709551616 - IZR d) / 1000000 / dt)%R /\ (new_fraction dt (stamp - d) stamp > 0)%R.
Proof. exact @early_reference_refuted. Qed.
Theorem C44_times_kept_refuted :
  exists (src : cloud) (new_time : Z),
      wf src /\
      (forall (K : codec R) (eps prec dt : R),
       (0 < prec)%R ->
       deskew K eps prec v0 qI dt new_time src = Ok (with_stamp src new_time) /\
       (exists i : Z, 0 <= i < npts src /\ value codecZ (with_stamp src new_time) (ft FLOAT32) i <> 0)).
Proof. exact @times_kept_refuted. Qed.

(* C69 *)
Theorem C69_dropped :
  forall (V : Type) (K : codec V) (ns mm : V -> V) (le : V -> bool) (cfg : fmt_cfg) (removed : bool) (msg : cloud),
    (exists r : bool, format K ns mm le cfg removed msg = Ok (r, None)) <-> fc_first cfg = true /\ removed = false.
Proof. exact @format_drop. Qed.
Theorem C69_stream :
  forall (V : Type) (K : codec V) (ns mm : V -> V) (le : V -> bool) (cfg : fmt_cfg) (msgs : list cloud) (os : list (option cloud)),
    format_run K ns mm le cfg false msgs = Ok os ->
    Datatypes.length os = Datatypes.length msgs /\
    (forall k : nat, (k < Datatypes.length msgs)%nat -> nth k os None = None <-> k = 0%nat /\ fc_first cfg = true).
Proof. exact @format_run_drops. Qed.
Theorem C69_custom :
  forall (V : Type) (K : codec V) (ns mm : V -> V) (le : V -> bool) (cfg : fmt_cfg) (removed : bool) (msg : cloud) (f : field),
    fc_sensor cfg = CUSTOM ->
    fc_first cfg = false \/ removed = true ->
    wf msg ->
    find_field (c_fields msg) "t" = Some f ->
    f_ty f = FLOAT32 ->
    1 <= f_cnt f ->
    exists out : cloud,
      format K ns mm le cfg removed msg = Ok (removed, Some out) /\
      wf out /\
      c_frame out = fc_frame cfg /\
      c_stamp out = c_stamp msg /\ c_fields out = c_fields msg /\ c_ps out = c_ps msg /\ points out = filter (in_time K le cfg f) (points msg).
Proof. exact @format_custom. Qed.
Theorem C69_custom_renamed :
  forall (V : Type) (K : codec V) (ns mm : V -> V) (le : V -> bool) (cfg : fmt_cfg) (removed : bool) (msg : cloud) (f : field),
    fc_sensor cfg = CUSTOM ->
    fc_first cfg = false \/ removed = true ->
    wf msg ->
    find_field (c_fields msg) "t" = None ->
    find_field (c_fields msg) "time" = Some f ->
    f_ty f = FLOAT32 ->
    1 <= f_cnt f ->
    exists out : cloud,
      let f' := {| f_name := "t"; f_off := f_off f; f_ty := f_ty f; f_cnt := f_cnt f |} in
      format K ns mm le cfg removed msg = Ok (removed, Some out) /\
      wf out /\
      c_frame out = fc_frame cfg /\
      c_stamp out = c_stamp msg /\
      c_fields out =
      upd_field (c_fields msg) "time" (fun f0 : field => {| f_name := "t"; f_off := f_off f0; f_ty := f_ty f0; f_cnt := f_cnt f0 |}) /\
      find_field (c_fields out) "t" = Some f' /\ points out = filter (in_time K le cfg f') (points msg).
Proof. exact @format_custom_renames. Qed.
Theorem C69_custom_refused :
  forall (V : Type) (K : codec V) (ns mm : V -> V) (le : V -> bool) (cfg : fmt_cfg) (removed : bool) (msg : cloud),
    fc_sensor cfg = CUSTOM ->
    fc_first cfg = false \/ removed = true ->
    fc_time cfg = true ->
    (forall f : field, find_field (c_fields msg) "t" = Some f -> f_ty f <> FLOAT32) ->
    has_field msg "t" = true \/ has_field msg "time" = false -> format K ns mm le cfg removed msg = Throw.
Proof. exact @format_custom_throws. Qed.
Theorem C69_ouster :
  forall (V : Type) (K : codec V),
    codec_ok K ->
    forall (ns mm : V -> V) (le : V -> bool) (cfg : fmt_cfg) (removed : bool) (msg : cloud) (ft fr : field),
    fc_sensor cfg = OUSTER ->
    fc_first cfg = false \/ removed = true ->
    wf msg ->
    find_field (c_fields msg) "t" = Some ft ->
    find_field (c_fields msg) "range" = Some fr ->
    f_ty ft = UINT32 \/ f_ty ft = INT32 ->
    f_ty fr = UINT32 \/ f_ty fr = INT32 ->
    1 <= f_cnt ft ->
    1 <= f_cnt fr ->
    clear_of ft (f_off fr) 4 ->
    exists out c2 : cloud,
      let ft' := {| f_name := f_name ft; f_off := f_off ft; f_ty := FLOAT32; f_cnt := f_cnt ft |} in
      let fr' := {| f_name := f_name fr; f_off := f_off fr; f_ty := FLOAT32; f_cnt := f_cnt fr |} in
      format K ns mm le cfg removed msg = Ok (removed, Some out) /\
      wf out /\
      c_frame out = fc_frame cfg /\
      c_stamp out = c_stamp msg /\
      find_field (c_fields out) "t" = Some ft' /\
      find_field (c_fields out) "range" = Some fr' /\
      (forall n : string, n <> "t"%string -> n <> "range"%string -> find_field (c_fields out) n = find_field (c_fields msg) n) /\
      points out = filter (in_time K le cfg ft') (points c2) /\
      npts c2 = npts msg /\
      (forall i : Z,
       0 <= i < npts msg ->
       pvalue K ft' (point c2 i) = cast K FLOAT32 (ns (cast K FLOAT64 (value K msg ft i))) /\
       pvalue K fr' (point c2 i) = cast K FLOAT32 (mm (cast K FLOAT64 (value K msg fr i))) /\
       (forall o n : Z,
        0 <= o -> 0 <= n -> o + n <= c_ps msg -> clear_of ft o n -> clear_of fr o n -> slice (point c2 i) o n = slice (point msg i) o n)).
Proof. exact @format_ouster. Qed.
Theorem C69_ouster_refused :
  forall (V : Type) (K : codec V) (ns mm : V -> V) (le : V -> bool) (cfg : fmt_cfg) (removed : bool) (msg : cloud),
    fc_sensor cfg = OUSTER ->
    fc_first cfg = false \/ removed = true ->
    (forall f : field, find_field (c_fields msg) "t" = Some f -> known (f_ty f) = false \/ fsize (f_ty f) <> 4) ->
    format K ns mm le cfg removed msg = Throw.
Proof. exact @ouster_throws. Qed.
Theorem C69_unscaled :
  forall (V : Type) (K : codec V) (ns mm : V -> V) (le : V -> bool) (cfg : fmt_cfg) (removed : bool) (msg : cloud) (ft fr : field),
    fc_sensor cfg = OUSTER ->
    fc_first cfg = false \/ removed = true ->
    fc_time cfg = false ->
    find_field (c_fields msg) "t" = Some ft ->
    find_field (c_fields msg) "range" = Some fr ->
    f_ty ft = FLOAT32 -> f_ty fr = FLOAT32 -> format K ns mm le cfg removed msg = Ok (removed, Some (with_frame msg (fc_frame cfg))).
Proof. exact @ouster_float_unscaled. Qed.

(* C70 *)
Theorem C70_cast :
  forall (V : Type) (K : codec V),
    codec_ok K ->
    forall (ty via : Z) (g : V -> V) (c : cloud) (name : string) (f : field),
    wf c ->
    known ty = true ->
    find_field (c_fields c) name = Some f ->
    1 <= f_cnt f ->
    known (f_ty f) = true ->
    fsize (f_ty f) = fsize ty ->
    f_ty f <> ty ->
    exists c' : cloud,
      let f' := {| f_name := f_name f; f_off := f_off f; f_ty := ty; f_cnt := f_cnt f |} in
      convert_field K ty via g c name = Ok c' /\
      wf c' /\
      same_shape (with_fields c (upd_field (c_fields c) name (fun _ : field => f'))) c' /\
      (forall i : Z,
       0 <= i < npts c ->
       value K c' f' i = cast K ty (g (cast K via (value K c f i))) /\
       (forall o n : Z,
        0 <= o -> 0 <= n -> o + n <= c_ps c -> clear_of f o n -> slice (c_data c') (i * c_ps c + o) n = slice (c_data c) (i * c_ps c + o) n)).
Proof. exact @convert_ok. Qed.
Theorem C70_cast_refused :
  forall (V : Type) (K : codec V) (ty via : Z) (g : V -> V) (c : cloud) (name : string),
    find_field (c_fields c) name = None \/
    (exists f : field, find_field (c_fields c) name = Some f /\ (known (f_ty f) = false \/ fsize (f_ty f) <> fsize ty)) ->
    convert_field K ty via g c name = Throw.
Proof. exact @convert_throws. Qed.
Theorem C70_cast_same :
  forall (V : Type) (K : codec V) (ty via : Z) (g : V -> V) (c : cloud) (name : string) (f : field),
    find_field (c_fields c) name = Some f -> f_ty f = ty -> known ty = true -> convert_field K ty via g c name = Ok c.
Proof. exact @convert_same. Qed.
Theorem C70_scale :
  forall (V : Type) (K : codec V),
    codec_ok K ->
    forall (mul : V -> V) (c : cloud) (name : string) (f : field),
    wf c ->
    find_field (c_fields c) name = Some f ->
    known (f_ty f) = true ->
    1 <= f_cnt f ->
    exists c' : cloud,
      scale_field K mul c name = Ok c' /\
      wf c' /\
      same_shape c c' /\
      (forall i : Z,
       0 <= i < npts c ->
       value K c' f i = cast K (f_ty f) (mul (cast K FLOAT64 (value K c f i))) /\
       (forall o n : Z,
        0 <= o -> 0 <= n -> o + n <= c_ps c -> clear_of f o n -> slice (c_data c') (i * c_ps c + o) n = slice (c_data c) (i * c_ps c + o) n)).
Proof. exact @scale_ok. Qed.
Theorem C70_scale_skipped_refuted :
  exists (c : cloud) (name : string) (f : field) (mul : Z -> Z),
      wf c /\
      find_field (c_fields c) name = Some f /\
      f_ty f = FLOAT32 /\
      cast_field_with_scale codecZ mul FLOAT32 c name = Ok c /\
      (exists i : Z, 0 <= i < npts c /\ value codecZ c f i <> cast codecZ FLOAT32 (mul (cast codecZ FLOAT64 (value codecZ c f i)))).
Proof. exact @scale_skipped_refuted. Qed.

(* C71 *)
Theorem C71_unit_vectors :
  forall K : codec R,
    codec_ok K ->
    forall (src : cloud) (fx fy fz : field),
    wf src ->
    fits src ["ux"%string; "uy"%string; "uz"%string] FLOAT32 1 ->
    c_ps src = last_end (c_fields src) ->
    find_field (c_fields src) "x" = Some fx ->
    find_field (c_fields src) "y" = Some fy ->
    find_field (c_fields src) "z" = Some fz ->
    scalar src fx ->
    scalar src fy ->
    scalar src fz ->
    has_field src "ux" = false ->
    has_field src "uy" = false ->
    has_field src "uz" = false ->
    let pos := fun i : Z => vec_of K FLOAT32 fx fy fz (point src i) in
    (add_unit_vectors K src = Throw <-> (exists i : Z, 0 <= i < npts src /\ pos i = v0)) /\
    ((forall i : Z, 0 <= i < npts src -> pos i <> v0) ->
     exists (d : cloud) (ux uy uz : field),
       add_unit_vectors K src = Ok d /\
       wf d /\
       c_fields d = c_fields src ++ [ux; uy; uz] /\
       f_name ux = "ux"%string /\
       f_name uy = "uy"%string /\
       f_name uz = "uz"%string /\
       f_ty ux = FLOAT32 /\
       f_ty uy = FLOAT32 /\
       f_ty uz = FLOAT32 /\
       c_h d = c_h src /\
       c_w d = c_w src /\
       c_stamp d = c_stamp src /\
       c_frame d = c_frame src /\
       (forall i : Z,
        0 <= i < npts src ->
        (exists u : vec3, vnorm u = 1%R /\ vscale (vnorm (pos i)) u = pos i /\ stored K ux uy uz (point d i) = rounded K ux uy uz u) /\
        (forall f : field, In f (c_fields src) -> fbytes d f i = fbytes src f i))).
Proof. exact @unit_vectors_spec. Qed.
Theorem C71_normalise :
  forall v : vec3,
    (vnorm v = 0%R -> safe_normalise v = Throw) /\
    (vnorm v <> 0%R -> exists u : vec3, safe_normalise v = Ok u /\ vnorm u = 1%R /\ vscale (vnorm v) u = v).
Proof. exact @normalise_spec. Qed.

(* C72 *)
Theorem C72_max :
  forall (K : codec R) (T : Z) (lowest : R) (c : cloud) (f : field),
    wf c ->
    scalar c f ->
    (forall x : R, In x (column K T c f) -> (lowest <= x)%R) ->
    (npts c = 0 -> field_max K T lowest c f = Throw) /\
    (npts c <> 0 -> exists m : R, field_max K T lowest c f = Ok m /\ greatest (column K T c f) m).
Proof. exact @field_max_spec. Qed.
Theorem C72_min :
  forall (K : codec R) (T : Z) (highest : R) (c : cloud) (f : field),
    wf c ->
    scalar c f ->
    (forall x : R, In x (column K T c f) -> (x <= highest)%R) ->
    (npts c = 0 -> field_min K T highest c f = Throw) /\
    (npts c <> 0 -> exists m : R, field_min K T highest c f = Ok m /\ least (column K T c f) m).
Proof. exact @field_min_spec. Qed.
Theorem C72_statistics :
  forall (K : codec R) (lowest highest : R) (c : cloud) (f : field),
    wf c ->
    scalar c f ->
    (forall x : R, In x (column K FLOAT64 c f) -> (lowest <= x <= highest)%R) ->
    let l := column K FLOAT64 c f in
    (statistics K lowest highest c f = Throw <-> npts c = 0) /\
    (npts c <> 0 ->
     exists s : summary,
       statistics K lowest highest c f = Ok s /\
       s_label s = f_name f /\
       s_count s = npts c /\
       least l (s_min s) /\
       greatest l (s_max s) /\
       (s_mean s * IZR (npts c))%R = rsum l /\
       (s_min s <= s_mean s <= s_max s)%R /\
       (s_var s * IZR (npts c))%R = rsum (map (fun v : R => ((v - s_mean s) * (v - s_mean s))%R) l) /\
       (0 <= s_var s)%R /\
       (s_var s = 0%R <-> s_min s = s_max s) /\
       (s_var s * IZR (npts c))%R = (rsum (map (fun v : R => v * v) l) - s_mean s * s_mean s * IZR (npts c))%R).
Proof. exact @statistics_spec. Qed.

(* codecs *)
Theorem C42_codec_integers :
  codec_ok codecZ.
Proof. exact @codecZ_ok. Qed.
Theorem C42_codec_reals :
  codec_ok codecR.
Proof. exact @codecR_ok. Qed.
Theorem C44_codec_widening :
  widening codecR.
Proof. exact @codecR_widening. Qed.

Print Assumptions C41_add_fields.
Print Assumptions C41_overrun_exactly.
Print Assumptions C41_padding_refuted.
Print Assumptions C42_write_then_read.
Print Assumptions C42_read.
Print Assumptions C42_unknown_type.
Print Assumptions C43_filter.
Print Assumptions C43_unknown_type.
Print Assumptions C44_deskew.
Print Assumptions C44_no_motion.
Print Assumptions C44_refusals.
Print Assumptions C44_pose_at_start.
Print Assumptions C44_pose_at_end.
Print Assumptions C44_constant_rate.
Print Assumptions C44_pose_rigid.
Print Assumptions C44_early_reference_refuted.
Print Assumptions C44_times_kept_refuted.
Print Assumptions C69_dropped.
Print Assumptions C69_stream.
Print Assumptions C69_custom.
Print Assumptions C69_custom_renamed.
Print Assumptions C69_custom_refused.
Print Assumptions C69_ouster.
Print Assumptions C69_ouster_refused.
Print Assumptions C69_unscaled.
Print Assumptions C70_cast.
Print Assumptions C70_cast_refused.
Print Assumptions C70_cast_same.
Print Assumptions C70_scale.
Print Assumptions C70_scale_skipped_refuted.
Print Assumptions C71_unit_vectors.
Print Assumptions C71_normalise.
Print Assumptions C72_max.
Print Assumptions C72_min.
Print Assumptions C72_statistics.
Print Assumptions C42_codec_integers.
Print Assumptions C42_codec_reals.
Print Assumptions C44_codec_widening.
