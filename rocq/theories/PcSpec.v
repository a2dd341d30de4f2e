(* What a point cloud means, independently of the code: points, fields of points, values. *)
From Verif Require Import Base PcModel.
Local Open Scope Z_scope.

Definition npts (c : cloud) : Z := c_h c * c_w c.
Definition fwidth (f : field) : Z := fsize (f_ty f) * f_cnt f.
Definition f_end (f : field) : Z := f_off f + fwidth f.
(* the bytes of point i, and of field f of point i *)
Definition point (c : cloud) (i : Z) : bytes := slice (c_data c) (i * c_ps c) (c_ps c).
Definition fbytes (c : cloud) (f : field) (i : Z) : bytes := slice (c_data c) (i * c_ps c + f_off f) (fwidth f).
Definition indices (n : Z) : list Z := map Z.of_nat (seq 0 (Z.to_nat n)).
Definition points (c : cloud) : list bytes := map (point c) (indices (npts c)).

(* a cloud whose sizes agree, without padding at the end of rows, whose fields lie inside the point *)
Record wf (c : cloud) : Prop := {
  wf_h : 0 <= c_h c; wf_w : 0 <= c_w c; wf_ps : 0 <= c_ps c;
  wf_pos : 0 < c_ps c \/ npts c = 0;
  wf_points : npts c < 4294967296; wf_small : npts c * c_ps c < 4294967296; wf_row : c_ps c * c_w c < 4294967296; wf_step : c_ps c < 4294967296;
  wf_rs : c_rs c = c_ps c * c_w c;
  wf_data : zlen (c_data c) = npts c * c_ps c;
  wf_fields : forall f, In f (c_fields c) -> 0 <= f_off f /\ 0 <= f_cnt f /\ f_end f <= c_ps c }.

Definition apart (f g : field) : Prop := f_end f <= f_off g \/ f_end g <= f_off f.
Definition pairwise (fs : list field) : Prop := ForallOrdPairs apart fs.
(* where the last listed field ends *)
Definition last_end (fs : list field) : Z := match rev fs with [] => 0 | f :: _ => f_end f end.
Definition zeros (n : Z) : bytes := repeat 0 (Z.to_nat n).
(* everything except the bytes *)
Definition same_shape (c c' : cloud) : Prop := with_data c' [] = with_data c [] /\ zlen (c_data c') = zlen (c_data c).

(* a scalar field f usable in c *)
Definition scalar (c : cloud) (f : field) : Prop := known (f_ty f) = true /\ 0 <= f_off f /\ f_off f + fsize (f_ty f) <= c_ps c.
(* the value of scalar field f of point i *)
Definition value {V} (K : codec V) (c : cloud) (f : field) (i : Z) : V :=
  dec K (f_ty f) (slice (c_data c) (i * c_ps c + f_off f) (fsize (f_ty f))).
(* number formats: an encoded value has the size of its type, and decoding gives it back *)
Record codec_ok {V} (K : codec V) : Prop := {
  enc_size : forall ty v, known ty = true -> zlen (enc K ty v) = fsize ty;
  dec_enc : forall ty v, known ty = true -> dec K ty (enc K ty (cast K ty v)) = cast K ty v;
  cast_dec : forall ty b, known ty = true -> zlen b = fsize ty -> cast K ty (dec K ty b) = dec K ty b }.
(* the part of the point that scalar f occupies does not meet bytes [o, o+n) of the point *)
Definition clear_of (f : field) (o n : Z) : Prop := f_off f + fsize (f_ty f) <= o \/ o + n <= f_off f.
