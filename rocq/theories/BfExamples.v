(* Concrete configurations and refutations for body frames. *)
From Coq Require Import ZArith Reals Lra List Bool String.
From Verif Require Import Base Interp Geo EgModel EgProofs BfModel BfSpec BfProofs BfLoad BfMain BfTheorems BfLaws BfCast.
Import ListNotations.
Open Scope string_scope.
Open Scope list_scope.

(* tf knows gps and arm only *)
Definition tf (a c : string) (t : Z) : res iso :=
  if String.eqb a "base_link" && String.eqb c "gps" then Ok (mkIso mI (0, 0, 7)%R) else if String.eqb a "base_link" && String.eqb c "arm_link" then Ok (mkIso mI (IZR t, 1, 0)%R) else Throw.
Definition no_tf (a c : string) (t : Z) : res iso := Throw.
Lemma tf_ok : tf_motions tf.
Proof. intros a c time t. unfold tf. destruct (_ && _); [intros [= <-]; apply proper_I|]. destruct (_ && _); [intros [= <-]; apply proper_I|discriminate]. Qed.

Definition camera : xv := XStruct [("translation", XStruct [("x", XDouble 1); ("z", XDouble 2)])].
Definition mast : xv := XStruct [("aliases", XArray [XString "pole"]); ("frame_id", XString "mast_link"); ("frames", XStruct [("camera", camera)]); ("translation", XStruct [("y", XDouble 5)])].
Definition robot : xv := XStruct [("base_link", XStruct [("frames", XStruct [
  ("arm", XStruct [("dynamic", XBool true); ("frame_id", XString "arm_link")]);
  ("gps", XStruct [("lookup_tf", XBool true)]);
  ("mast", mast)])])].
Lemma normal_one : qnormalise qI = qI.
Proof. unfold qnormalise, qI. destruct (Rlt_dec 0 (0 * 0 + 0 * 0 + 0 * 0 + 1 * 1)) as [_|N]; [|lra]. replace (0 * 0 + 0 * 0 + 0 * 0 + 1 * 1)%R with 1%R by ring. rewrite sqrt_1. unfold Rdiv. rewrite Rinv_1. tup; ring. Qed.
Lemma qmat_one : qmat qI = mI. Proof. apply qmat_I. Qed.

Definition spot : xv -> iso := fun v => mkIso mI (declared_translation v).
Example robot_loads : exists b, load tf robot = Ok b /\ frame_list b = ["camera"; "mast"; "gps"; "arm"; "base_link"] /\ frame b "pole" = Ok "mast" /\ aliases b "mast_link" = Ok ["pole"] /\
  is_dynamic b "arm" = Ok true /\ lookedup_tf b "gps" = Ok true /\ is_dynamic b "camera" = Ok false /\ is_dynamic b "mast" = Ok false /\ is_dynamic b "gps" = Ok false /\ has_frame b "pole" = false.
Proof.
  cbv -[R0 R1 Rplus Rmult Ropp Rinv Rdiv Rlt_dec sqrt IZR IPR IPR_2 INR qnormalise qmat mmul mapply vadd mT vopp]. eexists. split; [reflexivity|]. cbv -[R0 R1 Rplus Rmult Ropp Rinv Rdiv Rlt_dec sqrt IZR IPR IPR_2 INR qnormalise qmat mmul mapply vadd mT vopp]. auto 12.
Qed.
(* the camera stands at its own offset plus the mast's *)
Example camera_stands : stands tf "base_link" (XStruct [("frames", XStruct [("arm", XStruct [("dynamic", XBool true); ("frame_id", XString "arm_link")]); ("gps", XStruct [("lookup_tf", XBool true)]); ("mast", mast)])]) "camera" (mkIso mI (1, 5, 2)%R).
Proof.
  replace (mkIso mI (1, 5, 2)%R) with (imul (imul iid (spot mast)) (spot camera)) by (unfold spot; cbn; unfold imul, iid; cbn [lin tr]; f_equal; [vred; tup; ring|vred; tup; ring]).
  assert (T : turns qI mI) by (right; exists qI, 1%R; split; [unfold qunit, qdot, qI; ring|]; split; [lra|]; split; [unfold qI; tup; ring|symmetry; apply qmat_one]).
  assert (M : declared "base_link" (XStruct [("frames", XStruct [("arm", XStruct [("dynamic", XBool true); ("frame_id", XString "arm_link")]); ("gps", XStruct [("lookup_tf", XBool true)]); ("mast", mast)])]) "base_link" "mast" mast) by (apply d_top; cbn; auto).
  eapply s_in; [eapply d_in; [exact M|left; reflexivity]|reflexivity| |cbn; split; [reflexivity|exact T]].
  eapply s_in; [exact M|reflexivity|apply s_body|cbn; split; [reflexivity|exact T]].
Qed.
Example robot_camera : exists b, load tf robot = Ok b /\ forall look' t, body_to_frame look' b "camera" t = Ok (mkIso mI (1, 5, 2)%R).
Proof.
  destruct robot_loads as (b & L & _ & _ & _ & _ & _ & DC & _). exists b. split; [exact L|]. intros look' t. destruct (load_transforms tf look' robot b L) as (body & root & E & A & _). injection E as <- <-. apply A; [exact DC|apply camera_stands].
Qed.
(* the same with the transforms broadcast *)
Example robot_sends : exists b l, load tf robot = Ok b /\ static_transforms tf b = Ok l /\ map child l = ["camera"; "mast_link"; "pole"; "arm_link"].
Proof.
  cbv -[R0 R1 Rplus Rmult Ropp Rinv Rdiv Rlt_dec sqrt IZR IPR IPR_2 INR qnormalise qmat mmul mapply vadd mT vopp]. eexists _, _. split; [reflexivity|]. cbv -[R0 R1 Rplus Rmult Ropp Rinv Rdiv Rlt_dec sqrt IZR IPR IPR_2 INR qnormalise qmat mmul mapply vadd mT vopp]. split; reflexivity.
Qed.
(* without tf the configuration is refused *)
Example robot_needs_tf : load no_tf robot = Throw. Proof. reflexivity. Qed.
Example duplicate_refused : load no_tf (XStruct [("base", XStruct [("frames", XStruct [("a", XStruct []); ("b", XStruct [("frames", XStruct [("a", XStruct [])])])])])]) = Throw. Proof. reflexivity. Qed.
Example two_roots_refused : load no_tf (XStruct [("a", XStruct []); ("b", XStruct [])]) = Throw. Proof. reflexivity. Qed.
Example alias_clash_refused : load no_tf (XStruct [("base", XStruct [("frames", XStruct [("a", XStruct [("aliases", XArray [XString "base"])])])])]) = Throw. Proof. reflexivity. Qed.
(* a coordinate written without a point is refused *)
Example whole_number_refused : load no_tf (XStruct [("base", XStruct [("frames", XStruct [("a", XStruct [("translation", XStruct [("x", XInt 1)])])])])]) = Throw. Proof. reflexivity. Qed.

(* dynamic frame: documented to override the other settings, refused instead *)
Theorem dynamic_overrides_refuted : exists v, declared_dynamic v = true /\ load no_tf (XStruct [("base", XStruct [("frames", XStruct [("a", v)])])]) = Throw /\
  exists b, load no_tf (XStruct [("base", XStruct [("frames", XStruct [("a", XStruct [("dynamic", XBool true)])])])]) = Ok b.
Proof. exists (XStruct [("dynamic", XBool true); ("lookup_tf", XBool true)]). split; [reflexivity|]. split; [reflexivity|]. eexists. reflexivity. Qed.

(* w is documented to default to 1; a rotation given as x, y, z alone turns by half a turn or more *)
Definition tilt : xv := XStruct [("rotation", XStruct [("x", XDouble (1/100)); ("y", XDouble 0); ("z", XDouble 0)])].
Theorem rotation_w_refuted : exists m, turns (declared_rotation tilt) m /\ mapply m (0, 1, 0)%R = (0, -1, 0)%R /\ exists b, load no_tf (XStruct [("base", XStruct [("frames", XStruct [("a", tilt)])])]) = Ok b.
Proof.
  exists (qmat (0, 1, 0, 0)%R). split.
  - right. exists (0, 1, 0, 0)%R, (1/100)%R. split; [unfold qunit, qdot; ring|]. split; [lra|]. split; [cbn; unfold number; cbn; tup; lra|reflexivity].
  - split; [unfold qmat; vred; tup; lra|]. eexists. reflexivity.
Qed.
(* an all zero rotation is taken as none *)
Theorem zero_rotation_accepted : exists v, declared_rotation v = (0, 0, 0, 0)%R /\ (exists b, load no_tf (XStruct [("base", XStruct [("frames", XStruct [("a", v)])])]) = Ok b) /\ turns (declared_rotation v) mI.
Proof. exists (XStruct [("rotation", XStruct [])]). split; [reflexivity|]. split; [eexists; reflexivity|left; auto]. Qed.
(* a translation given as an array is accepted and has no effect *)
Theorem array_translation_ignored : exists v b, member "translation" v = Some (XArray [XDouble 1; XDouble 2; XDouble 3]) /\ load no_tf (XStruct [("base", XStruct [("frames", XStruct [("a", v)])])]) = Ok b /\ body_to_frame no_tf b "a" 0 = Ok iid.
Proof.
  pose (v := XStruct [("translation", XArray [XDouble 1; XDouble 2; XDouble 3])]). exists v. assert (L : exists b, load no_tf (XStruct [("base", XStruct [("frames", XStruct [("a", v)])])]) = Ok b /\ is_dynamic b "a" = Ok false) by (eexists; split; reflexivity). destruct L as (b & L & D).
  exists b. split; [reflexivity|]. split; [exact L|]. destruct (load_transforms no_tf no_tf _ b L) as (body & root & [= <- <-] & A & _). apply A; [exact D|]. replace iid with (imul iid iid) by apply imul_id_l.
  eapply s_in; [apply d_top; left; reflexivity|reflexivity|apply s_body|]. cbn. split; [reflexivity|]. right. exists qI, 1%R. split; [unfold qunit, qdot, qI; ring|]. split; [lra|]. split; [unfold qI; tup; ring|symmetry; apply qmat_one].
Qed.
(* settings of the body frame other than its id and its frames have no effect, whatever they are *)
Theorem body_settings_ignored look body root root' : struct root -> struct root' -> member "frame_id" root = member "frame_id" root' -> member "frames" root = member "frames" root' -> load look (XStruct [(body, root)]) = load look (XStruct [(body, root')]).
Proof. intros [l ->] [l' ->] E F. cbn [load]. unfold node_id, process_frames. rewrite E, F. reflexivity. Qed.
(* dynamic frames are sent once, as static transforms, with the value they have at start *)
Theorem dynamic_sent_static_refuted : exists b l t t', load tf robot = Ok b /\ static_transforms tf b = Ok l /\ is_dynamic b "arm" = Ok true /\ In ("base_link", "arm_link", t) l /\ body_to_frame tf b "arm" 9 = Ok t' /\ t <> t'.
Proof.
  destruct robot_sends as (b & l & L & S & _). destruct robot_loads as (b' & L' & _ & _ & _ & D & _). rewrite L in L'. injection L' as <-. exists b, l, (mkIso mI (0, 1, 0)%R), (mkIso mI (9, 1, 0)%R). split; [exact L|]. split; [exact S|]. split; [exact D|].
  destruct (broadcast tf tf robot b L) as (body & root & [= <- <-] & _ & B). destruct (B l S) as (_ & _ & I). split.
  - apply I. left. split; [reflexivity|]. exists "base_link", "arm", (XStruct [("dynamic", XBool true); ("frame_id", XString "arm_link")]). split; [apply d_top; left; reflexivity|]. split; [reflexivity|]. split; [reflexivity|]. reflexivity.
  - split; [|intros [= E]; lra]. destruct (load_transforms tf tf robot b L) as (body & root & [= <- <-] & _ & _ & C). destruct (C "arm" 9%Z D) as (i & EI & -> & _). destruct (load_names _ _ _ L) as (body & root & [= <- <-] & _ & _ & _ & _ & _ & NI & _). apply NI in EI.
    destruct EI as [[[=] _]|(p & v & DD & ->)]. destruct (load_unique _ _ _ L) as (body & root & [= <- <-] & _ & U & _). destruct (U _ "base_link" _ _ (XStruct [("dynamic", XBool true); ("frame_id", XString "arm_link")]) DD) as [_ ->]; [apply d_top; cbn; left; reflexivity|]. reflexivity.
Qed.
(* and when one is not yet known, nothing is sent at all *)
Theorem dynamic_unknown_refuted : exists cfg b, load no_tf cfg = Ok b /\ static_transforms no_tf b = Throw /\ is_dynamic b "fixed" = Ok false /\ has_frame b "fixed" = true.
Proof. exists (XStruct [("base", XStruct [("frames", XStruct [("arm", XStruct [("dynamic", XBool true)]); ("fixed", XStruct [])])])]). 
  cbv -[R0 R1 Rplus Rmult Ropp Rinv Rdiv Rlt_dec sqrt IZR IPR IPR_2 INR qnormalise qmat mmul mapply vadd mT vopp]. eexists. split; [reflexivity|]. cbv -[R0 R1 Rplus Rmult Ropp Rinv Rdiv Rlt_dec sqrt IZR IPR IPR_2 INR qnormalise qmat mmul mapply vadd mT vopp]. auto.
Qed.
