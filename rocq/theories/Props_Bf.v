(* Properties C45, C77, C78: body frames. Proofs in BfTheorems.v, BfLaws.v, BfCast.v; cases and refutations in BfExamples.v. *)
From Coq Require Import ZArith Reals List String.
From Verif Require Import Base Interp Geo EgModel EgProofs BfModel BfSpec BfTheorems BfLaws BfCast BfHalf BfExamples.

(* C45 *)
Theorem C45_names :
  forall (look : string -> string -> Z -> res iso) (cfg : xv) (b : frames),
    load look cfg = Ok b ->
    exists (body : string) (root : xv),
      cfg = XStruct [(body, root)] /\
      body_frame b = body /\
      body_frame_id b = Ok (declared_id body root) /\
      (forall f : string, has_frame b f = true <-> f = body \/ (exists (p : string) (v : xv), declared body root p f v)) /\
      (forall f : string, In f (frame_list b) <-> has_frame b f = true) /\
      NoDup (frame_list b) /\
      (forall f id : string, frame_id b f = Ok id <-> has_id body root f id) /\
      (forall (f : string) (d : bool),
       is_dynamic b f = Ok d <-> f = body /\ d = false \/ (exists (p : string) (v : xv), declared body root p f v /\ d = declared_dynamic v)) /\
      (forall (f : string) (d : bool),
       lookedup_tf b f = Ok d <-> f = body /\ d = false \/ (exists (p : string) (v : xv), declared body root p f v /\ d = declared_lookup v)) /\
      (forall i f : string,
       frame b i = Ok f <->
       i = declared_id body root /\ f = body \/
       (exists (p : string) (v : xv), declared body root p f v /\ (i = declared_id f v \/ declared_dynamic v = false /\ In i (declared_aliases v)))) /\
      (forall (i : string) (l : list string),
       aliases b i = Ok l <->
       i = declared_id body root /\ l = [] \/
       (exists (p f : string) (v : xv),
          declared body root p f v /\ i = declared_id f v /\ l = (if declared_dynamic v then [] else declared_aliases v))).
Proof. exact (@load_names). Qed.
Theorem C45_unique :
  forall (look : string -> string -> Z -> res iso) (cfg : xv) (b : frames),
    load look cfg = Ok b ->
    exists (body : string) (root : xv),
      cfg = XStruct [(body, root)] /\
      (forall (p f : string) (v : xv), declared body root p f v -> f <> body) /\
      (forall (p p' f : string) (v v' : xv), declared body root p f v -> declared body root p' f v' -> p = p' /\ v = v') /\
      (forall f g i : string, frame_id b f = Ok i -> frame_id b g = Ok i -> f = g) /\
      (forall f i : string,
       frame_id b f = Ok i ->
       frame b i = Ok f /\
       (exists l : list string, aliases b i = Ok l /\ (forall a : string, In a l -> frame b a = Ok f /\ (forall g : string, frame_id b g <> Ok a)))).
Proof. exact (@load_unique). Qed.
Theorem C45_unknown_throws :
  forall (look look' : string -> string -> Z -> res iso) (cfg : xv) (b : frames) (f : string) (t : Z),
    load look cfg = Ok b ->
    has_frame b f = false ->
    frame_id b f = Throw /\
    is_dynamic b f = Throw /\
    lookedup_tf b f = Throw /\
    body_to_frame look' b f t = Throw /\
    frame_to_body look' b f t = Throw /\
    (forall g : string, frame_to_frame look' b f g t = Throw) /\
    (forall g : string, is_dynamic b g = Ok false -> frame_to_frame look' b g f t = Throw) /\
    (forall g : string, is_dynamic b g = Ok true -> frame_to_frame look' b g f t = Throw).
Proof. exact (@unknown_throws). Qed.
Theorem C45_transforms_are_products :
  forall (look look' : string -> string -> Z -> res iso) (cfg : xv) (b : frames),
    load look cfg = Ok b ->
    exists (body : string) (root : xv),
      cfg = XStruct [(body, root)] /\
      (forall (f : string) (time : Z) (t : iso), is_dynamic b f = Ok false -> body_to_frame look' b f time = Ok t <-> stands look body root f t) /\
      (forall (f : string) (time : Z),
       is_dynamic b f = Ok false -> exists t : iso, body_to_frame look' b f time = Ok t /\ frame_to_body look' b f time = Ok (iinv t)) /\
      (forall (f : string) (time : Z),
       is_dynamic b f = Ok true ->
       exists i : string,
         frame_id b f = Ok i /\
         body_to_frame look' b f time = look' (declared_id body root) i time /\
         frame_to_body look' b f time = look' i (declared_id body root) time).
Proof. exact (@load_transforms). Qed.
Theorem C45_static_groupoid :
  forall (look look' : string -> string -> Z -> res iso) (cfg : xv) (b : frames) (f g h : string) (time : Z),
    load look cfg = Ok b ->
    tf_motions look ->
    is_dynamic b f = Ok false ->
    is_dynamic b g = Ok false ->
    is_dynamic b h = Ok false ->
    exists x y : iso,
      motion x /\
      frame_to_frame look' b f g time = Ok x /\
      frame_to_frame look' b g h time = Ok y /\
      frame_to_frame look' b f h time = Ok (imul x y) /\
      frame_to_frame look' b g f time = Ok (iinv x) /\
      frame_to_frame look' b f f time = Ok iid /\
      frame_to_frame look' b (body_frame b) f time = body_to_frame look' b f time /\
      frame_to_frame look' b f (body_frame b) time = frame_to_body look' b f time.
Proof. exact (@static_laws). Qed.
Theorem C45_with_tf :
  forall (look look' : string -> string -> Z -> res iso) (cfg : xv) (b : frames) (pose : string -> iso) (time : Z),
    load look cfg = Ok b ->
    (forall i : string, motion (pose i)) ->
    (forall i j : string, look' i j time = Ok (imul (iinv (pose i)) (pose j))) ->
    (forall (f i : string) (t : iso) (bid : string),
     is_dynamic b f = Ok false ->
     frame_id b f = Ok i -> body_frame_id b = Ok bid -> body_to_frame look' b f time = Ok t -> t = imul (iinv (pose bid)) (pose i)) ->
    forall f g i j : string, frame_id b f = Ok i -> frame_id b g = Ok j -> frame_to_frame look' b f g time = Ok (imul (iinv (pose i)) (pose j)).
Proof. exact (@tf_laws). Qed.

(* C77: which configurations load *)
Theorem C77_accepted_iff :
  forall (look : string -> string -> Z -> res iso) (cfg : xv),
    (exists b : frames, load look cfg = Ok b) <->
    (exists (body : string) (root : xv),
       cfg = XStruct [(body, root)] /\
       struct root /\
       if_given "frame_id" root is_string /\
       if_given "frames" root struct /\
       NoDup (names body root) /\ NoDup (ids body root) /\ Forall (well_formed look body root) (entries body root)).
Proof. exact (@load_iff). Qed.
Theorem C77_never_undefined :
  forall (look : string -> string -> Z -> res iso) (cfg : xv), (forall (a c : string) (t : Z), look a c t <> UB) -> load look cfg <> UB.
Proof. exact (@load_defined). Qed.
Theorem C77_body_settings_ignored :
  forall (look : string -> string -> Z -> res iso) (body : string) (root root' : xv),
    struct root ->
    struct root' ->
    member "frame_id" root = member "frame_id" root' ->
    member "frames" root = member "frames" root' -> load look (XStruct [(body, root)]) = load look (XStruct [(body, root')]).
Proof. exact (@body_settings_ignored). Qed.
Theorem C77_array_translation_ignored :
  exists (v : xv) (b : frames),
      member "translation" v = Some (XArray [XDouble 1; XDouble 2; XDouble 3]) /\
      load no_tf (XStruct [("base", XStruct [("frames", XStruct [("a", v)])])]) = Ok b /\ body_to_frame no_tf b "a" 0 = Ok iid.
Proof. exact (@array_translation_ignored). Qed.
Theorem C77_zero_rotation_accepted :
  exists v : xv,
      declared_rotation v = (0, 0, 0, 0) /\
      (exists b : frames, load no_tf (XStruct [("base", XStruct [("frames", XStruct [("a", v)])])]) = Ok b) /\ turns (declared_rotation v) mI.
Proof. exact (@zero_rotation_accepted). Qed.
Theorem C77_rotation_without_w :
  forall (look look' : string -> string -> Z -> res iso) (body : string) (root : xv) (b : frames) (p f : string) (v r : xv) 
      (time : Z) (tp tf : iso),
    load look (XStruct [(body, root)]) = Ok b ->
    declared body root p f v ->
    declared_dynamic v = false ->
    declared_lookup v = false ->
    member "rotation" v = Some r ->
    member "w" r = None ->
    (number "x" r, number "y" r, number "z" r) <> v0 ->
    body_to_frame look' b p time = Ok tp ->
    body_to_frame look' b f time = Ok tf ->
    exists u : iso,
      tf = imul tp u /\
      mmul (lin u) (lin u) = mI /\
      mapply (lin u) (number "x" r, number "y" r, number "z" r) = (number "x" r, number "y" r, number "z" r) /\
      (forall a : vec3, vdot (number "x" r, number "y" r, number "z" r) a = 0 -> mapply (lin u) a = vopp a).
Proof. exact (@missing_w). Qed.
Theorem C77_list_translation :
  forall (look look' : string -> string -> Z -> res iso) (body : string) (root : xv) (b : frames) (p f : string) (v : xv) 
      (l : list xv) (time : Z) (tp tf : iso),
    load look (XStruct [(body, root)]) = Ok b ->
    declared body root p f v ->
    declared_dynamic v = false ->
    declared_lookup v = false ->
    member "translation" v = Some (XArray l) ->
    body_to_frame look' b p time = Ok tp -> body_to_frame look' b f time = Ok tf -> exists u : iso, tf = imul tp u /\ tr u = v0.
Proof. exact (@list_translation). Qed.
Theorem C77_rotation_w_refuted :
  exists m : mat3,
      turns (declared_rotation tilt) m /\
      mapply m (0, 1, 0) = (0, -1, 0) /\ (exists b : frames, load no_tf (XStruct [("base", XStruct [("frames", XStruct [("a", tilt)])])]) = Ok b).
Proof. exact (@rotation_w_refuted). Qed.
Theorem C77_dynamic_overrides_refuted :
  exists v : xv,
      declared_dynamic v = true /\
      load no_tf (XStruct [("base", XStruct [("frames", XStruct [("a", v)])])]) = Throw /\
      (exists b : frames, load no_tf (XStruct [("base", XStruct [("frames", XStruct [("a", XStruct [("dynamic", XBool true)])])])]) = Ok b).
Proof. exact (@dynamic_overrides_refuted). Qed.

(* C78: static transforms broadcast *)
Theorem C78_broadcast :
  forall (look look' : string -> string -> Z -> res iso) (cfg : xv) (b : frames),
    load look cfg = Ok b ->
    exists (body : string) (root : xv),
      cfg = XStruct [(body, root)] /\
      ((exists l : list (string * string * iso), static_transforms look' b = Ok l) <->
       (forall (q f : string) (v : xv),
        declared body root q f v -> declared_dynamic v = true -> exists t : iso, look' (declared_id body root) (declared_id f v) 0%Z = Ok t)) /\
      (forall l : list (string * string * iso),
       static_transforms look' b = Ok l ->
       NoDup (map child l) /\
       ~ In (declared_id body root) (map child l) /\
       (forall (p c : string) (t : iso), In (p, c, t) l <-> sent_frame look look' body root p c t \/ sent_alias body root p c t)).
Proof. exact (@broadcast). Qed.
Theorem C78_dynamic_sent_static_refuted :
  exists (b : frames) (l : list (string * string * iso)) (t t' : iso),
      load tf robot = Ok b /\
      static_transforms tf b = Ok l /\
      is_dynamic b "arm" = Ok true /\ In ("base_link", "arm_link", t) l /\ body_to_frame tf b "arm" 9 = Ok t' /\ t <> t'.
Proof. exact (@dynamic_sent_static_refuted). Qed.
Theorem C78_dynamic_unknown_refuted :
  exists (cfg : xv) (b : frames),
      load no_tf cfg = Ok b /\ static_transforms no_tf b = Throw /\ is_dynamic b "fixed" = Ok false /\ has_frame b "fixed" = true.
Proof. exact (@dynamic_unknown_refuted). Qed.

Print Assumptions C45_names.
Print Assumptions C45_unique.
Print Assumptions C45_unknown_throws.
Print Assumptions C45_transforms_are_products.
Print Assumptions C45_static_groupoid.
Print Assumptions C45_with_tf.
Print Assumptions C77_accepted_iff.
Print Assumptions C77_never_undefined.
Print Assumptions C77_body_settings_ignored.
Print Assumptions C77_array_translation_ignored.
Print Assumptions C77_zero_rotation_accepted.
Print Assumptions C77_rotation_without_w.
Print Assumptions C77_list_translation.
Print Assumptions C77_rotation_w_refuted.
Print Assumptions C77_dynamic_overrides_refuted.
Print Assumptions C78_broadcast.
Print Assumptions C78_dynamic_sent_static_refuted.
Print Assumptions C78_dynamic_unknown_refuted.
