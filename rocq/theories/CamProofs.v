(* Camera tools: images and camera infos follow the motion. *)
From Coq Require Import ZArith Reals Lra Lia List Bool String.
From Verif Require Import Base Interp Geo BfModel CamModel CamSpec.
Import ListNotations.
Open Scope Z_scope.

Definition motions : list motion2 :=
  [M2 1 0 0 1; M2 0 (-1) 1 0; M2 (-1) 0 0 (-1); M2 0 1 (-1) 0; M2 (-1) 0 0 1; M2 1 0 0 (-1); M2 0 1 1 0; M2 0 (-1) (-1) 0].
Definition good (m : motion2) : Prop := In m motions.

Lemma mod4 k : k mod 4 = 0 \/ k mod 4 = 1 \/ k mod 4 = 2 \/ k mod 4 = 3.
Proof. pose proof (Z.mod_pos_bound k 4). lia. Qed.

Ltac good_cases H := unfold good, motions in H; cbn [In] in H; repeat (destruct H as [<- | H]); [.. | destruct H].

Lemma good_quarters k : good (quarters k).
Proof. unfold quarters. destruct (mod4 k) as [-> | [-> | [-> | ->]]]; unfold good, motions, still; cbn; auto 10. Qed.
Lemma good_mirror o : good (mirror o).
Proof. destruct o; unfold good, motions; cbn; auto 10. Qed.
Lemma good_motion c a : motion_of c a -> good a.
Proof. intros []; [apply good_quarters | apply good_mirror]. Qed.
Lemma good_after a b : good a -> good b -> good (after b a).
Proof. intros HA HB. good_cases HA; good_cases HB; unfold good, motions; cbn; auto 10. Qed.
Lemma good_all l m : motion_of_all l m -> good m.
Proof. induction 1; [left; reflexivity |]. apply good_after; [eapply good_motion; eassumption | assumption]. Qed.

(* ---- angles ---- *)
Lemma rem_pos d : 0 < Z.rem d 360 <-> 0 < d /\ d mod 360 <> 0.
Proof.
  destruct (Z_lt_le_dec 0 d) as [L | L].
  - rewrite Z.rem_mod_nonneg by lia. pose proof (Z.mod_pos_bound d 360). lia.
  - split; [| lia]. intro H. pose proof (Z.rem_nonpos d 360). lia.
Qed.

Definition flag_of (k : Z) : option rotate_flag :=
  match k mod 4 with 1 => Some ROTATE_90_CLOCKWISE | 2 => Some ROTATE_180 | 3 => Some ROTATE_90_COUNTERCLOCKWISE | _ => None end.

Lemma new_rotate_quarters k : new_rotate (90 * k) = if (0 <? k) && negb (k mod 4 =? 0) then Ok (Rotate (flag_of k)) else Throw.
Proof.
  unfold new_rotate, flag_of. destruct (Z.ltb_spec 0 k).
  - rewrite Z.rem_mod_nonneg by lia. change 360 with (90 * 4). rewrite Z.mul_mod_distr_l by lia.
    destruct (mod4 k) as [-> | [-> | [-> | ->]]]; reflexivity.
  - pose proof (Z.rem_nonpos (90 * k) 360). cbn [andb]. destruct (Z.leb_spec (Z.rem (90 * k) 360) 0); [reflexivity | lia].
Qed.

Lemma made_turn k o : made (Turn (90 * k)) = Ok o -> exists f, o = Rotate (Some f) /\ flag_of k = Some f.
Proof.
  unfold made. rewrite new_rotate_quarters. unfold flag_of.
  destruct (0 <? k); cbn [andb]; [| discriminate].
  destruct (mod4 k) as [-> | [-> | [-> | ->]]]; cbn; try discriminate; intros [= <-]; eauto.
Qed.

(* ---- pictures ---- *)
Ltac place := unfold held, carried, size_after, still, mirror, cv_rotate, cv_flip, cv_transpose in *; cbn [cols rows px xx xy yx yy Z.abs Z.eqb Z.ltb Z.compare Pos.eqb] in *.

(* a picture is moved if its pixel function is given by an inverse map *)
Lemma moved_by_formula {A} (m : motion2) (p p' : picture A) (fc fr gc gr : Z -> Z -> Z) :
  size_after m (cols p) (rows p) (cols p') (rows p') ->
  (forall c r, held p c r -> held p' (fc c r) (fr c r) /\ carried m (cols p) (rows p) (cols p') (rows p') c r (fc c r) (fr c r)
     /\ gc (fc c r) (fr c r) = c /\ gr (fc c r) (fr c r) = r) ->
  (forall c r, held p' c r -> held p (gc c r) (gr c r) /\ carried m (cols p) (rows p) (cols p') (rows p') (gc c r) (gr c r) c r) ->
  (forall c r, px p' c r = px p (gc c r) (gr c r)) ->
  moved m p p'.
Proof.
  intros S1 F G X. split; [exact S1 | split].
  - intros c r H. exists (fc c r), (fr c r). destruct (F c r H) as (H1 & H2 & H3 & H4). rewrite X, H3, H4. auto.
  - intros c r H. exists (gc c r), (gr c r). destruct (G c r H). rewrite X. auto.
Qed.

Lemma moved_flip {A} (p : picture A) o : moved (mirror o) p (cv_flip (match o with FLIP_HORIZ => 1 | FLIP_VERT => 0 | FLIP_BOTH => -1 end) p).
Proof.
  destruct o.
  - apply (moved_by_formula _ _ _ (fun c r => cols p - 1 - c) (fun c r => r) (fun c r => cols p - 1 - c) (fun c r => r)); intros; place; lia || reflexivity.
  - apply (moved_by_formula _ _ _ (fun c r => c) (fun c r => rows p - 1 - r) (fun c r => c) (fun c r => rows p - 1 - r)); intros; place; lia || reflexivity.
  - apply (moved_by_formula _ _ _ (fun c r => cols p - 1 - c) (fun c r => rows p - 1 - r) (fun c r => cols p - 1 - c) (fun c r => rows p - 1 - r)); intros; place; lia || reflexivity.
Qed.

Lemma moved_rotate {A} (p : picture A) k f : flag_of k = Some f -> moved (quarters k) p (cv_rotate f p).
Proof.
  unfold flag_of, quarters. destruct (mod4 k) as [-> | [-> | [-> | ->]]]; [discriminate | intros [= <-] ..].
  - apply (moved_by_formula _ _ _ (fun c r => rows p - 1 - r) (fun c r => c) (fun c r => r) (fun c r => rows p - 1 - c)); intros; place; lia || reflexivity.
  - apply (moved_by_formula _ _ _ (fun c r => cols p - 1 - c) (fun c r => rows p - 1 - r) (fun c r => cols p - 1 - c) (fun c r => rows p - 1 - r)); intros; place; lia || reflexivity.
  - apply (moved_by_formula _ _ _ (fun c r => r) (fun c r => cols p - 1 - c) (fun c r => cols p - 1 - r) (fun c r => c)); intros; place; lia || reflexivity.
Qed.

Lemma size_trans a b w h w' h' w'' h'' : good a -> good b -> size_after a w h w' h' -> size_after b w' h' w'' h'' -> size_after (after b a) w h w'' h''.
Proof. intros HA HB. unfold size_after. good_cases HA; good_cases HB; cbv [after]; cbn [xx xy yx yy]; lia. Qed.

Lemma carried_trans a b w h w' h' w'' h'' c r c' r' c'' r'' :
  carried a w h w' h' c r c' r' -> carried b w' h' w'' h'' c' r' c'' r'' -> carried (after b a) w h w'' h'' c r c'' r''.
Proof. unfold carried, after. cbn [xx xy yx yy]. intros [E1 E2] [E3 E4]. rewrite E1, E2 in E3, E4. rewrite E3, E4. split; ring. Qed.

Lemma moved_trans {A} a b (p p' p'' : picture A) : good a -> good b -> moved a p p' -> moved b p' p'' -> moved (after b a) p p''.
Proof.
  intros HA HB (Z1 & F1 & G1) (Z2 & F2 & G2). split; [eapply size_trans; eassumption | split].
  - intros c r H. destruct (F1 c r H) as (c' & r' & H' & C1 & X1). destruct (F2 c' r' H') as (c'' & r'' & H'' & C2 & X2).
    exists c'', r''. split; [exact H'' | split; [eapply carried_trans; eassumption | congruence]].
  - intros c r H. destruct (G2 c r H) as (c' & r' & H' & C2 & X2). destruct (G1 c' r' H') as (c'' & r'' & H'' & C1 & X1).
    exists c'', r''. split; [exact H'' | split; [eapply carried_trans; eassumption | congruence]].
Qed.

Lemma moved_still {A} (p : picture A) : moved still p p.
Proof. apply (moved_by_formula _ _ _ (fun c r => c) (fun c r => r) (fun c r => c) (fun c r => r)); intros; place; lia || reflexivity. Qed.

(* the moved picture is determined *)
Lemma moved_same {A} m (p p1 p2 : picture A) : moved m p p1 -> moved m p p2 -> same_picture p1 p2.
Proof.
  intros ([W1 H1] & F1 & G1) ([W2 H2] & F2 & G2). rewrite <- W1 in W2. rewrite <- H1 in H2.
  split; [congruence | split; [congruence |]]. intros c r H.
  destruct (G1 c r H) as (c0 & r0 & H0 & C1 & X1). destruct (F2 c0 r0 H0) as (c' & r' & H' & C2 & X2).
  unfold carried in C1, C2. rewrite W2, H2 in C2. assert (c' = c) by lia. assert (r' = r) by lia. subst. congruence.
Qed.

(* ---- camera info ---- *)
Open Scope R_scope.
Definition aimed (m : motion2) (i i' : info) : Prop :=
  only_size_and_K i i' /\ size_after m (i_width i) (i_height i) (i_width i') (i_height i') /\
  exists fx k1 cx k3 fy cy r3 fx' cx' fy' cy',
    i_K i = ((fx, k1, cx), (k3, fy, cy), r3) /\ i_K i' = ((fx', k1, cx'), (k3, fy', cy'), r3) /\
    fx' = IZR (Z.abs (xx m)) * fx + IZR (Z.abs (xy m)) * fy /\
    fy' = IZR (Z.abs (yx m)) * fx + IZR (Z.abs (yy m)) * fy /\
    carried_point m (width i) (height i) (width i') (height i') cx cy cx' cy'.

Lemma aimed_still i : aimed still i i.
Proof.
  split; [repeat split |]. split; [unfold size_after; cbn [xx xy yx yy Z.abs i_width i_height resized still mirror]; lia |].
  destruct (i_K i) as [[[[fx k1] cx] [[k3 fy] cy]] r3] eqn:E.
  exists fx, k1, cx, k3, fy, cy, r3, fx, cx, fy, cy. unfold carried_point, still; cbn [xx xy yx yy]; cbn. repeat split; ring.
Qed.

Lemma apply_info_rotate k f i : flag_of k = Some f -> exists i', apply_info (Rotate (Some f)) i = Ok i' /\ aimed (quarters k) i i'.
Proof.
  unfold flag_of, quarters, apply_info. destruct (i_K i) as [[[[fx k1] cx] [[k3 fy] cy]] r3] eqn:E.
  destruct (mod4 k) as [-> | [-> | [-> | ->]]]; [discriminate | intros [= <-] ..]; (eexists; split; [reflexivity |]);
    (split; [repeat split |]; split; [unfold size_after; cbn [xx xy yx yy Z.abs i_width i_height resized still mirror]; lia |]; do 11 eexists; split; [exact E |]; split; [reflexivity |]);
    unfold carried_point, width, height; cbn [xx xy yx yy]; cbn; repeat split; ring.
Qed.
Lemma apply_info_flip o i : exists i', apply_info (new_flip o) i = Ok i' /\ aimed (mirror o) i i'.
Proof.
  unfold apply_info, new_flip. destruct (i_K i) as [[[[fx k1] cx] [[k3 fy] cy]] r3] eqn:E.
  destruct o; cbn [Z.eqb Pos.eqb]; (eexists; split; [reflexivity |]);
    (split; [repeat split |]; split; [unfold size_after; cbn [xx xy yx yy Z.abs i_width i_height resized still mirror]; lia |]; do 11 eexists; split; [exact E |]; split; [reflexivity |]);
    unfold carried_point, width, height; cbn [xx xy yx yy]; cbn; repeat split; ring.
Qed.

Lemma carried_point_trans a b w h w' h' w'' h'' c r c' r' c'' r'' :
  carried_point a w h w' h' c r c' r' -> carried_point b w' h' w'' h'' c' r' c'' r'' -> carried_point (after b a) w h w'' h'' c r c'' r''.
Proof.
  unfold carried_point, after. cbn [xx xy yx yy]. intros [E1 E2] [E3 E4]. rewrite E1, E2 in E3, E4. rewrite E3, E4.
  rewrite !plus_IZR, !mult_IZR. split; ring.
Qed.

Lemma aimed_trans a b i i' i'' : good a -> good b -> aimed a i i' -> aimed b i' i'' -> aimed (after b a) i i''.
Proof.
  intros HA HB (O1 & Z1 & fx & k1 & cx & k3 & fy & cy & r3 & fx' & cx' & fy' & cy' & E1 & E1' & X1 & Y1 & C1)
                 (O2 & Z2 & gx & l1 & dx & l3 & gy & dy & s3 & gx' & dx' & gy' & dy' & E2 & E2' & X2 & Y2 & C2).
  split; [| split].
  - unfold only_size_and_K in *. decompose [and] O1. decompose [and] O2. repeat split; congruence.
  - eapply size_trans; eassumption.
  - rewrite E1' in E2. injection E2 as -> -> -> -> -> -> ->.
    exists fx, l1, cx, l3, fy, cy, s3, gx', dx', gy', dy'. split; [exact E1 | split; [exact E2' |]].
    split; [| split; [| eapply carried_point_trans; eassumption]]; subst.
    + clear - HA HB. good_cases HA; good_cases HB; cbn; ring.
    + clear - HA HB. good_cases HA; good_cases HB; cbn; ring.
Qed.

Lemma aimed_same m i i1 i2 : aimed m i i1 -> aimed m i i2 -> i1 = i2.
Proof.
  intros (O1 & Z1 & fx & k1 & cx & k3 & fy & cy & r3 & fx' & cx' & fy' & cy' & E1 & E1' & X1 & Y1 & C1)
         (O2 & Z2 & gx & l1 & dx & l3 & gy & dy & s3 & gx' & dx' & gy' & dy' & E2 & E2' & X2 & Y2 & C2).
  rewrite E1 in E2. injection E2 as <- <- <- <- <- <- <-.
  destruct i1 as [h1 ht1 w1 mo1 D1 K1 R1' P1], i2 as [h2 ht2 w2 mo2 D2 K2 R2' P2].
  unfold only_size_and_K, size_after, carried_point, width, height in *. cbn [i_head i_height i_width i_model i_D i_K i_R i_P] in *.
  destruct Z1, Z2, C1 as [C1 C1'], C2 as [C2 C2']. decompose [and] O1. decompose [and] O2.
  assert (EW : w1 = w2) by congruence. assert (EH : ht1 = ht2) by congruence.
  rewrite <- C2, EW in C1. rewrite <- C2', EH in C1'.
  assert (cx' = dx') by lra. assert (cy' = dy') by lra. f_equal; congruence.
Qed.

Lemma pinhole_project fx fy cx cy x y z : z <> 0 ->
  project ((fx, 0, cx), (0, fy, cy), (0, 0, 1)) (x, y, z) = (fx * (x / z) + cx, fy * (y / z) + cy).
Proof. intro Hz. unfold project, mapply, vdot. cbn. f_equal; field; exact Hz. Qed.

Lemma aimed_describes m i i' : good m -> aimed m i i' -> pinhole (i_K i) -> describes_moved m i i'.
Proof.
  intros HG (O1 & Z1 & fx & k1 & cx & k3 & fy & cy & r3 & fx' & cx' & fy' & cy' & E1 & E1' & X1 & Y1 & C1) (gx & gy & dx & dy & E).
  rewrite E in E1. injection E1 as <- <- <- <- <- <- <-.
  split; [exact Z1 |]. split; [exists fx', fy', cx', cy'; exact E1' |].
  intros x y z Hz. rewrite E, E1'. unfold seen. rewrite !pinhole_project by exact Hz. cbn [fst snd].
  unfold carried_point in *. generalize dependent (width i). generalize dependent (height i). generalize dependent (width i'). generalize dependent (height i').
  intros h' w' h w [C1 C2]. subst fx' fy'.
  assert (Q : forall p q s t, (p * s + q * t) / z = p * (s / z) + q * (t / z)) by (intros; field; exact Hz).
  rewrite !Q. generalize (x / z), (y / z). intros s t. clear - HG C1 C2.
  good_cases HG; cbn [xx xy yx yy Z.abs] in *; lra.
Qed.

(* ---- sequences ---- *)
Lemma step {A} c o a (p : picture A) i : made c = Ok o -> motion_of c a ->
  exists p' i', apply_picture o p = Ok p' /\ apply_info o i = Ok i' /\ moved a p p' /\ aimed a i i'.
Proof.
  intros M Mo. destruct Mo as [k | o'].
  - destruct (made_turn k o M) as (f & -> & F). destruct (apply_info_rotate k f i F) as (i' & E & D).
    exists (cv_rotate f p), i'. repeat split; try exact E; apply D || (apply moved_rotate; exact F).
  - injection M as <-. destruct (apply_info_flip o' i) as (i' & E & D). exists (cv_flip (match o' with FLIP_HORIZ => 1 | FLIP_VERT => 0 | FLIP_BOTH => -1 end)%Z p), i'.
    split; [| split; [exact E | split; [| exact D]]]; [destruct o'; reflexivity | apply (moved_flip p o')].
Qed.

Lemma run_all {A} l ops m : all_made l ops -> motion_of_all l m -> forall (p : picture A) i,
  exists p' i', apply_all ops p i = Ok (p', i') /\ moved m p p' /\ aimed m i i'.
Proof.
  intros Hm. revert m. induction Hm as [| c o l ops Hc Hl IH]; intros m Mo p i.
  - inversion Mo; subst. exists p, i. split; [reflexivity | split; [apply moved_still | apply aimed_still]].
  - inversion Mo as [| c' l' a b Ma Mb E1 E2]; subst. destruct (step c o a p i Hc Ma) as (p' & i' & Ep & Ei & Mp & Mi).
    destruct (IH b Mb p' i') as (p2 & i2 & E & M1 & M2). exists p2, i2. cbn [apply_all]. rewrite Ep. cbn [rbind]. rewrite Ei. cbn [rbind].
    pose proof (good_motion _ _ Ma). pose proof (good_all _ _ Mb).
    split; [exact E | split; [eapply moved_trans; eassumption | eapply aimed_trans; eassumption]].
Qed.

(* C52 *)
Theorem operations_follow {A} l ops m (p : picture A) i : all_made l ops -> motion_of_all l m -> pinhole (i_K i) ->
  exists p' i', apply_all ops p i = Ok (p', i') /\ moved m p p' /\ describes_moved m i i' /\ only_size_and_K i i'.
Proof.
  intros H1 H2 H3. destruct (run_all l ops m H1 H2 p i) as (p' & i' & E & M1 & M2).
  exists p', i'. split; [exact E | split; [exact M1 | split; [apply aimed_describes; [eapply good_all; eassumption | exact M2 | exact H3] | apply M2]]].
Qed.

Theorem same_motion {A} l1 l2 ops1 ops2 m (p : picture A) i : all_made l1 ops1 -> all_made l2 ops2 -> motion_of_all l1 m -> motion_of_all l2 m ->
  exists p1 p2 i', apply_all ops1 p i = Ok (p1, i') /\ apply_all ops2 p i = Ok (p2, i') /\ same_picture p1 p2.
Proof.
  intros H1 H2 M1 M2. destruct (run_all l1 ops1 m H1 M1 p i) as (p1 & i1 & E1 & P1 & I1). destruct (run_all l2 ops2 m H2 M2 p i) as (p2 & i2 & E2 & P2 & I2).
  rewrite (aimed_same _ _ _ _ I1 I2) in *. exists p1, p2, i2. split; [exact E1 | split; [exact E2 | eapply moved_same; eassumption]].
Qed.

Theorem no_motion_nothing {A} l ops (p : picture A) i : all_made l ops -> motion_of_all l still ->
  exists p', apply_all ops p i = Ok (p', i) /\ same_picture p' p.
Proof.
  intros H1 M1. destruct (run_all l ops still H1 M1 p i) as (p1 & i1 & E1 & P1 & I1).
  rewrite (aimed_same _ _ _ _ I1 (aimed_still i)) in E1. exists p1. split; [exact E1 | exact (moved_same _ _ _ _ P1 (moved_still p))].
Qed.

(* whatever K is *)
Theorem size_follows {A} ops (p : picture A) i p' i' : apply_all ops p i = Ok (p', i') -> i_width i = cols p -> i_height i = rows p ->
  i_width i' = cols p' /\ i_height i' = rows p'.
Proof.
  revert p i. induction ops as [| o ops IH]; intros p i E W H.
  - injection E as <- <-. auto.
  - cbn [apply_all] in E. destruct (apply_picture o p) as [q | |] eqn:Ep; try discriminate. cbn [rbind] in E.
    destruct (apply_info o i) as [j | |] eqn:Ej; try discriminate. cbn [rbind] in E. apply (IH q j E); clear E IH.
    + unfold apply_picture, apply_info in *. destruct (i_K i) as [[[[fx k1] cx] [[k3 fy] cy]] r3].
      destruct o as [[[] |] | code]; try discriminate; injection Ep as <-; [injection Ej as <-; cbn; auto .. |].
      destruct (code =? 1)%Z, (code =? 0)%Z, (code =? -1)%Z; injection Ej as <-; cbn; auto.
    + unfold apply_picture, apply_info in *. destruct (i_K i) as [[[[fx k1] cx] [[k3 fy] cy]] r3].
      destruct o as [[[] |] | code]; try discriminate; injection Ep as <-; [injection Ej as <-; cbn; auto .. |].
      destruct (code =? 1)%Z, (code =? 0)%Z, (code =? -1)%Z; injection Ej as <-; cbn; auto.
Qed.

(* with integer pixel centres the principal point is off by one along each reversed axis, otherwise exact *)
Theorem centre_error {A} l ops m (p : picture A) i p' i' fx cx fy cy fx' cx' fy' cy' : all_made l ops -> motion_of_all l m ->
  apply_all ops p i = Ok (p', i') ->
  i_K i = ((fx, 0, cx), (0, fy, cy), (0, 0, 1)) -> i_K i' = ((fx', 0, cx'), (0, fy', cy'), (0, 0, 1)) ->
  let ex := if (xx m + xy m =? -1)%Z then 1 else 0 in let ey := if (yx m + yy m =? -1)%Z then 1 else 0 in
  carried_centre m (width i) (height i) (width i') (height i') cx cy (cx' - ex) (cy' - ey).
Proof.
  intros H1 H2 E K1 K2. destruct (run_all l ops m H1 H2 p i) as (q & j & E' & _ & (O1 & Z1 & gx & l1 & dx & l3 & gy & dy & s3 & gx' & dx' & gy' & dy' & E1 & E1' & X1 & Y1 & C1)).
  rewrite E in E'. injection E' as <- <-. rewrite K1 in E1. injection E1 as <- <- <- <- <- <- <-. rewrite K2 in E1'. injection E1' as <- <- <- <-.
  unfold carried_centre, carried_point in *. pose proof (good_all _ _ H2) as G. destruct C1 as [C1 C2].
  good_cases G; cbn [xx xy yx yy Z.abs Z.add Z.eqb Pos.eqb Z.pos_sub Pos.add] in *; lra.
Qed.
