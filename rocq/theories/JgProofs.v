(* Figures of the Jacobians: what the windows show. *)
From Coq Require Import String ZArith List Bool Reals Lra Lia.
From Verif Require Import Base Interp Geo EgModel MsModel RoModel BfModel EvModel EcModel EvData FgModel FgSpec FgProofs JgModel.
Import ListNotations.
Open Scope nat_scope.
Local Notation len := List.length.

(* ---- a window with the first n cells of a grid ---- *)
Definition W (name : string) (f : nat -> axes) (n : nat) (cur : place) : figure := mkFigure name (map f (seq 1 n)) cur.
Definition placed (r c : nat) (f : nat -> axes) : Prop := forall i, ax_place (f i) = Cell r c i.
Definition upd (f : nat -> axes) (i : nat) (a : axes) : nat -> axes := fun j => if Nat.eqb j i then a else f j.
Lemma upd_same f i a : upd f i a i = a. Proof. unfold upd. rewrite Nat.eqb_refl. reflexivity. Qed.
Lemma upd_other f i a j : j <> i -> upd f i a j = f j. Proof. intros H. unfold upd. apply Nat.eqb_neq in H. rewrite H. reflexivity. Qed.
Lemma upd_placed r c f i a : placed r c f -> ax_place a = Cell r c i -> placed r c (upd f i a).
Proof. intros P A j. unfold upd. destruct (Nat.eqb_spec j i) as [->|]; [exact A|apply P]. Qed.
Lemma W_ext name f g n cur : (forall i, 1 <= i <= n -> f i = g i) -> W name f n cur = W name g n cur.
Proof. intros H. unfold W. f_equal. apply map_ext_in. intros i Hi. apply in_seq in Hi. apply H. lia. Qed.
Lemma select name r c f n cur i : placed r c f -> 1 <= i <= n -> subplot (Cell r c i) (W name f n cur) = W name f n (Cell r c i).
Proof.
  intros P Hi. unfold subplot, W. cbn [fg_axes fg_name]. assert (E : existsb (fun a => place_eqb (ax_place a) (Cell r c i)) (map f (seq 1 n)) = true).
  { apply existsb_exists. exists (f i). split; [apply in_map, in_seq; lia|]. rewrite P. cbn. rewrite !Nat.eqb_refl. reflexivity. }
  rewrite E. reflexivity.
Qed.
Lemma at_cell name r c f n i g : placed r c f -> 1 <= i <= n -> on_axes g (W name f n (Cell r c i)) = W name (upd f i (g (f i))) n (Cell r c i).
Proof.
  intros P Hi. unfold on_axes, W. cbn [fg_axes fg_name fg_current]. destruct (map f (seq 1 n)) as [|a l] eqn:E; [destruct n; [lia|discriminate]|]. rewrite <- E. f_equal. rewrite map_map. apply map_ext. intros j. rewrite P. cbn. rewrite !Nat.eqb_refl. cbn. unfold upd. destruct (Nat.eqb_spec j i) as [->|]; reflexivity.
Qed.
Lemma grow name r c f n cur : placed r c f -> subplot (Cell r c (S n)) (W name f n cur) = W name (upd f (S n) (blank (Cell r c (S n)))) (S n) (Cell r c (S n)).
Proof.
  intros P. unfold subplot, W. cbn [fg_axes fg_name]. assert (E : existsb (fun a => place_eqb (ax_place a) (Cell r c (S n))) (map f (seq 1 n)) = false).
  { destruct (existsb _ _) eqn:E; [|reflexivity]. exfalso. apply existsb_exists in E. destruct E as (a & Ha & E). apply in_map_iff in Ha. destruct Ha as (j & <- & Hj). apply in_seq in Hj. rewrite P in E. cbn in E. apply andb_prop in E. destruct E as [_ E]. apply Nat.eqb_eq in E. lia. }
  rewrite E. f_equal. change (seq 1 (S n)) with (seq 1 (1 + n)). replace (1 + n) with (n + 1) by lia. rewrite seq_app, map_app. cbn [seq map]. replace (1 + n) with (S n) by lia. rewrite upd_same. f_equal.
  assert (X : forall l, (forall j, In j l -> j <> S n) -> filter (fun a => apart (ax_place a) (Cell r c (S n))) (map f l) = map (upd f (S n) (blank (Cell r c (S n)))) l).
  { induction l as [|j l IH]; intros H; [reflexivity|]. cbn [map filter]. rewrite P. unfold apart at 1. rewrite !Nat.eqb_refl. destruct (Nat.eqb_spec j (S n)) as [E'|_]; [exfalso; apply (H j (or_introl eq_refl) E')|]. cbn [andb negb]. rewrite upd_other by (apply H; left; reflexivity). f_equal. apply IH. intros x Hx. apply H. right. exact Hx. }
  apply X. intros j Hj. apply in_seq in Hj. lia.
Qed.

(* ---- commands for one window ---- *)
Definition fx (c : cmd) (w : figure) : figure :=
  match c with
  | NewFigure _ | SetFigure _ => w
  | Title t => on_axes (fun a => mkAxes (ax_place a) (ax_hold a) (ax_curves a) t (ax_x a) (ax_y a) (ax_z a) (ax_legend a)) w
  | Subplot r c' i => subplot (Cell r c' i) w
  | HoldOn => on_axes (fun a => mkAxes (ax_place a) true (ax_curves a) (ax_title a) (ax_x a) (ax_y a) (ax_z a) (ax_legend a)) w
  | Draw cv => on_axes (draw cv) w
  | XLabel t => on_axes (fun a => mkAxes (ax_place a) (ax_hold a) (ax_curves a) (ax_title a) t (ax_y a) (ax_z a) (ax_legend a)) w
  | YLabel t => on_axes (fun a => mkAxes (ax_place a) (ax_hold a) (ax_curves a) (ax_title a) (ax_x a) t (ax_z a) (ax_legend a)) w
  | ZLabel t => on_axes (fun a => mkAxes (ax_place a) (ax_hold a) (ax_curves a) (ax_title a) (ax_x a) (ax_y a) t (ax_legend a)) w
  | Legend l => on_axes (fun a => mkAxes (ax_place a) (ax_hold a) (ax_curves a) (ax_title a) (ax_x a) (ax_y a) (ax_z a) l) w
  end.
Definition fxs (l : list cmd) (w : figure) : figure := fold_left (fun w c => fx c w) l w.
Definition inner (c : cmd) : bool := match c with NewFigure _ | SetFigure _ => false | _ => true end.
Lemma on_nth_on_nth {A} (f g : A -> A) n l : on_nth f n (on_nth g n l) = on_nth (fun x => f (g x)) n l.
Proof. revert n. induction l as [|a l IH]; intros [|n]; cbn; try reflexivity. rewrite IH. reflexivity. Qed.
Lemma on_nth_id {A} n (l : list A) : on_nth (fun x => x) n l = l.
Proof. revert n. induction l as [|a l IH]; intros [|n]; cbn; try reflexivity. rewrite IH. reflexivity. Qed.
Lemma inner_effects l figs k : forallb inner l = true -> effects l (mkScreen figs k) = mkScreen (on_nth (fxs l) k figs) k.
Proof.
  revert figs. induction l as [|c l IH]; intros figs H; [cbn; rewrite on_nth_id; reflexivity|]. cbn [forallb] in H. apply andb_prop in H. destruct H as [A B].
  change (effects (c :: l) (mkScreen figs k)) with (effects l (effect c (mkScreen figs k))). assert (E : effect c (mkScreen figs k) = mkScreen (on_nth (fx c) k figs) k) by (destruct c; try discriminate; reflexivity). rewrite E, IH by exact B. rewrite on_nth_on_nth. reflexivity.
Qed.
Lemma fxs_app l k w : fxs (l ++ k) w = fxs k (fxs l w). Proof. apply fold_left_app. Qed.
Lemma inner_flat {A} (f : A -> list cmd) l : (forall a, forallb inner (f a) = true) -> forallb inner (flat_map f l) = true.
Proof. intros H. induction l as [|a l IH]; [reflexivity|]. cbn. rewrite forallb_app, H, IH. reflexivity. Qed.

(* ---- the frame ---- *)
Lemma skip_next {A} n (l : list A) a r : skipn n l = a :: r -> skipn (S n) l = r.
Proof. revert l. induction n as [|n IH]; intros [|x l] H; try discriminate; [cbn in *; congruence|]. cbn in H. apply IH in H. exact H. Qed.
Definition cell_axes (c : nat) (x : string) (row : list string) (i : nat) : axes := mkAxes (Cell 2 c i) false [] "" x (nth (i - 1) row ""%string) "" [].
Lemma frame_steps name c x row : forall todo n f cur, placed 2 c f -> len row = n + todo -> (forall i, 1 <= i <= n -> f i = cell_axes c x row i) ->
  exists g cur', fxs (flat_map (fun y => [Subplot 2 c (fst y); XLabel x; YLabel (snd y)]) (combine (seq (S n) todo) (skipn n row))) (W name f n cur) = W name g (n + todo) cur' /\ placed 2 c g /\ forall i, 1 <= i <= n + todo -> g i = cell_axes c x row i.
Proof.
  induction todo as [|todo IH]; intros n f cur P L F.
  - exists f, cur. rewrite Nat.add_0_r. split; [reflexivity|]. split; [exact P|]. exact F.
  - destruct (skipn n row) as [|s rest] eqn:E; [apply (f_equal (@len string)) in E; rewrite skipn_length in E; cbn in E; lia|].
    assert (Es : nth n row ""%string = s). { rewrite <- (firstn_skipn n row), E, app_nth2; rewrite firstn_length; [|lia]. replace (n - Nat.min n (len row)) with 0 by lia. reflexivity. }
    assert (Er : skipn (S n) row = rest). { apply (skip_next n row s rest E). }
    cbn [seq combine flat_map]. rewrite fxs_app. cbn [fst snd]. unfold fxs at 2. cbn [fold_left fx]. rewrite (grow name 2 c f n cur P).
    assert (P1 : placed 2 c (upd f (S n) (blank (Cell 2 c (S n))))) by (apply upd_placed; [exact P|reflexivity]). rewrite (at_cell _ 2 c _ (S n) (S n) _ P1) by lia. rewrite upd_same.
    match goal with |- context [on_axes _ (W name ?g _ _)] => assert (P2 : placed 2 c g) by (apply upd_placed; [exact P1|reflexivity]) end. rewrite (at_cell _ 2 c _ (S n) (S n) _ P2) by lia. rewrite upd_same.
    match goal with |- context [W name ?g (S n) _] => assert (P3 : placed 2 c g) by (apply upd_placed; [exact P2|reflexivity]); specialize (IH (S n) g (Cell 2 c (S n)) P3) end. rewrite Er in IH. replace (n + S todo) with (S n + todo) by lia. apply IH; [lia|].
    intros i Hi. destruct (Nat.eq_dec i (S n)) as [->|N].
    + rewrite upd_same. unfold cell_axes, blank. cbn. rewrite Nat.sub_0_r, Es. reflexivity.
    + rewrite !upd_other by exact N. apply F. lia.
Qed.
Definition started (name title : string) : figure := mkFigure name [mkAxes Whole false [] title "" "" "" []] Whole.
Lemma frame_is name title c x row : row <> [] -> exists g cur, fxs (flat_map (fun y => [Subplot 2 c (fst y); XLabel x; YLabel (snd y)]) (combine (seq 1 (len row)) row)) (started name title) = W name g (len row) cur /\ placed 2 c g /\ forall i, 1 <= i <= len row -> g i = cell_axes c x row i.
Proof.
  intros N. destruct row as [|s rest] eqn:Er; [congruence|]. rewrite <- Er in *.
  assert (X : fxs (flat_map (fun y => [Subplot 2 c (fst y); XLabel x; YLabel (snd y)]) (combine (seq 1 (len row)) row)) (started name title) =
    fxs (flat_map (fun y => [Subplot 2 c (fst y); XLabel x; YLabel (snd y)]) (combine (seq 1 (len row)) row)) (W name (fun i => blank (Cell 2 c i)) 0 Whole)) by (rewrite Er; reflexivity).
  rewrite X. destruct (frame_steps name c x row (len row) 0 (fun i => blank (Cell 2 c i)) Whole) as (g & cur & E & P & F); [intros i; reflexivity|reflexivity|intros i Hi; lia|]. cbn [skipn] in E. exists g, cur. split; [exact E|]. split; [exact P|exact F].
Qed.

(* ---- the curves ---- *)
Definition add_cmds (c : nat) (x : nat * curve) : list cmd := [Subplot 2 c (fst x); HoldOn; Draw (snd x)].
Definition dressed (a b : axes) : Prop := ax_title a = ax_title b /\ ax_x a = ax_x b /\ ax_y a = ax_y b /\ ax_z a = ax_z b /\ ax_legend a = ax_legend b.
Lemma curves_added name c n work : (forall x, In x work -> 1 <= fst x <= n) -> forall f cur, placed 2 c f -> exists g cur', fxs (flat_map (add_cmds c) work) (W name f n cur) = W name g n cur' /\ placed 2 c g /\
  forall i, dressed (g i) (f i) /\ ax_curves (g i) = ax_curves (f i) ++ map snd (filter (fun x => Nat.eqb (fst x) i) work).
Proof.
  induction work as [|[j cv] work IH]; intros H f cur P.
  - exists f, cur. split; [reflexivity|]. split; [exact P|]. intros i. split; [repeat split|]. cbn. rewrite app_nil_r. reflexivity.
  - pose proof (H _ (or_introl eq_refl)) as Hj. cbn [fst] in Hj. cbn [flat_map]. rewrite fxs_app. unfold add_cmds at 2. cbn [fst snd]. unfold fxs at 2. cbn [fold_left fx]. rewrite (select name 2 c f n cur j P Hj). rewrite (at_cell _ 2 c _ n j _ P Hj).
    match goal with |- context [on_axes _ (W name ?g _ _)] => assert (P2 : placed 2 c g) by (apply upd_placed; [exact P|apply P]) end. rewrite (at_cell _ 2 c _ n j _ P2 Hj). rewrite upd_same.
    match goal with |- context [W name ?g n _] => assert (P3 : placed 2 c g) by (apply upd_placed; [exact P2|cbn; apply P]); destruct (IH (fun x Hx => H x (or_intror Hx)) g (Cell 2 c j) P3) as (g' & cur' & E & P' & F) end. exists g', cur'. split; [exact E|]. split; [exact P'|].
    intros i. destruct (F i) as [D C]. cbn [filter fst]. destruct (Nat.eqb_spec j i) as [<-|Ne].
    + rewrite upd_same in D, C. cbn [draw ax_hold ax_curves ax_title ax_x ax_y ax_z ax_legend] in D, C. split; [exact D|]. rewrite C. cbn [map snd]. unfold draw. cbn. rewrite <- app_assoc. reflexivity.
    + rewrite !upd_other in D, C by (intros ->; apply Ne; reflexivity). split; [exact D|exact C].
Qed.
Lemma legends_added name c n names l : (forall i, In i l -> 1 <= i <= n) -> forall f cur, placed 2 c f -> exists g cur', fxs (flat_map (fun i => [Subplot 2 c i; Legend names]) l) (W name f n cur) = W name g n cur' /\ placed 2 c g /\
  forall i, ax_title (g i) = ax_title (f i) /\ ax_x (g i) = ax_x (f i) /\ ax_y (g i) = ax_y (f i) /\ ax_curves (g i) = ax_curves (f i) /\ ax_legend (g i) = if existsb (Nat.eqb i) l then names else ax_legend (f i).
Proof.
  induction l as [|j l IH]; intros H f cur P.
  - exists f, cur. split; [reflexivity|]. split; [exact P|]. intros i. repeat split.
  - pose proof (H _ (or_introl eq_refl)) as Hj. cbn [flat_map]. rewrite fxs_app. unfold fxs at 2. cbn [fold_left fx]. rewrite (select name 2 c f n cur j P Hj), (at_cell _ 2 c _ n j _ P Hj).
    match goal with |- context [W name ?g n _] => assert (P2 : placed 2 c g) by (apply upd_placed; [exact P|apply P]); destruct (IH (fun x Hx => H x (or_intror Hx)) g (Cell 2 c j) P2) as (g' & cur' & E & P' & F) end. exists g', cur'. split; [exact E|]. split; [exact P'|].
    intros i. destruct (F i) as (A1 & A2 & A3 & A4 & A5). rewrite A1, A2, A3, A4, A5. cbn [existsb]. unfold upd. destruct (Nat.eqb_spec i j) as [->|Ne]; cbn [orb ax_title ax_x ax_y ax_curves ax_legend]; repeat split. destruct (existsb _ l); reflexivity.
Qed.
