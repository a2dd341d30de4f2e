(* Body frames: theorems about every configuration that loads, and which ones load. *)
From Coq Require Import ZArith Reals List Bool String Lia Lra Permutation.
From Verif Require Import Base Interp Geo EgModel EgProofs BfModel BfSpec BfProofs BfLoad.
Import ListNotations.
Open Scope string_scope.
Open Scope list_scope.

Definition nm (e : string * xv * string) : string := fst (fst e).
Definition nd (e : string * xv * string) : xv := snd (fst e).
Definition par (e : string * xv * string) : string := snd e.
Definition eid (e : string * xv * string) : string := declared_id (nm e) (nd e).
Definition static (e : string * xv * string) : bool := negb (declared_dynamic (nd e)).

Lemma app_split {A} (l1 l2 : list A) d e r : l1 ++ l2 = d ++ e :: r -> (exists r', l1 = d ++ e :: r') \/ exists d', d = l1 ++ d' /\ l2 = d' ++ e :: r.
Proof.
  revert d. induction l1 as [|x l1 IH]; cbn; intros d H; [right; exists d; auto|]. destruct d as [|y d]; cbn in H; injection H as -> H.
  - left. exists l1. reflexivity.
  - destruct (IH d H) as [[r' ->]|(d' & -> & E)]; [left; exists r'; reflexivity|right; exists d'; auto].
Qed.
(* parents come before children *)
Lemma listing_order v : forall f p d e r, listing v f p = d ++ e :: r -> (d = [] /\ e = (f, v, p)) \/ exists w q, In (par e, w, q) d /\ In (nm e, nd e) (children w).
Proof.
  induction v as [v IH] using tree_ind. intros f p d e r H. rewrite listing_eq in H. destruct d as [|x d]; [injection H as <- H; left; auto|injection H as <- H]. right.
  assert (G : forall cs, (forall k w, In (k, w) cs -> In (k, w) (children v)) -> forall d, listings f cs = d ++ e :: r -> (par e = f /\ In (nm e, nd e) cs) \/ exists w q, In (par e, w, q) d /\ In (nm e, nd e) (children w)).
  { clear H d. induction cs as [|[k w] cs IHc]; intros SUB d H; cbn [listings] in H; [destruct d; discriminate|]. destruct (app_split _ _ _ _ _ H) as [[r' E]|(d' & -> & E)].
    - apply (IH k w (SUB _ _ (or_introl eq_refl))) in E. destruct E as [[-> ->]|(w' & q & E)]; [left; cbn; auto|right; exists w', q; exact E].
    - apply IHc in E; [|intros k' w' I; apply SUB; right; exact I]. destruct E as [[E1 E2]|(w' & q & E1 & E2)]; [left; cbn; auto|right; exists w', q; rewrite in_app_iff; auto]. }
  destruct (G (children v) ltac:(auto) d H) as [[-> E]|(w & q & E1 & E2)]; [exists v, p; split; [left; reflexivity|exact E]|exists w, q; split; [right; exact E1|exact E2]].
Qed.
Lemma listings_order f cs : forall d e r, listings f cs = d ++ e :: r -> par e = f \/ exists w q, In (par e, w, q) d /\ In (nm e, nd e) (children w).
Proof.
  induction cs as [|[k w] cs IHc]; intros d e r H; cbn [listings] in H; [destruct d; discriminate|]. destruct (app_split _ _ _ _ _ H) as [[r' E]|(d' & -> & E)].
  - apply listing_order in E. destruct E as [[-> ->]|(w' & q & E)]; [left; reflexivity|right; exists w', q; exact E].
  - apply IHc in E. destruct E as [E|(w' & q & E1 & E2)]; [left; exact E|right; exists w', q; rewrite in_app_iff; auto].
Qed.

Section Main.
Variable look : string -> string -> Z -> res iso.
Variable body : string.
Variable root : xv.
Notation bid := (declared_id body root).
Notation entries := (entries body root).

Record rep (done : list (string * xv * string)) (b : frames) : Prop := {
  r_body : bf_body b = body;
  r_ids : bf_ids b = map (fun e => (nm e, eid e)) (rev done) ++ [(body, bid)];
  r_names : bf_names b = flat_map (fun e => rev (map (fun a => (a, nm e)) (Al (nd e))) ++ [(eid e, nm e)]) (rev done) ++ [(bid, body)];
  r_look : bf_look b = map (fun e => (nm e, declared_lookup (nd e))) (rev done) ++ [(body, false)];
  r_dyn : bf_dyn b = map (fun e => (nm e, declared_dynamic (nd e))) (rev done) ++ [(body, false)];
  r_al : bf_al b = map (fun e => (eid e, Al (nd e))) (rev done) ++ [(bid, [])];
  r_to : map fst (bf_to b) = map nm (filter static (rev done)) ++ [body];
  r_val : forall f v p, In (f, v, p) done -> declared_dynamic v = false -> exists t u, sget p (bf_to b) = Some t /\ found look (bf_ids b) p f v u /\ sget f (bf_to b) = Some (imul t u);
  r_bval : sget body (bf_to b) = Some iid;
  r_from : bf_from b = map (fun ft => (fst ft, iinv (snd ft))) (bf_to b);
  r_nd1 : NoDup (map fst (bf_ids b));
  r_nd2 : NoDup (map fst (bf_names b)) }.

Definition start : frames := mkBF body [(body, bid)] [(bid, body)] [(body, false)] [(body, false)] [(bid, [])] [(body, iid)] [(body, iid)].
Lemma iinv_iid : iinv iid = iid. Proof. unfold iinv, iid. cbn [lin tr]. f_equal; vred; tup; ring. Qed.
Lemma rep_start : rep [] start.
Proof.
  constructor; try reflexivity; try (intros ? ? ? []); try (cbn; constructor; [intros []|constructor]).
  - cbn. rewrite String.eqb_refl. reflexivity.
  - cbn. rewrite iinv_iid. reflexivity.
Qed.
Lemma found_more ids f id p g v u : sget f ids = None -> found look ids p g v u -> found look ((f, id) :: ids) p g v u.
Proof.
  unfold found. intros F. destruct (declared_flag "lookup_tf" v); [|auto]. intros (a & c & A & C & L). exists a, c. rewrite !sget_cons. destruct (String.eqb_spec p f) as [->|]; [congruence|]. destruct (String.eqb_spec g f) as [->|]; [congruence|]. auto.
Qed.
Lemma step_rep e done b b' : rep done b -> step look e b = Ok b' -> rep (done ++ [e]) b'.
Proof.
  intros R H. destruct e as [[f v] p]. cbn [step] in H. apply rbind_ok in H. destruct H as (pre & P & H). apply at_ok in P. apply rbind_ok in H. destruct H as ([b1 t] & E & H). destruct (frames_typed v); [|discriminate]. injection H as <-.
  apply enter_ok in E. destruct E as (_ & F & -> & T). destruct F as (F1 & F2 & F3 & F4 & F5 & ND & FR). destruct R.
  assert (PR : forall x y, sget x (bf_to b) = Some y -> sget x (bf_to (after f v t b)) = Some y).
  { intros x y. apply after_to. intros NE. destruct (declared_dynamic v); [congruence|]. apply F5. reflexivity. }
  constructor; rewrite ?rev_app_distr; cbn [rev app after bf_body bf_ids bf_names bf_look bf_dyn bf_al bf_to bf_from map flat_map nm nd eid fst snd].
  - exact r_body0.
  - rewrite r_ids0. reflexivity.
  - rewrite r_names0. unfold eid. cbn [nm nd fst snd]. rewrite <- !app_assoc. reflexivity.
  - rewrite r_look0. reflexivity.
  - rewrite r_dyn0. reflexivity.
  - rewrite r_al0. reflexivity.
  - cbn [filter]. unfold static at 1. cbn [nd fst snd]. destruct (declared_dynamic v); [subst t; exact r_to0|]. destruct T as (u & _ & ->). cbn. rewrite r_to0. reflexivity.
  - intros g w q I D. apply in_app_or in I. destruct I as [I|[[= <- <- <-]|[]]].
    + destruct (r_val0 g w q I D) as (x & u & A & B & C). exists x, u. split; [apply PR; exact A|]. split; [apply found_more; assumption|apply PR; exact C].
    + rewrite D in T. destruct T as (u & FO & ->). exists pre, u. split; [apply PR; exact P|]. split; [exact FO|]. cbn. rewrite String.eqb_refl. reflexivity.
  - apply PR. exact r_bval0.
  - destruct t as [t|]; [cbn; rewrite r_from0; reflexivity|exact r_from0].
  - constructor; [apply sget_None; exact F1|exact r_nd3].
  - rewrite map_app, map_rev, map_map. cbn [map fst]. rewrite map_id. assert (PM : Permutation (declared_id f v :: Al v ++ map fst (bf_names b)) (rev (Al v) ++ declared_id f v :: map fst (bf_names b))).
    { apply Permutation_trans with (Al v ++ declared_id f v :: map fst (bf_names b)); [apply Permutation_middle|]. apply Permutation_app_tail. apply Permutation_rev. }
    apply (Permutation_NoDup PM). change (declared_id f v :: Al v ++ map fst (bf_names b)) with ((declared_id f v :: Al v) ++ map fst (bf_names b)). clear PM.
    revert ND FR. generalize (declared_id f v :: Al v). intros l ND FR. induction l as [|a l IH]; [exact r_nd4|]. inversion ND; subst. cbn. constructor; [|apply IH; [assumption|intros x I; apply FR; right; exact I]].
    rewrite in_app_iff. intros [I|I]; [contradiction|]. revert I. apply sget_None. apply FR. left. reflexivity.
Qed.
Lemma run_rep l : forall done b b', rep done b -> run look l b = Ok b' -> rep (done ++ l) b'.
Proof.
  induction l as [|e l IH]; cbn [run]; intros done b b' R H; [injection H as <-; rewrite app_nil_r; exact R|]. apply rbind_ok in H. destruct H as (b1 & E & H). replace (done ++ e :: l) with ((done ++ [e]) ++ l) by (rewrite <- app_assoc; reflexivity).
  eapply IH; [eapply step_rep; eassumption|exact H].
Qed.
End Main.

Lemma load_run look cfg b : load look cfg = Ok b <-> exists body root, cfg = XStruct [(body, root)] /\ if_given "frame_id" root is_string /\ struct root /\ if_given "frames" root struct /\ run look (entries body root) (start body root) = Ok b.
Proof.
  assert (X : forall body root, load look (XStruct [(body, root)]) = Ok b <-> if_given "frame_id" root is_string /\ struct root /\ if_given "frames" root struct /\ run look (entries body root) (start body root) = Ok b).
  { intros body root. cbn [load]. rewrite rbind_ok.
    assert (Y : forall id, rbind (add_frame_strings body id (mkBF body [] [] [] [] [] [] [])) (fun b1 => rbind (add_frame_transforms body iid iid b1) (fun b2 => rbind (emplace body false (bf_look b2)) (fun lm => rbind (emplace body false (bf_dyn b2)) (fun dm => rbind (emplace id [] (bf_al b2)) (fun am =>
      let b3 := set_al (set_dyn (set_look b2 lm) dm) am in if is_struct root then process_frames look (member "frames" root) iid body b3 else Throw)))))
      = if is_struct root then process_frames look (member "frames" root) iid body (mkBF body [(body, id)] [(id, body)] [(body, false)] [(body, false)] [(id, [])] [(body, iid)] [(body, iid)]) else Throw) by reflexivity.
    assert (S : is_struct root = true <-> struct root) by (unfold struct; destruct root; cbn; split; try discriminate; try (intros [? [=]]); eauto).
    assert (Z : forall b0, sget body (bf_to b0) = Some iid -> process_frames look (member "frames" root) iid body b0 = Ok b <-> if_given "frames" root struct /\ run look (entries body root) b0 = Ok b).
    { intros b0 G. unfold entries, children, if_given, struct. destruct (member "frames" root) as [w|].
      - destruct w as [| | | | | |l]; cbn [process_frames]; try (split; [discriminate|intros [H _]; destruct (H _ eq_refl); discriminate]). rewrite (process_list_run look _ _ _ _ G). split; [intros H; split; [intros w [= <-]; eauto|exact H]|intros [_ H]; exact H].
      - cbn. split; [intros H; split; [intros; discriminate|exact H]|intros [_ H]; exact H]. }
    assert (G0 : sget body (bf_to (start body root)) = Some iid) by (cbn; rewrite String.eqb_refl; reflexivity).
    split.
    - intros (id & E & H). apply node_id_ok in E. destruct E as [TI ->]. rewrite Y in H. destruct (is_struct root) eqn:SR; [|discriminate]. apply (Z (start body root) G0) in H. split; [exact TI|]. split; [apply S; reflexivity|exact H].
    - intros (TI & ST & H). exists (declared_id body root). split; [apply node_id_ok; auto|]. rewrite Y. apply S in ST. rewrite ST. apply (Z (start body root) G0). exact H. }
  split.
  - intros H. assert (SH : exists body root, cfg = XStruct [(body, root)]) by (destruct cfg as [| | | | | |[|[body root] [|? ?]]]; try discriminate; eauto). destruct SH as (body & root & ->). exists body, root. split; [reflexivity|]. apply X. exact H.
  - intros (body & root & -> & H). apply X. exact H.
Qed.
