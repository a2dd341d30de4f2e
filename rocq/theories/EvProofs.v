(* Evaluation scripts: what the error reports contain. *)
From Coq Require Import Reals List ZArith Lra Lia Bool.
From Verif Require Import Base Interp Geo EgModel MsModel RoModel BfModel EvModel EvSpec.
Import ListNotations.
Open Scope R_scope.

Lemma rleb_t a b : rleb a b = true <-> a <= b. Proof. unfold rleb. destruct (Rle_dec a b); split; intros; try lra; try reflexivity; discriminate. Qed.
Lemma rltb_t a b : rltb a b = true <-> a < b. Proof. unfold rltb. destruct (Rlt_dec a b); split; intros; try lra; try reflexivity; discriminate. Qed.
Lemma rltb_f a b : rltb a b = false <-> b <= a. Proof. unfold rltb. destruct (Rlt_dec a b); split; intros; try lra; try reflexivity; discriminate. Qed.

(* ---- the reference at a time ---- *)
Section Reference.
Context {A B : Type} (whole : A -> B) (mixture : A -> A -> R -> B) (interp : R -> R -> A -> A -> R -> res B).
Hypothesis interp_is : forall t1 t2 a b t, interp t1 t2 a b t = coefficient t1 t2 t (mixture a b).
(* before is the element before rest in gt *)
Definition link (gt : list (R * A)) (before : option (R * A)) (rest : list (R * A)) : Prop :=
  exists pre, gt = pre ++ rest /\ match before with None => pre = [] | Some b => exists pre', pre = pre' ++ [b] end.
Lemma link_start gt : link gt None gt. Proof. exists []. split; reflexivity. Qed.
Lemma advance_link gt t : forall rest before, link gt before rest -> link gt (fst (advance before rest t)) (snd (advance before rest t)) /\
  (match snd (advance before rest t) with [] => True | e :: _ => t <= fst e end) /\
  ((fst (advance before rest t) = before /\ snd (advance before rest t) = rest) \/ exists b, fst (advance before rest t) = Some b /\ fst b < t).
Proof.
  induction rest as [|e rest IH]; intros before L; cbn [advance].
  - cbn. split; [exact L|]. split; [exact I|]. left. split; reflexivity.
  - destruct (rltb (fst e) t) eqn:C.
    + apply rltb_t in C. assert (L' : link gt (Some e) rest). { destruct L as (pre & E & _). exists (pre ++ [e]). split; [rewrite <- app_assoc; exact E|]. exists pre. reflexivity. }
      destruct (IH (Some e) L') as (A1 & A2 & A3). split; [exact A1|]. split; [exact A2|]. right. destruct A3 as [[A3 _]|A3]; [exists e; split; [exact A3|exact C]|exact A3].
    + apply rltb_f in C. cbn. split; [exact L|]. split; [exact C|]. left. split; reflexivity.
Qed.
Lemma at_time_defined z t : at_time whole interp z t <> UB.
Proof.
  unfold at_time. destruct (snd z) as [|e r]; [discriminate|]. destruct (Req_EM_T (fst e) t) as [E|E]; [discriminate|]. destruct (fst z) as [b|]; [|discriminate]. rewrite interp_is. unfold coefficient.
  destruct (Req_EM_T (fst b) (fst e)) as [E1|E1]; [destruct (Req_EM_T t (fst b)); [congruence|discriminate]|]. destruct (rltb _ 0 || rltb 1 _); discriminate.
Qed.
Lemma order_pair (gt : list (R * A)) pre b e r : in_order gt -> gt = pre ++ b :: e :: r -> fst b <= fst e.
Proof. intros O ->. apply (O (length pre) (S (length pre))); [rewrite nth_error_app2, Nat.sub_diag by lia; reflexivity|rewrite nth_error_app2 by lia; replace (S (length pre) - length pre)%nat with 1%nat by lia; reflexivity|lia]. Qed.
Lemma at_time_sound gt before rest t v : in_order gt -> link gt before rest -> at_time whole interp (advance before rest t) t = Ok v -> value_at whole mixture gt t v.
Proof.
  intros O L H. destruct (advance_link gt t rest before L) as (L1 & L2 & _). unfold at_time in H. destruct (advance before rest t) as [b' r']. cbn [fst snd] in *. destruct r' as [|e r]; [discriminate|]. destruct L1 as (pre & E & Hb).
  destruct (Req_EM_T (fst e) t) as [Et|Et].
  - injection H as <-. left. exists (snd e). split; [|reflexivity]. rewrite E, <- Et. rewrite <- surjective_pairing. apply in_or_app. right. left. reflexivity.
  - destruct b' as [b|]; [|discriminate]. destruct Hb as [pre' ->]. rewrite <- app_assoc in E. cbn [app] in E. rewrite interp_is in H. unfold coefficient in H. pose proof (order_pair gt pre' b e r O E) as Ob.
    destruct (Req_EM_T (fst b) (fst e)) as [E1|E1]; [destruct (Req_EM_T t (fst b)); discriminate|]. set (c := (t - fst b) / (fst e - fst b)) in *. destruct (rltb c 0) eqn:C1; [discriminate|]. destruct (rltb 1 c) eqn:C2; [discriminate|]. cbn [orb] in H. injection H as <-.
    apply rltb_f in C1. apply rltb_f in C2. assert (Ec : t = fst b + c * (fst e - fst b)) by (unfold c; field; lra). right. exists pre', r, (fst b), (snd b), (fst e), (snd e), c. rewrite <- !surjective_pairing. split; [exact E|]. split; [|split; [exact Ec|reflexivity]]. split; [nra|]. destruct L2 as [L2|L2]; [exact L2|congruence].
Qed.
Lemma at_time_total gt before rest t : gt <> [] -> in_order gt -> link gt before rest -> match before with Some b => fst b < t | None => True end -> (forall a, nth_error gt 0 = Some a -> fst a <= t) -> (exists a, In a gt /\ t <= fst a) ->
  exists v, at_time whole interp (advance before rest t) t = Ok v /\ match fst (advance before rest t) with Some b => fst b < t | None => True end.
Proof.
  intros N O L Hb Hf Hl. destruct (advance_link gt t rest before L) as (L1 & L2 & L3). destruct (advance before rest t) as [b' r']. cbn [fst snd] in *.
  assert (Hb' : match b' with Some b => fst b < t | None => True end) by (destruct L3 as [[-> _]|(b & -> & H)]; [exact Hb|exact H]). destruct L1 as (pre & E & Hp). unfold at_time. cbn [fst snd]. destruct r' as [|e r].
  - exfalso. rewrite app_nil_r in E. destruct Hl as (a & Ha & Hta). destruct b' as [b|]; [|subst; congruence]. destruct Hp as [pre' ->]. subst gt. apply In_nth_error in Ha. destruct Ha as [i Hi].
    assert (Li : (i < length (pre' ++ [b]))%nat) by (apply nth_error_Some; rewrite Hi; discriminate). rewrite app_length in Li. cbn in Li. pose proof (O i (length pre') a b Hi) as OO. rewrite nth_error_app2, Nat.sub_diag in OO by lia. specialize (OO eq_refl ltac:(lia)). lra.
  - destruct (Req_EM_T (fst e) t) as [Et|Et]; [eexists; split; [reflexivity|exact Hb']|]. destruct b' as [b|].
    + destruct Hp as [pre' ->]. rewrite <- app_assoc in E. cbn [app] in E. rewrite interp_is. unfold coefficient. destruct (Req_EM_T (fst b) (fst e)) as [E1|E1]; [exfalso; lra|]. assert (Hlt : t < fst e) by (destruct L2; [assumption|congruence]).
      assert (C : 0 <= (t - fst b) / (fst e - fst b) <= 1). { split; [apply Rmult_le_pos; [lra|left; apply Rinv_0_lt_compat; lra]|]. apply Rmult_le_reg_r with (fst e - fst b); [lra|]. unfold Rdiv. rewrite Rmult_assoc, Rinv_l by lra. lra. }
      rewrite (proj2 (rltb_f _ 0)), (proj2 (rltb_f 1 _)) by lra. cbn. eexists. split; [reflexivity|exact Hb'].
    + subst pre. cbn [app] in E. subst gt. specialize (Hf e eq_refl). exfalso. lra.
Qed.
End Reference.

(* ---- the loop ---- *)
Section LoopFacts.
Context {A B C E : Type} (whole : A -> B) (mixture : A -> A -> R -> B) (interp : R -> R -> A -> A -> R -> res B) (conv : C -> B) (absolute : B -> B -> E) (relative : B -> B -> B -> B -> E).
Hypothesis interp_is : forall t1 t2 a b t, interp t1 t2 a b t = coefficient t1 t2 t (mixture a b).
Notation loop := (errors_loop whole interp conv absolute relative).
Fixpoint consec (prev : option (B * B)) (l : list (B * B)) : list E :=
  match l with [] => [] | x :: l' => match prev with None => consec (Some x) l' | Some p => relative (fst p) (snd p) (fst x) (snd x) :: consec (Some x) l' end end.
Lemma loop_defined : forall l before rest prev, loop before rest prev l <> UB.
Proof.
  induction l as [|[t x] l IH]; intros before rest prev; cbn [errors_loop]; [discriminate|]. cbv zeta. pose proof (at_time_defined whole mixture interp interp_is (advance before rest t) t) as D.
  destruct (at_time whole interp (advance before rest t) t) as [g| |]; cbn [rbind]; try discriminate; [|congruence]. specialize (IH (fst (advance before rest t)) (snd (advance before rest t)) (Some (g, conv x))). destruct (loop _ _ _ l) as [r| |]; cbn [rbind]; congruence.
Qed.
Lemma loop_sound gt : in_order gt -> forall l before rest prev r, link gt before rest -> loop before rest prev l = Ok r ->
  exists gs, length gs = length l /\ Forall2 (fun e g => value_at whole mixture gt (fst e) g) l gs /\ fst r = map (fun p => absolute (fst p) (snd p)) (combine gs (map (fun e => conv (snd e)) l)) /\ snd r = consec prev (combine gs (map (fun e => conv (snd e)) l)).
Proof.
  intros O. induction l as [|[t x] l IH]; intros before rest prev r L H; cbn [errors_loop] in H.
  - injection H as <-. exists []. cbn. repeat split. constructor.
  - cbv zeta in H. destruct (at_time whole interp (advance before rest t) t) as [g| |] eqn:Ea; cbn [rbind] in H; try discriminate. destruct (loop (fst (advance before rest t)) (snd (advance before rest t)) (Some (g, conv x)) l) as [r'| |] eqn:El; cbn [rbind] in H; try discriminate. injection H as <-.
    destruct (advance_link gt t rest before L) as (L1 & _). destruct (IH _ _ _ _ L1 El) as (gs & G1 & G2 & G3 & G4). exists (g :: gs). cbn [length combine map fst snd consec]. split; [rewrite G1; reflexivity|]. split; [constructor; [cbn; exact (at_time_sound whole mixture interp interp_is gt before rest t g O L Ea)|exact G2]|]. split; [rewrite G3; reflexivity|].
    destruct prev as [[pg pv]|]; cbn [fst snd]; rewrite G4; reflexivity.
Qed.
Lemma loop_total gt : gt <> [] -> in_order gt -> forall l before rest prev, link gt before rest -> in_order l -> (forall e, In e l -> (forall a, nth_error gt 0 = Some a -> fst a <= fst e) /\ exists a, In a gt /\ fst e <= fst a) ->
  (forall b e, before = Some b -> In e l -> fst b < fst e) -> exists r, loop before rest prev l = Ok r.
Proof.
  intros N O. induction l as [|[t x] l IH]; intros before rest prev L Ol Hc Hb; cbn [errors_loop]; [eexists; reflexivity|]. cbv zeta. destruct (Hc (t, x) (or_introl eq_refl)) as (Hf & Hl). cbn [fst] in *.
  destruct (at_time_total whole mixture interp interp_is gt before rest t N O L) as (g & Eg & Hb'); [destruct before as [b|]; [apply (Hb b (t, x) eq_refl (or_introl eq_refl))|exact I]|exact Hf|exact Hl|]. rewrite Eg. cbn [rbind].
  destruct (advance_link gt t rest before L) as (L1 & _). destruct (IH (fst (advance before rest t)) (snd (advance before rest t)) (Some (g, conv x)) L1) as (r & Er).
  - intros i j a b Ha Hbb Hij. apply (Ol (S i) (S j) a b Ha Hbb). lia.
  - intros e He. apply Hc. right. exact He.
  - intros b e Eb He. rewrite Eb in Hb'. apply In_nth_error in He. destruct He as [j Hj]. pose proof (Ol 0%nat (S j) (t, x) e eq_refl Hj ltac:(lia)) as Oj. cbn [fst] in Oj. lra.
  - rewrite Er. cbn [rbind]. eexists. reflexivity.
Qed.
Lemma consec_length : forall l prev, length (consec prev l) = match prev with None => pred (length l) | Some _ => length l end.
Proof. induction l as [|x l IH]; intros [p|]; cbn [consec length pred]; rewrite ?IH; reflexivity. Qed.
Lemma consec_nth : forall l prev i x y, nth_error (match prev with None => l | Some p => p :: l end) i = Some x -> nth_error (match prev with None => l | Some p => p :: l end) (S i) = Some y -> nth_error (consec prev l) i = Some (relative (fst x) (snd x) (fst y) (snd y)).
Proof.
  induction l as [|z l IH]; intros [p|] i x y Hx Hy; cbn [consec].
  - destruct i; discriminate.
  - destruct i; discriminate.
  - destruct i as [|i]; cbn in Hx, Hy |- *; [injection Hx as <-; injection Hy as <-; reflexivity|]. apply (IH (Some z) i x y); cbn; assumption.
  - apply (IH (Some z) i x y); assumption.
Qed.
Lemma last_nth {X} : forall (l : list X) d, l <> [] -> nth_error l (pred (length l)) = Some (last l d).
Proof. induction l as [|x l IH]; intros d N; [congruence|]. destruct l as [|y l]; [reflexivity|]. change (last (x :: y :: l) d) with (last (y :: l) d). rewrite <- (IH d) by discriminate. reflexivity. Qed.
Lemma in_order_ends {X} (gt : list (R * X)) first rest : gt = first :: rest -> in_order gt -> forall a, In a gt -> fst first <= fst a <= fst (last gt first).
Proof.
  intros -> O a Ha. apply In_nth_error in Ha. destruct Ha as [i Hi]. split; [apply (O 0%nat i first a eq_refl Hi); lia|].
  assert (Hl : nth_error (first :: rest) (length rest) = Some (last (first :: rest) first)).
  { apply (last_nth (first :: rest) first). discriminate. }
  apply (O i (length rest) a _ Hi Hl). assert (i < length (first :: rest))%nat by (apply nth_error_Some; rewrite Hi; discriminate). cbn in H. lia.
Qed.
Lemma last_in {X} (l : list X) d : l <> [] -> In (last l d) l.
Proof. induction l as [|x l IH]; intros N; [congruence|]. destruct l as [|y l]; [left; reflexivity|]. right. apply IH. discriminate. Qed.
Definition in_range (gt : list (R * A)) (e : R * C) : bool := match gt with [] => false | first :: _ => rleb (fst e) (fst (last gt first)) && rleb (fst first) (fst e) end.
Lemma inside_filter gt (l : list (R * C)) : gt <> [] -> inside gt l = filter (in_range gt) l.
Proof. intros N. destruct gt as [|first rest]; [congruence|]. reflexivity. Qed.
Lemma in_range_covered gt e : in_order gt -> in_range gt e = true <-> covered gt (fst e).
Proof.
  intros O. destruct gt as [|first rest] eqn:Eg; cbn [in_range].
  - split; [discriminate|]. intros (a & b & [] & _).
  - rewrite <- Eg in *. rewrite andb_true_iff, !rleb_t. split.
    + intros [H1 H2]. exists first, (last gt first). split; [subst; left; reflexivity|]. split; [apply last_in; subst; discriminate|]. split; assumption.
    + intros (a & b & Ha & Hb & H). pose proof (in_order_ends gt first rest Eg O a Ha). pose proof (in_order_ends gt first rest Eg O b Hb). lra.
Qed.
Lemma filter_order {X} (f : R * X -> bool) (l : list (R * X)) : in_order l -> in_order (filter f l).
Proof.
  intros O. induction l as [|e l IH]; [intros [|i] j a b H; discriminate H|]. assert (O' : in_order l) by (intros i j a b Ha Hb Hij; apply (O (S i) (S j) a b Ha Hb); lia). cbn [filter]. destruct (f e); [|apply IH; exact O'].
  intros [|i] [|j] a b Ha Hb Hij; cbn in Ha, Hb; try lia.
  - injection Ha as <-. injection Hb as <-. lra.
  - injection Ha as <-. apply nth_error_In in Hb. apply filter_In in Hb. destruct Hb as [Hb _]. apply In_nth_error in Hb. destruct Hb as [k Hk]. apply (O 0%nat (S k) e b eq_refl Hk). lia.
  - apply (IH O' i j a b Ha Hb). lia.
Qed.
Lemma errors_defined gt l : errors whole interp conv absolute relative gt l <> UB.
Proof. unfold errors. destruct gt as [|e gt]; [discriminate|]. cbv zeta. pose proof (loop_defined (inside (e :: gt) l) None (e :: gt) None) as D. destruct (loop None (e :: gt) None (inside (e :: gt) l)); cbn [rbind]; congruence. Qed.
Lemma errors_total gt l : gt <> [] -> in_order gt -> in_order l -> exists o, errors whole interp conv absolute relative gt l = Ok o.
Proof.
  intros N O Ol. unfold errors. destruct gt as [|first gt'] eqn:Eg; [congruence|]. rewrite <- Eg in *. cbv zeta. rewrite inside_filter by exact N. destruct (loop_total gt N O (filter (in_range gt) l) None gt None (link_start gt)) as (r & Er).
  - apply filter_order. exact Ol.
  - intros e He. apply filter_In in He. destruct He as [_ He]. rewrite Eg in He. cbn [in_range] in He. rewrite <- Eg in He. rewrite andb_true_iff, !rleb_t in He. split.
    + intros a Ha. rewrite Eg in Ha. injection Ha as <-. apply He.
    + exists (last gt first). split; [apply last_in; exact N|apply He].
  - discriminate.
  - rewrite Er. cbn [rbind]. eexists. reflexivity.
Qed.
Lemma nth_combine {X Y} : forall (l : list X) (m : list Y) i x y, nth_error l i = Some x -> nth_error m i = Some y -> nth_error (combine l m) i = Some (x, y).
Proof. induction l as [|a l IH]; intros [|b m] [|i] x y Hx Hy; try discriminate; cbn in *; [congruence|]. apply IH; assumption. Qed.
Lemma errors_report gt l o : in_order gt -> errors whole interp conv absolute relative gt l = Ok o -> reports whole mixture conv absolute relative gt l (eo_abs o) (eo_abs_t o) (eo_rel o) (eo_rel_t o).
Proof.
  intros O H. unfold errors in H. destruct gt as [|first gt'] eqn:Eg; [discriminate|]. rewrite <- Eg in *. assert (N : gt <> []) by (rewrite Eg; discriminate). cbv zeta in H. rewrite inside_filter in H by exact N. destruct (loop None gt None (filter (in_range gt) l)) as [r| |] eqn:El; cbn [rbind] in H; try discriminate. injection H as <-.
  destruct (loop_sound gt O _ _ _ _ _ (link_start gt) El) as (gs & G1 & G2 & G3 & G4). exists (in_range gt), gs. split; [intros e _; apply in_range_covered; exact O|]. cbv zeta. cbn [eo_abs eo_abs_t eo_rel eo_rel_t]. set (kept := filter (in_range gt) l) in *.
  assert (Lc : length (combine gs (map (fun e : R * C => conv (snd e)) kept)) = length kept) by (rewrite combine_length, map_length; lia).
  split; [exact G1|]. split; [rewrite G3, map_length; exact Lc|]. split; [rewrite G4, consec_length, Lc; reflexivity|]. split; [reflexivity|]. split; [reflexivity|].
  assert (K : forall i t x g, nth_error kept i = Some (t, x) -> nth_error gs i = Some g -> nth_error (combine gs (map (fun e : R * C => conv (snd e)) kept)) i = Some (g, conv x)).
  { intros i t x g Hk Hg. apply nth_combine; [exact Hg|]. rewrite nth_error_map, Hk. reflexivity. }
  split.
  - intros i t x g Hk Hg. split.
    + clear -G2 Hk Hg. revert i Hk Hg. induction G2 as [|e h l' gs' H H' IH]; intros [|i] Hk Hg; try discriminate; cbn in Hk, Hg; [injection Hk as ->; injection Hg as <-; exact H|eapply IH; eassumption].
    + rewrite G3, nth_error_map, (K i t x g Hk Hg). reflexivity.
  - intros i tx x g ty y h Hx Hg Hy Hh. rewrite G4. apply (consec_nth _ None i (g, conv x) (h, conv y)); [apply (K i tx x g Hx Hg)|apply (K (S i) ty y h Hy Hh)].
Qed.
End LoopFacts.
