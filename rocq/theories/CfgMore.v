(* The lidar pipeline as built for a configuration, running as a network of concurrent callbacks.        *)
From Verif Require Import Base NetModel NetSpec NetProofs NetMore CfgModel CfgSpec CfgProofs.
From Coq Require Import QArith.
Open Scope string_scope.
Open Scope list_scope.

Section Pipe.
  Variable Pt : Type.
  Variable inside : Q * Q * Q -> Q * Q * Q -> Q * Q * Q -> Q * Q * Q -> Pt -> bool.
  Variable range : Pt -> option Q.
  Variable voxel : Q -> Q -> list Pt -> list Pt.
  Variable sor : Z -> Q -> list Pt -> list Pt.
  Variable sample : Z -> Z -> list Pt -> list Pt.
  Variable unit normals : cloud Pt -> cloud Pt.
  Variable cap : nat.
  Notation C := (cloud Pt).
  Notation f := (apply_op Pt inside range voxel sor sample unit normals).
  Notation run := (exec C op f cap).
  Notation out := (on C t_out).

  Section Conf.
    Variables (P : params) (ns : list (nd op)) (u : bool) (l : list kind).
    Hypothesis Hn : lidar_nodes P = Ok (Some (ns, u)).
    Hypothesis He : enabled_in P filters l.

    (* clouds leave in the order they came; each has gone through all enabled stages, in order *)
    Theorem pipe_order ls s : feeds C t_in ls -> run ls (init C op ns) = Some (Ok s) ->
      map (fun n => kind_of (n_op op n)) ns = l ++ (if u then [KUnit] else []) ++ [KNormal] /\
      exists sel, subseq sel (ins C ls) /\
        Forall2 (fun m r => through C op f (map (n_op op) ns) m = Ok r) sel (out (log C op s)).
    Proof.
      intros Hf Hr. destruct (lidar_chain P ns u l Hn He) as (H1 & H2 & H3 & _). split; [exact H3|].
      exact (net_order C op f cap t_in ns t_out ls s H1 H2 Hf Hr).
    Qed.

    (* as long as no more than a queue of clouds is on its way, none is lost *)
    Theorem pipe_complete ls s : feeds C t_in ls -> at_most_in_flight C op f cap t_in t_out (init C op ns) ls ->
      run ls (init C op ns) = Some (Ok s) -> idle C op f cap s ->
      Forall2 (fun m r => through C op f (map (n_op op) ns) m = Ok r) (ins C ls) (out (log C op s)).
    Proof.
      intros Hf Ha Hr Hi. destruct (lidar_chain P ns u l Hn He) as (H1 & H2 & _).
      exact (proj2 (net_complete C op f cap t_in ns t_out ls s H1 H2 Hf Ha Hr) Hi).
    Qed.

    Lemma through_ok ops : forall c, has_range Pt c = true -> (forall o, In o ops -> kind_of o <> KUnit /\ kind_of o <> KNormal) ->
      exists r, through C op f ops c = Ok r /\ has_range Pt r = true.
    Proof.
      induction ops as [|o ops IH]; intros c Hc Ho; cbn [through]; [eauto|].
      assert (Ho' : forall x, In x ops -> kind_of x <> KUnit /\ kind_of x <> KNormal) by (intros x Hx; apply Ho; right; exact Hx).
      destruct (Ho o (or_introl eq_refl)) as [K1 K2].
      destruct o; cbn [apply_op rbind]; try (exfalso; (apply K1 + apply K2); reflexivity); try (apply IH; assumption).
      rewrite Hc. cbn [negb rbind]. apply IH; auto.
    Qed.
    Lemma through_app a b c : through C op f (a ++ b) c = rbind (through C op f a c) (through C op f b).
    Proof.
      revert c. induction a as [|o a IH]; intros c; [reflexivity|]. cbn [app through].
      destruct (f o c); cbn [rbind]; auto.
    Qed.

    (* clouds that carry ranges never make a callback throw, whatever the configuration *)
    Theorem pipe_ranges c : has_range Pt c = true -> exists r, through C op f (map (n_op op) ns) c = Ok r.
    Proof.
      intros Hc. destruct (lidar_chain P ns u l Hn He) as (_ & _ & Hk & _).
      assert (Hl : forall k, In k l -> k <> KUnit /\ k <> KNormal).
      { pose proof (enabled_inj _ _ _ _ He (enabled_filters P)) as El. subst l. intros k Hin.
        repeat (apply in_app_or in Hin; destruct Hin as [Hin|Hin]);
        match type of Hin with In _ (if ?b then _ else _) => destruct b end; try contradiction; destruct Hin as [<-|Hin]; try contradiction; split; discriminate. }
      clear Hn He. rewrite <- (map_map (n_op op) kind_of) in Hk.
      assert (G : exists a b, map (n_op op) ns = a ++ b /\ map kind_of a = l /\ map kind_of b = (if u then [KUnit] else []) ++ [KNormal]).
      { clear -Hk. revert Hk. generalize (map (n_op op) ns) as os. induction l as [|k l' IH]; intros os Hk; [exists [], os; auto|].
        destruct os as [|o os]; [discriminate Hk|]. cbn in Hk. injection Hk as Ko Hk. destruct (IH os Hk) as (a & b & -> & A & B).
        exists (o :: a), b. cbn. rewrite A, Ko. auto. }
      destruct G as (a & b & -> & A & B). rewrite through_app.
      destruct (through_ok a c Hc) as (r & Er & _).
      { intros o Ho. apply Hl. rewrite <- A. apply in_map. exact Ho. }
      rewrite Er. cbn [rbind]. destruct u; cbn [app] in B.
      - destruct b as [|b0 [|b1 [|b2 b']]]; try discriminate B. cbn in B. injection B as B0 B1.
        destruct b0; try discriminate B0. destruct b1; try discriminate B1. cbn. eauto.
      - destruct b as [|b0 [|b1 b']]; try discriminate B. cbn in B. injection B as B0. destruct b0; try discriminate B0. cbn. eauto.
    Qed.

    (* so such a stream never takes the process down, and always can be worked off *)
    Theorem pipe_never_fails ls r : feeds C t_in ls -> (forall m, In m (ins C ls) -> has_range Pt m = true) ->
      run ls (init C op ns) = Some r -> exists s, r = Ok s.
    Proof.
      intros Hf Hm. destruct (lidar_chain P ns u l Hn He) as (H1 & H2 & _).
      apply (net_no_failure C op f cap t_in ns t_out ls r H1 H2 Hf). intros m Hin. apply pipe_ranges. exact (Hm m Hin).
    Qed.
    Theorem pipe_drains ls s : feeds C t_in ls -> (forall m, In m (ins C ls) -> has_range Pt m = true) ->
      run ls (init C op ns) = Some (Ok s) ->
      exists ls' s', Forall (internal C) ls' /\ run (ls ++ ls') (init C op ns) = Some (Ok s') /\ idle C op f cap s'.
    Proof.
      intros Hf Hm. destruct (lidar_chain P ns u l Hn He) as (H1 & H2 & _).
      apply (net_drains C op f cap t_in ns t_out ls s H1 H2 Hf). intros m Hin. apply pipe_ranges. exact (Hm m Hin).
    Qed.
  End Conf.

  (* the filter class on its own, with a filter enabled, publishes the filtered clouds on its advertised topic *)
  Theorem class_order P input ns l ls s : filter_ctor P input = Ok ns -> enabled_in P filters l -> l <> [] ->
    ~ In (resolve input) filter_topics -> feeds C (resolve input) ls -> run ls (init C op ns) = Some (Ok s) ->
    exists sel, subseq sel (ins C ls) /\
      Forall2 (fun m r => through C op f (map (n_op op) ns) m = Ok r) sel (on C "/serpent/filter/filtered_pointcloud" (log C op s)).
  Proof.
    intros Hc He Hl Hi Hf Hr. destruct (filter_chain P input ns l Hc He Hl Hi) as (H1 & H2 & _).
    exact (net_order C op f cap _ ns _ ls s H1 H2 Hf Hr).
  Qed.
  (* with none enabled it publishes nothing at all, whatever arrives *)
  Theorem class_silent P input ns ls s : filter_ctor P input = Ok ns -> enabled_in P filters [] -> resolve input <> "/serpent/filter/filtered_pointcloud" ->
    feeds C (resolve input) ls -> run ls (init C op ns) = Some (Ok s) -> on C "/serpent/filter/filtered_pointcloud" (log C op s) = [].
  Proof.
    intros Hc He Hi Hf Hr. rewrite (no_filter P input He) in Hc. injection Hc as <-.
    assert (G : forall ls s0, cells C op s0 = [] -> feeds C (resolve input) ls -> run ls s0 = Some (Ok s) ->
                on C "/serpent/filter/filtered_pointcloud" (log C op s0) = [] -> on C "/serpent/filter/filtered_pointcloud" (log C op s) = []).
    { clear Hf Hr ls. induction ls as [|lb ls IH]; intros s0 Hc Hf Hr H0; cbn [exec] in Hr; [injection Hr as <-; exact H0|].
      destruct lb as [t m|i|i]; cbn [step] in Hr.
      - eapply IH; [| |exact Hr|].
        + unfold publish. cbn. rewrite Hc. reflexivity.
        + intros t' m' Hin. apply (Hf t' m'). right. exact Hin.
        + unfold publish. cbn [log]. unfold on in *. rewrite filter_app, map_app, H0. cbn [filter fst].
          rewrite (Hf t m (or_introl eq_refl)). destruct (String.eqb_spec (resolve input) "/serpent/filter/filtered_pointcloud"); [contradiction | reflexivity].
      - rewrite Hc in Hr. destruct i; discriminate Hr.
      - rewrite Hc in Hr. destruct i; discriminate Hr. }
    exact (G ls (init C op []) eq_refl Hf Hr eq_refl).
  Qed.
End Pipe.
