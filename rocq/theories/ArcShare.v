(** What [ArcSlice::get_mut] leaves open: which weak slices can still be
    upgraded into the slice it returned (C35). *)
From Verif Require Import Base Api BaseLemmas SliceItemsModel BinPartsModel DataModel RcModel Spec DataInv DataSteps SpecTheory Frame RelInv Refine Observe RcTheory Views ShareTheory
  ArcModel ArcInv ArcRelInv ArcSpec ArcRefine ArcObserve ArcFacts ArcTheory.

Section share.
  Context {V : Type} (cf : cfg V).
  Notation sz := (c_sz cf).
  Notation rel := (ArcRefine.rel (c_sz cf)).
  Notation sstep := (arc_spec_step (c_sz cf) (c_clone cf)).
  Notation srun := (arc_spec_run (c_sz cf) (c_clone cf)).
  Implicit Types (w : aworld V) (sk : astate V * list nat) (o : op V) (h : nat) (ops : list (op V)).

  Lemma arc_get_mut_weak ops w h lb w' adr l : xreach cf ops w -> xnode cf ops h = Some (ARc lb) -> xstep cf w (OGetMut h) = Ok (w', RSlice adr l) ->
    (forall h' w2 n c, xstep cf w (OUpgrade h') = Ok (w2, RHandle n) -> c ∈ x_cells cf w2 n -> c ∈ x_cells cf w h ->
       exists l', xnode cf ops h' = Some (AWeak (Some l')) /\ anc lb l' /\ (l' = lb -> h' ∉ snd (xhist cf ops))) /\
    (forall h' l', xnode cf ops h' = Some (AWeak (Some l')) -> anc lb l' ->
       exists w2 n, xstep cf w (OUpgrade h') = Ok (w2, RHandle n) /\ forall c, c ∈ x_cells cf w2 n -> c ∈ x_cells cf w h).
  Proof.
    intros R Hx E. destruct (arc_get_mut_out _ _ _ _ _ _ _ R E) as (lb' & Hx' & Hs & Hn & Hr). unfold xnode in *. rewrite Hx in Hx'. injection Hx' as <-.
    destruct (xhist cf ops) as [a K]. cbn [fst snd] in *. pose proof (proj1 (sole_owner_spec _ _ _ Hx) Hs) as Hso. pose proof (proj1 (no_linked_spec _ _ _) Hn) as Hli. clear R E.
    assert (forall h' l', a_get a h' = Some (AWeak (Some l')) -> alive (as_h a) l' = true ->
      exists w2, xstep cf w (OUpgrade h') = Ok (w2, RHandle (length (as_h a))) /\
        x_cells cf w2 (length (as_h a)) = rng_cells (lrng (as_trees a) l') /\ x_cells cf w h = rng_cells (lrng (as_trees a) lb) /\
        exists a2 K2, rel w2 (a2, K2) /\ as_trees a2 = as_trees a /\ a_get a2 h = Some (ARc lb) /\ a_get a2 (length (as_h a)) = Some (ARc l')) as Hup.
    { intros h' l' Hh' Hal. destruct (xstep_spec _ _ _ (OUpgrade h') Hr) as (w2 & E2 & R2). unfold arc_spec_step in E2, R2. cbn in E2, R2. rewrite Hh', Hal in E2, R2. cbn in E2, R2.
      set (a2 := a_set a (as_h a ++ [Some (ARc l')])) in *. exists w2. split; [done|].
      assert (a_get a2 (length (as_h a)) = Some (ARc l')) as H1 by (unfold a_get, a2; cbn; by rewrite list_lookup_middle).
      assert (a_get a2 h = Some (ARc lb)) as H2.
      { pose proof (a_get_lt _ _ _ Hx). unfold a_get in *. unfold a2. cbn. by rewrite lookup_app_l. }
      rewrite (xcells _ _ _ _ R2), (xcells _ _ _ _ Hr). cbn [fst]. rewrite H1, Hx. split_and!; try done. exists a2. eauto 10. }
    split.
    - intros h' w2 n c E2 Hc Hch. destruct (xstep_rel _ _ _ _ _ _ Hr E2) as [Ho _]. unfold arc_spec_step in Ho. cbn in Ho.
      destruct (a_get a h') as [[|[l'|]| | | |]|] eqn:Hh'; try done. destruct (alive (as_h a) l') eqn:Hal; try done. cbn in Ho. injection Ho as ->.
      exists l'. split; [done|].
      destruct (Hup _ _ Hh' Hal) as (w3 & E3 & C1 & C2 & a2 & K2 & R2 & HT & G1 & G2). rewrite E2 in E3. injection E3 as <-. rewrite C1 in Hc. rewrite C2 in Hch. rewrite <- HT in Hc, Hch.
      assert (anc lb l') as Ha.
      { destruct (xfact_comparable _ _ _ (rel_pi _ _ _ R2) h (length (as_h a)) (ARc lb) (ARc l') lb l' c G1 G2 ltac:(left) ltac:(left) Hch Hc) as [|Ha]; [done|].
        apply alive_spec in Hal as (h1 & x1 & l1 & Hx1 & Hl1 & Ha1). destruct (decide (h1 = h)) as [->|Hne].
        - rewrite Hx in Hx1. injection Hx1 as <-. apply elem_of_list_singleton in Hl1 as ->. done.
        - destruct (Hso _ _ _ Hne Hx1 Hl1) as [_ H2]. exfalso. apply H2. by eapply anc_trans. }
      split; [done|]. intros -> Hk. by apply (Hli _ Hk).
    - intros h' l' Hh' Ha. assert (alive (as_h a) l' = true) as Hal.
      { apply alive_spec. exists h, (ARc lb), lb. split_and!; try done. left. }
      destruct (Hup _ _ Hh' Hal) as (w3 & E3 & C1 & C2 & _). exists w3, (length (as_h a)). split; [done|]. rewrite C1, C2. intros c. by apply anc_cells.
  Qed.

  (** If there is no weak slice at or below the slice, then it stays exclusive
      while only other variables are used. *)
  Lemma arc_stays sk w o h l : rel w sk -> target o <> Some h -> a_get (fst sk) h = Some (ARc l) ->
    sole_owner (as_h (fst sk)) l && no_weak_below (as_h (fst sk)) l = true ->
    let a' := fst (fst (sstep sk o)) in a_get a' h = Some (ARc l) /\ sole_owner (as_h a') l && no_weak_below (as_h a') l = true.
  Proof.
    intros R Ht Hx Hb. destruct sk as [a K]. cbn [fst snd] in *.
    pose proof (base_get cf a K o h Ht (a_get_lt _ _ _ Hx)) as Hg.
    assert (fst (fst (sstep (a, K) o)) = fst (arc_spec_base (c_sz cf) (c_clone cf) a K o)) as Hf.
    { unfold arc_spec_step. cbn [fst snd]. by destruct (arc_spec_base _ _ _ _ _). }
    cbn zeta. rewrite Hf. split; [by rewrite Hg|].
    assert (get_muts o \/ arc_spec_base (c_sz cf) (c_clone cf) a K o = spec_step (c_sz cf) (c_clone cf) a o) as [Hm|He] by (destruct o; cbn; tauto).
    - replace (as_h (fst (arc_spec_base (c_sz cf) (c_clone cf) a K o))) with (as_h a); [done|]. clear Hb Hg Hf Hx. destruct o; cbn in Hm |- *; try done.
      + destruct (a_get a _) as [[| | | | |]|]; try done. by destruct (_ && _).
      + destruct (a_get a _) as [[| | | | |]|]; try done. destruct (_ && _); [|done]. unfold a_replace. by destruct (rng_cells _ !! _); [|done]; destruct (_ !! _).
    - rewrite He in *. apply stays_core with h; try done; [|by rewrite Hg]. exact (xfact_tree _ _ _ (rel_pi _ _ _ R) _ _ l Hx ltac:(left; left)).
  Qed.
  Lemma arc_get_mut_stable ops w h lb w1 adr l ops2 w2 outs : xreach cf ops w -> xnode cf ops h = Some (ARc lb) ->
    (forall h' l', xnode cf ops h' = Some (AWeak (Some l')) -> ~ anc lb l') ->
    xstep cf w (OGetMut h) = Ok (w1, RSlice adr l) ->
    Forall (spares h) ops2 -> xrun cf w1 ops2 = Ok (w2, outs) ->
    (forall h' c, h' <> h -> c ∈ x_cells cf w2 h' -> c ∉ x_cells cf w2 h) /\
    exists w3 adr' l', xstep cf w2 (OGetMut h) = Ok (w3, RSlice adr' l').
  Proof.
    intros R Hx Hnw E HP E2. destruct (arc_get_mut_out _ _ _ _ _ _ _ R E) as (lb' & Hx' & Hs & Hn & Hr). destruct (xstep_rel _ _ _ _ _ _ Hr E) as [_ R1].
    unfold xnode in *. rewrite Hx in Hx'. injection Hx' as <-.
    assert (exists sk, rel w1 sk /\ a_get (fst sk) h = Some (ARc lb) /\ sole_owner (as_h (fst sk)) lb && no_weak_below (as_h (fst sk)) lb = true) as (sk & Hr1 & Hx1 & Hb1).
    { exists (fst (sstep (xhist cf ops) (OGetMut h))). split; [done|]. destruct (xhist cf ops) as [a K]. unfold arc_spec_step. cbn [fst snd arc_spec_base] in *. rewrite Hx, Hs, Hn. cbn [fst snd andb]. split; [done|].
      rewrite Hs. cbn. apply no_weak_spec. intros h' x' l' Hh' Hl'. destruct x' as [|[l1|]| | | |]; cbn in Hl'; try (by apply elem_of_nil in Hl'). apply elem_of_list_singleton in Hl' as ->. by eapply Hnw. }
    clear R Hx Hnw E Hs Hn Hr R1. revert w1 sk outs Hr1 Hx1 Hb1 E2. induction HP as [|o ops2 Ho HP IH]; intros w1 sk outs Hr1 Hx1 Hb1 E2.
    - unfold xrun in E2. cbn in E2. injection E2 as <- <-. apply andb_true_iff in Hb1 as [Hs Hn]. split; [by eapply arc_sole_disjoint|].
      destruct (xstep_spec _ _ _ (OGetMut h) Hr1) as (w3 & E3 & _). unfold arc_spec_step in E3. destruct sk as [a K]. cbn [fst snd arc_spec_base] in *. rewrite Hx1, Hs in E3.
      assert (no_linked a K lb = true) as Hn2.
      { apply no_linked_spec. intros h' _ Hh'. apply (proj1 (no_weak_spec _ _) Hn _ _ lb Hh'); [left|apply anc_refl]. }
      rewrite Hn2 in E3. cbn [andb snd] in E3. unfold a_slice in E3. eauto.
    - apply xrun_cons in E2 as (w3 & r & rs & E3 & E4 & ->). destruct (xstep_rel _ _ _ _ _ _ Hr1 E3) as [_ R3].
      destruct (arc_stays _ _ _ _ _ Hr1 Ho Hx1 Hb1) as [H1 H2]. by eapply IH.
  Qed.
End share.
