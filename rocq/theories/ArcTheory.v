(** Consequences of the refinement for the thread-safe API used by one thread
    (C33-C35, C42). *)
From Verif Require Import Base BaseLemmas Api SliceItemsModel BinPartsModel DataModel RcModel Spec
  BinPartsProof SliceItemsProof DataInv DataSteps GuardInv RelInv Refine Observe Facts SpecTheory Frame Views RcTheory ShareTheory LeakTheory
  ArcModel ArcInv ArcRelInv ArcRelOps ArcRelMut ArcRelParts ArcSpec ArcRefine ArcObserve ArcFacts.

Section theory.
  Context {V : Type} (cf : cfg V).
  Notation sz := (c_sz cf).
  Notation rel := (ArcRefine.rel (c_sz cf)).
  Notation srun := (arc_spec_run (c_sz cf) (c_clone cf)).
  Notation sstep := (arc_spec_step (c_sz cf) (c_clone cf)).
  Implicit Types (w : aworld V) (sk : astate V * list nat) (o : op V) (h : nat) (ops : list (op V)).

  (** *** Runs *)
  Lemma xstep_spec w sk o : rel w sk -> exists w', xstep cf w o = Ok (w', snd (sstep sk o)) /\ rel w' (fst (sstep sk o)).
  Proof. apply ArcRefine.step_ok. Qed.
  Lemma xrun_spec w sk ops : rel w sk -> exists w', xrun cf w ops = Ok (w', snd (srun sk ops)) /\ rel w' (fst (srun sk ops)).
  Proof. apply ArcRefine.run_ok. Qed.
  Lemma xstep_rel w sk o w' r : rel w sk -> xstep cf w o = Ok (w', r) -> r = snd (sstep sk o) /\ rel w' (fst (sstep sk o)).
  Proof. intros R E. destruct (xstep_spec _ _ o R) as (w2 & E2 & R2). rewrite E in E2. injection E2 as <- ->. done. Qed.
  Lemma xrun_rel w sk ops w' rs : rel w sk -> xrun cf w ops = Ok (w', rs) -> rs = snd (srun sk ops) /\ rel w' (fst (srun sk ops)).
  Proof. intros R E. destruct (xrun_spec _ _ ops R) as (w2 & E2 & R2). rewrite E in E2. injection E2 as <- ->. done. Qed.
  Lemma xreach_rel ops w : xreach cf ops w -> rel w (xhist cf ops).
  Proof. intros [outs E]. by destruct (xrun_rel _ _ _ _ _ (ArcRefine.rel_empty _) E). Qed.
  Lemma xrun_cons w o ops w' rs : xrun cf w (o :: ops) = Ok (w', rs) ->
    exists w1 r rs', xstep cf w o = Ok (w1, r) /\ xrun cf w1 ops = Ok (w', rs') /\ rs = r :: rs'.
  Proof.
    intros E. change (xrun cf w (o :: ops)) with ('(w1, r) ← xstep cf w o; '(w2, rs) ← xrun cf w1 ops; Ok (w2, r :: rs)) in E.
    destruct (xstep cf w o) as [[w1 r]| | |] eqn:E1; try done. revert E. res_simpl. intros E.
    destruct (xrun cf w1 ops) as [[w2 rs']| | |] eqn:E2; try done. revert E. res_simpl. intros [= <- <-]. eauto 10.
  Qed.
  Lemma xrun_app w ops ops' : xrun cf w (ops ++ ops') = '(w1, rs) ← xrun cf w ops; '(w2, rs') ← xrun cf w1 ops'; Ok (w2, rs ++ rs').
  Proof.
    revert w. induction ops as [|o ops IH]; intros w.
    - change (xrun cf w []) with (Ok (w, [] : list (out V))). res_simpl. cbn [app]. destruct (xrun cf w ops') as [[? ?]| | |]; done.
    - change (xrun cf w ((o :: ops) ++ ops')) with ('(w1, r) ← xstep cf w o; '(w2, rs) ← xrun cf w1 (ops ++ ops'); Ok (w2, r :: rs)).
      change (xrun cf w (o :: ops)) with ('(w1, r) ← xstep cf w o; '(w2, rs) ← xrun cf w1 ops; Ok (w2, r :: rs)).
      destruct (xstep cf w o) as [[w1 r]| | |]; try done. res_simpl. rewrite IH.
      destruct (xrun cf w1 ops) as [[w2 rs]| | |]; try done. res_simpl. destruct (xrun cf w2 ops') as [[w3 rs']| | |]; done.
  Qed.
  Lemma srun_cons sk o ops : fst (srun sk (o :: ops)) = fst (srun (fst (sstep sk o)) ops).
  Proof. cbn [arc_spec_run]. destruct (sstep sk o) as [a1 r]. cbn. by destruct (srun a1 ops). Qed.
  Lemma xrun_1 w o : xrun cf w [o] = '(w1, r) ← xstep cf w o; Ok (w1, [r]).
  Proof. unfold xrun. cbn [arun]. fold (xstep cf w o). destruct (xstep cf w o) as [[w1 r]| | |]; done. Qed.
  Lemma xreach_step ops w o w' r : xreach cf ops w -> xstep cf w o = Ok (w', r) -> xreach cf (ops ++ [o]) w'.
  Proof. intros [outs E] E'. exists (outs ++ [r]). rewrite xrun_app, E. res_simpl. rewrite xrun_1, E'. done. Qed.

  Lemma arc_never_stuck ops : exists w outs, xrun cf empty_aworld ops = Ok (w, outs).
  Proof. destruct (xrun_spec _ _ ops (ArcRefine.rel_empty (c_sz cf))) as (w & E & _). eauto. Qed.
  Lemma arc_refines_spec ops : exists w, xrun cf empty_aworld ops = Ok (w, snd (srun (empty_astate, []) ops)) /\
    dw_mem (aw_d w) = as_mem (fst (fst (srun (empty_astate, []) ops))).
  Proof.
    destruct (xrun_spec _ _ ops (ArcRefine.rel_empty (c_sz cf))) as (w & E & P & LI & (_ & _ & _ & Hm & _) & _). eauto.
  Qed.

  (** *** Which items are alive, which handles overlap *)
  Lemma rel_pi w sk : rel w sk -> exists P LI, rel0 sz w (fst sk) P LI.
  Proof. intros (P & LI & H & _). eauto. Qed.
  Lemma xcells w sk h : rel w sk -> x_cells cf w h = match a_get (fst sk) h with Some x => hcells (as_trees (fst sk)) x | None => [] end.
  Proof. intros R. by apply (xfact_x_cells _ _ _ (rel_pi _ _ R) cf h). Qed.
  Lemma xrel_mem w sk : rel w sk -> as_mem (fst sk) = dw_mem (aw_d w).
  Proof. by intros (P & LI & (_ & _ & _ & Hm & _) & _). Qed.
  Lemma arc_alive_iff ops w c : xreach cf ops w -> is_Some (xitem w c) <-> exists h, c ∈ x_cells cf w h.
  Proof.
    intros R%xreach_rel. unfold xitem. rewrite <- (xrel_mem _ _ R), (xfact_alive _ _ _ (rel_pi _ _ R) c). split.
    - intros (h & x & Hx & Hc). exists h. by rewrite (xcells _ _ _ R), Hx.
    - intros (h & Hc). rewrite (xcells _ _ _ R) in Hc. destruct (a_get _ h) as [x|] eqn:Hx; [eauto|by apply elem_of_nil in Hc].
  Qed.
  Lemma arc_covered ops w h c : xreach cf ops w -> c ∈ x_cells cf w h ->
    exists v blk, xitem w c = Some v /\ dw_blocks (aw_d w) !! fst c = Some blk /\ (snd c < b_len blk)%N /\ (sz <> 0%N -> b_freed blk = false).
  Proof.
    intros R Hc. assert (is_Some (dw_mem (aw_d w) !! c)) as Hs by (eapply arc_alive_iff; eauto). apply xreach_rel in R.
    destruct (xfact_block _ _ _ (rel_pi _ _ R) c Hs) as (blk & ? & ? & ? & ?). destruct Hs as [v Hv]. eauto 10.
  Qed.
  Lemma arc_unique_disjoint ops w h h' c : xreach cf ops w -> is_aunique w h -> h' <> h -> c ∈ x_cells cf w h -> c ∉ x_cells cf w h'.
  Proof.
    intros R%xreach_rel Hu Hne Hc Hc'. rewrite (xcells _ _ _ R) in Hc. rewrite (xcells _ _ _ R) in Hc'. pose proof (xrel_kind _ _ _ (rel_pi _ _ R) h) as Hk.
    unfold is_aunique in Hu. destruct (a_get _ h) as [x|] eqn:Hx; [|by apply elem_of_nil in Hc]. destruct (a_get _ h') as [x'|] eqn:Hx'; [|by apply elem_of_nil in Hc'].
    apply (xfact_exclusive _ _ _ (rel_pi _ _ R) h h' x x' c); try done. by destruct (xget w h) as [[]|], x.
  Qed.
  Lemma arc_sole_disjoint w sk h lb : rel w sk -> a_get (fst sk) h = Some (ARc lb) -> sole_owner (as_h (fst sk)) lb = true ->
    forall h' c, h' <> h -> c ∈ x_cells cf w h' -> c ∉ x_cells cf w h.
  Proof.
    intros R Hx Hs h' c Hne Hc' Hc. rewrite (xcells _ _ _ R), Hx in Hc. rewrite (xcells _ _ _ R) in Hc'.
    destruct (a_get _ h') as [x'|] eqn:Hx'; [|by apply elem_of_nil in Hc'].
    pose proof (proj1 (sole_owner_spec _ _ _ Hx) Hs) as Hso. pose proof (rel_pi _ _ R) as R'.
    assert (forall l', l' ∈ strong_labels x' -> c ∈ rng_cells (lrng (as_trees (fst sk)) l') -> False) as Hno.
    { intros l' Hl' Hcl. destruct (Hso _ _ _ Hne Hx' Hl') as [H1 H2].
      destruct (xfact_comparable _ _ _ R' h h' (ARc lb) x' lb l' c Hx Hx' ltac:(left) Hl' Hc Hcl); done. }
    destruct x' as [l1|ol|q|r|r|rs].
    - apply (Hno l1); [left|done].
    - by apply elem_of_nil in Hc'.
    - apply elem_of_list_bind in Hc' as ([l1 j] & Hc' & Hq). apply (Hno l1); [|done]. cbn. apply elem_of_list_fmap. by exists (l1, j).
    - by eapply (xfact_exclusive _ _ _ R' h' h (AMut r) (ARc lb)).
    - by eapply (xfact_exclusive _ _ _ R' h' h (AIter r) (ARc lb)).
    - by eapply (xfact_exclusive _ _ _ R' h' h (AMParts rs) (ARc lb)).
  Qed.

  (** *** into_mut *)
  Lemma arc_into_mut_iff ops w h lb : xreach cf ops w -> xnode cf ops h = Some (ARc lb) ->
    ((exists w' n, xstep cf w (OIntoMut h) = Ok (w', RHandle n)) <->
     (forall h' x' l', h' <> h -> xnode cf ops h' = Some x' -> l' ∈ strong_labels x' -> ~ anc lb l' /\ ~ anc l' lb)) /\
    ((exists w' n, xstep cf w (OIntoMut h) = Ok (w', RHandle n)) \/ exists w', xstep cf w (OIntoMut h) = Ok (w', RErr)).
  Proof.
    intros R%xreach_rel Hx. unfold xnode in *. destruct (xhist cf ops) as [a K].
    destruct (xstep_spec _ _ (OIntoMut h) R) as (w' & E & R'). unfold arc_spec_step in E. cbn in E, Hx. rewrite Hx in E. cbn [fst].
    rewrite <- (sole_owner_spec _ _ _ Hx). destruct (sole_owner _ _) eqn:Eb; cbn in E.
    - split; [|eauto]. split; [done|eauto].
    - split; [|eauto]. split; [|done]. intros (w2 & n & E'). rewrite E in E'. done.
  Qed.
  (** The converted slice overlaps nothing, and no weak slice can be upgraded to overlap it. *)
  Lemma arc_into_mut_excl ops w h w1 n : xreach cf ops w -> xstep cf w (OIntoMut h) = Ok (w1, RHandle n) ->
    (forall h' c, h' <> n -> c ∈ x_cells cf w1 h' -> c ∉ x_cells cf w1 n) /\
    (forall h' w2 m c, xstep cf w1 (OUpgrade h') = Ok (w2, RHandle m) -> c ∈ x_cells cf w2 m -> c ∉ x_cells cf w2 n).
  Proof.
    intros R E. assert (xreach cf (ops ++ [OIntoMut h]) w1) as R1 by (by eapply xreach_step).
    assert (is_aunique w1 n /\ n < length (aw_h w1)) as [Hu Hn].
    { unfold xstep in E. cbn [astep] in E. destruct (xget w h) as [[r| | | | |]|]; try done.
      destruct (arc_into_mut _ _ _) as [[s [m|r']]| | |]; try done. cbn in E. injection E as <- <-. unfold is_aunique, xget. cbn.
      rewrite list_lookup_middle by done. rewrite app_length. cbn. split; [done|lia]. }
    split.
    - intros h' c Hne Hc' Hc. by eapply (arc_unique_disjoint _ _ n h' c R1).
    - intros h' w2 m c E2 Hc Hc'. assert (xreach cf ((ops ++ [OIntoMut h]) ++ [OUpgrade h']) w2) as R2 by (by eapply xreach_step).
      assert (is_aunique w2 n /\ m <> n) as [Hu2 Hne].
      { unfold xstep in E2. cbn [astep] in E2. destruct (xget w1 h') as [[|d g| | | |]|]; try done.
        destruct (aweak_upgrade _ _ _) as [[s [r|]]| | |]; try done. cbn in E2. injection E2 as <- <-. unfold is_aunique, xget in *. cbn.
        rewrite lookup_app_l by done. split; [done|]. lia. }
      by eapply (arc_unique_disjoint _ _ n m c R2).
  Qed.

  (** *** get_mut *)
  Lemma arc_get_mut_out ops w h w' adr l : xreach cf ops w -> xstep cf w (OGetMut h) = Ok (w', RSlice adr l) ->
    exists lb, a_get (fst (xhist cf ops)) h = Some (ARc lb) /\ sole_owner (as_h (fst (xhist cf ops))) lb = true /\
      no_linked (fst (xhist cf ops)) (snd (xhist cf ops)) lb = true /\ rel w (xhist cf ops).
  Proof.
    intros R%xreach_rel E. destruct (xstep_rel _ _ _ _ _ R E) as [Ho _]. unfold arc_spec_step in Ho. destruct (xhist cf ops) as [a K]. cbn in Ho. cbn [fst snd].
    destruct (a_get a h) as [[lb| | | | |]|] eqn:Hx; try done. destruct (_ && _) eqn:Eb; [|done].
    apply andb_true_iff in Eb as [? ?]. eauto 10.
  Qed.
  Lemma arc_get_mut_strong ops w h w' adr l : xreach cf ops w -> xstep cf w (OGetMut h) = Ok (w', RSlice adr l) ->
    forall h' c, h' <> h -> c ∈ x_cells cf w h' -> c ∉ x_cells cf w h.
  Proof. intros R E. destruct (arc_get_mut_out _ _ _ _ _ _ R E) as (lb & Hx & Hs & _ & Hr). by eapply arc_sole_disjoint. Qed.
  Lemma no_linked_spec (a : astate V) K lb : no_linked a K lb = true <->
    forall h', h' ∈ K -> a_get a h' <> Some (AWeak (Some lb)).
  Proof.
    unfold no_linked. rewrite bool_decide_eq_true, Forall_forall. unfold weak_at. split; intros H h' Hh'; specialize (H h' Hh').
    - intros E. by rewrite E in H.
    - destruct (a_get a h') as [[|[l|]| | | |]|]; try done. congruence.
  Qed.
  Lemma arc_get_mut_iff ops w h lb : xreach cf ops w -> xnode cf ops h = Some (ARc lb) ->
    ((exists w' adr l, xstep cf w (OGetMut h) = Ok (w', RSlice adr l)) <->
     (forall h' x' l', h' <> h -> xnode cf ops h' = Some x' -> l' ∈ strong_labels x' -> ~ anc lb l' /\ ~ anc l' lb) /\
     (forall h', h' ∈ snd (xhist cf ops) -> xnode cf ops h' <> Some (AWeak (Some lb)))) /\
    ((exists w' adr l, xstep cf w (OGetMut h) = Ok (w', RSlice adr l)) \/ exists w', xstep cf w (OGetMut h) = Ok (w', RNone)).
  Proof.
    intros R%xreach_rel Hx. unfold xnode in *. destruct (xhist cf ops) as [a K].
    destruct (xstep_spec _ _ (OGetMut h) R) as (w' & E & R'). unfold arc_spec_step in E. cbn in E, Hx. rewrite Hx in E. cbn [fst snd].
    rewrite <- (sole_owner_spec _ _ _ Hx), <- no_linked_spec. rewrite (a_slice_rview cf) in E. destruct (sole_owner _ _), (no_linked _ _ _); cbn in E.
    - split; [|eauto 10]. split; [done|eauto].
    - split; [|right; eauto]. split; [|by intros []]. intros (w2 & ? & ? & E'). rewrite E in E'. done.
    - split; [|right; eauto]. split; [|by intros []]. intros (w2 & ? & ? & E'). rewrite E in E'. done.
    - split; [|right; eauto]. split; [|by intros []]. intros (w2 & ? & ? & E'). rewrite E in E'. done.
  Qed.
  (** A weak slice blocks get_mut on the variable it was made from while both are kept. *)
  Definition linked_to sk h n : Prop := exists lb, a_get (fst sk) h = Some (ARc lb) /\ a_get (fst sk) n = Some (AWeak (Some lb)) /\ n ∈ snd sk.
  Lemma base_get (a : astate V) K o h : target o <> Some h -> (h < length (as_h a))%nat ->
    a_get (fst (arc_spec_base (c_sz cf) (c_clone cf) a K o)) h = a_get a h.
  Proof.
    intros Ht Hlt. destruct o; try (unfold a_get; cbn [arc_spec_base]; by rewrite (sh_keep _ _ _ (spec_shape sz (c_clone cf) a _))).
    - cbn. destruct (a_get a h0) as [[lb| | | | |]|]; try done. by destruct (_ && _).
    - cbn. destruct (a_get a h0) as [[lb| | | | |]|]; try done. destruct (_ && _); [|done]. unfold a_replace.
      destruct (_ !! _) as [c|]; [|done]. by destruct (as_mem a !! c).
  Qed.
  Lemma linked_step sk h n o : linked_to sk h n -> target o <> Some h -> target o <> Some n -> linked_to (fst (sstep sk o)) h n.
  Proof.
    destruct sk as [a K]. intros (lb & Hx & Hn & HK) H1 H2. cbn [fst snd] in *. exists lb. unfold arc_spec_step. cbn [fst snd].
    pose proof (base_get a K o h H1 (a_get_lt _ _ _ Hx)) as E1. pose proof (base_get a K o n H2 (a_get_lt _ _ _ Hn)) as E2.
    destruct (arc_spec_base _ _ a K o) as [a1 r]. cbn [fst snd] in *. rewrite E1, E2. split_and!; try done.
    apply elem_of_list_filter. split.
    - unfold still_linked, weak_at. rewrite E2, Hn. apply bool_decide_eq_true, Exists_exists. exists lb. split; [|apply anc_refl].
      apply Frame.strong_in. exists h, (ARc lb). rewrite E1. split; [done|left].
    - unfold link_new. destruct o, r; try done; [case_bool_decide; [by right|done]|by right].
  Qed.
  Lemma arc_weak_blocks ops w h w1 n ops2 w2 outs : xreach cf ops w -> xstep cf w (ODowngrade h) = Ok (w1, RHandle n) ->
    Forall (spares h) ops2 -> Forall (spares n) ops2 -> xrun cf w1 ops2 = Ok (w2, outs) ->
    exists w3, xstep cf w2 (OGetMut h) = Ok (w3, RNone).
  Proof.
    intros R%xreach_rel E1 F1 F2 E2. destruct (xhist cf ops) as [a K]. destruct (xstep_rel _ _ _ _ _ R E1) as [Ho R1].
    assert (linked_to (fst (sstep (a, K) (ODowngrade h))) h n) as HL.
    { unfold arc_spec_step in Ho |- *. cbn in Ho |- *. destruct (a_get a h) as [[lb| | | | |]|] eqn:Hx; try done. cbn in Ho |- *. injection Ho as ->.
      exists lb. cbn [fst snd]. pose proof (a_get_lt _ _ _ Hx) as Hlt.
      set (a1 := a_set a _). assert (a_get a1 h = Some (ARc lb)) as Hh1. { rewrite get_tget. cbn. by rewrite get_old, <- get_tget. }
      assert (a_get a1 (length (as_h a)) = Some (AWeak (Some lb))) as Hn1. { rewrite get_tget. cbn. by rewrite get_new. }
      split_and!; try done. destruct (decide _) as [_|Hn2]; [by left|]. contradict Hn2.
      unfold still_linked, weak_at. rewrite Hn1. apply bool_decide_eq_true, Exists_exists. exists lb. split; [|apply anc_refl].
      apply Frame.strong_in. exists h, (ARc lb). rewrite Hh1. split; [done|left]. }
    generalize dependent (fst (sstep (a, K) (ODowngrade h))). intros sk R1 HL. clear R Ho E1 a K.
    assert (forall ops2 w1 sk outs, rel w1 sk -> linked_to sk h n -> Forall (spares h) ops2 -> Forall (spares n) ops2 -> xrun cf w1 ops2 = Ok (w2, outs) ->
      exists sk2, rel w2 sk2 /\ linked_to sk2 h n) as Hrun.
    { clear. induction ops2 as [|o ops2 IH]; intros w1 sk outs R HL F1 F2 E; [injection E as <- <-; eauto|].
      apply Forall_cons in F1 as [F1 F1']. apply Forall_cons in F2 as [F2 F2']. apply xrun_cons in E as (w3 & r & rs' & E1 & E2 & ->).
      destruct (xstep_rel _ _ _ _ _ R E1) as [_ R1]. eapply IH; eauto. by apply linked_step. }
    destruct (Hrun _ _ _ _ R1 HL F1 F2 E2) as ([a2 K2] & R2 & lb & Hx & Hn & HK). cbn [fst snd] in *.
    destruct (xstep_spec _ _ (OGetMut h) R2) as (w3 & E3 & _). exists w3. rewrite E3. unfold arc_spec_step. cbn. rewrite Hx.
    assert (no_linked a2 K2 lb = false) as ->. { apply not_true_iff_false. intros Hl. by eapply (proj1 (no_linked_spec _ _ _) Hl n). }
    by rewrite andb_false_r.
  Qed.

  (** *** upgrade *)
  Lemma arc_upgrade_iff ops w h ol : xreach cf ops w -> xnode cf ops h = Some (AWeak ol) ->
    ((exists w' n, xstep cf w (OUpgrade h) = Ok (w', RHandle n)) <->
     exists lb h' x' l', ol = Some lb /\ xnode cf ops h' = Some x' /\ l' ∈ strong_labels x' /\ anc l' lb) /\
    ((exists w' n, xstep cf w (OUpgrade h) = Ok (w', RHandle n)) \/ exists w', xstep cf w (OUpgrade h) = Ok (w', RNone)).
  Proof.
    intros R%xreach_rel Hx. unfold xnode in *. destruct (xhist cf ops) as [a K].
    destruct (xstep_spec _ _ (OUpgrade h) R) as (w' & E & R'). unfold arc_spec_step in E. cbn in E, Hx. rewrite Hx in E. cbn [fst]. destruct ol as [lb|].
    - pose proof (alive_spec a lb) as Ha. destruct (alive _ _); cbn in E.
      + split; [|eauto]. split; [|eauto]. intros _. destruct (proj1 Ha eq_refl) as (h' & x' & l' & ? & ? & ?). eauto 10.
      + split; [|eauto]. split.
        * intros (w2 & n & E'). by rewrite E in E'.
        * intros (l0 & h' & x' & l' & [= <-] & ? & ? & ?). exfalso. assert (false = true); [|done]. apply Ha. eauto 10.
    - split; [|eauto]. split.
      + intros (w2 & n & E'). by rewrite E in E'.
      + intros (? & ? & ? & ? & ? & _). done.
  Qed.
End theory.
