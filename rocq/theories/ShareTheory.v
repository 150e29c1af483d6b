(** Consequences of the refinement: liveness, get_mut, into_mut, weak slices,
    writes (C04, C05, C07-C15, C29, C30). *)
From Verif Require Import Base BaseLemmas Api SliceItemsModel BinPartsModel DataModel RcModel Spec
  BinPartsProof SliceItemsProof DataInv DataSteps DataFuns GuardInv GuardSteps GuardFuns RelInv RelOps RelMut RelParts Refine
  Observe Facts SpecTheory Frame Views RcTheory.

Lemma prefix_half_cells T l p : infix (rng_cells (lrng T (Lbl (l_tree l) (l_path l ++ p)))) (rng_cells (lrng T l)).
Proof.
  revert l. induction p as [|s p IH]; intros l.
  - rewrite app_nil_r. destruct l. apply infix_refl.
  - specialize (IH (lchild l s)). rewrite lrng_child in IH. cbn [lchild l_tree l_path] in IH. rewrite <- app_assoc in IH. cbn [app] in IH.
    destruct IH as (x & y & E). destruct (infix_half s (lrng T l)) as (x2 & y2 & E2). rewrite E2, E.
    exists (x2 ++ x), (y ++ y2). by rewrite <- !app_assoc.
Qed.
Lemma anc_cells T l l' c : anc l l' -> c ∈ rng_cells (lrng T l') -> c ∈ rng_cells (lrng T l).
Proof.
  intros [Ht [p Hp]] Hc. destruct (prefix_half_cells T l p) as (x & y & ->). rewrite Ht, <- Hp in *.
  destruct l'. cbn in *. subst. set_solver.
Qed.

Section theory.
  Context {V : Type} (cf : cfg V).
  Notation sz := (c_sz cf).
  Notation rel := (rel (c_sz cf)).
  Notation sstep := (spec_step (c_sz cf) (c_clone cf)).
  Notation srun := (spec_run (c_sz cf) (c_clone cf)).
  Implicit Types (w : world V) (a : astate V) (o : op V) (h : nat) (ops : list (op V)).

  (** *** Runs *)
  Lemma step_rel w a o w' r : rel w a -> rstep cf w o = Ok (w', r) -> r = snd (sstep a o) /\ rel w' (fst (sstep a o)).
  Proof.
    intros R E. destruct (rstep_spec cf _ _ o R) as (w2 & E2 & R2). rewrite E in E2. injection E2 as <- ->. done.
  Qed.
  Lemma run_rel w a ops w' rs : rel w a -> rrun cf w ops = Ok (w', rs) -> rs = snd (srun a ops) /\ rel w' (fst (srun a ops)).
  Proof.
    intros R E. destruct (rrun_spec cf _ _ ops R) as (w2 & E2 & R2). rewrite E in E2. injection E2 as <- ->. done.
  Qed.
  Lemma srun_cons a o ops : fst (srun a (o :: ops)) = fst (srun (fst (sstep a o)) ops).
  Proof. cbn. destruct (sstep a o) as [a1 r]. cbn. by destruct (srun a1 ops). Qed.
  Lemma rrun_cons w o ops w' rs : rrun cf w (o :: ops) = Ok (w', rs) ->
    exists w1 r rs', rstep cf w o = Ok (w1, r) /\ rrun cf w1 ops = Ok (w', rs') /\ rs = r :: rs'.
  Proof.
    intros E. change (rrun cf w (o :: ops)) with ('(w1, r) ← rstep cf w o; '(w2, rs) ← rrun cf w1 ops; Ok (w2, r :: rs)) in E.
    destruct (rstep cf w o) as [[w1 r]| | |] eqn:E1; try done. revert E. res_simpl. intros E.
    destruct (rrun cf w1 ops) as [[w2 rs']| | |] eqn:E2; try done. revert E. res_simpl. intros [= <- <-]. eauto 10.
  Qed.
  (** An invariant of the specification's state that calls satisfying [P] preserve. *)
  Lemma run_ind (P : op V -> Prop) (Q : world V -> astate V -> Prop) :
    (forall w a o w', rel w a -> rel w' (fst (sstep a o)) -> P o -> Q w a -> Q w' (fst (sstep a o))) ->
    forall ops w a w' rs, rel w a -> rrun cf w ops = Ok (w', rs) -> Forall P ops -> Q w a ->
      rel w' (fst (srun a ops)) /\ Q w' (fst (srun a ops)).
  Proof.
    intros Hstep. induction ops as [|o ops IH]; intros w a w' rs R E HP HQ.
    - injection E as <- <-. done.
    - apply Forall_cons in HP as [Ho HP]. apply rrun_cons in E as (w1 & r & rs' & E1 & E2 & ->).
      destruct (step_rel _ _ _ _ _ R E1) as [-> R1]. rewrite srun_cons. eapply IH; eauto.
  Qed.
  Lemma run_frame w a ops w' rs h : rel w a -> rrun cf w ops = Ok (w', rs) -> Forall (spares h) ops -> (h < length (w_h w))%nat ->
    view cf w' h = view cf w h /\ h_cells cf w' h = h_cells cf w h /\ a_get (fst (srun a ops)) h = a_get a h.
  Proof.
    intros R E HP Hlt.
    destruct (run_ind (spares h) (fun w' a' => (h < length (w_h w'))%nat /\
      view cf w' h = view cf w h /\ h_cells cf w' h = h_cells cf w h /\ a_get a' h = a_get a h)) with (ops := ops) (w := w) (a := a) (w' := w') (rs := rs)
      as [_ (_ & H)]; try done.
    intros w1 a1 o w2 R1 R2 Ho (Hlt1 & H1 & H2 & H3). split_and!.
    - rewrite <- (rel_len cf _ _ R2), <- (rel_len cf _ _ R1) in *. pose proof (sh_len _ _ _ (spec_shape sz (c_clone cf) a1 o)). lia.
    - rewrite <- H1. by eapply view_frame.
    - rewrite <- H2. by eapply cells_frame.
    - rewrite <- H3. unfold a_get. rewrite (sh_keep _ _ _ (spec_shape sz (c_clone cf) a1 o)); [done|exact Ho|]. by rewrite (rel_len cf _ _ R1).
  Qed.

  (** *** C04, C05 *)
  Lemma never_stuck ops : exists w outs, rrun cf empty_world ops = Ok (w, outs).
  Proof. destruct (rrun_spec cf _ _ ops (rel_empty (c_sz cf))) as (w & E & _). eauto. Qed.
  Lemma run_from ops w ops' : reach cf ops w -> exists w' outs, rrun cf w ops' = Ok (w', outs).
  Proof. intros R. apply reach_rel in R. destruct (rrun_spec cf _ _ ops' R) as (w' & E & _). eauto. Qed.
  Lemma covered_live ops w h c : reach cf ops w -> c ∈ h_cells cf w h ->
    exists v blk, item w c = Some v /\ dw_blocks (w_d w) !! fst c = Some blk /\ (snd c < b_len blk)%N /\ (sz <> 0%N -> b_freed blk = false).
  Proof.
    intros R Hc. apply reach_rel in R. generalize dependent (hist cf ops). intros a R.
    rewrite (fact_h_cells _ _ _ R cf h eq_refl) in Hc. destruct (a_get a h) as [x|] eqn:Hx; [|by apply elem_of_nil in Hc].
    destruct (fact_covered _ _ _ R _ _ _ Hx Hc) as [v Hv].
    assert (as_mem a = dw_mem (w_d w)) as Hm by (by destruct R as (P & _ & _ & _ & Hm & _)).
    rewrite Hm in Hv. destruct (fact_block _ _ _ R c) as (blk & Hb & Hi & _ & Hf); [eauto|]. exists v, blk. done.
  Qed.
  Lemma deref_total ops w h : reach cf ops w -> is_rc w h \/ is_parts w h \/ is_unique w h ->
    exists adr items, view cf w h = Some (adr, items) /\ (fun c => item w c) <$> h_cells cf w h = Some <$> items.
  Proof.
    intros R Hk. apply reach_rel in R. generalize dependent (hist cf ops). intros a R. clear ops.
    assert (exists x, a_get a h = Some x /\ ~ a_weak x) as (x & Hx & Hw).
    { rewrite (kind_rc cf _ _ _ R), (kind_parts cf _ _ _ R), (kind_unique cf _ _ _ R) in Hk.
      destruct Hk as [[l E]|[[l E]|(x & E & Hu)]]; eexists; (split; [exact E|]); try (cbn; tauto). destruct x; cbn in *; tauto. }
    destruct (handle_rng cf _ _ _ _ R Hx Hw) as (r & Hc & Hcov & Hv). rewrite (fact_h_cells _ _ _ R cf h eq_refl), Hx, Hc.
    eexists _, _. split; [rewrite Hv; unfold rview; reflexivity|].
    assert (as_mem a = dw_mem (w_d w)) as Hm by (by destruct R as (P & _ & _ & _ & Hm & _)).
    unfold item. rewrite <- Hm. clear - Hcov. unfold covered in Hcov. revert Hcov. generalize (rng_cells r) as cs.
    induction cs as [|c cs IH]; intros Hcov; [done|]. unfold cells_vals in *. cbn. destruct (Hcov c) as [v Hv]; [left|]. rewrite Hv. cbn.
    f_equal. apply IH. intros. apply Hcov. by right.
  Qed.
  Lemma alive_iff_covered ops w c : reach cf ops w -> is_Some (item w c) <-> exists h, c ∈ h_cells cf w h.
  Proof.
    intros R. apply reach_rel in R. generalize dependent (hist cf ops). intros a R.
    assert (as_mem a = dw_mem (w_d w)) as Hm by (by destruct R as (P & _ & _ & _ & Hm & _)).
    unfold item. rewrite <- Hm, (fact_alive _ _ _ R c). split.
    - intros (h & x & Hx & Hc). exists h. by rewrite (fact_h_cells _ _ _ R cf h eq_refl), Hx.
    - intros (h & Hc). rewrite (fact_h_cells _ _ _ R cf h eq_refl) in Hc. destruct (a_get a h) as [x|] eqn:Hx; [eauto|by apply elem_of_nil in Hc].
  Qed.

  (** *** get_mut *)
  Lemma get_mut_out ops w h w' adr l : reach cf ops w -> rstep cf w (OGetMut h) = Ok (w', RSlice adr l) ->
    exists lb, a_get (hist cf ops) h = Some (ARc lb) /\ sole_owner (as_h (hist cf ops)) lb && no_weak_below (as_h (hist cf ops)) lb = true /\
      rel w (hist cf ops) /\ rel w' (hist cf ops) /\ view cf w h = Some (adr, l).
  Proof.
    intros R E. apply reach_rel in R. destruct (step_rel _ _ _ _ _ R E) as [Ho R']. cbn in Ho, R'.
    destruct (a_get (hist cf ops) h) as [[lb| | | | |]|] eqn:Hx; try done. destruct (_ && _) eqn:Eb; [|done].
    exists lb. split_and!; try done. rewrite (view_rng cf _ _ _ _ (lrng (as_trees (hist cf ops)) lb) R Hx id eq_refl).
    cbn [snd] in Ho. rewrite a_slice_rview in Ho. injection Ho as -> ->. reflexivity.
  Qed.
  Lemma excl_disjoint w a h lb : rel w a -> a_get a h = Some (ARc lb) -> sole_owner (as_h a) lb = true ->
    forall h' c, h' <> h -> c ∈ h_cells cf w h' -> c ∉ h_cells cf w h.
  Proof.
    intros R Hx Hs h' c Hne Hc' Hc. rewrite (fact_h_cells _ _ _ R cf h eq_refl), Hx in Hc. rewrite (fact_h_cells _ _ _ R cf h' eq_refl) in Hc'.
    destruct (a_get a h') as [x'|] eqn:Hx'; [|by apply elem_of_nil in Hc'].
    pose proof (proj1 (sole_owner_spec _ _ _ Hx) Hs) as Hso.
    assert (forall l', l' ∈ strong_labels x' -> c ∈ rng_cells (lrng (as_trees a) l') -> False) as Hno.
    { intros l' Hl' Hcl. destruct (Hso _ _ _ Hne Hx' Hl') as [H1 H2].
      destruct (fact_comparable _ _ _ R h h' (ARc lb) x' lb l' c Hx Hx' ltac:(left) Hl' Hc Hcl); done. }
    destruct x' as [l1|ol|q|r|r|rs].
    - apply (Hno l1); [left|done].
    - by apply elem_of_nil in Hc'.
    - apply elem_of_list_bind in Hc' as ([l1 j] & Hc' & Hq). apply (Hno l1); [|done]. cbn. apply elem_of_list_fmap. by exists (l1, j).
    - by eapply (fact_exclusive _ _ _ R h' h (AMut r) (ARc lb)).
    - by eapply (fact_exclusive _ _ _ R h' h (AIter r) (ARc lb)).
    - by eapply (fact_exclusive _ _ _ R h' h (AMParts rs) (ARc lb)).
  Qed.
  Lemma get_mut_exclusive ops w h w' adr l : reach cf ops w -> rstep cf w (OGetMut h) = Ok (w', RSlice adr l) ->
    (forall h' c, h' <> h -> c ∈ h_cells cf w h' -> c ∉ h_cells cf w h) /\
    (forall h' w2 n c, rstep cf w (OUpgrade h') = Ok (w2, RHandle n) -> c ∈ h_cells cf w2 n -> c ∉ h_cells cf w h).
  Proof.
    intros R E. destruct (get_mut_out _ _ _ _ _ _ R E) as (lb & Hx & Hb & R1 & _ & _). clear R E.
    generalize dependent (hist cf ops). intros a Hx Hb R. split; [apply andb_true_iff in Hb as [Hs _]; by eapply excl_disjoint|].
    intros h' w2 n c E Hc. destruct (step_rel _ _ _ _ _ R E) as [Ho R2].
    assert (target (OUpgrade (V:=V) h') <> Some h) as Ht.
    { cbn. intros [= ->]. cbn in Ho. by rewrite Hx in Ho. }
    pose proof (get_mut_stays _ (c_clone cf) _ _ R (OUpgrade h') h lb Ht Hx Hb) as Hb2. cbn zeta in Hb2.
    destruct (frame _ (c_clone cf) _ _ R (OUpgrade h') h _ Ht Hx) as (Hx2 & Hc2 & _). apply andb_true_iff in Hb2 as [Hs2 _].
    rewrite <- (cells_frame cf _ _ _ _ _ R R2 Ht).
    2: { rewrite <- (rel_len cf _ _ R). by eapply a_get_lt. }
    eapply (excl_disjoint _ _ _ _ R2 Hx2 Hs2); [|exact Hc]. intros ->.
    cbn in Ho. destruct (a_get a h') as [[|[l'|]| | | |]|]; try done. destruct (alive _ _); [|done]. cbn in Ho. injection Ho as ->.
    apply a_get_lt in Hx. lia.
  Qed.
  Lemma get_mut_iff ops w h lb : reach cf ops w -> node cf ops h = Some (ARc lb) ->
    ((exists w' adr l, rstep cf w (OGetMut h) = Ok (w', RSlice adr l)) <->
     (forall h' x' l', h' <> h -> node cf ops h' = Some x' ->
        (l' ∈ strong_labels x' -> ~ anc lb l' /\ ~ anc l' lb) /\ (l' ∈ weak_labels x' -> ~ anc lb l'))) /\
    ((exists w' adr l, rstep cf w (OGetMut h) = Ok (w', RSlice adr l)) \/ exists w', rstep cf w (OGetMut h) = Ok (w', RNone)).
  Proof.
    intros R Hx. apply reach_rel in R. unfold node in *. generalize dependent (hist cf ops). intros a R Hx.
    destruct (rstep_spec cf _ _ (OGetMut h) R) as (w' & E & R'). cbn in E. rewrite Hx in E.
    pose proof (sole_owner_spec _ _ _ Hx) as H1. pose proof (no_weak_spec a lb) as H2.
    rewrite a_slice_rview in E. destruct (sole_owner _ _ && no_weak_below _ _) eqn:Eb; cbn in E.
    - apply andb_true_iff in Eb as [E1 E2]. rewrite E1 in H1. rewrite E2 in H2. split; [|eauto 10]. split; [intros _|eauto].
      intros h' x' l' Hne Hx'. split; [by eapply H1|by eapply H2].
    - split; [|right; eauto]. split.
      + intros (w2 & adr & l & E'). rewrite E in E'. done.
      + intros H. exfalso. apply not_true_iff_false in Eb. apply Eb. apply andb_true_iff. split.
        * apply H1. intros h' x' l' Hne Hx' Hl'. by eapply H.
        * apply H2. intros h' x' l' Hx' Hl'. destruct (decide (h' = h)) as [->|Hne]; [|by eapply H].
          rewrite Hx in Hx'. injection Hx' as <-. by apply elem_of_nil in Hl'.
  Qed.
  Lemma get_mut_stable ops w h w1 adr l ops2 w2 outs : reach cf ops w -> rstep cf w (OGetMut h) = Ok (w1, RSlice adr l) ->
    Forall (spares h) ops2 -> rrun cf w1 ops2 = Ok (w2, outs) ->
    view cf w2 h = Some (adr, l) /\
    (forall h' c, h' <> h -> c ∈ h_cells cf w2 h' -> c ∉ h_cells cf w2 h) /\
    exists w3, rstep cf w2 (OGetMut h) = Ok (w3, RSlice adr l).
  Proof.
    intros R E HP E2. destruct (get_mut_out _ _ _ _ _ _ R E) as (lb & Hx & Hb & R0 & R1 & Hv). clear R E.
    generalize dependent (hist cf ops). intros a Hx Hb R0 R1.
    destruct (run_ind (spares h) (fun w' a' => a_get a' h = Some (ARc lb) /\ sole_owner (as_h a') lb && no_weak_below (as_h a') lb = true))
      with (ops := ops2) (w := w1) (a := a) (w' := w2) (rs := outs) as [R2 (Hx2 & Hb2)]; try done.
    { intros w3 a3 o w4 R3 R4 Ho [Hx3 Hb3]. destruct (frame _ (c_clone cf) _ _ R3 o h _ Ho Hx3) as (Hx4 & _). split; [done|].
      by eapply (get_mut_stays _ (c_clone cf) _ _ R3). }
    destruct (run_frame _ _ _ _ _ h R1 E2 HP) as (Hv2 & Hc2 & _).
    { rewrite <- (rel_len cf _ _ R1). by eapply a_get_lt. }
    assert (view cf w2 h = Some (adr, l)) as Hview.
    { rewrite Hv2, <- Hv. rewrite (view_rng cf _ _ _ _ (lrng (as_trees a) lb) R1 Hx id eq_refl).
      by rewrite (view_rng cf _ _ _ _ (lrng (as_trees a) lb) R0 Hx id eq_refl). }
    split_and!; [done| |].
    - apply andb_true_iff in Hb2 as [Hs2 _]. by eapply excl_disjoint.
    - destruct (rstep_spec cf _ _ (OGetMut h) R2) as (w3 & E3 & _). cbn in E3. rewrite Hx2, Hb2, a_slice_rview in E3. exists w3. rewrite E3.
      rewrite (view_rng cf _ _ _ _ (lrng (as_trees (fst (srun a ops2))) lb) R2 Hx2 id eq_refl) in Hview. apply (inj Some) in Hview. by rewrite Hview.
  Qed.

  (** *** into_mut, into_immut *)
  Lemma into_mut_err_same w h : (exists w', rstep cf w (OIntoMut h) = Ok (w', RErr)) -> rstep cf w (OIntoMut h) = Ok (w, RErr).
  Proof.
    intros [w' E]. unfold rstep in *. cbn [step] in *. destruct (get_h w h) as [[r| | | | |]|] eqn:Hg; try (by cbn in E).
    unfold rcs_into_mut in *. destruct (_ =? _)%nat.
    - destruct (rc_try_unwrap _ _) as [[hp [n|]]| | |] eqn:Eu; try done.
      + exfalso. revert E. res_simpl. destruct (data_into_mut _ _ _) as [[d [it al]]| | |]; try done. res_simpl.
        destruct (img_drop _ _); try done.
      + assert (hp = dw_datas (w_d w)) as ->.
        { unfold rc_try_unwrap in Eu. cbn [fst snd] in Eu. destruct (dw_datas (w_d w) !! rs_data r) as [[[[|[|k]] v]|]|]; try done.
          by injection Eu as <-. }
        clear E Eu. res_simpl. unfold get_h in Hg. destruct w as [d g hs]. cbn in *.
        destruct (hs !! h) as [[y|]|] eqn:El; try done. injection Hg as ->. rewrite list_insert_id by done. by destruct d.
    - clear E. res_simpl. unfold get_h in Hg. destruct w as [d g hs]. cbn in *.
      destruct (hs !! h) as [[y|]|] eqn:El; try done. injection Hg as ->. rewrite list_insert_id by done. done.
  Qed.
  Lemma into_mut_iff ops w h lb : reach cf ops w -> node cf ops h = Some (ARc lb) ->
    ((exists w' n, rstep cf w (OIntoMut h) = Ok (w', RHandle n)) <->
     (forall h' x' l', h' <> h -> node cf ops h' = Some x' -> l' ∈ strong_labels x' -> ~ anc lb l' /\ ~ anc l' lb)) /\
    ((exists w' n, rstep cf w (OIntoMut h) = Ok (w', RHandle n)) \/ rstep cf w (OIntoMut h) = Ok (w, RErr)).
  Proof.
    intros R Hx. apply reach_rel in R. unfold node in *. generalize dependent (hist cf ops). intros a R Hx.
    destruct (rstep_spec cf _ _ (OIntoMut h) R) as (w' & E & R'). cbn in E. rewrite Hx in E.
    rewrite <- (sole_owner_spec _ _ _ Hx). destruct (sole_owner _ _) eqn:Eb; cbn in E.
    - split; [|eauto]. split; [done|eauto].
    - split; [|right; apply into_mut_err_same; eauto]. split; [|done]. intros (w2 & n & E'). rewrite E in E'. done.
  Qed.
  Lemma get_view_at w a h x r : rel w a -> a_get a h = Some x -> ~ a_weak x -> hcells (as_trees a) x = rng_cells r ->
    h_cells cf w h = rng_cells r.
  Proof. intros R Hx Hw Hc. by rewrite (fact_h_cells _ _ _ R cf h eq_refl), Hx. Qed.
  (** Converting keeps items, addresses and all other handles. *)
  Lemma convert_keeps ops w h o w' n : reach cf ops w -> o = OIntoMut h \/ o = OIntoImmut h \/ o = OIntoIter h ->
    rstep cf w o = Ok (w', RHandle n) ->
    n = length (w_h w) /\ view cf w' n = view cf w h /\ h_cells cf w' n = h_cells cf w h /\ get_h w' h = None /\
    (forall h', h' <> h -> (h' < length (w_h w))%nat -> view cf w' h' = view cf w h') /\
    (forall c, item w' c = item w c).
  Proof.
    intros R Ho E. apply reach_rel in R. generalize dependent (hist cf ops). intros a R. clear ops.
    destruct (step_rel _ _ _ _ _ R E) as [Hr R']. pose proof (rel_len cf _ _ R) as Hlen.
    assert (target o = Some h /\ ~ writes o) as [Ht Hwr] by (destruct Ho as [->|[->| ->]]; (split; [done|cbn; tauto])).
    assert (exists x r x2 T2, a_get a h = Some x /\ hcells (as_trees a) x = rng_cells r /\ ~ a_weak x /\ ~ a_weak x2 /\
       as_h (fst (sstep a o)) = <[h := None]> (as_h a) ++ [Some x2] /\ snd (sstep a o) = RHandle (length (as_h a)) /\
       as_trees (fst (sstep a o)) = as_trees a ++ T2 /\ hcells (as_trees a ++ T2) x2 = rng_cells r)
      as (x & r & x2 & T2 & Hx & Hc & Hw & Hw2 & Hs & Hout & HT & Hc2).
    { destruct Ho as [->|[->| ->]]; cbn in Hr |- *; destruct (a_get a h) as [[l| | |r| |]|] eqn:Hx; try done.
      - destruct (sole_owner _ _); [|done]. exists (ARc l), (lrng (as_trees a) l), (AMut (lrng (as_trees a) l)), []. cbn.
        rewrite insert_length, app_nil_r. split_and!; try done; by intros [].
      - exists (AMut r), r, (ARc (Lbl (length (as_trees a)) [])), [r]. cbn. rewrite insert_length.
        split_and!; try done; try (by intros []). unfold lrng. cbn. by rewrite lookup_app_r, Nat.sub_diag by lia.
      - exists (AMut r), r, (AIter r), []. cbn.
        rewrite insert_length, app_nil_r. split_and!; try done; by intros []. }
    assert (h < length (as_h a))%nat as Hlt by (by eapply a_get_lt).
    destruct (tab_new (fst (sstep a o)) (as_h a) h None x2 Hs Hlt) as [Hold Hnew]. rewrite Hout in Hr. injection Hr as ->.
    destruct (view_cov cf _ _ _ _ r R Hx Hw Hc) as [Hcov Hv]. split_and!.
    - done.
    - rewrite Hv. eapply (view_new cf _ _ _ _ _ _ _ R R' Hwr Hnew Hw2); [|done]. by rewrite HT.
    - rewrite (get_view_at _ _ _ _ r R Hx Hw Hc). eapply (get_view_at _ _ _ _ r R' Hnew Hw2). by rewrite HT.
    - pose proof (rel_kind _ _ _ R' h) as Hk. rewrite Hold in Hk. by destruct (get_h w' h).
    - intros h' Hne Hlt'. eapply view_frame; try done. rewrite Ht. congruence.
    - intros c.
      assert (as_mem a = dw_mem (w_d w)) as Hm by (by destruct R as (P & _ & _ & _ & Hm & _)).
      assert (as_mem (fst (sstep a o)) = dw_mem (w_d w')) as Hm' by (by destruct R' as (P & _ & _ & _ & Hm' & _)).
      unfold item. rewrite <- Hm, <- Hm'.
      destruct (as_mem a !! c) as [v|] eqn:Ev.
      + (* still covered *)
        destruct (proj1 (fact_alive _ _ _ R c)) as (h1 & x1 & Hx1 & Hc1); [eauto|].
        assert (exists v', as_mem (fst (sstep a o)) !! c = Some v') as [v' Hv'].
        { apply (fact_alive _ _ _ R'). destruct (decide (h1 = h)) as [->|Hne].
          - exists (length (as_h a)), x2. split; [done|]. rewrite HT, Hc2, <- Hc. rewrite Hx in Hx1. by injection Hx1 as <-.
          - exists h1, x1. destruct (frame _ (c_clone cf) _ _ R o h1 x1) as (H1 & H2 & _); [rewrite Ht; congruence|done|].
            split; [done|]. by rewrite H2. }
        rewrite Hv'. destruct (mem_step sz (c_clone cf) a o c v' Hv') as [H|[H|H]].
        * congruence.
        * pose proof (mem_blk _ _ _ R _ _ Ev). lia.
        * by destruct H as (h0 & x0 & c0 & v0 & old & _ & _ & _ & _ & _ & Hwr' & _).
      + destruct (as_mem (fst (sstep a o)) !! c) as [v'|] eqn:Ev'; [|done]. exfalso.
        destruct (proj1 (fact_alive _ _ _ R' c)) as (h1 & x1 & Hx1 & Hc1); [eauto|].
        assert (is_Some (as_mem a !! c)) as [v Hv'']; [|congruence]. apply (fact_alive _ _ _ R).
        rewrite get_tget, Hs in Hx1. unfold tget in Hx1.
        destruct (decide (h1 < length (as_h a))%nat) as [Hl1|Hl1].
        * rewrite lookup_app_l in Hx1 by (by rewrite insert_length). destruct (decide (h1 = h)) as [->|Hne1].
          { by rewrite list_lookup_insert in Hx1. }
          rewrite list_lookup_insert_ne in Hx1 by congruence. exists h1, x1. split; [exact Hx1|].
          rewrite HT in Hc1. by rewrite (hcells_prefix _ _ _ R T2 h1 x1) in Hc1.
        * rewrite lookup_app_r in Hx1 by (rewrite insert_length; lia). rewrite insert_length in Hx1.
          destruct (h1 - length (as_h a))%nat as [|j]; [|done]. cbn in Hx1. injection Hx1 as <-. exists h, x.
          split; [done|]. rewrite Hc. by rewrite HT, Hc2 in Hc1.
  Qed.
  (** Converting an unshared slice forth and back always succeeds. *)
  Lemma into_immut_total ops w h : reach cf ops w -> is_mut w h ->
    exists w', rstep cf w (OIntoImmut h) = Ok (w', RHandle (length (w_h w))) /\ is_rc w' (length (w_h w)).
  Proof.
    intros R Hk. apply reach_rel in R. generalize dependent (hist cf ops). intros a R. clear ops.
    destruct (proj1 (kind_mut cf w a h R) Hk) as [r Hx]. destruct (rstep_spec cf _ _ (OIntoImmut h) R) as (w' & E & R'). exists w'.
    assert (h < length (as_h a))%nat as Hlt by (by eapply a_get_lt). cbn in E, R'. rewrite Hx in E, R'. cbn in E, R'.
    rewrite E, insert_length, (rel_len cf _ _ R). split; [done|]. apply (kind_rc cf _ _ _ R'). eexists. rewrite get_tget. cbn.
    rewrite <- (rel_len cf _ _ R), <- (insert_length (as_h a) h None). apply get_new.
  Qed.
  Lemma round_trip ops w h w1 : reach cf ops w -> rstep cf w (OIntoImmut h) = Ok (w1, RHandle (length (w_h w))) ->
    exists w2, rstep cf w1 (OIntoMut (length (w_h w))) = Ok (w2, RHandle (S (length (w_h w)))) /\
      view cf w2 (S (length (w_h w))) = view cf w h /\ is_mut w2 (S (length (w_h w))).
  Proof.
    intros R0 E1. destruct (convert_keeps ops w h (OIntoImmut h) w1 _ R0 ltac:(auto) E1) as (_ & Hv1 & _).
    pose proof (reach_step _ _ _ _ _ _ R0 E1) as R01. apply reach_rel in R0 as R.
    destruct (step_rel _ _ _ _ _ R E1) as [Ho R1]. generalize dependent (hist cf ops). intros a R Ho R1.
    cbn in Ho. destruct (a_get a h) as [[| | |r| |]|] eqn:Hx; try done.
    assert (h < length (as_h a))%nat as Hlt by (by eapply a_get_lt).
    set (a1 := fst (sstep a (OIntoImmut h))) in *.
    assert (as_h a1 = <[h := None]> (as_h a) ++ [Some (ARc (Lbl (length (as_trees a)) []))]) as Hh1.
    { unfold a1. cbn. by rewrite Hx. }
    assert (a_get a1 (length (w_h w)) = Some (ARc (Lbl (length (as_trees a)) []))) as Hx1.
    { rewrite <- (rel_len cf _ _ R). by destruct (tab_new a1 (as_h a) h None _ Hh1 Hlt) as [_ ->]. }
    assert (sole_owner (as_h a1) (Lbl (length (as_trees a)) []) = true) as Hs.
    { apply (sole_owner_spec _ _ _ Hx1). intros h' x' l' Hne Hx' Hl'.
      assert (a_get a h' = Some x') as Hx0.
      { rewrite get_tget, Hh1 in Hx'. destruct (decide (h' < length (as_h a))%nat) as [Hl1|Hl1].
        - rewrite get_old in Hx' by (by rewrite insert_length). destruct (decide (h = h')) as [->|Hne'].
          + by rewrite get_upd in Hx'.
          + by rewrite get_upd_ne in Hx'.
        - rewrite <- (rel_len cf _ _ R) in Hne. unfold tget in Hx'. rewrite lookup_ge_None_2 in Hx'; [done|].
          rewrite app_length, insert_length. cbn. lia. }
      pose proof (fact_tree _ _ _ R h' x' l' Hx0 ltac:(by left)). split; intros [Ht _]; cbn in Ht; lia. }
    destruct (rstep_spec cf _ _ (OIntoMut (length (w_h w))) R1) as (w2 & E2 & R2).
    assert (rstep cf w1 (OIntoMut (length (w_h w))) = Ok (w2, RHandle (S (length (w_h w))))) as E2'.
    { rewrite E2. cbn. rewrite Hx1, Hs. cbn. rewrite insert_length, Hh1, app_length, insert_length, (rel_len cf _ _ R). cbn. do 3 f_equal. lia. }
    exists w2. split; [done|]. 
    destruct (convert_keeps _ w1 (length (w_h w)) (OIntoMut (length (w_h w))) w2 _ R01 ltac:(auto) E2') as (_ & Hv2 & _).
    split; [by rewrite Hv2|]. apply (kind_mut cf _ _ _ R2). cbn. rewrite Hx1, Hs. cbn. eexists. rewrite get_tget. cbn.
    replace (S (length (w_h w))) with (length (<[length (w_h w) := None]> (as_h a1))); [apply get_new|].
    rewrite insert_length, Hh1, app_length, insert_length, (rel_len cf _ _ R). cbn. lia.
  Qed.

  (** *** C12 *)
  Lemma unique_disjoint ops w h h' c : reach cf ops w -> is_unique w h -> h' <> h -> c ∈ h_cells cf w h -> c ∉ h_cells cf w h'.
  Proof.
    intros R Hu Hne Hc Hc'. apply reach_rel in R. generalize dependent (hist cf ops). intros a R. clear ops.
    apply (kind_unique cf _ _ _ R) in Hu as (x & Hx & Hu). rewrite (fact_h_cells _ _ _ R cf h eq_refl), Hx in Hc.
    rewrite (fact_h_cells _ _ _ R cf h' eq_refl) in Hc'. destruct (a_get a h') as [x'|] eqn:Hx'; [|by apply elem_of_nil in Hc'].
    by eapply (fact_exclusive _ _ _ R h h').
  Qed.

  (** *** Weak slices *)
  Lemma upgrade_iff ops w h ol : reach cf ops w -> node cf ops h = Some (AWeak ol) ->
    ((exists w' n, rstep cf w (OUpgrade h) = Ok (w', RHandle n)) <->
     exists lb h' x' l', ol = Some lb /\ node cf ops h' = Some x' /\ l' ∈ strong_labels x' /\ anc l' lb) /\
    ((exists w' n, rstep cf w (OUpgrade h) = Ok (w', RHandle n)) \/ exists w', rstep cf w (OUpgrade h) = Ok (w', RNone)).
  Proof.
    intros R Hx. apply reach_rel in R. unfold node in *. generalize dependent (hist cf ops). intros a R Hx.
    destruct (rstep_spec cf _ _ (OUpgrade h) R) as (w' & E & R'). cbn in E. rewrite Hx in E. destruct ol as [lb|].
    - pose proof (alive_spec a lb) as Ha. destruct (alive _ _); cbn in E.
      + split; [|eauto]. split; [|eauto]. intros _. destruct (proj1 Ha eq_refl) as (h' & x' & l' & ? & ? & ?). eauto 10.
      + split; [|eauto]. split.
        * intros (w2 & n & E'). by rewrite E in E'.
        * intros (l0 & h' & x' & l' & [= <-] & ? & ? & ?). exfalso. assert (false = true); [|done]. apply Ha. eauto 10.
    - split; [|eauto]. split.
      + intros (w2 & n & E'). by rewrite E in E'.
      + intros (? & ? & ? & ? & ? & _). done.
  Qed.

  (** While a weak slice can be upgraded, its items do not change. *)
  Lemma weak_items_stay w a w' o h lb : rel w a -> rel w' (fst (sstep a o)) -> a_get a h = Some (AWeak (Some lb)) ->
    alive (as_h a) lb = true -> alive (as_h (fst (sstep a o))) lb = true ->
    covered (fst (sstep a o)) (lrng (as_trees a) lb) /\
    lrng (as_trees (fst (sstep a o))) lb = lrng (as_trees a) lb /\
    rview cf (fst (sstep a o)) (lrng (as_trees a) lb) = rview cf a (lrng (as_trees a) lb).
  Proof.
    intros R R' Hx Ha Ha'. set (a' := fst (sstep a o)) in *. destruct (spec_shape sz (c_clone cf) a o) as [(T2 & ST & _) SB _ _ _ SM].
    fold a' in ST, SB, SM.
    assert (l_tree lb < length (as_trees a))%nat as Hlt. { eapply (fact_tree _ _ _ R); [exact Hx|]. right. left. }
    assert (lrng (as_trees a') lb = lrng (as_trees a) lb) as HT by (rewrite ST; by apply lrng_prefix).
    apply alive_spec in Ha as (h1 & x1 & l1 & Hx1 & Hl1 & Ha1). apply alive_spec in Ha' as (h2 & x2 & l2 & Hx2 & Hl2 & Ha2).
    assert (forall x l c T, l ∈ strong_labels x -> c ∈ rng_cells (lrng T l) -> c ∈ hcells T x) as Hin.
    { intros x l c T Hl Hc. destruct x; cbn in Hl |- *; try by apply elem_of_nil in Hl.
      - by apply elem_of_list_singleton in Hl as <-.
      - apply elem_of_list_fmap in Hl as (y & -> & Hy). apply elem_of_list_bind. eauto. }
    assert (forall c, c ∈ rng_cells (lrng (as_trees a) lb) -> as_mem a' !! c = as_mem a !! c) as Hmem.
    { intros c Hc. assert (c ∈ hcells (as_trees a) x1) as Hc1 by (eapply Hin; [exact Hl1|by eapply anc_cells]).
      assert (c ∈ hcells (as_trees a') x2) as Hc2. { eapply Hin; [exact Hl2|]. eapply anc_cells; [exact Ha2|]. by rewrite HT. }
      destruct (fact_covered _ _ _ R _ _ _ Hx1 Hc1) as [v Hv]. destruct (fact_covered _ _ _ R' _ _ _ Hx2 Hc2) as [v' Hv'].
      fold a' in Hv'. destruct (mem_step sz (c_clone cf) a o c v' Hv') as [H|[H|H]].
      - congruence.
      - pose proof (mem_blk _ _ _ R _ _ Hv). lia.
      - destruct H as (h0 & x0 & c0 & v0 & old & Ht & Hx0 & Hc0 & Hold & Heq & Hwr & Hu).
        destruct (decide (c = c0)) as [<-|Hne].
        2: { assert (<[c := v']> (as_mem a) !! c = <[c0 := v0]> (as_mem a) !! c) as E by (by rewrite Heq).
             rewrite lookup_insert, lookup_insert_ne in E by congruence. congruence. }
        exfalso. destruct Hu as [Hu|(l0 & -> & Hs & Hn)].
        + assert (h0 <> h1) as Hne. { intros ->. rewrite Hx1 in Hx0. injection Hx0 as <-. destruct x1; cbn in Hl1, Hu; try done; by apply elem_of_nil in Hl1. }
          by eapply (fact_exclusive _ _ _ R h0 h1 x0 x1).
        + cbn in Hc0. pose proof (proj1 (sole_owner_spec _ _ _ Hx0) Hs) as Hso.
          assert (c ∈ rng_cells (lrng (as_trees a) l1)) as Hcl1 by (by eapply anc_cells).
          assert (anc l0 l1 \/ anc l1 l0) as Hcmp. { eapply (fact_comparable _ _ _ R h0 h1 (ARc l0) x1); try done. left. }
          destruct (decide (h1 = h0)) as [->|Hne].
          * rewrite Hx0 in Hx1. injection Hx1 as <-. apply elem_of_list_singleton in Hl1 as ->.
            apply (proj1 (no_weak_spec _ _) Hn h _ lb Hx); [left|done].
          * destruct (Hso _ _ _ Hne Hx1 Hl1). tauto. }
    assert (covered a (lrng (as_trees a) lb)) as Hcov.
    { intros c Hc. eapply (fact_covered _ _ _ R); [exact Hx1|]. eapply Hin; [exact Hl1|]. by eapply anc_cells. }
    split_and!; [|done|].
    - intros c Hc. rewrite Hmem by done. by apply Hcov.
    - apply rview_ext; [done|done|]. by eapply covered_blk.
  Qed.

  Lemma weak_round ops w h w1 n ops2 w2 outs w3 m : reach cf ops w ->
    rstep cf w (ODowngrade h) = Ok (w1, RHandle n) -> rrun cf w1 ops2 = Ok (w2, outs) -> rstep cf w2 (OUpgrade n) = Ok (w3, RHandle m) ->
    is_rc w3 m /\ view cf w3 m = view cf w h /\ h_cells cf w3 m = h_cells cf w h.
  Proof.
    intros R E1 E2 E3. apply reach_rel in R. generalize dependent (hist cf ops). intros a R. clear ops.
    destruct (step_rel _ _ _ _ _ R E1) as [Ho R1]. cbn in Ho. destruct (a_get a h) as [[lb| | | | |]|] eqn:Hx; try done. injection Ho as ->.
    set (a1 := fst (sstep a (ODowngrade h))) in *.
    assert (as_h a1 = as_h a ++ [Some (AWeak (Some lb))]) as Hh1 by (unfold a1; cbn; by rewrite Hx).
    assert (as_trees a1 = as_trees a) as HT1 by (unfold a1; cbn; by rewrite Hx).
    assert (h < length (as_h a))%nat as Hlt by (by eapply a_get_lt).
    destruct (tab_app a1 (as_h a) h _ Hh1 Hlt) as [_ Hxn].
    assert (l_tree lb < length (as_trees a))%nat as Hltree by (eapply (fact_tree _ _ _ R); [exact Hx|left; left]).
    (* the variable n keeps its meaning or is dropped; dead labels stay dead *)
    set (r := lrng (as_trees a) lb).
    destruct (run_ind (fun _ => True) (fun w' a' => (length (as_h a) < length (as_h a'))%nat /\ (l_tree lb < length (as_trees a'))%nat /\
      (forall x, a_get a' (length (as_h a)) = Some x -> x = AWeak (Some lb)) /\
      (a_get a' (length (as_h a)) = Some (AWeak (Some lb)) -> alive (as_h a') lb = true ->
        lrng (as_trees a') lb = r /\ covered a' r /\ rview cf a' r = rview cf a1 r)))
      with (ops := ops2) (w := w1) (a := a1) (w' := w2) (rs := outs) as [R2 (Hl2 & Ht2 & Hn2 & HQ)]; try done.
    - intros w4 a4 o w5 R4 R5 _ (Hl & Ht & Hn & HQ). destruct (spec_shape sz (c_clone cf) a4 o) as [(T2 & ST & _) SB SL SK SO SM].
      assert (forall x, a_get (fst (sstep a4 o)) (length (as_h a)) = Some x -> a_get a4 (length (as_h a)) = Some (AWeak (Some lb)) /\ x = AWeak (Some lb)) as Hn5.
      { intros x Hx5. destruct (decide (target o = Some (length (as_h a)))) as [Et|Et].
        - (* a call on the weak variable either leaves or removes it *)
          destruct (a_get a4 (length (as_h a))) as [y|] eqn:Ey.
          + specialize (Hn _ eq_refl) as ->. split; [done|].
            assert (a_get (fst (sstep a4 o)) (length (as_h a)) = Some (AWeak (Some lb)) \/ a_get (fst (sstep a4 o)) (length (as_h a)) = None) as [H|H]; [|congruence..].
            assert (tget (as_h a4) (length (as_h a)) = Some (AWeak (Some lb))) as Eyt by exact Ey.
            destruct o; try discriminate Et; injection Et as ->; cbn [spec_step]; rewrite Ey; cbn [fst]; auto.
            * left. rewrite get_tget. cbn. by rewrite get_old.
            * destruct (negb _); by left.
            * destruct (alive _ _); [|by left]. left. rewrite get_tget. cbn. by rewrite get_old.
            * right. rewrite get_tget. cbn. by rewrite get_upd.
          + exfalso. assert (sstep a4 o = (a4, RInvalid)) as E'.
            { destruct o; try discriminate Et; injection Et as ->; cbn; rewrite Ey; try done. by destruct (negb _). }
            rewrite E' in Hx5. cbn in Hx5. congruence.
        - assert (a_get a4 (length (as_h a)) = Some x) as Hx4. { unfold a_get in *. by rewrite SK in Hx5. }
          specialize (Hn _ Hx4) as ->. done. }
      split_and!.
      + lia.
      + rewrite ST, app_length. lia.
      + intros x Hx5. by apply Hn5.
      + intros Hx5 Ha5. apply Hn5 in Hx5 as [Hx4 _].
        assert (alive (as_h a4) lb = true) as Ha4.
        { destruct (alive (as_h a4) lb) eqn:Ed; [done|]. rewrite (dead_stays sz (c_clone cf) a4 o lb Ht Ed) in Ha5. done. }
        destruct (HQ Hx4 Ha4) as (HT & Hcov & Hrv). destruct (weak_items_stay _ _ _ _ _ _ R4 R5 Hx4 Ha4 Ha5) as (H1 & H2 & H3).
        rewrite HT in *. split_and!; [congruence|done|congruence].
    - by apply Forall_forall.
    - split_and!.
      + rewrite Hh1, app_length. cbn. lia.
      + by rewrite HT1.
      + intros x. rewrite Hxn. congruence.
      + intros _ _. rewrite HT1. split_and!; [done| |done].
        assert (a_get a1 h = Some (ARc lb)) as Hxh.
        { destruct (tab_app a1 (as_h a) h _ Hh1 Hlt) as [-> _]. exact Hx. }
        unfold r. rewrite <- HT1. apply (view_cov cf _ _ _ _ (lrng (as_trees a1) lb) R1 Hxh id eq_refl).
    - destruct (step_rel _ _ _ _ _ R2 E3) as [Ho3 R3]. set (a2 := fst (srun a1 ops2)) in *. cbn in Ho3.
      destruct (a_get a2 (length (as_h a))) as [y|] eqn:Ey; [|done]. specialize (Hn2 _ eq_refl) as ->.
      destruct (alive (as_h a2) lb) eqn:Ea; [|done]. injection Ho3 as ->. destruct (HQ eq_refl eq_refl) as (HT & Hcov & Hrv).
      assert (fst (sstep a2 (OUpgrade (length (as_h a)))) = a_set a2 (as_h a2 ++ [Some (ARc lb)])) as Hs by (cbn; by rewrite Ey, Ea).
      assert (a_get (fst (sstep a2 (OUpgrade (length (as_h a))))) (length (as_h a2)) = Some (ARc lb)) as Hx3.
      { rewrite Hs, get_tget. cbn. apply get_new. }
      split_and!.
      + apply (kind_rc cf _ _ _ R3). eauto.
      + rewrite (view_new cf _ _ _ _ _ _ r R2 R3 id Hx3 id); [|rewrite Hs; cbn; by rewrite HT|done].
        rewrite Hrv. assert (a_get a1 h = Some (ARc lb)) as Hxh.
        { destruct (tab_app a1 (as_h a) h _ Hh1 Hlt) as [-> _]. exact Hx. }
        rewrite <- (view_keep cf _ _ _ _ h _ R R1 ltac:(right; cbn; tauto) Hx Hxh).
        by rewrite (view_rng cf _ _ _ _ r R1 Hxh id) by (unfold r; by rewrite <- HT1).
      + rewrite (get_view_at _ _ _ _ r R3 Hx3 id) by (rewrite Hs; cbn; by rewrite HT). symmetry. by apply (get_view_at _ _ _ _ r R Hx id).
  Qed.

  (** After into_mut the slice's weak slices are dead for good. *)
  Lemma into_mut_kills ops w h lb w1 n ops2 w2 outs h' l' : reach cf ops w -> node cf ops h = Some (ARc lb) ->
    rstep cf w (OIntoMut h) = Ok (w1, RHandle n) -> rrun cf w1 ops2 = Ok (w2, outs) ->
    (l_tree l' < length (as_trees (hist cf ops)))%nat -> anc lb l' ->
    node cf (ops ++ OIntoMut h :: ops2) h' = Some (AWeak (Some l')) ->
    exists w3, rstep cf w2 (OUpgrade h') = Ok (w3, RNone).
  Proof.
    intros R Hx E1 E2 Hlt Ha Hn. apply reach_rel in R. unfold node in Hn, Hx. rewrite hist_app in Hn.
    generalize dependent (hist cf ops). intros a R Hx Hlt Hn. rewrite srun_cons in Hn.
    destruct (step_rel _ _ _ _ _ R E1) as [Ho R1]. cbn in Ho. rewrite Hx in Ho. destruct (sole_owner _ _) eqn:Es; [|done].
    set (a1 := fst (sstep a (OIntoMut h))) in *.
    assert (as_h a1 = <[h := None]> (as_h a) ++ [Some (AMut (lrng (as_trees a) lb))]) as Hh1 by (unfold a1; cbn; by rewrite Hx, Es).
    assert (as_trees a1 = as_trees a) as HT1 by (unfold a1; cbn; by rewrite Hx, Es).
    assert (h < length (as_h a))%nat as Hlth by (by eapply a_get_lt).
    assert (alive (as_h a1) l' = false) as Hdead.
    { apply not_true_iff_false. intros Hal. apply alive_spec in Hal as (h1 & x1 & l1 & Hx1 & Hl1 & Ha1).
      rewrite get_tget, Hh1 in Hx1. destruct (decide (h1 < length (as_h a))%nat) as [Hlt1|Hlt1].
      - rewrite get_old in Hx1 by (by rewrite insert_length). destruct (decide (h = h1)) as [<-|Hne]; [by rewrite get_upd in Hx1|].
        rewrite get_upd_ne in Hx1 by done. destruct (proj1 (sole_owner_spec _ _ _ Hx) Es h1 x1 l1) as [H1 H2]; [congruence|done|done|].
        destruct (anc_comparable _ _ _ Ha Ha1); done.
      - assert (h1 = length (as_h a)) as ->.
        { unfold tget in Hx1. destruct ((<[h := None]> (as_h a) ++ _) !! h1) eqn:El; [|done]. apply lookup_lt_Some in El.
          rewrite app_length, insert_length in El. cbn in El. lia. }
        rewrite <- (insert_length (as_h a) h None), get_new in Hx1. injection Hx1 as <-. by apply elem_of_nil in Hl1. }
    destruct (run_ind (fun _ => True) (fun _ a' => (l_tree l' < length (as_trees a'))%nat /\ alive (as_h a') l' = false))
      with (ops := ops2) (w := w1) (a := a1) (w' := w2) (rs := outs) as [R2 (_ & Hd2)]; try done.
    - intros w4 a4 o w5 R4 R5 _ (Ht & Hd). split.
      + destruct (sh_trees _ _ _ (spec_shape sz (c_clone cf) a4 o)) as (T2 & -> & _). rewrite app_length. lia.
      + by apply dead_stays.
    - by apply Forall_forall.
    - by rewrite HT1.
    - destruct (rstep_spec cf _ _ (OUpgrade h') R2) as (w3 & E3 & _). exists w3. rewrite E3. cbn. by rewrite Hn, Hd2.
  Qed.

  Lemma into_mut_kills_all ops w h lb w1 n ops2 w2 outs h' l' : reach cf ops w -> node cf ops h = Some (ARc lb) ->
    rstep cf w (OIntoMut h) = Ok (w1, RHandle n) -> rrun cf w1 ops2 = Ok (w2, outs) ->
    node cf (ops ++ OIntoMut h :: ops2) h' = Some (AWeak (Some l')) -> anc lb l' ->
    exists w3, rstep cf w2 (OUpgrade h') = Ok (w3, RNone).
  Proof.
    intros R Hx E1 E2 Hn Ha. eapply into_mut_kills; try done. destruct Ha as [<- _].
    apply (fact_tree _ _ _ (reach_rel _ _ _ R) h (ARc lb)); [done|]. left. by apply elem_of_list_singleton.
  Qed.

  (** Overlap with any other strong handle makes get_mut and into_mut fail. *)
  Lemma overlap_blocks ops w h h' c : reach cf ops w -> is_rc w h -> h' <> h -> c ∈ h_cells cf w h -> c ∈ h_cells cf w h' ->
    (exists w', rstep cf w (OGetMut h) = Ok (w', RNone)) /\ rstep cf w (OIntoMut h) = Ok (w, RErr).
  Proof.
    intros Hr Hk Hne Hc Hc'. pose proof (reach_rel _ _ _ Hr) as R. destruct (proj1 (kind_rc cf w _ h R) Hk) as [lb Hx]. split.
    - destruct (proj2 (get_mut_iff ops w h lb Hr Hx)) as [(w' & adr & l & E)|]; [|done].
      destruct (get_mut_exclusive _ _ _ _ _ _ Hr E) as [H _]. by destruct (H h' c Hne Hc').
    - destruct (proj2 (into_mut_iff ops w h lb Hr Hx)) as [(w' & n & E)|]; [|done]. exfalso.
      pose proof E as E'. destruct (step_rel _ _ _ _ _ R E) as [Ho _]. cbn in Ho. unfold node in Hx. rewrite Hx in Ho. destruct (sole_owner _ _) eqn:Es; [|done].
      exact (excl_disjoint w _ h lb R Hx Es h' c Hne Hc' Hc).
  Qed.
End theory.
