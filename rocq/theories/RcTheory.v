(** Consequences of the refinement for every reachable state: sharing and
    splitting (C01-C05, C07-C15). *)
From Verif Require Import Base BaseLemmas Api SliceItemsModel BinPartsModel DataModel RcModel Spec
  BinPartsProof SliceItemsProof DataInv DataSteps DataFuns GuardInv GuardSteps GuardFuns RelInv RelOps RelMut RelParts Refine
  Observe Facts SpecTheory Frame Views.

Lemma refines_spec (V : Type) (sz : N) (vclone : V -> V) (capf growf : N -> N) (ops : list (op V)) :
  exists w, run sz vclone capf growf false empty_world ops = Ok (w, snd (spec_run sz vclone empty_astate ops)).
Proof.
  destruct (run_ok sz vclone capf growf ops _ _ (rel_empty sz)) as (w & E & _). eauto.
Qed.

Section theory.
  Context {V : Type} (cf : cfg V).
  Notation sz := (c_sz cf).
  Notation rel := (rel (c_sz cf)).
  Notation sstep := (spec_step (c_sz cf) (c_clone cf)).
  Notation srun := (spec_run (c_sz cf) (c_clone cf)).
  Implicit Types (w : world V) (a : astate V) (o : op V) (h : nat) (ops : list (op V)).


  Lemma clone_half_views ops w h side v : reach cf ops w -> is_rc w h -> view cf w h = Some v ->
    exists w', rstep cf w (OCloneHalf side h) = Ok (w', RHandle (length (w_h w))) /\
      is_rc w' (length (w_h w)) /\ view cf w' (length (w_h w)) = Some (half_view cf side v) /\
      forall h', (h' < length (w_h w))%nat -> view cf w' h' = view cf w h'.
  Proof.
    intros R Hk Hv. apply reach_rel in R. generalize dependent (hist cf ops). intros a R. clear ops.
    apply (kind_rc cf _ _ _ R) in Hk as [l Hl].
    destruct (view_cov cf _ _ _ _ (lrng (as_trees a) l) R Hl id eq_refl) as [Hcov Hv']. rewrite Hv in Hv'. injection Hv' as ->.
    destruct (rstep_spec cf _ _ (OCloneHalf side h) R) as (w' & E & R'). exists w'.
    assert (sstep a (OCloneHalf side h) = a_new a (as_h a) (ARc (lhalf (as_trees a) l side))) as Hs by (cbn; by rewrite Hl).
    assert (a_get (fst (sstep a (OCloneHalf side h))) (length (w_h w)) = Some (ARc (lhalf (as_trees a) l side))) as Hnew.
    { rewrite Hs, <- (rel_len cf _ _ R). apply get_new. }
    split_and!.
    - by rewrite E, Hs, <- (rel_len cf _ _ R).
    - apply (kind_rc cf _ _ _ R'). eauto.
    - rewrite <- rview_half by done. eapply (view_new cf _ _ _ _ _ _ _ R R' id Hnew id); [|by apply covered_half]. rewrite Hs. cbn. by rewrite lrng_lhalf.
    - intros h' Hlt. destruct (decide (h' = h)) as [->|Hne].
      + eapply (view_keep cf _ _ _ _ _ _ R R'); [right; exact id|exact Hl|]. rewrite Hs, get_tget. cbn.
        rewrite get_old; [done|]. by rewrite (rel_len cf _ _ R).
      + eapply view_frame; try done. cbn. congruence.
  Qed.

  Lemma split_off_views ops w h side v : reach cf ops w -> is_rc w h \/ is_mut w h -> view cf w h = Some v ->
    exists w', rstep cf w (OSplitOff side h) = Ok (w', RHandle (length (w_h w))) /\
      view cf w' (length (w_h w)) = Some (half_view cf side v) /\
      view cf w' h = Some (half_view cf (negb side) v) /\
      (is_rc w h -> is_rc w' h /\ is_rc w' (length (w_h w))) /\ (is_mut w h -> is_mut w' h /\ is_mut w' (length (w_h w))) /\
      forall h', h' <> h -> (h' < length (w_h w))%nat -> view cf w' h' = view cf w h'.
  Proof.
    intros R Hk Hv. apply reach_rel in R. generalize dependent (hist cf ops). intros a R. clear ops.
    destruct (rstep_spec cf _ _ (OSplitOff side h) R) as (w' & E & R'). exists w'.
    assert (exists x r x1 x2, a_get a h = Some x /\ hcells (as_trees a) x = rng_cells r /\ ~ a_weak x /\ ~ a_weak x1 /\ ~ a_weak x2 /\
       sstep a (OSplitOff side h) = a_new a (<[h := Some x1]> (as_h a)) x2 /\
       hcells (as_trees a) x1 = rng_cells (half (negb side) r) /\ hcells (as_trees a) x2 = rng_cells (half side r) /\
       ((exists l l1 l2, x = ARc l /\ x1 = ARc l1 /\ x2 = ARc l2) \/ (exists r r1 r2, x = AMut r /\ x1 = AMut r1 /\ x2 = AMut r2)))
      as (x & r & x1 & x2 & Hx & Hc & Hw & Hw1 & Hw2 & Hs & Hc1 & Hc2 & Hkind).
    { destruct Hk as [Hk|Hk]; [apply (kind_rc cf _ _ _ R) in Hk as [l Hl]|apply (kind_mut cf _ _ _ R) in Hk as [r Hl]].
      - exists (ARc l), (lrng (as_trees a) l), (ARc (lhalf (as_trees a) l (negb side))), (ARc (lhalf (as_trees a) l side)).
        split_and!; try done; [by intros []..|cbn; by rewrite Hl|cbn; by rewrite lrng_lhalf|cbn; by rewrite lrng_lhalf|]. left. eauto 10.
      - exists (AMut r), r, (AMut (half (negb side) r)), (AMut (half side r)).
        split_and!; try done; [by intros []..|cbn; by rewrite Hl|]. right. eauto 10. }
    destruct (view_cov cf _ _ _ _ r R Hx Hw Hc) as [Hcov Hv']. rewrite Hv in Hv'. injection Hv' as ->.
    pose proof (rel_len cf _ _ R) as Hlen.
    assert (h < length (as_h a))%nat as Hlt by (by eapply a_get_lt).
    assert (a_get (fst (sstep a (OSplitOff side h))) (length (w_h w)) = Some x2) as Hnew.
    { rewrite Hs, get_tget. cbn. rewrite <- Hlen, <- (insert_length (as_h a) h (Some x1)). apply get_new. }
    assert (a_get (fst (sstep a (OSplitOff side h))) h = Some x1) as Hold.
    { rewrite Hs, get_tget. cbn. rewrite get_old by (by rewrite insert_length). by apply get_upd. }
    split_and!.
    - rewrite E, Hs. cbn. by rewrite insert_length, Hlen.
    - rewrite <- rview_half by done. eapply (view_new cf _ _ _ _ _ _ _ R R' id Hnew Hw2); [|by apply covered_half]. by rewrite Hs.
    - rewrite <- rview_half by done. eapply (view_new cf _ _ _ _ _ _ _ R R' id Hold Hw1); [|by apply covered_half]. by rewrite Hs.
    - rewrite !(kind_rc cf _ _ _ R'), (kind_rc cf _ _ _ R), Hold, Hnew, Hx. intros [l [= ->]].
      destruct Hkind as [(? & l1 & l2 & _ & -> & ->)|(? & ? & ? & ? & _)]; [|done]. eauto.
    - rewrite !(kind_mut cf _ _ _ R'), (kind_mut cf _ _ _ R), Hold, Hnew, Hx. intros [l [= ->]].
      destruct Hkind as [(? & ? & ? & ? & _)|(? & l1 & l2 & _ & -> & ->)]; [done|]. eauto.
    - intros h' Hne Hlt'. eapply view_frame; try done. cbn. congruence.
  Qed.

  (** *** Memory *)
  Lemma slice_addr ops w h p len : reach cf ops w -> h_slice cf w h = Some (p, len) -> len <> 0%N ->
    exists blk items, dw_blocks (w_d w) !! p_blk p = Some blk /\ (p_idx p + len <= b_len blk)%N /\
      (sz <> 0%N -> p_addr p = (b_base blk + p_idx p * sz)%N) /\
      (sz = 0%N -> p_addr p = b_base blk \/ p_addr p = dangling_addr) /\
      view cf w h = Some (if (sz =? 0)%N then None else Some (p_addr p), items) /\
      N.of_nat (length items) = len /\
      (forall i, (N.of_nat i < len)%N -> items !! i = item w (p_blk p, p_idx p + N.of_nat i)%N).
  Proof.
    intros R Hs Hlen. apply reach_rel in R. generalize dependent (hist cf ops). intros a R. clear ops.
    pose proof (rel_kind _ _ _ R h) as Hk.
    destruct (a_get a h) as [x|] eqn:Hx; [|unfold h_slice in Hs; by destruct (get_h w h)].
    assert (~ a_weak x) as Hw. { intros Hw. unfold h_slice in Hs. destruct (get_h w h) as [[]|], x; done. }
    destruct (fact_slice _ _ _ R cf h x eq_refl Hx Hw) as (r & p' & Hc & Hs' & Hp). rewrite Hs in Hs'. injection Hs' as <- ->.
    specialize (Hp Hlen). destruct (view_cov cf _ _ _ _ r R Hx Hw Hc) as [Hcov Hv].
    assert (as_mem a = dw_mem (w_d w) /\ as_base a = fst <$> bshape (w_d w)) as [Hm Hb] by (by destruct R as (P & _ & _ & _ & Hm & Hb)).
    destruct (fact_block _ _ _ R (rg_blk r, rg_lo r + rg_len r - 1)%N) as (blk & Hblk & Hidx & _ & _).
    { rewrite <- Hm. apply Hcov. apply rng_cells_elem. cbn. split; [done|lia]. }
    cbn in Hblk, Hidx. assert (bbase (bshape (w_d w)) (rg_blk r) = b_base blk) as Hbb.
    { unfold bbase, bshape. by rewrite list_lookup_fmap, Hblk. }
    rewrite Hbb in Hp. pose proof Hp as (Hpb & Hpi & Hpa). rewrite Hpb, Hpi.
    exists blk, (snd (rview cf a r)). split_and!; try done.
    - lia.
    - intros Hz. by apply points_addr in Hp.
    - intros Hz. rewrite Hz in Hpa. destruct Hpa as [->|[_ ->]]; [left; lia|by right].
    - rewrite Hv. unfold rview. cbn. do 2 f_equal. destruct (N.eqb_spec sz 0) as [|Hz]; [done|]. cbn.
      destruct (N.eqb_spec (rg_len r) 0); [done|]. apply (points_addr _ _ _ _ _ Hp) in Hz. rewrite Hz. unfold cell_addr. cbn.
      unfold bshape in Hb. rewrite Hb, !list_lookup_fmap, Hblk. done.
    - rewrite rview_len by done. lia.
    - intros i Hi. unfold item. rewrite <- Hm. cbn. rewrite (cells_vals_lookup _ _ i (rg_blk r, rg_lo r + N.of_nat i)%N); [done|exact Hcov|].
      unfold rng_cells. rewrite list_lookup_fmap, lookup_seq_lt by lia. done.
  Qed.
  Lemma zst_addr ops w h p len : reach cf ops w -> h_slice cf w h = Some (p, len) -> len <> 0%N -> sz = 0%N ->
    exists blk, dw_blocks (w_d w) !! p_blk p = Some blk /\ (p_addr p = b_base blk \/ p_addr p = dangling_addr).
  Proof. intros R H Hl Hz. destruct (slice_addr _ _ _ _ _ R H Hl) as (blk & items & Hb & _ & _ & Ha & _). eauto. Qed.

  Lemma buffers_stay ops w o w' r b blk : reach cf ops w -> rstep cf w o = Ok (w', r) -> dw_blocks (w_d w) !! b = Some blk ->
    exists blk', dw_blocks (w_d w') !! b = Some blk' /\ b_base blk' = b_base blk.
  Proof.
    intros R E Hb. apply reach_rel in R. generalize dependent (hist cf ops). intros a R. clear ops.
    destruct (rstep_spec cf _ _ o R) as (w2 & E2 & R2). rewrite E in E2. injection E2 as <- ->.
    pose proof (sh_base _ _ _ (spec_shape sz (c_clone cf) a o)) as [B HB].
    destruct R as (P & _ & _ & _ & _ & Hb1). destruct R2 as (P2 & _ & _ & _ & _ & Hb2). rewrite Hb1, Hb2 in HB.
    assert ((fst <$> bshape (w_d w')) !! b = Some (b_base blk)) as Hl.
    { rewrite HB. apply lookup_app_l_Some. unfold bshape. by rewrite !list_lookup_fmap, Hb. }
    unfold bshape in Hl. rewrite !list_lookup_fmap in Hl. destruct (dw_blocks (w_d w') !! b) as [blk'|]; [|done].
    cbn in Hl. injection Hl as Hl. eauto.
  Qed.

  Lemma items_stay ops w o w' r c v : reach cf ops w -> rstep cf w o = Ok (w', r) -> item w' c = Some v ->
    item w c = Some v \/ dw_blocks (w_d w) !! fst c = None \/ writes o.
  Proof.
    intros R E Hb. apply reach_rel in R. generalize dependent (hist cf ops). intros a R. clear ops.
    destruct (rstep_spec cf _ _ o R) as (w2 & E2 & R2). rewrite E in E2. injection E2 as <- ->.
    pose proof (mem_step sz (c_clone cf) a o c v) as Hm. cbn in Hm. pose proof (rel_base_len _ _ _ R) as Hlen.
    destruct R as (P & _ & _ & _ & Hm1 & Hb1). destruct R2 as (P2 & _ & _ & _ & Hm2 & _).
    unfold item in *. rewrite <- Hm2 in Hb. rewrite <- Hm1. apply Hm in Hb as [Hb|[Hb|Hb]]; [by left| |].
    - right. left. apply lookup_ge_None_2. lia.
    - right. right. by destruct Hb as (h0 & x0 & c0 & v0 & old & _ & _ & _ & _ & _ & Hwr & _).
  Qed.

  (** *** Which cells a new handle covers *)
  Lemma infix_refl {A} (l : list A) : infix l l.
  Proof. exists [], []. by rewrite app_nil_r. Qed.
  Lemma infix_nil {A} (l : list A) : infix [] l.
  Proof. by exists [], l. Qed.
  Lemma infix_half side r : infix (rng_cells (half side r)) (rng_cells r).
  Proof.
    rewrite (half_cells r). destruct side; [exists (rng_cells (half false r)), []|exists [], (rng_cells (half true r))]; [by rewrite app_nil_r|done].
  Qed.
  Definition qcells (T : trees) (q : list (label * nat)) : list (nat * N) := q ≫= fun x => rng_cells (lrng T (fst x)).
  Lemma pop_front_cells T j : forall l q l' q', pop_front T l j q = (l', q') ->
    rng_cells (lrng T l) ++ qcells T q = rng_cells (lrng T l') ++ qcells T q'.
  Proof.
    induction j as [|j IH]; intros l q l' q'; cbn [pop_front]; [by intros [= <- <-]|].
    intros H. rewrite <- (IH _ _ _ _ H). unfold qcells. cbn. rewrite !lrng_lhalf, app_assoc. f_equal. apply half_cells.
  Qed.
  Lemma pop_back_cells T j : forall l q l' q', pop_back T l j q = (l', q') ->
    qcells T q ++ rng_cells (lrng T l) = qcells T q' ++ rng_cells (lrng T l').
  Proof.
    induction j as [|j IH]; intros l q l' q'; cbn [pop_back]; [by intros [= <- <-]|].
    intros H. rewrite <- (IH _ _ _ _ H). unfold qcells. rewrite bind_app. cbn. rewrite !lrng_lhalf, app_nil_r, <- app_assoc. f_equal. apply half_cells.
  Qed.
  Lemma qcells_head T l j q q0 : q = (l, j) :: q0 -> qcells T q = rng_cells (lrng T l) ++ qcells T q0.
  Proof. by intros ->. Qed.
  Lemma last_removelast {A} (q : list A) x : last q = Some x -> q = removelast q ++ [x].
  Proof.
    intros H. destruct q as [|y q] using rev_ind; [done|]. rewrite last_snoc in H. injection H as ->. by rewrite removelast_last.
  Qed.

  Lemma leaves_all_cells k : forall r, rng_leaves k r ≫= rng_cells = rng_cells r.
  Proof.
    induction k as [|k IH]; intros r; cbn [rng_leaves]; [cbn; by rewrite app_nil_r|]. rewrite bind_app, !IH. by rewrite <- half_cells.
  Qed.
  Lemma tab_new a' hs h y x2 : as_h a' = <[h := y]> hs ++ [Some x2] -> (h < length hs)%nat ->
    a_get a' h = y /\ a_get (V:=V) a' (length hs) = Some x2.
  Proof.
    intros E Hlt. rewrite !get_tget, E. split.
    - rewrite get_old by (by rewrite insert_length). by apply get_upd.
    - rewrite <- (insert_length hs h y). apply get_new.
  Qed.
  Lemma tab_app a' hs h x2 : as_h a' = hs ++ [Some x2] -> (h < length hs)%nat ->
    a_get a' h = tget hs h /\ a_get (V:=V) a' (length hs) = Some x2.
  Proof. intros E Hlt. rewrite !get_tget, E. split; [by apply get_old|apply get_new]. Qed.
  Lemma tab_upd a' hs h y : as_h a' = <[h := y]> hs -> (h < length hs)%nat -> a_get (V:=V) a' h = y.
  Proof. intros E Hlt. rewrite get_tget, E. by apply get_upd. Qed.


  Lemma derived_spec a o h x : target o = Some h -> a_get a h = Some x -> ~ allocates o ->
    let a' := fst (sstep a o) in
    (forall l, l ∈ strong_labels x -> (l_tree l < length (as_trees a))%nat) ->
    (forall x', a_get a' h = Some x' -> infix (hcells (as_trees a') x') (hcells (as_trees a) x)) /\
    (forall n x', snd (sstep a o) = RHandle n -> a_get a' n = Some x' -> infix (hcells (as_trees a') x') (hcells (as_trees a) x)).
  Proof.
    intros Ht Hx Hal a' HT. pose proof (a_get_lt _ _ _ Hx) as Hlt.
    assert (forall r, a' = a -> snd (sstep a o) = r -> (forall n, r <> RHandle n) ->
      (forall x', a_get a' h = Some x' -> infix (hcells (as_trees a') x') (hcells (as_trees a) x)) /\
      (forall n x', snd (sstep a o) = RHandle n -> a_get a' n = Some x' -> infix (hcells (as_trees a') x') (hcells (as_trees a) x))) as Hsame.
    { intros r -> -> Hr. split; [intros x'; rewrite Hx; intros [= <-]; apply infix_refl|]. intros n x' E. by apply Hr in E. }
    assert (forall x2, sstep a o = a_new a (as_h a) x2 -> infix (hcells (as_trees a) x2) (hcells (as_trees a) x) ->
      (forall x', a_get a' h = Some x' -> infix (hcells (as_trees a') x') (hcells (as_trees a) x)) /\
      (forall n x', snd (sstep a o) = RHandle n -> a_get a' n = Some x' -> infix (hcells (as_trees a') x') (hcells (as_trees a) x))) as Happ.
    { intros x2 E Hi. unfold a'. rewrite E. destruct (tab_app (fst (a_new a (as_h a) x2)) (as_h a) h x2 eq_refl Hlt) as [E1 E2].
      rewrite E1. split.
      - intros x'. unfold a_get in Hx. unfold tget. rewrite Hx. intros [= <-]. apply infix_refl.
      - intros n x' [= <-]. rewrite E2. intros [= <-]. done. }
    assert (forall y x2, sstep a o = a_new a (<[h := y]> (as_h a)) x2 -> infix (hcells (as_trees a) x2) (hcells (as_trees a) x) ->
      (forall x', y = Some x' -> infix (hcells (as_trees a) x') (hcells (as_trees a) x)) ->
      (forall x', a_get a' h = Some x' -> infix (hcells (as_trees a') x') (hcells (as_trees a) x)) /\
      (forall n x', snd (sstep a o) = RHandle n -> a_get a' n = Some x' -> infix (hcells (as_trees a') x') (hcells (as_trees a) x))) as Hupd.
    { intros y x2 E Hi Hy. unfold a'. rewrite E.
      destruct (tab_new (fst (a_new a (<[h := y]> (as_h a)) x2)) (as_h a) h y x2 eq_refl Hlt) as [E1 E2].
      rewrite E1. split; [exact Hy|].
      intros n x' [= <-]. rewrite insert_length, E2. intros [= <-]. done. }
    assert (forall y r, sstep a o = (a_set a (<[h := y]> (as_h a)), r) -> (forall n, r <> RHandle n) ->
      (forall x', y = Some x' -> infix (hcells (as_trees a) x') (hcells (as_trees a) x)) ->
      (forall x', a_get a' h = Some x' -> infix (hcells (as_trees a') x') (hcells (as_trees a) x)) /\
      (forall n x', snd (sstep a o) = RHandle n -> a_get a' n = Some x' -> infix (hcells (as_trees a') x') (hcells (as_trees a) x))) as Hset.
    { intros y r E Hr Hy. unfold a'. rewrite E. cbn [fst snd]. 
      pose proof (tab_upd (a_set a (<[h := y]> (as_h a))) (as_h a) h y eq_refl Hlt) as E1.
      rewrite E1. split; [exact Hy|]. intros n x' ->. by destruct (Hr n). }
    Local Ltac same Hsame := eapply Hsame; [reflexivity|reflexivity|intros; discriminate].
    unfold a' in *. clear a'.
    destruct o as [base vals|base vals| |h0|h0 base|side h0|side h0|h0 n|h0|h0 i v|h0|h0|h0|h0|h0|h0|h0 i v|h0|back h0|to h0 i|h0];
      try discriminate Ht; try (by destruct Hal); injection Ht as ->; cbn [spec_step] in *; rewrite Hx in *.
    - destruct x; try (same Hsame); (eapply Happ; [reflexivity|]); apply infix_refl.
    - destruct x; try (same Hsame). eapply Happ; [reflexivity|]. cbn. rewrite lrng_lhalf. apply infix_half.
    - destruct x; try (same Hsame).
      + eapply Hupd; [reflexivity|cbn; rewrite lrng_lhalf; apply infix_half|]. intros x' [= <-]. cbn. rewrite lrng_lhalf. apply infix_half.
      + eapply Hupd; [reflexivity|apply infix_half|]. intros x' [= <-]. apply infix_half.
    - destruct (negb _); [same Hsame|]. destruct x; try (same Hsame); destruct (log2_exact n) as [k|].
      + eapply Hupd; [reflexivity| |done]. cbn. rewrite app_nil_r. apply infix_refl.
      + eapply Hset; [reflexivity|done|done].
      + eapply Hupd; [reflexivity| |done]. cbn. rewrite leaves_all_cells. apply infix_refl.
      + eapply Hset; [reflexivity|done|done].
    - destruct x; try (same Hsame). destruct (_ && _); [|same Hsame]. unfold a_slice in *. same Hsame.
    - destruct x as [l| | | | |]; try (same Hsame). destruct (_ && _); [|same Hsame]. unfold a_replace in *.
      destruct (_ !! _); [|same Hsame]. destruct (_ !! _); [|same Hsame]. cbn. split; [|done].
      intros x'. unfold a_get. cbn. unfold a_get in Hx. rewrite Hx. intros [= <-]. apply infix_refl.
    - destruct x; try (same Hsame). destruct (sole_owner _ _); [|same Hsame]. eapply Hupd; [reflexivity|apply infix_refl|done].
    - destruct x as [| | |r| |]; try (same Hsame). cbn. split.
      + intros x'. rewrite get_tget. cbn. rewrite get_old, get_upd by (rewrite ?insert_length; done). done.
      + intros n x' [= <-]. rewrite get_tget. cbn. rewrite get_new. intros [= <-]. cbn. unfold lrng. cbn.
        rewrite lookup_app_r, Nat.sub_diag by lia. cbn. apply infix_refl.
    - destruct x; try (same Hsame). eapply Happ; [reflexivity|]. apply infix_nil.
    - eapply Hset; [reflexivity|done|done].
    - destruct x; same Hsame.
    - assert (forall cs, (forall x', a_get (fst (a_replace a cs i v)) h = Some x' -> infix (hcells (as_trees (fst (a_replace a cs i v))) x') (hcells (as_trees a) x)) /\
        (forall n x', snd (a_replace a cs i v) = RHandle n -> a_get (fst (a_replace a cs i v)) n = Some x' -> infix (hcells (as_trees (fst (a_replace a cs i v))) x') (hcells (as_trees a) x))) as Hrep.
      { intros cs. unfold a_replace.
        assert (forall x', a_get a h = Some x' -> infix (hcells (as_trees a) x') (hcells (as_trees a) x)) as H0.
        { intros x'. rewrite Hx. intros [= <-]. apply infix_refl. }
        destruct (_ !! _); [|by split]. destruct (_ !! _); [|by split]. cbn. split; [|done]. exact H0. }
      destruct x; try (same Hsame); apply Hrep.
    - destruct x; try (same Hsame). eapply Hupd; [reflexivity|apply infix_refl|done].
    - destruct x as [| |q| |r|rs]; try (same Hsame).
      + destruct (if back then last q else head q) as [[l j]|] eqn:El; [|same Hsame].
        destruct (if back then pop_back (as_trees a) l j (removelast q) else pop_front (as_trees a) l j (tail q)) as [l' q'] eqn:Ep.
        change (hcells (as_trees a) (AParts q)) with (qcells (as_trees a) q) in *. destruct back.
        * apply last_removelast in El. apply pop_back_cells in Ep.
          assert (qcells (as_trees a) q = qcells (as_trees a) q' ++ rng_cells (lrng (as_trees a) l')) as Hq.
          { rewrite <- Ep, El at 1. unfold qcells. rewrite bind_app. cbn. by rewrite app_nil_r. }
          eapply Hupd; [reflexivity| |]; rewrite Hq.
          -- exists (qcells (as_trees a) q'), []. by rewrite app_nil_r.
          -- intros x' [= <-]. exists [], (rng_cells (lrng (as_trees a) l')). done.
        * apply pop_front_cells in Ep. destruct q as [|[l0 j0] q]; [done|]. injection El as -> ->. cbn [tail] in Ep.
          assert (qcells (as_trees a) ((l, j) :: q) = rng_cells (lrng (as_trees a) l') ++ qcells (as_trees a) q') as Hq by (by rewrite <- Ep).
          eapply Hupd; [reflexivity| |]; rewrite Hq.
          -- exists [], (qcells (as_trees a) q'). done.
          -- intros x' [= <-]. exists (rng_cells (lrng (as_trees a) l')), []. by rewrite app_nil_r.
      + destruct (N.eqb_spec (rg_len r) 0) as [|Hl]; [same Hsame|].
        destruct (as_mem a !! _); [|same Hsame]. eapply Hset; [reflexivity|done|]. intros x' [= <-]. cbn. destruct r as [b lo len]. cbn in *.
        destruct back.
        * exists [], (rng_cells (Rng b (lo + (len - 1)) 1)). cbn [app]. rewrite <- rng_cells_app. by replace (len - 1 + 1)%N with len by lia.
        * exists (rng_cells (Rng b lo 1)), []. rewrite app_nil_r, <- rng_cells_app. by replace (1 + (len - 1))%N with len by lia.
      + destruct (if back then last rs else head rs) as [r|] eqn:El; [|same Hsame]. destruct back.
        * apply last_removelast in El.
          assert (rs ≫= rng_cells = (removelast rs ≫= rng_cells) ++ rng_cells r) as Hq.
          { rewrite El at 1. rewrite bind_app. cbn. by rewrite app_nil_r. }
          eapply Hupd; [reflexivity| |]; cbn; rewrite Hq.
          -- exists (removelast rs ≫= rng_cells), []. by rewrite app_nil_r.
          -- intros x' [= <-]. exists [], (rng_cells r). done.
        * destruct rs as [|r0 rs]; [done|]. injection El as ->. eapply Hupd; [reflexivity| |]; cbn.
          -- by exists [], (rs ≫= rng_cells).
          -- intros x' [= <-]. exists (rng_cells r), []. by rewrite app_nil_r.
    - destruct x as [| | | |r|]; try (same Hsame). destruct (N.ltb_spec (rg_len r) i) as [|Hle]; [same Hsame|]. destruct r as [b lo len]. cbn in *.
      assert (rng_cells (Rng b lo len) = rng_cells (Rng b lo i) ++ rng_cells (Rng b (lo + i) (len - i))) as Hr.
      { rewrite <- rng_cells_app. by replace (i + (len - i))%N with len by lia. }
      destruct to; (eapply Hupd; [reflexivity| |]); cbn; rewrite Hr.
      + by exists [], (rng_cells (Rng b (lo + i) (len - i))).
      + intros x' [= <-]. exists (rng_cells (Rng b lo i)), []. by rewrite app_nil_r.
      + exists (rng_cells (Rng b lo i)), []. by rewrite app_nil_r.
      + intros x' [= <-]. by exists [], (rng_cells (Rng b (lo + i) (len - i))).
    - destruct x; same Hsame.
  Qed.
  Lemma derived_cells ops w o h w' r : reach cf ops w -> target o = Some h -> ~ allocates o -> rstep cf w o = Ok (w', r) ->
    infix (h_cells cf w' h) (h_cells cf w h) /\
    forall n, r = RHandle n -> infix (h_cells cf w' n) (h_cells cf w h).
  Proof.
    intros R Ht Hal E. apply reach_rel in R. generalize dependent (hist cf ops). intros a R. clear ops.
    destruct (rstep_spec cf _ _ o R) as (w2 & E2 & R2). rewrite E in E2. injection E2 as <- ->.
    rewrite !(fact_h_cells _ _ _ R cf h eq_refl), !(fact_h_cells _ _ _ R2 cf h eq_refl).
    destruct (a_get a h) as [x|] eqn:Hx.
    - destruct (derived_spec a o h x Ht Hx Hal) as [H1 H2].
      { intros l Hl. eapply (fact_tree _ _ _ R); eauto. }
      split.
      + destruct (a_get (fst (sstep a o)) h) as [x'|]; [auto|apply infix_nil].
      + intros n Hn. rewrite (fact_h_cells _ _ _ R2 cf n eq_refl). destruct (a_get (fst (sstep a o)) n) as [x'|] eqn:E'; [eauto|apply infix_nil].
    - assert (sstep a o = (a, RInvalid)) as E'.
      { destruct o; try discriminate Ht; injection Ht as ->; cbn; rewrite Hx; try done. by destruct (negb _). }
      rewrite E'. cbn [fst snd]. rewrite Hx. split; [apply infix_nil|done].
  Qed.
End theory.
