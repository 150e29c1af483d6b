(** What callers see, in terms of the specification's state. *)
From Verif Require Import Base BaseLemmas Api SliceItemsModel BinPartsModel DataModel RcModel Spec
  BinPartsProof SliceItemsProof DataInv DataSteps DataFuns GuardInv GuardSteps GuardFuns RelInv RelOps RelMut RelParts Refine Observe Facts SpecTheory Frame.
Local Open Scope N_scope.

Lemma cells_vals_ext {V} (m m' : gmap (nat * N) V) cs : (forall c, c ∈ cs -> m !! c = m' !! c) ->
  cells_vals m cs = cells_vals m' cs.
Proof.
  unfold cells_vals. induction cs as [|c cs IH]; [done|]. intros H. cbn. rewrite (H c) by left.
  rewrite IH; [done|]. intros. apply H. by right.
Qed.
Lemma cells_vals_app {V} (m : gmap (nat * N) V) cs cs' : cells_vals m (cs ++ cs') = cells_vals m cs ++ cells_vals m cs'.
Proof. apply omap_app. Qed.
Lemma cells_vals_length {V} (m : gmap (nat * N) V) cs : (forall c, c ∈ cs -> is_Some (m !! c)) ->
  length (cells_vals m cs) = length cs.
Proof.
  unfold cells_vals. induction cs as [|c cs IH]; [done|]. intros H. cbn. destruct (H c) as [v ->]; [left|]. cbn. f_equal.
  apply IH. intros. apply H. by right.
Qed.
Lemma cells_vals_lookup {V} (m : gmap (nat * N) V) cs i c : (forall c, c ∈ cs -> is_Some (m !! c)) ->
  cs !! i = Some c -> cells_vals m cs !! i = m !! c.
Proof.
  unfold cells_vals. revert i. induction cs as [|c0 cs IH]; [done|]. intros i H. cbn. destruct (H c0) as [v Hv]; [left|]. rewrite Hv.
  destruct i as [|i]; cbn; [by intros [= ->]|]. apply IH. intros. apply H. by right.
Qed.
Lemma rng_cells_length r : length (rng_cells r) = N.to_nat (rg_len r).
Proof. unfold rng_cells. by rewrite fmap_length, seq_length. Qed.

Section views.
  Context {V : Type} (cf : cfg V).
  Notation sz := (c_sz cf).
  Notation rel := (rel (c_sz cf)).
  Notation sstep := (spec_step (c_sz cf) (c_clone cf)).
  Notation srun := (spec_run (c_sz cf) (c_clone cf)).
  Implicit Types (w : world V) (a : astate V) (o : op V) (h : nat).

  Definition rview a (r : rng) : option N * list V :=
    (if (sz =? 0) || (rg_len r =? 0) then None else Some (cell_addr sz (as_base a) (rg_blk r, rg_lo r)),
     cells_vals (as_mem a) (rng_cells r)).
  Definition covered a (r : rng) : Prop := forall c, c ∈ rng_cells r -> is_Some (as_mem a !! c).

  Lemma rstep_spec w a o : rel w a -> exists w', rstep cf w o = Ok (w', snd (sstep a o)) /\ rel w' (fst (sstep a o)).
  Proof. apply step_ok. Qed.
  Lemma rrun_spec w a ops : rel w a -> exists w', rrun cf w ops = Ok (w', snd (srun a ops)) /\ rel w' (fst (srun a ops)).
  Proof. apply run_ok. Qed.
  Lemma reach_rel ops w : reach cf ops w -> rel w (hist cf ops).
  Proof.
    intros [outs E]. destruct (rrun_spec _ _ ops (rel_empty (c_sz cf))) as (w' & E' & H).
    rewrite E in E'. injection E' as -> ->. exact H.
  Qed.
  Lemma srun_app a ops ops' : srun a (ops ++ ops') =
    (fst (srun (fst (srun a ops)) ops'), snd (srun a ops) ++ snd (srun (fst (srun a ops)) ops')).
  Proof.
    revert a. induction ops as [|o ops IH]; intros a; [cbn; by destruct (srun a ops')|]. cbn.
    destruct (sstep a o) as [a1 r1]. rewrite IH. destruct (srun a1 ops) as [a2 rs]. cbn. by destruct (srun a2 ops').
  Qed.
  Lemma rrun_app w ops ops' : rrun cf w (ops ++ ops') =
    '(w1, rs) ← rrun cf w ops; '(w2, rs') ← rrun cf w1 ops'; Ok (w2, rs ++ rs').
  Proof.
    revert w. induction ops as [|o ops IH]; intros w.
    - change (rrun cf w []) with (Ok (w, []) : res (world V * list (out V))). cbn [app]. res_simpl.
      destruct (rrun cf w ops') as [[w2 rs']| | |]; done.
    - change ((o :: ops) ++ ops') with (o :: (ops ++ ops')).
      change (rrun cf w (o :: (ops ++ ops'))) with ('(w1, r) ← rstep cf w o; '(w2, rs) ← rrun cf w1 (ops ++ ops'); Ok (w2, r :: rs)).
      change (rrun cf w (o :: ops)) with ('(w1, r) ← rstep cf w o; '(w2, rs) ← rrun cf w1 ops; Ok (w2, r :: rs)).
      destruct (rstep cf w o) as [[w1 r]| | |]; try done. res_simpl. rewrite IH.
      destruct (rrun cf w1 ops) as [[w2 rs]| | |]; try done. res_simpl.
      destruct (rrun cf w2 ops') as [[w3 rs']| | |]; done.
  Qed.
  Lemma hist_app ops ops' : hist cf (ops ++ ops') = fst (srun (hist cf ops) ops').
  Proof. unfold hist. by rewrite srun_app. Qed.
  Lemma reach_app ops w ops' w' outs : reach cf ops w -> rrun cf w ops' = Ok (w', outs) -> reach cf (ops ++ ops') w'.
  Proof. intros [o1 E1] E2. exists (o1 ++ outs). rewrite rrun_app, E1. res_simpl. by rewrite E2. Qed.
  Lemma rrun_1 w o : rrun cf w [o] = '(w1, r) ← rstep cf w o; Ok (w1, [r]).
  Proof.
    change (rrun cf w [o]) with ('(w1, r) ← rstep cf w o; '(w2, rs) ← rrun cf w1 []; Ok (w2, r :: rs)).
    by destruct (rstep cf w o) as [[w1 r]| | |].
  Qed.
  Lemma reach_step ops w o w' r : reach cf ops w -> rstep cf w o = Ok (w', r) -> reach cf (ops ++ [o]) w'.
  Proof. intros Hr E. apply (reach_app ops w [o] w' [r] Hr). by rewrite rrun_1, E. Qed.

  Lemma a_slice_rview a r : a_slice sz a (rng_cells r) = RSlice (fst (rview a r)) (snd (rview a r)).
  Proof.
    unfold a_slice, rview. cbn. f_equal. destruct (N.eqb_spec sz 0) as [|Hs]; [done|]. cbn.
    destruct (N.eqb_spec (rg_len r) 0) as [E|E].
    - destruct r as [b lo n]. cbn in E. by subst n.
    - destruct r as [b lo n]. cbn in E |- *. replace n with (1 + (n - 1)) by lia. rewrite rng_cells_app.
      change (rng_cells (Rng b lo 1)) with [(b, lo + 0)]. by rewrite N.add_0_r.
  Qed.
  Lemma view_rng w a h x r : rel w a -> a_get a h = Some x -> ~ a_weak x -> hcells (as_trees a) x = rng_cells r ->
    view cf w h = Some (rview a r).
  Proof.
    intros R Hx Hw Hc. unfold view. destruct (rstep_spec w a (ODeref h) R) as (w' & -> & _).
    cbn. rewrite Hx. assert (match x with AWeak _ => (a, RInvalid) | _ => (a, a_slice sz a (hcells (as_trees a) x)) end
      = (a, a_slice sz a (hcells (as_trees a) x))) as E by (by destruct x). 
    destruct x; try done; cbn [snd]; rewrite Hc, a_slice_rview; by destruct (rview a r).
  Qed.
  Lemma view_None w a h : rel w a -> a_get a h = None -> view cf w h = None.
  Proof.
    intros R Hx. unfold view. destruct (rstep_spec w a (ODeref h) R) as (w' & -> & _). cbn. by rewrite Hx.
  Qed.
  Lemma view_weak w a h x : rel w a -> a_get a h = Some x -> a_weak x -> view cf w h = None.
  Proof.
    intros R Hx Hw. unfold view. destruct (rstep_spec w a (ODeref h) R) as (w' & -> & _). cbn. rewrite Hx. by destruct x.
  Qed.
  (** Every strong handle covers a range. *)
  Lemma handle_rng w a h x : rel w a -> a_get a h = Some x -> ~ a_weak x ->
    exists r, hcells (as_trees a) x = rng_cells r /\ covered a r /\ view cf w h = Some (rview a r).
  Proof.
    intros R Hx Hw. destruct (fact_slice _ _ _ R cf h x eq_refl Hx Hw) as (r & p & Hc & _). exists r. split_and!; [done| |].
    - intros c Hin. rewrite <- Hc in Hin. by eapply fact_covered.
    - by eapply view_rng.
  Qed.

  Lemma view_cov w a h x r : rel w a -> a_get a h = Some x -> ~ a_weak x -> hcells (as_trees a) x = rng_cells r ->
    covered a r /\ view cf w h = Some (rview a r).
  Proof.
    intros R Hx Hw Hc. split; [|by eapply view_rng]. intros c Hin. rewrite <- Hc in Hin. by eapply fact_covered.
  Qed.
  Lemma rview_ext a a' r : (forall c, c ∈ rng_cells r -> as_mem a' !! c = as_mem a !! c) -> as_base a `prefix_of` as_base a' ->
    (rg_len r <> 0 -> (rg_blk r < length (as_base a))%nat) -> rview a' r = rview a r.
  Proof.
    intros Hm [B Hb] Hl. unfold rview. f_equal; [|by apply cells_vals_ext].
    destruct (sz =? 0); [done|]. cbn. destruct (N.eqb_spec (rg_len r) 0); [done|]. unfold cell_addr. cbn. rewrite Hb, lookup_app_l; auto.
  Qed.
  Lemma covered_blk w a r : rel w a -> covered a r -> rg_len r <> 0 -> (rg_blk r < length (as_base a))%nat.
  Proof.
    intros R Hc Hl. destruct (Hc (rg_blk r, rg_lo r)) as [v Hv].
    - apply rng_cells_elem. cbn. split; [done|]. lia.
    - apply (mem_blk _ _ _ R _ _ Hv).
  Qed.

  (** *** Parts of a slice *)
  Definition sub_rng (r : rng) (i n : N) : rng := Rng (rg_blk r) (rg_lo r + i) n.
  Lemma rng_cells_sub r i n : i + n <= rg_len r ->
    rng_cells (sub_rng r i n) = take (N.to_nat n) (drop (N.to_nat i) (rng_cells r)).
  Proof.
    intros H. destruct r as [b lo len]. unfold sub_rng. cbn in *. replace len with (i + (n + (len - i - n))) by lia.
    rewrite !rng_cells_app, drop_app_alt by (rewrite rng_cells_length; cbn; lia).
    by rewrite take_app_alt by (rewrite rng_cells_length; cbn; lia).
  Qed.
  Lemma rview_sub a r i n : covered a r -> i + n <= rg_len r ->
    rview a (sub_rng r i n) = sub_view cf (rview a r) (N.to_nat i) (N.to_nat n).
  Proof.
    intros Hc H. assert (cells_vals (as_mem a) (rng_cells (sub_rng r i n)) =
      take (N.to_nat n) (drop (N.to_nat i) (cells_vals (as_mem a) (rng_cells r)))) as E.
    { assert (forall c, c ∈ rng_cells r -> is_Some (as_mem a !! c)) as Hc' by exact Hc.
      destruct r as [b lo len]. cbn [rg_len sub_rng rg_blk rg_lo] in *. clear Hc. revert Hc'. replace len with (i + (n + (len - i - n))) by lia.
      rewrite !rng_cells_app, !cells_vals_app. intros Hc'.
      rewrite drop_app_alt. 2: { rewrite cells_vals_length, rng_cells_length; [cbn; lia|]. intros c Hin. apply Hc'. set_solver. }
      rewrite take_app_alt. 2: { rewrite cells_vals_length, rng_cells_length; [cbn; lia|]. intros c Hin. apply Hc'. set_solver. }
      done. }
    unfold sub_view, rview. cbn [snd fst]. rewrite E. f_equal.
    assert (length (take (N.to_nat n) (drop (N.to_nat i) (cells_vals (as_mem a) (rng_cells r)))) = N.to_nat n) as Hlen.
    { rewrite take_length, drop_length, cells_vals_length by exact Hc. rewrite rng_cells_length. lia. }
    cbn [rg_len sub_rng]. destruct (sz =? 0) eqn:Es; cbn [orb].
    { cbn. by destruct (take _ _). }
    destruct (N.eqb_spec n 0) as [->|Hn].
    { by destruct (take _ _). }
    destruct (take _ _) eqn:Et; [cbn in Hlen; lia|].
    destruct (N.eqb_spec (rg_len r) 0) as [Hz|_]; [lia|]. cbn. f_equal. unfold cell_addr. cbn. rewrite N2Nat.id. lia.
  Qed.
  Lemma rview_len a r : covered a r -> length (snd (rview a r)) = N.to_nat (rg_len r).
  Proof. intros Hc. cbn. by rewrite cells_vals_length, rng_cells_length. Qed.
  Lemma half_sub side r : half side r = if side then sub_rng r (rg_len r / 2) (rg_len r - rg_len r / 2) else sub_rng r 0 (rg_len r / 2).
  Proof. destruct side; unfold half, sub_rng; [done|]. by rewrite N.add_0_r. Qed.
  Lemma covered_sub a r i n : covered a r -> i + n <= rg_len r -> covered a (sub_rng r i n).
  Proof.
    intros Hc Hle c Hin. apply Hc. rewrite rng_cells_sub in Hin by done. 
    apply elem_of_take in Hin as (j & Hj & _). apply elem_of_list_lookup_2 in Hj.
    rewrite <- (take_drop (N.to_nat i) (rng_cells r)). set_solver.
  Qed.
  Lemma div2_le n : n / 2 <= n.
  Proof. apply N.div_le_upper_bound; lia. Qed.
  Lemma covered_half a r side : covered a r -> covered a (half side r).
  Proof.
    intros Hc. rewrite half_sub. pose proof (div2_le (rg_len r)). generalize dependent (rg_len r / 2). intros k Hk.
    destruct side; apply covered_sub; try done; lia.
  Qed.
  Lemma rview_half a r side : covered a r -> rview a (half side r) = half_view cf side (rview a r).
  Proof.
    intros Hc. rewrite half_sub. unfold half_view. rewrite rview_len by done. pose proof (div2_le (rg_len r)).
    replace (N.to_nat (rg_len r) / 2)%nat with (N.to_nat (rg_len r / 2)).
    2: { rewrite N2Nat.inj_div. done. }
    generalize dependent (rg_len r / 2). intros k Hk. destruct side; rewrite rview_sub; try done; [|lia]. by rewrite N2Nat.inj_sub.
  Qed.
  Lemma rview_leaves a k : forall r, covered a r -> rview a <$> rng_leaves k r = view_leaves cf k (rview a r).
  Proof.
    induction k as [|k IH]; intros r Hc; [done|]. cbn [rng_leaves view_leaves]. rewrite fmap_app.
    rewrite !IH by (by apply covered_half). by rewrite !rview_half.
  Qed.
  Lemma covered_leaves a k : forall r, covered a r -> Forall (covered a) (rng_leaves k r).
  Proof.
    induction k as [|k IH]; intros r Hc; cbn [rng_leaves]; [by repeat constructor|].
    apply Forall_app. split; apply IH; by apply covered_half.
  Qed.

  (** *** Frame *)
  Lemma view_keep w a w' o h x : rel w a -> rel w' (fst (sstep a o)) -> target o <> Some h \/ ~ writes o ->
    a_get a h = Some x -> a_get (fst (sstep a o)) h = Some x -> view cf w' h = view cf w h.
  Proof.
    intros R R' Ht Hx Hx'. destruct (keep _ (c_clone cf) _ _ R o h x Ht Hx Hx') as (Hc & Hm).
    destruct (decide (a_weak x)) as [Hw|Hw]; [by rewrite (view_weak _ _ _ _ R Hx Hw), (view_weak _ _ _ _ R' Hx' Hw)|].
    destruct (handle_rng _ _ _ _ R Hx Hw) as (r & Hr & Hcov & ->).
    rewrite (view_rng _ _ h x r R' Hx' Hw) by (by rewrite Hc). f_equal. apply rview_ext.
    + intros c Hin. apply Hm. by rewrite Hr.
    + apply (sh_base _ _ _ (spec_shape sz (c_clone cf) a o)).
    + by eapply covered_blk.
  Qed.
  Lemma view_frame w a w' o h : rel w a -> rel w' (fst (sstep a o)) -> target o <> Some h -> (h < length (w_h w))%nat ->
    view cf w' h = view cf w h.
  Proof.
    intros R R' Ht Hlt. destruct (a_get a h) as [x|] eqn:Hx.
    - destruct (frame _ (c_clone cf) _ _ R o h x Ht Hx) as (Hx' & Hc & Hm).
      destruct (decide (a_weak x)) as [Hw|Hw]; [by rewrite (view_weak _ _ _ _ R Hx Hw), (view_weak _ _ _ _ R' Hx' Hw)|].
      destruct (handle_rng _ _ _ _ R Hx Hw) as (r & Hr & Hcov & ->).
      rewrite (view_rng _ _ h x r R' Hx' Hw) by (by rewrite Hc). f_equal. apply rview_ext.
      + intros c Hin. apply Hm. by rewrite Hr.
      + apply (sh_base _ _ _ (spec_shape sz (c_clone cf) a o)).
      + by eapply covered_blk.
    - rewrite (view_None _ _ _ R Hx). eapply view_None; [done|]. unfold a_get.
      assert (length (as_h a) = length (w_h w)) as Hl.
      { destruct R as (P & -> & -> & _). by rewrite !fmap_length. }
      rewrite (sh_keep _ _ _ (spec_shape sz (c_clone cf) a o)); [exact Hx|done|lia].
  Qed.
  Lemma rel_len w a : rel w a -> length (as_h a) = length (w_h w).
  Proof. intros (P & -> & -> & _). by rewrite !fmap_length. Qed.
  Lemma cells_frame w a w' o h : rel w a -> rel w' (fst (sstep a o)) -> target o <> Some h -> (h < length (w_h w))%nat ->
    h_cells cf w' h = h_cells cf w h.
  Proof.
    intros R R' Ht Hlt. rewrite (fact_h_cells _ _ _ R cf h eq_refl), (fact_h_cells _ _ _ R' cf h eq_refl).
    destruct (a_get a h) as [x|] eqn:Hx.
    - by destruct (frame _ (c_clone cf) _ _ R o h x Ht Hx) as (-> & -> & Hm).
    - assert (a_get (fst (sstep a o)) h = None) as ->; [|done]. unfold a_get.
      rewrite (sh_keep _ _ _ (spec_shape sz (c_clone cf) a o)); [exact Hx|done|]. rewrite (rel_len _ _ R). lia.
  Qed.

  (** The view of a handle after a call, if the items it covers were there before. *)
  Lemma view_new w a w' o h x r : rel w a -> rel w' (fst (sstep a o)) -> ~ writes o ->
    a_get (fst (sstep a o)) h = Some x -> ~ a_weak x -> hcells (as_trees (fst (sstep a o))) x = rng_cells r -> covered a r ->
    view cf w' h = Some (rview a r).
  Proof.
    intros R R' Hwr Hx Hw Hr Hcov. rewrite (view_rng _ _ h x r R' Hx Hw Hr). f_equal. apply rview_ext.
    - intros c Hin. destruct (spec_shape sz (c_clone cf) a o) as [_ _ _ _ _ SM].
      destruct SM as [[-> _]|[(Hwt & _)|(m0 & Hf & ->)]]; [done| |].
      + by destruct Hwt as (h0 & x0 & c0 & v0 & old & _ & _ & _ & _ & _ & Hwr' & _).
      + unfold collect. rewrite map_filter_lookup. destruct (Hcov c Hin) as [v Hv]. rewrite lookup_union_r.
        2: { destruct (m0 !! c) as [v'|] eqn:E; [|done]. apply Hf in E. pose proof (mem_blk _ _ _ R _ _ Hv). lia. }
        rewrite Hv. cbn. rewrite option_guard_True; [done|]. cbn.
        unfold all_cells. apply elem_of_list_bind. exists x. split; [by rewrite Hr|]. apply live_handle. eauto.
    - apply (sh_base _ _ _ (spec_shape sz (c_clone cf) a o)).
    - by eapply covered_blk.
  Qed.
  (** Cells of the handles after a call, through the specification. *)
  Lemma view_get w a h v : rel w a -> view cf w h = Some v -> exists x r, a_get a h = Some x /\ ~ a_weak x /\
    hcells (as_trees a) x = rng_cells r /\ covered a r /\ v = rview a r.
  Proof.
    intros R Hv. destruct (a_get a h) as [x|] eqn:Hx; [|by rewrite (view_None _ _ _ R Hx) in Hv].
    destruct (decide (a_weak x)) as [Hw|Hw]; [by rewrite (view_weak _ _ _ _ R Hx Hw) in Hv|].
    destruct (handle_rng _ _ _ _ R Hx Hw) as (r & Hr & Hcov & E). rewrite E in Hv. injection Hv as <-. eauto 10.
  Qed.

  Definition tget (hs : list (option ahandle)) h : option ahandle :=
    match hs !! h with Some (Some x) => Some x | _ => None end.
  Lemma get_tget a h : a_get a h = tget (as_h a) h.
  Proof. done. Qed.
  Lemma get_new (hs : list (option ahandle)) (y : ahandle) : tget (hs ++ [Some y]) (length hs) = Some y.
  Proof. unfold tget. by rewrite lookup_app_r, Nat.sub_diag by lia. Qed.
  Lemma get_old (hs : list (option ahandle)) (y : option ahandle) h : (h < length hs)%nat -> tget (hs ++ [y]) h = tget hs h.
  Proof. intros. unfold tget. by rewrite lookup_app_l. Qed.
  Lemma get_upd (hs : list (option ahandle)) (y : option ahandle) h : (h < length hs)%nat -> tget (<[h := y]> hs) h = y.
  Proof. intros. unfold tget. rewrite list_lookup_insert by done. by destruct y. Qed.
  Lemma get_upd_ne (hs : list (option ahandle)) (y : option ahandle) h h' : h <> h' -> tget (<[h := y]> hs) h' = tget hs h'.
  Proof. intros. unfold tget. by rewrite list_lookup_insert_ne. Qed.

  Lemma kind_rc w a h : rel w a -> is_rc w h <-> exists l, a_get a h = Some (ARc l).
  Proof.
    intros R. pose proof (rel_kind _ _ _ R h) as Hk. unfold is_rc. split.
    - intros [r E]. rewrite E in Hk. destruct (a_get a h) as [[]|]; try done. eauto.
    - intros [l E]. rewrite E in Hk. destruct (get_h w h) as [[]|]; try done. eauto.
  Qed.
  Lemma kind_weak w a h : rel w a -> is_weak w h <-> exists l, a_get a h = Some (AWeak l).
  Proof.
    intros R. pose proof (rel_kind _ _ _ R h) as Hk. unfold is_weak. split.
    - intros (d & g & E). rewrite E in Hk. destruct (a_get a h) as [[]|]; try done. eauto.
    - intros [l E]. rewrite E in Hk. destruct (get_h w h) as [[]|]; try done. eauto.
  Qed.
  Lemma kind_parts w a h : rel w a -> is_parts w h <-> exists l, a_get a h = Some (AParts l).
  Proof.
    intros R. pose proof (rel_kind _ _ _ R h) as Hk. unfold is_parts. split.
    - intros [r E]. rewrite E in Hk. destruct (a_get a h) as [[]|]; try done. eauto.
    - intros [l E]. rewrite E in Hk. destruct (get_h w h) as [[]|]; try done. eauto.
  Qed.
  Lemma kind_mut w a h : rel w a -> is_mut w h <-> exists l, a_get a h = Some (AMut l).
  Proof.
    intros R. pose proof (rel_kind _ _ _ R h) as Hk. unfold is_mut. split.
    - intros [r E]. rewrite E in Hk. destruct (a_get a h) as [[]|]; try done. eauto.
    - intros [l E]. rewrite E in Hk. destruct (get_h w h) as [[]|]; try done. eauto.
  Qed.
  Lemma kind_iter w a h : rel w a -> is_iter w h <-> exists l, a_get a h = Some (AIter l).
  Proof.
    intros R. pose proof (rel_kind _ _ _ R h) as Hk. unfold is_iter. split.
    - intros [r E]. rewrite E in Hk. destruct (a_get a h) as [[]|]; try done. eauto.
    - intros [l E]. rewrite E in Hk. destruct (get_h w h) as [[]|]; try done. eauto.
  Qed.
  Lemma kind_mparts w a h : rel w a -> is_mparts w h <-> exists l, a_get a h = Some (AMParts l).
  Proof.
    intros R. pose proof (rel_kind _ _ _ R h) as Hk. unfold is_mparts. split.
    - intros [r E]. rewrite E in Hk. destruct (a_get a h) as [[]|]; try done. eauto.
    - intros [l E]. rewrite E in Hk. destruct (get_h w h) as [[]|]; try done. eauto.
  Qed.
  Lemma kind_unique w a h : rel w a -> is_unique w h <-> exists x, a_get a h = Some x /\ a_unique x.
  Proof.
    intros R. unfold is_unique. rewrite (kind_mut _ _ _ R), (kind_iter _ _ _ R), (kind_mparts _ _ _ R). split.
    - intros [[l E]|[[l E]|[l E]]]; (eexists; split; [exact E|exact I]).
    - intros (x & E & Hu). destruct x; try done; eauto.
  Qed.
End views.
