(** Conversions between shared and unique slices, and every operation on
    [RcSliceMut], [RcSliceMutIter] and [RcSliceMutParts], preserve the relation
    with the specification (RelInv.v). *)
From Verif Require Import Base BaseLemmas Api SliceItemsModel BinPartsModel DataModel RcModel Spec
  BinPartsProof SliceItemsProof DataInv DataSteps DataFuns GuardInv GuardSteps GuardFuns RelInv RelOps.
Local Open Scope N_scope.

#[local] Arguments img_drop : simpl never.
#[local] Arguments img_new : simpl never.
#[local] Arguments data_into_mut : simpl never.
#[local] Arguments alloc_release : simpl never.
#[local] Arguments alloc_clone : simpl never.
#[local] Arguments drop_in_place : simpl never.

Section relmut.
  Context {V : Type} (sz : N).
  Notation dworld := (dworld V).
  Notation dg := (dworld * gworld)%type.
  Notation dinv := (@dinv V sz).
  Notation ent_ok := (@ent_ok V sz).
  Notation cinv := (@cinv V sz).
  Notation XD X := (fmap (M:=list) rs_data (XS X)).
  Notation XI X := (fmap (M:=list) rs_img (XS X)).

  (** *** Shared to unique and back *)
  Lemma rcs_into_mut_ok s T XF X hs r l : cinv s T XF -> XF ≡ₚ prc r l :: X -> live_handles hs = hp_a <$> XF ->
    if sole_owner hs l
    then exists s' m, rcs_into_mut sz s r = Ok (s', inl m) /\ cinv s' T (pmut m (lrng T l) :: X) /\ same s s'
    else rcs_into_mut sz s r = Ok (s, Datatypes.inr r).
  Proof.
    intros CF HX Hhs. assert (prc r l ∈ XF) as Hin by (rewrite HX; by left).
    destruct (cinv_held sz _ _ _ _ _ CF Hin) as (L & LI & LG & D & G & F & Hr & Hs).
    destruct (held sz _ _ _ _ _ _ _ _ D G Hr Hs) as (sd & nd & ni & Hv & Hg & Hp & Hlen & Hi & _).
    pose proof (data_count_one sz s T XF L LI LG D F r l Hr Hs) as H1.
    pose proof (img_count_one sz s T XF L LI LG G F r l Hr Hs) as H2.
    pose proof (sole_owner_iff hs l _ (all_strong_eq _ _ Hhs) (strong_in _ _ _ Hin)) as H3.
    unfold rcs_into_mut. rewrite (rc_count_live _ _ _ _ Hv) in H1.
    assert (sd <> 0%nat) as Hpos by (intros ->; by apply (di_pos _ _ _ _ _ _ D) in Hv).
    destruct (Nat.eqb_spec (rc_count (gw_imgs (snd s)) (rs_img r)) 1) as [E|E]; cycle 1.
    { destruct (sole_owner hs l); [|done]. exfalso. apply E. tauto. }
    destruct (decide (sd = 1%nat)) as [->|Hne]; cycle 1.
    { destruct (sole_owner hs l); [exfalso; tauto|].
      unfold rc_try_unwrap. unfold live in Hv. rewrite Hv. destruct sd as [|[|sd]]; try done. cbn.
      destruct s as [[] ?]. done. }
    assert (sole_owner hs l = true) as -> by tauto.
    apply H2 in E as [_ Hbelow]. clear H1 H2 H3.
    unfold rc_try_unwrap. pose proof Hv as Hv'. unfold live in Hv'. rewrite Hv'. cbn [mbind res_bind].
    assert (cinv s T (prc r l :: X)) as C by (by eapply cinv_perm).
    assert (dinv (fst s) T L (rs_data r :: XD X) (XO X)) as D'.
    { eapply dinv_perm; [..|exact D].
      - change (rs_data r :: XD X) with (XD (prc r l :: X)). apply fmap_Permutation. unfold XS. by rewrite HX.
      - change (XO X) with (XO (prc r l :: X)). unfold XO. by rewrite HX. }
    assert (ginv (snd s) (length T) LI LG (rs_img r :: XI X) (XW X)) as G'.
    { eapply ginv_perm; [..|exact G].
      - change (rs_img r :: XI X) with (XI (prc r l :: X)). apply fmap_Permutation. unfold XS. by rewrite HX.
      - change (XW X) with (XW (prc r l :: X)). unfold XW. by rewrite HX. }
    assert (Forall (hrel sz (bshape (fst s)) T L LI LG) X) as F'.
    { rewrite HX in F. by apply Forall_inv_tail in F. }
    destruct Hs as [Hd Hi'].
    destruct (data_into_mut_ok sz _ _ _ _ _ _ _ _ D' Hv Hd) as (d & Ed & D2 & Hm & HB).
    { intros x lx side (r' & -> & Hr')%elem_of_list_fmap Hlx Ha.
      assert (r' ∈ XS XF) as Hr2.
      { unfold XS in *. rewrite HX. by right. }
      pose proof (rel_strong sz _ _ _ _ _ _ F) as HS. apply elem_of_list_lookup in Hr2 as [i Hi2].
      destruct (Forall2_lookup_l _ _ _ _ _ HS Hi2) as (l' & Hl' & Hd' & _). rewrite Hlx in Hd'. injection Hd' as <-.
      assert (lx = l) as ->.
      { apply Hbelow; [by eapply elem_of_list_lookup_2|]. eapply anc_trans; [apply anc_child|done]. }
      apply (lchild_ne l side). apply anc_antisym; [done|apply anc_child]. }
    destruct (img_drop_ok (length T) _ _ _ _ _ _ G') as (g & Eg & G2).
    rewrite Ed. cbn. rewrite Eg. cbn. eexists _, _. split; [reflexivity|]. split; [|done].
    exists L, LI, LG. rewrite <- Hg in *. split_and!; [done|done|].
    constructor; [|cbn [fst]; by rewrite HB]. unfold hrel. cbn -[nrng]. split; [done|]. rewrite HB.
    destruct (dinv_ent sz _ _ _ _ _ _ D2) as [(base & len & Hbl & _) _]. cbn in Hbl. rewrite HB in Hbl.
    split; [by eapply lookup_lt_Some|]. split; [done|]. done.
  Qed.

  Lemma mut_into_immut_ok s T X m r : cinv s T (pmut m r :: X) ->
    exists s' r', mut_into_immut s m = Ok (s', r') /\
      cinv s' (T ++ [r]) (prc r' (Lbl (length T) []) :: X) /\ same s s'.
  Proof.
    intros (L & LI & LG & D & G & F).
    pose proof (Forall_inv F) as Hm. unfold hrel in Hm. cbn in Hm. destruct Hm as (_ & Hb & Hp & Hl).
    destruct (new_root_ok sz (fst s) T L (XD X) (XO X) r (ms_alloc m) (si_ptr (ms_items m)) D Hp) as (h & E & Hlen & D').
    destruct (img_new_ok (snd s) (length T) LI LG (XI X) (XW X) G) as (g & Eg & G').
    eexists _, _. split.
    { unfold mut_into_immut. rewrite Hl, E. unfold rcs_from_unique_data. cbn. rewrite Eg. cbn. reflexivity. }
    split; [|done]. exists (L ++ [Lbl (length T) []]), (LI ++ [Lbl (length T) []]), (LG ++ [Some (Lbl (length T) [])]).
    split_and!.
    - exact D'.
    - rewrite app_length, Nat.add_1_r. exact G'.
    - constructor.
      + apply hrel_prc. split; cbn.
        * rewrite <- (di_len _ _ _ _ _ _ D). by apply list_lookup_middle.
        * rewrite <- (gi_leni _ _ _ _ _ _ G). by apply list_lookup_middle.
      + apply Forall_inv_tail in F. eapply Forall_impl; [exact F|]. intros p Hrel.
        apply (hrel_mono sz _ [] _ [r] _ [Lbl (length T) []] _ [Lbl (length T) []] _ [Some (Lbl (length T) [])]) in Hrel.
        by rewrite app_nil_r in Hrel.
  Qed.

  (** *** New buffers *)
  Lemma new_block_rel s T X base vals mk w1 p len :
    cinv s T X -> N.of_nat (length vals) < usize_lim ->
    new_block (fst s) base vals = (w1, p, len) ->
    (sz <> 0 -> len <> 0 -> mk = true) ->
    let b := length (bshape (fst s)) in
    let w2 := if (mk : bool) then fst (alloc_new w1 p len) else w1 in
    let o := if mk then Some (length (dw_allocs (fst s))) else None in
    len = N.of_nat (length vals) /\
    cinv (w2, snd s) T (pmut (MutS (SliceItems p len) o) (Rng b 0 len) :: X) /\
    dw_mem w2 = stored b vals (dw_mem (fst s)) /\
    bshape w2 = bshape (fst s) ++ [(base, len)].
  Proof.
    intros (L & LI & LG & D & G & F) Hlim E Hmk. cbn zeta.
    destruct (new_block_ok sz _ _ _ _ _ _ _ mk _ _ _ D Hlim E Hmk) as (Hlen & D' & Hp & Hm & _ & HB & _).
    assert (length (bshape (fst s)) = length (dw_blocks (fst s))) as Eb by (unfold bshape; by rewrite fmap_length).
    rewrite Eb. split_and!; [done| |done..].
    exists L, LI, LG. split_and!; [done..|]. constructor.
    - unfold hrel. cbn -[alloc_new]. split; [done|]. split; [|by split]. rewrite HB, app_length, Eb. cbn. lia.
    - cbn [fst]. rewrite HB. eapply Forall_impl; [exact F|]. intros q Hq.
      apply (hrel_mono sz _ [(base, len)] _ [] _ [] _ [] _ []) in Hq. by rewrite !app_nil_r in Hq.
  Qed.
  Lemma rcs_from_boxed_slice_ok s T X base vals : cinv s T X -> N.of_nat (length vals) < usize_lim ->
    let b := length (bshape (fst s)) in
    exists s' r, rcs_from_boxed_slice s base vals = Ok (s', r) /\
      cinv s' (T ++ [Rng b 0 (N.of_nat (length vals))]) (prc r (Lbl (length T) []) :: X) /\
      dw_mem (fst s') = stored b vals (dw_mem (fst s)) /\
      bshape (fst s') = bshape (fst s) ++ [(base, N.of_nat (length vals))].
  Proof.
    intros C Hlim. cbn zeta. destruct (new_block (fst s) base vals) as [[w1 p] len] eqn:E.
    destruct (new_block_rel s T X base vals (negb (len =? 0)) w1 p len C Hlim E) as (Hlen & C' & Hm & HB).
    { intros _ Hne. destruct (N.eqb_spec len 0); done. }
    destruct (mut_into_immut_ok _ _ _ _ _ C') as (s' & r & E' & C2 & Hm2 & HB2). cbn [fst snd] in *.
    exists s', r. rewrite <- Hlen. split_and!.
    - unfold rcs_from_boxed_slice. rewrite E. rewrite <- E'. clear E'. unfold data_from_boxed_slice, mut_into_immut.
      destruct (N.eqb_spec len 0); [done|]. cbn. injection E as <- <- <-. done.
    - done.
    - by rewrite Hm2.
    - by rewrite HB2.
  Qed.
  Lemma mut_from_boxed_slice_ok s T X base vals : cinv s T X -> N.of_nat (length vals) < usize_lim ->
    let b := length (bshape (fst s)) in
    exists s' m, mut_from_boxed_slice sz s base vals = (s', m) /\
      cinv s' T (pmut m (Rng b 0 (N.of_nat (length vals))) :: X) /\
      dw_mem (fst s') = stored b vals (dw_mem (fst s)) /\
      bshape (fst s') = bshape (fst s) ++ [(base, N.of_nat (length vals))].
  Proof.
    intros C Hlim. cbn zeta. destruct (new_block (fst s) base vals) as [[w1 p] len] eqn:E.
    destruct (new_block_rel s T X base vals (negb ((len =? 0) || (sz =? 0))) w1 p len C Hlim E) as (Hlen & C' & Hm & HB).
    { intros ? Hne. destruct (N.eqb_spec len 0), (N.eqb_spec sz 0); done. }
    rewrite <- Hlen. eexists _, _. split; [|split_and!; [exact C'|exact Hm|exact HB]].
    unfold mut_from_boxed_slice, split_alloc_from_items. rewrite E.
    destruct ((len =? 0) || (sz =? 0)); [done|]. cbn. injection E as <- <- <-. done.
  Qed.

  (** *** Splitting and dropping owned ranges *)
  Lemma ent_ok_part w r o r' : ent_ok w r o -> rng_ok (bshape w) r' -> rg_blk r' = rg_blk r ->
    (rg_len r' <> 0 -> rg_len r <> 0) -> ent_ok w r' o.
  Proof.
    intros [_ H] Hr Hb Hl. split; [done|]. intros Hsz Hne. rewrite Hb. auto.
  Qed.
  Lemma dinv_split_keep w T L R O r o ra rb : dinv w T L R ((r, o) :: O) ->
    (forall c, inr c r = inr c ra + inr c rb)%nat ->
    rng_ok (bshape w) ra -> rng_ok (bshape w) rb -> rg_blk ra = rg_blk r -> rg_blk rb = rg_blk r ->
    (rg_len ra <> 0 -> rg_len r <> 0) -> rg_len rb = 0 ->
    dinv w T L R ((ra, o) :: (rb, None) :: O).
  Proof.
    intros D Hc Ha Hb Hba Hbb Hla Hlb.
    apply (dinv_rearrange sz w T L R [(r, o)] [(ra, o); (rb, None)] O D).
    - intros c. rewrite !ocnt_cons. cbn [fst]. rewrite Hc. unfold ocnt. cbn. lia.
    - intros a. by rewrite !alloc_refs_cons.
    - intros x [->|[->|[]%elem_of_nil]%elem_of_cons]%elem_of_cons; cbn.
      + eapply ent_ok_part; [exact (dinv_ent sz _ _ _ _ _ _ D)|done..].
      + split; [done|]. by rewrite Hlb.
  Qed.
  Lemma dinv_split_clone w T L R O r o ra rb : dinv w T L R ((r, o) :: O) ->
    (forall c, inr c r = inr c ra + inr c rb)%nat ->
    rng_ok (bshape w) ra -> rng_ok (bshape w) rb -> rg_blk ra = rg_blk r -> rg_blk rb = rg_blk r ->
    (rg_len ra <> 0 -> rg_len r <> 0) -> (rg_len rb <> 0 -> rg_len r <> 0) ->
    exists h, alloc_clone w o = Ok (dw_set_allocs w h) /\
      dinv (dw_set_allocs w h) T L R ((ra, o) :: (rb, o) :: O).
  Proof.
    intros D Hc Ha Hb Hba Hbb Hla Hlb. pose proof (dinv_ent sz _ _ _ _ _ _ D) as He. cbn in He.
    destruct (alloc_clone_ok sz w T L R ((r, o) :: O) o (rg_blk r) (rg_lo r) D) as (h & E & D' & Hk).
    { destruct r as [b lo len]. destruct He as [He _]. eapply rng_ok_sub; [exact He|]. cbn. lia. }
    { intros a ->. eapply (dinv_alloc_live sz _ _ _ _ _ _ D). rewrite alloc_refs_cons. cbn. rewrite cnt_cons, decide_True by done. lia. }
    exists h. split; [done|].
    apply (dinv_rearrange sz _ T L R [(Rng (rg_blk r) (rg_lo r) 0, o); (r, o)] [(ra, o); (rb, o)] O D').
    - intros c. rewrite !ocnt_cons. cbn [fst]. rewrite Hc, inr_empty. unfold ocnt. cbn. lia.
    - intros a. by rewrite !alloc_refs_cons.
    - intros x [->|[->|[]%elem_of_nil]%elem_of_cons]%elem_of_cons; cbn; apply Hk; by eapply ent_ok_part.
  Qed.
  Lemma items_alloc_drop_ok w T L R O r o p : dinv w T L R ((r, o) :: O) ->
    (rg_len r <> 0 -> points sz (bbase (bshape w) (rg_blk r)) (rg_blk r) (rg_lo r) p) ->
    exists w', items_alloc_drop sz w p (rg_len r) o = Ok w' /\ dinv w' T L R O /\
      dw_mem w' ⊆ dw_mem w /\ bshape w' = bshape w.
  Proof.
    intros D Hp. destruct r as [b lo len]. cbn [rg_blk rg_lo rg_len] in *. unfold items_alloc_drop.
    destruct (decide (len = 0)) as [->|Hne].
    - destruct (alloc_release_ok sz _ _ _ _ _ _ _ _ D) as (w' & E & D' & Hm & HB & _). exists w'.
      change (drop_in_place sz w (N.to_nat 0) p) with (Ok w). cbn. rewrite E. split_and!; [done..| |done]. by rewrite Hm.
    - rewrite <- (N2Nat.id len) in D.
      destruct (drop_in_place_ok sz _ _ _ _ _ _ _ _ _ _ D (Hp Hne)) as (w1 & E1 & D1 & (Hm1 & HB1 & _) & _).
      destruct (alloc_release_ok sz _ _ _ _ _ _ _ _ D1) as (w' & E & D' & Hm & HB & _). exists w'.
      rewrite E1. cbn. rewrite E. split_and!; [done..| |].
      + by rewrite Hm.
      + by rewrite HB.
  Qed.

  (** An owned handle: its range, and how it is reached. *)
  Lemma own_rng_ok s T X p r o : cinv s T (p :: X) -> hp_o p = [(r, o)] -> rng_ok (bshape (fst s)) r.
  Proof.
    intros (L & LI & LG & D & _ & _) Ho. unfold XO in D. cbn in D. rewrite Ho in D. cbn in D.
    by destruct (dinv_ent sz _ _ _ _ _ _ D) as [H _].
  Qed.
  Lemma rng_ok_lim B r : rng_ok B r -> rg_len r < usize_lim /\ (rg_blk r < length B)%nat.
  Proof. intros (base & len & H & ? & ?). split; [lia|by eapply lookup_lt_Some]. Qed.

  (** Replace the handle [p], which owns ranges only, by handles [q]. *)
  Lemma cinv_owner s T X p q d' : cinv s T (p :: X) ->
    hstrong (hp_c p) = [] -> hweak (hp_c p) = [] ->
    XS q = [] -> XW q = [] -> bshape d' = bshape (fst s) ->
    (forall L, dinv (fst s) T L (XD X) (hp_o p ++ XO X) -> dinv d' T L (XD X) (XO q ++ XO X)) ->
    (forall L LI LG, Forall (hrel sz (bshape (fst s)) T L LI LG) q) ->
    cinv (d', snd s) T (q ++ X).
  Proof.
    intros (L & LI & LG & D & G & F) Hs Hw Hs' Hw' HB HD HF. exists L, LI, LG.
    unfold XS, XW in D, G. cbn in D, G. rewrite Hs in D, G. rewrite Hw in G. cbn in D, G.
    rewrite XS_app, XW_app, XO_app, Hs', Hw'. cbn [fst snd app]. split_and!.
    - apply HD; done.
    - exact G.
    - apply Forall_inv_tail in F. rewrite HB. apply Forall_app. split; [apply HF|done].
  Qed.

  Lemma hrel_pmut B T L LI LG m r : hrel sz B T L LI LG (pmut m r) <->
    (rg_blk r < length B)%nat /\ items_rel sz (bbase B (rg_blk r)) r (ms_items m).
  Proof. unfold hrel. cbn. tauto. Qed.
  Lemma hrel_pit B T L LI LG m r : hrel sz B T L LI LG (pit m r) <->
    (rg_blk r < length B)%nat /\ iter_rel sz (bbase B (rg_blk r)) r (mi_iter m).
  Proof. unfold hrel. cbn. tauto. Qed.
  Lemma cinv_pmut s T X m r : cinv s T (pmut m r :: X) ->
    rng_ok (bshape (fst s)) r /\ items_rel sz (bbase (bshape (fst s)) (rg_blk r)) r (ms_items m).
  Proof.
    intros C. split; [by eapply own_rng_ok|]. destruct C as (L & LI & LG & _ & _ & F).
    apply Forall_inv, hrel_pmut in F. apply F.
  Qed.
  Lemma cinv_pit s T X m r : cinv s T (pit m r :: X) ->
    rng_ok (bshape (fst s)) r /\ iter_rel sz (bbase (bshape (fst s)) (rg_blk r)) r (mi_iter m).
  Proof.
    intros C. split; [by eapply own_rng_ok|]. destruct C as (L & LI & LG & _ & _ & F).
    apply Forall_inv, hrel_pit in F. apply F.
  Qed.

  (** *** RcSliceMut *)
  Lemma mut_split_off_ok s T X m r (side : bool) : cinv s T (pmut m r :: X) ->
    exists d' m1 m2, mut_split_off sz side (fst s) m = Ok (d', (m1, m2)) /\
      cinv (d', snd s) T (pmut m2 (half side r) :: pmut m1 (half (negb side) r) :: X) /\ same s (d', snd s).
  Proof.
    intros C. destruct (cinv_pmut _ _ _ _ _ C) as [Hr Hi].
    set (x := if side then si_split_off_right sz (ms_items m) else si_split_off_left sz (ms_items m)).
    assert (items_rel sz (bbase (bshape (fst s)) (rg_blk r)) (half (negb side) r) (fst x) /\
            items_rel sz (bbase (bshape (fst s)) (rg_blk r)) (half side r) (snd x)) as [H1 H2].
    { destruct side; [by apply si_split_off_right_rel|by apply si_split_off_left_rel]. }
    unfold mut_split_off. fold x. destruct x as [self new]. cbn [fst snd] in *.
    assert (forall sd, rg_blk (half sd r) = rg_blk r) as Hblk by (by intros []).
    assert (forall c, inr c r = inr c (half (negb side) r) + inr c (half side r))%nat as Hc.
    { intros c. rewrite (inr_half c r). destruct side; cbn; lia. }
    assert (forall sd, rg_len (half sd r) <> 0 -> rg_len r <> 0) as Hlen.
    { intros sd. pose proof (half_len_sum r). destruct sd; lia. }
    pose proof (rng_ok_half _ side _ Hr) as Hra. pose proof (rng_ok_half _ (negb side) _ Hr) as Hrb.
    destruct (rng_ok_lim _ _ Hr) as [_ Hb].
    destruct H2 as [H2 H2']. rewrite H2'.
    assert (forall o (L LI : list label) LG, Forall (hrel sz (bshape (fst s)) T L LI LG)
      [pmut (MutS new o) (half side r); pmut (MutS self (ms_alloc m)) (half (negb side) r)]) as HF.
    { intros o L LI LG. constructor; [|constructor; [|constructor]]; apply hrel_pmut; rewrite Hblk; (split; [done|]); [by split|done]. }
    destruct (N.ltb_spec 0 (rg_len (half side r))) as [Hpos|Hz].
    - assert (exists h, alloc_clone (fst s) (ms_alloc m) = Ok (dw_set_allocs (fst s) h) /\
        cinv (dw_set_allocs (fst s) h, snd s) T ([pmut (MutS new (ms_alloc m)) (half side r); pmut (MutS self (ms_alloc m)) (half (negb side) r)] ++ X)) as (h & E & C').
      { pose proof C as (L & LI & LG & D & _ & _).
        destruct (dinv_split_clone (fst s) T L (XD X) (XO X) r (ms_alloc m) (half (negb side) r) (half side r) D Hc) as (h & E & _); eauto.
        exists h. split; [done|]. eapply cinv_owner; [exact C|done..| |apply HF].
        intros L' D'. cbn.
        destruct (dinv_split_clone (fst s) T L' (XD X) (XO X) r (ms_alloc m) (half (negb side) r) (half side r) D' Hc) as (h' & E' & D2); eauto.
        rewrite E in E'. injection E' as E'. assert (dw_set_allocs (fst s) h = dw_set_allocs (fst s) h') as -> by (unfold dw_set_allocs; by rewrite E').
        eapply dinv_perm; [reflexivity|apply Permutation_swap|exact D2]. }
      rewrite E. cbn. eexists _, _, _. split; [reflexivity|]. split; [exact C'|done].
    - cbn. eexists _, _, _. split; [reflexivity|]. split; [|done].
      eapply (cinv_owner s T X (pmut m r) [pmut (MutS new None) (half side r); pmut (MutS self (ms_alloc m)) (half (negb side) r)]); [exact C|done..| |apply HF].
      intros L' D'. cbn. eapply dinv_perm; [reflexivity|apply Permutation_swap|].
      eapply (dinv_split_keep _ _ _ _ _ r); eauto. lia.
  Qed.
  Lemma mut_drop_ok s T X m r : cinv s T (pmut m r :: X) ->
    exists d', mut_drop sz (fst s) m = Ok d' /\ cinv (d', snd s) T X /\ sub s (d', snd s).
  Proof.
    intros C. destruct (cinv_pmut _ _ _ _ _ C) as [Hr [Hp Hl]]. pose proof C as (L & LI & LG & D & G & F).
    destruct (items_alloc_drop_ok (fst s) T L (XD X) (XO X) r (ms_alloc m) (si_ptr (ms_items m)) D) as (d' & E & D' & Hm & HB); [done|].
    exists d'. unfold mut_drop. rewrite Hl. split; [done|]. split; [|done].
    exists L, LI, LG. split_and!; [done..|]. cbn [fst]. rewrite HB. by apply Forall_inv_tail in F.
  Qed.

  (** *** RcSliceMutIter *)
  Lemma mut_into_iter_ok s T X m r : cinv s T (pmut m r :: X) -> cinv s T (pit (mut_into_iter sz m) r :: X).
  Proof.
    intros C. destruct (cinv_pmut _ _ _ _ _ C) as [Hr Hi]. destruct (rng_ok_lim _ _ Hr) as [Hlim Hb].
    destruct s as [d g].
    apply (cinv_owner (d, g) T X (pmut m r) [pit (mut_into_iter sz m) r]); try done.
    intros L LI LG. constructor; [|done]. apply hrel_pit. split; [done|]. by apply sit_new_rel.
  Qed.
  Lemma iter_drop_ok s T X m r : cinv s T (pit m r :: X) ->
    exists d', iter_drop sz (fst s) m = Ok d' /\ cinv (d', snd s) T X /\ sub s (d', snd s).
  Proof.
    intros C. destruct (cinv_pit _ _ _ _ _ C) as [Hr Hi]. pose proof C as (L & LI & LG & D & G & F).
    destruct (sit_as_slice_rel sz _ _ _ Hi) as (p & Ep & Hp).
    destruct (items_alloc_drop_ok (fst s) T L (XD X) (XO X) r (mi_alloc m) p D) as (d' & E & D' & Hm & HB); [done|].
    exists d'. unfold iter_drop. rewrite Ep. cbn. split; [done|]. split; [|done].
    exists L, LI, LG. split_and!; [done..|]. cbn [fst]. rewrite HB. by apply Forall_inv_tail in F.
  Qed.
  (** The range left and the cell taken. *)
  Definition it_rest (back : bool) (r : rng) : rng :=
    Rng (rg_blk r) (if back then rg_lo r else rg_lo r + 1) (rg_len r - 1).
  Definition it_cell (back : bool) (r : rng) : nat * N :=
    (rg_blk r, if back then rg_lo r + rg_len r - 1 else rg_lo r).
  Lemma dinv_empty_none w T L R O r o : dinv w T L R ((r, o) :: O) -> rg_len r = 0 ->
    exists w', alloc_release sz w o = Ok w' /\ dinv w' T L R ((r, None) :: O) /\ dw_mem w' = dw_mem w /\ bshape w' = bshape w.
  Proof.
    intros D Hl. destruct r as [b lo len]. cbn in Hl. subst len.
    destruct (alloc_release_ok sz _ _ _ _ _ _ _ _ D) as (w' & E & D' & Hm & HB & _). exists w'. split_and!; [done| |done..].
    apply (dinv_add_none sz); [|done]. rewrite HB. by destruct (dinv_ent sz _ _ _ _ _ _ D).
  Qed.
  Lemma iter_next_ok s T X m r (back : bool) : cinv s T (pit m r :: X) ->
    if rg_len r =? 0
    then exists d' m', iter_next sz back (fst s) m = Ok (d', m', None) /\ cinv (d', snd s) T (pit m' r :: X) /\ same s (d', snd s)
    else exists d' m' v, dw_mem (fst s) !! it_cell back r = Some v /\
      iter_next sz back (fst s) m = Ok (d', m', Some v) /\ cinv (d', snd s) T (pit m' (it_rest back r) :: X) /\ sub s (d', snd s).
  Proof.
    intros C. destruct (cinv_pit _ _ _ _ _ C) as [Hr Hi]. pose proof C as (L & LI & LG & D & G & F).
    apply Forall_inv_tail in F. destruct (rng_ok_lim _ _ Hr) as [_ Hb]. cbn in D, G.
    change (XO (pit m r :: X)) with ((r, mi_alloc m) :: XO X) in D.
    change (XS (pit m r :: X)) with (XS X) in D, G. change (XW (pit m r :: X)) with (XW X) in G.
    unfold iter_next. destruct (N.eqb_spec (rg_len r) 0) as [Hz|Hnz].
    - destruct (sit_next_none sz _ _ _ Hi Hz) as [E1 E2].
      assert ((if back then sit_next_back sz (mi_iter m) else sit_next sz (mi_iter m)) = Ok (mi_iter m, None)) as -> by (by destruct back).
      cbn. rewrite (sit_len_rel sz _ _ _ Hi). cbn. rewrite Hz. cbn.
      destruct (dinv_empty_none _ _ _ _ _ _ _ D Hz) as (w' & E & D' & Hm & HB). rewrite E. cbn.
      eexists _, _. split; [reflexivity|]. split; [|done].
      exists L, LI, LG. split_and!; [done..|]. cbn [fst]. rewrite HB. constructor; [by apply hrel_pit|done].
    - assert (exists it' p, (if back then sit_next_back sz (mi_iter m) else sit_next sz (mi_iter m)) = Ok (it', Some p) /\
        iter_rel sz (bbase (bshape (fst s)) (rg_blk r)) (it_rest back r) it' /\
        points sz (bbase (bshape (fst s)) (rg_blk r)) (fst (it_cell back r)) (snd (it_cell back r)) p) as (it' & p & E & Hi' & Hp).
      { destruct back; [by apply sit_next_back_rel|by apply sit_next_rel]. }
      rewrite E. cbn [mbind res_bind]. clear E.
      assert ((p_blk p, p_idx p) = it_cell back r) as Ec by (destruct Hp as (-> & -> & _); by destruct (it_cell back r)).
      assert (forall c, inr c r = inr c (it_rest back r) + (if decide (c = it_cell back r) then 1 else 0))%nat as Hinr.
      { intros c. destruct r as [b lo len]. unfold it_rest, it_cell. destruct back; [by apply inr_back|by apply inr_front]. }
      assert (rng_ok (bshape (fst s)) (it_rest back r)) as Hr'.
      { destruct r as [b lo len]. eapply rng_ok_sub; [exact Hr|]. cbn in *. destruct back; lia. }
      destruct (dinv_take sz _ _ _ _ _ _ (it_rest back r) _ (it_cell back r) D Hinr) as [[v Hv] D'].
      { eapply ent_ok_part; [exact (dinv_ent sz _ _ _ _ _ _ D)|done..]. }
      unfold mem_take. rewrite (mem_at_ok sz _ _ _ _ _ r (mi_alloc m) p D).
      2: { exact (dinv_ent sz _ _ _ _ _ _ D). }
      2: { rewrite Ec. pose proof (Hinr (it_cell back r)) as H1. rewrite decide_True in H1 by done.
           unfold inr in H1. destruct (in_rng (it_cell back r) r); [done|lia]. }
      2: { destruct Hp as (Hp1 & Hp2 & Hp3). split_and!; [done..|]. by rewrite Hp2. }
      rewrite Ec, Hv. cbn [mbind res_bind]. rewrite (sit_len_rel sz _ _ _ Hi'). cbn [mbind res_bind].
      set (w1 := dw_set_mem (fst s) (delete (it_cell back r) (dw_mem (fst s)))) in *.
      assert (dw_mem w1 ⊆ dw_mem (fst s)) as Hsub by apply delete_subseteq.
      destruct (N.eqb_spec (rg_len (it_rest back r)) 0) as [Hz|Hnz'].
      + destruct (dinv_empty_none _ _ _ _ _ _ _ D' Hz) as (w' & E & D2 & Hm & HB). rewrite E. cbn.
        eexists _, _, v. split; [done|]. split; [reflexivity|]. split; [|split; cbn; [by rewrite Hm|done]].
        exists L, LI, LG. split_and!; [done..|]. cbn [fst]. rewrite HB. constructor; [by apply hrel_pit|done].
      + eexists _, _, v. split; [done|]. split; [reflexivity|]. split; [|done].
        exists L, LI, LG. split_and!; [done..|]. constructor; [by apply hrel_pit|done].
  Qed.
  Lemma iter_split_off_ok s T X m r (to : bool) i : cinv s T (pit m r :: X) -> i <= rg_len r ->
    let r1 := Rng (rg_blk r) (rg_lo r) i in
    let r2 := Rng (rg_blk r) (rg_lo r + i) (rg_len r - i) in
    exists d' m1 m2, iter_split_off sz to (fst s) m i = Ok (d', (m1, m2)) /\
      cinv (d', snd s) T (pit m2 (if to then r1 else r2) :: pit m1 (if to then r2 else r1) :: X) /\ same s (d', snd s).
  Proof.
    intros C Hle r1 r2. destruct (cinv_pit _ _ _ _ _ C) as [Hr Hi]. pose proof C as (L & LI & LG & D & G & F).
    apply Forall_inv_tail in F. destruct (rng_ok_lim _ _ Hr) as [_ Hb].
    change (XO (pit m r :: X)) with ((r, mi_alloc m) :: XO X) in D.
    change (XS (pit m r :: X)) with (XS X) in D, G. change (XW (pit m r :: X)) with (XW X) in G.
    destruct (sit_split_rel sz _ _ _ i Hi Hle) as (p1 & p2 & Ef & Et & H1 & H2). fold r1 in H1. fold r2 in H2.
    set (ra := if to then r2 else r1). set (rb := if to then r1 else r2).
    set (pa := if to then p2 else p1). set (pb := if to then p1 else p2).
    assert ((if to then sit_split_off_to sz (mi_iter m) i else sit_split_off_from sz (mi_iter m) i) = Ok (pa, pb)) as E by (by destruct to).
    assert (iter_rel sz (bbase (bshape (fst s)) (rg_blk r)) ra pa) as Ha by (by destruct to).
    assert (iter_rel sz (bbase (bshape (fst s)) (rg_blk r)) rb pb) as Hpb by (by destruct to).
    assert (forall c, inr c r = inr c ra + inr c rb)%nat as Hc.
    { intros c. assert (inr c r = inr c r1 + inr c r2)%nat as ->.
      { unfold r1, r2. rewrite <- inr_split. destruct r; cbn in *. f_equal. f_equal. lia. }
      unfold ra, rb. destruct to; lia. }
    assert (rng_ok (bshape (fst s)) r1) as Hr1.
    { destruct r. eapply rng_ok_sub; [exact Hr|]. cbn in *. lia. }
    assert (rng_ok (bshape (fst s)) r2) as Hr2.
    { destruct r. eapply rng_ok_sub; [exact Hr|]. cbn in *. lia. }
    assert (rng_ok (bshape (fst s)) ra /\ rng_ok (bshape (fst s)) rb) as [Hra Hrb] by (by destruct to).
    assert (rg_blk ra = rg_blk r /\ rg_blk rb = rg_blk r) as [Ba Bb] by (by destruct to).
    assert (rg_len ra + rg_len rb = rg_len r) as Hlen by (unfold ra, rb, r1, r2; destruct to; cbn; lia).
    assert (forall oa ob, dinv (fst s) T L (XD X) ((ra, oa) :: (rb, ob) :: XO X) ->
      cinv (fst s, snd s) T (pit (MutI pb ob) rb :: pit (MutI pa oa) ra :: X)) as Hfin.
    { intros oa ob D'. exists L, LI, LG. split_and!; [|done|].
      - eapply dinv_perm; [reflexivity|apply Permutation_swap|exact D'].
      - constructor; [apply hrel_pit; by rewrite Bb|]. constructor; [apply hrel_pit; by rewrite Ba|done]. }
    unfold iter_split_off. rewrite E. cbn [mbind res_bind]. rewrite (sit_len_rel sz _ _ _ Ha). cbn [mbind res_bind].
    destruct (N.eqb_spec (rg_len ra) 0) as [Hz|Hnz].
    { eexists _, _, _. split; [reflexivity|]. split; [|done]. apply Hfin.
      eapply dinv_perm; [reflexivity|apply Permutation_swap|]. eapply (dinv_split_keep _ _ _ _ _ r); eauto; [|lia].
      intros c. rewrite Hc. lia. }
    rewrite (sit_len_rel sz _ _ _ Hpb). cbn [mbind res_bind]. destruct (N.ltb_spec 0 (rg_len rb)) as [Hpos|Hz].
    - destruct (dinv_split_clone (fst s) T L (XD X) (XO X) r (mi_alloc m) ra rb D Hc) as (h & Eh & D'); eauto; [lia..|].
      rewrite Eh. cbn. eexists _, _, _. split; [reflexivity|]. split; [|done].
      exists L, LI, LG. split_and!; [|done|].
      + eapply dinv_perm; [reflexivity|apply Permutation_swap|exact D'].
      + constructor; [apply hrel_pit; by rewrite Bb|]. constructor; [apply hrel_pit; by rewrite Ba|done].
    - eexists _, _, _. split; [reflexivity|]. split; [|done]. apply Hfin.
      eapply (dinv_split_keep _ _ _ _ _ r); eauto; lia.
  Qed.
  Lemma iter_split_off_panic s T X m r (to : bool) i : cinv s T (pit m r :: X) -> rg_len r < i ->
    iter_split_off sz to (fst s) m i = Panic.
  Proof.
    intros C Hlt. destruct (cinv_pit _ _ _ _ _ C) as [Hr Hi]. destruct (sit_split_panic sz _ _ _ i Hi Hlt) as [E1 E2].
    unfold iter_split_off. destruct to; by rewrite ?E1, ?E2.
  Qed.
End relmut.
