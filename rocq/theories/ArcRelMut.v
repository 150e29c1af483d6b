(** Conversions between shared and unique slices, and every operation on
    [ArcSliceMut] and [ArcSliceMutIter], preserve the relation with the
    specification (ArcRelInv.v). *)
From Verif Require Import Base BaseLemmas Api SliceItemsModel BinPartsModel DataModel RcModel Spec
  BinPartsProof SliceItemsProof DataInv DataSteps DataFuns GuardInv GuardSteps GuardFuns RelInv RelOps RelMut
  ArcModel ArcInv ArcRelInv ArcRelOps.
Local Open Scope N_scope.

#[local] Arguments guard_drop : simpl never.
#[local] Arguments guard_for : simpl never.
#[local] Arguments data_into_mut : simpl never.
#[local] Arguments alloc_release : simpl never.
#[local] Arguments alloc_clone : simpl never.
#[local] Arguments drop_in_place : simpl never.

Section relmut.
  Context {V : Type} (sz : N).
  Notation dworld := (dworld V).
  Notation dg := (dworld * gdworld)%type.
  Notation dinv := (@dinv V sz).
  Notation ent_ok := (@ent_ok V sz).
  Notation xinv := (@xinv V sz).
  Notation YD X := (fmap (M:=list) ar_data (YS X)).
  Notation YI X := (fmap (M:=list) ar_guard (YS X)).

  Notation ent_ok_part := (RelMut.ent_ok_part sz).
  Notation dinv_split_keep := (RelMut.dinv_split_keep sz).
  Notation dinv_split_clone := (RelMut.dinv_split_clone sz).
  Notation items_alloc_drop_ok := (RelMut.items_alloc_drop_ok sz).
  Notation dinv_empty_none := (RelMut.dinv_empty_none sz).

  (** *** Shared to unique and back *)
  Lemma arc_into_mut_ok {LI} s T XF X hs r l : xinv LI s T XF -> XF ≡ₚ parc r l :: X -> live_handles hs = xp_a <$> XF ->
    if sole_owner hs l
    then exists s' m, arc_into_mut sz s r = Ok (s', inl m) /\ xinv LI s' T (pamut m (lrng T l) :: X) /\ asame s s' /\ shrink LI s LI s'
    else arc_into_mut sz s r = Ok (s, Datatypes.inr r).
  Proof.
    intros CF HX Hhs. assert (parc r l ∈ XF) as Hin by (rewrite HX; by left).
    destruct (xinv_held sz _ _ _ _ _ CF Hin) as (L & D & G & F & Hr & Hs).
    destruct (held sz _ _ _ _ _ _ _ D G Hr Hs) as (sd & nd & ni & Hv & Hg & Hp & Hlen & Hi).
    pose proof (data_count_one sz s T XF L LI D F r l Hr Hs) as H1.
    pose proof (guard_count_one sz s T XF L LI G F r l Hr Hs) as H2.
    pose proof (sole_owner_iff hs l _ (all_strong_eq _ _ Hhs) (strong_in _ _ _ Hin)) as H3.
    destruct (ai_open _ _ _ _ _ G _ _ (rc_get_live _ _ _ _ Hi)) as [Ho _].
    destruct (gate_net _ _ _ _ false Hi Ho) as (w1 & E1 & E1' & Hi1 & _).
    unfold arc_into_mut. rewrite E1. cbn [mbind res_bind negb]. rewrite (rc_count_live _ _ _ _ Hi1).
    rewrite (rc_count_live _ _ _ _ Hv) in H1.
    assert (sd <> 0%nat) as Hpos by (intros ->; by apply (di_pos _ _ _ _ _ _ D) in Hv).
    destruct (Nat.eqb_spec (rc_count (gd_guards (snd s)) (ar_guard r)) 1) as [E|E]; cycle 1.
    { rewrite E1'. destruct (sole_owner hs l); [|by destruct s]. exfalso. apply E. tauto. }
    destruct (decide (sd = 1%nat)) as [->|Hne]; cycle 1.
    { destruct (sole_owner hs l); [exfalso; tauto|].
      unfold rc_try_unwrap. unfold live in Hv. rewrite Hv. destruct sd as [|[|sd]]; try done. cbn.
      rewrite E1'. cbn. destruct s as [[] ?]. done. }
    assert (sole_owner hs l = true) as -> by tauto.
    apply H2 in E as [_ Hbelow]. clear H1 H2 H3.
    unfold rc_try_unwrap. pose proof Hv as Hv'. unfold live in Hv'. rewrite Hv'. cbn [mbind res_bind].
    assert (xinv LI s T (parc r l :: X)) as C by (by eapply xinv_perm).
    assert (dinv (fst s) T L (ar_data r :: YD X) (YO X)) as D'.
    { eapply dinv_perm; [..|exact D].
      - change (ar_data r :: YD X) with (YD (parc r l :: X)). apply fmap_Permutation. unfold YS. by rewrite HX.
      - change (YO X) with (YO (parc r l :: X)). unfold YO. by rewrite HX. }
    assert (ainv (snd s) L LI (ar_guard r :: YI X) (YW X)) as G'.
    { eapply ainv_perm; [..|exact G].
      - change (ar_guard r :: YI X) with (YI (parc r l :: X)). apply fmap_Permutation. unfold YS. by rewrite HX.
      - change (YW X) with (YW (parc r l :: X)). unfold YW. by rewrite HX. }
    assert (Forall (xrel sz (bshape (fst s)) T L LI) X) as F'.
    { rewrite HX in F. by apply Forall_inv_tail in F. }
    destruct Hs as [Hd Hi'].
    destruct (data_into_mut_ok sz _ _ _ _ _ _ _ _ D' Hv Hd) as (d & Ed & D2 & Hm & HB).
    { intros x lx side (r' & -> & Hr')%elem_of_list_fmap Hlx Ha.
      assert (r' ∈ YS XF) as Hr2.
      { unfold YS in *. rewrite HX. by right. }
      pose proof (rel_strong sz _ _ _ _ _ F) as HS. apply elem_of_list_lookup in Hr2 as [i Hi2].
      destruct (Forall2_lookup_l _ _ _ _ _ HS Hi2) as (l' & Hl' & Hd' & _). rewrite Hlx in Hd'. injection Hd' as <-.
      assert (lx = l) as ->.
      { apply Hbelow; [by eapply elem_of_list_lookup_2|]. eapply anc_trans; [apply anc_child|done]. }
      apply (lchild_ne l side). apply anc_antisym; [done|apply anc_child]. }
    destruct (guard_drop_ok _ _ _ _ _ _ G') as (g & Eg & G2 & K).
    rewrite Ed. cbn [mbind res_bind]. rewrite E1'. cbn [mbind res_bind]. rewrite Eg. cbn [mbind res_bind].
    eexists _, _. split; [reflexivity|]. split; [|by split].
    exists L. rewrite <- Hg in *. split_and!; [done|done|].
    constructor; [|cbn [fst]; by rewrite HB]. unfold xrel. cbn -[nrng]. split; [done|]. rewrite HB.
    destruct (dinv_ent sz _ _ _ _ _ _ D2) as [(base & len & Hbl & _) _]. cbn in Hbl. rewrite HB in Hbl.
    split; [by eapply lookup_lt_Some|]. split; [done|]. done.
  Qed.

  Lemma arc_mut_into_immut_ok {LI} s T X m r : xinv LI s T (pamut m r :: X) ->
    exists s' r' LI', arc_mut_into_immut sz s m = Ok (s', r') /\
      xinv LI' s' (T ++ [r]) (parc r' (Lbl (length T) []) :: X) /\ asame s s' /\ grow LI s LI' s'.
  Proof.
    intros (L & D & G & F).
    pose proof (Forall_inv F) as Hm. unfold xrel in Hm. cbn in Hm. destruct Hm as (_ & Hb & Hp & Hl).
    destruct (new_root_ok sz (fst s) T L (YD X) (YO X) r (ms_alloc m) (si_ptr (ms_items m)) D Hp) as (h & E & Hlen & D').
    set (l0 := Lbl (length T) []) in *. set (c := length (dw_datas (fst s))) in *.
    assert (ainv (gd_new_data (snd s) None) (L ++ [l0]) LI (YI X) (YW X)) as G'.
    { apply (ainv_new_data _ _ _ _ _ _ None G); [|done].
      intros Hin. apply (di_lab _ _ _ _ _ _ D) in Hin. cbn in Hin. lia. }
    apply Forall_inv_tail in F.
    assert (Forall (xrel sz (bshape (dw_set_datas (fst s) h)) (T ++ [r]) (L ++ [l0]) LI) X) as F'.
    { eapply Forall_impl; [exact F|]. intros p Hrel. apply (xrel_mono sz _ [] _ [r] _ [l0] _ []) in Hrel. by rewrite !app_nil_r in Hrel. }
    assert ((L ++ [l0]) !! c = Some l0) as Hc.
    { unfold c. rewrite <- (di_len _ _ _ _ _ _ D). by apply list_lookup_middle. }
    destruct (arc_from_data_ok sz (dw_set_datas (fst s) h) (gd_new_data (snd s) None) (T ++ [r]) X (L ++ [l0]) LI c l0 D' G')
      as (g' & r' & LI' & E' & C' & HL & K); [|done|done|].
    - eapply up_ok_gen; [exact D'|]. intros x lx Hx Hlx Hpx Hno. exfalso. apply elem_of_cons in Hx as [->|Hx].
      + rewrite Hc in Hlx. injection Hlx as <-. done.
      + destruct (held_guard sz _ _ _ _ _ _ _ _ _ F' G' Hx Hlx) as (j & k & Hj & Hlj). by eapply Hno.
    - eexists _, r', LI'. split; [unfold arc_mut_into_immut; by rewrite Hl, E, E'|]. split; [done|]. split; [done|]. by split.
  Qed.

  (** *** New buffers *)
  Lemma new_block_rel {LI} s T X base vals mk w1 p len :
    xinv LI s T X -> N.of_nat (length vals) < usize_lim ->
    new_block (fst s) base vals = (w1, p, len) ->
    (sz <> 0 -> len <> 0 -> mk = true) ->
    let b := length (bshape (fst s)) in
    let w2 := if (mk : bool) then fst (alloc_new w1 p len) else w1 in
    let o := if mk then Some (length (dw_allocs (fst s))) else None in
    len = N.of_nat (length vals) /\
    xinv LI (w2, snd s) T (pamut (MutS (SliceItems p len) o) (Rng b 0 len) :: X) /\
    dw_mem w2 = stored b vals (dw_mem (fst s)) /\
    bshape w2 = bshape (fst s) ++ [(base, len)].
  Proof.
    intros (L & D & G & F) Hlim E Hmk. cbn zeta.
    destruct (new_block_ok sz _ _ _ _ _ _ _ mk _ _ _ D Hlim E Hmk) as (Hlen & D' & Hp & Hm & _ & HB & _).
    assert (length (bshape (fst s)) = length (dw_blocks (fst s))) as Eb by (unfold bshape; by rewrite fmap_length).
    rewrite Eb. split_and!; [done| |done..].
    exists L. split_and!; [done..|]. constructor.
    - unfold xrel. cbn -[alloc_new]. split; [done|]. split; [|by split]. rewrite HB, app_length, Eb. cbn. lia.
    - cbn [fst]. rewrite HB. eapply Forall_impl; [exact F|]. intros q Hq.
      apply (xrel_mono sz _ [(base, len)] _ [] _ [] _ []) in Hq. by rewrite !app_nil_r in Hq.
  Qed.
  Lemma arc_from_boxed_slice_ok {LI} s T X base vals : xinv LI s T X -> N.of_nat (length vals) < usize_lim ->
    let b := length (bshape (fst s)) in
    exists s' r LI', arc_from_boxed_slice sz s base vals = Ok (s', r) /\
      xinv LI' s' (T ++ [Rng b 0 (N.of_nat (length vals))]) (parc r (Lbl (length T) []) :: X) /\
      dw_mem (fst s') = stored b vals (dw_mem (fst s)) /\
      bshape (fst s') = bshape (fst s) ++ [(base, N.of_nat (length vals))] /\ grow LI s LI' s'.
  Proof.
    intros C Hlim. cbn zeta. destruct (new_block (fst s) base vals) as [[w1 p] len] eqn:E.
    destruct (new_block_rel s T X base vals (negb (len =? 0)) w1 p len C Hlim E) as (Hlen & C' & Hm & HB).
    { intros _ Hne. destruct (N.eqb_spec len 0); done. }
    destruct (arc_mut_into_immut_ok _ _ _ _ _ C') as (s' & r & LI' & E' & C2 & [Hm2 HB2] & W). cbn [fst snd] in *.
    exists s', r, LI'. rewrite <- Hlen. split_and!.
    - unfold arc_from_boxed_slice. rewrite E. rewrite <- E'. clear E'. unfold data_from_boxed_slice, arc_mut_into_immut.
      destruct (N.eqb_spec len 0); [done|]. cbn. injection E as <- <- <-. done.
    - done.
    - by rewrite Hm2.
    - by rewrite HB2.
    - exact W.
  Qed.
  Lemma arc_mut_from_boxed_slice_ok {LI} s T X base vals : xinv LI s T X -> N.of_nat (length vals) < usize_lim ->
    let b := length (bshape (fst s)) in
    exists s' m, arc_mut_from_boxed_slice sz s base vals = (s', m) /\
      xinv LI s' T (pamut m (Rng b 0 (N.of_nat (length vals))) :: X) /\
      dw_mem (fst s') = stored b vals (dw_mem (fst s)) /\
      bshape (fst s') = bshape (fst s) ++ [(base, N.of_nat (length vals))] /\ gd_guards (snd s') = gd_guards (snd s).
  Proof.
    intros C Hlim. cbn zeta. destruct (new_block (fst s) base vals) as [[w1 p] len] eqn:E.
    destruct (new_block_rel s T X base vals (negb ((len =? 0) || (sz =? 0))) w1 p len C Hlim E) as (Hlen & C' & Hm & HB).
    { intros ? Hne. destruct (N.eqb_spec len 0), (N.eqb_spec sz 0); done. }
    rewrite <- Hlen. eexists _, _. split; [|split_and!; [exact C'|exact Hm|exact HB|done]].
    unfold arc_mut_from_boxed_slice, split_alloc_from_items. rewrite E.
    destruct ((len =? 0) || (sz =? 0)); [done|]. cbn. injection E as <- <- <-. done.
  Qed.

  (** *** Splitting and dropping owned ranges *)
  (** An owned handle: its range, and how it is reached. *)
  Lemma own_rng_ok {LI} s T X p r o : xinv LI s T (p :: X) -> xp_o p = [(r, o)] -> rng_ok (bshape (fst s)) r.
  Proof.
    intros (L & D & _ & _) Ho. unfold YO in D. cbn in D. rewrite Ho in D. cbn in D.
    by destruct (dinv_ent sz _ _ _ _ _ _ D) as [H _].
  Qed.
  (** Replace the handle [p], which owns ranges only, by handles [q]. *)
  Lemma xinv_owner {LI} s T X p q d' : xinv LI s T (p :: X) ->
    xstrong (xp_c p) = [] -> xweak (xp_c p) = [] ->
    YS q = [] -> YW q = [] -> bshape d' = bshape (fst s) ->
    (forall L, dinv (fst s) T L (YD X) (xp_o p ++ YO X) -> dinv d' T L (YD X) (YO q ++ YO X)) ->
    (forall L, Forall (xrel sz (bshape (fst s)) T L LI) q) ->
    xinv LI (d', snd s) T (q ++ X).
  Proof.
    intros (L & D & G & F) Hs Hw Hs' Hw' HB HD HF. exists L.
    unfold YS, YW in D, G. cbn in D, G. rewrite Hs in D, G. rewrite Hw in G. cbn in D, G.
    rewrite YS_app, YW_app, YO_app, Hs', Hw'. cbn [fst snd app]. split_and!.
    - apply HD; done.
    - exact G.
    - apply Forall_inv_tail in F. rewrite HB. apply Forall_app. split; [apply HF|done].
  Qed.

  Lemma xrel_pamut B T L LI m r : xrel sz B T L LI (pamut m r) <->
    (rg_blk r < length B)%nat /\ items_rel sz (bbase B (rg_blk r)) r (ms_items m).
  Proof. unfold xrel. cbn. tauto. Qed.
  Lemma xrel_pait B T L LI m r : xrel sz B T L LI (pait m r) <->
    (rg_blk r < length B)%nat /\ iter_rel sz (bbase B (rg_blk r)) r (mi_iter m).
  Proof. unfold xrel. cbn. tauto. Qed.
  Lemma xinv_pamut {LI} s T X m r : xinv LI s T (pamut m r :: X) ->
    rng_ok (bshape (fst s)) r /\ items_rel sz (bbase (bshape (fst s)) (rg_blk r)) r (ms_items m).
  Proof.
    intros C. split; [by eapply own_rng_ok|]. destruct C as (L & _ & _ & F).
    apply Forall_inv, xrel_pamut in F. apply F.
  Qed.
  Lemma xinv_pait {LI} s T X m r : xinv LI s T (pait m r :: X) ->
    rng_ok (bshape (fst s)) r /\ iter_rel sz (bbase (bshape (fst s)) (rg_blk r)) r (mi_iter m).
  Proof.
    intros C. split; [by eapply own_rng_ok|]. destruct C as (L & _ & _ & F).
    apply Forall_inv, xrel_pait in F. apply F.
  Qed.

  (** *** ArcSliceMut *)
  Lemma mut_split_off_ok {LI} s T X m r (side : bool) : xinv LI s T (pamut m r :: X) ->
    exists d' m1 m2, mut_split_off sz side (fst s) m = Ok (d', (m1, m2)) /\
      xinv LI (d', snd s) T (pamut m2 (half side r) :: pamut m1 (half (negb side) r) :: X) /\ asame s (d', snd s).
  Proof.
    intros C. destruct (xinv_pamut _ _ _ _ _ C) as [Hr Hi].
    set (x := if side then si_split_off_right sz (ms_items m) else si_split_off_left sz (ms_items m)).
    assert (items_rel sz (bbase (bshape (fst s)) (rg_blk r)) (half (negb side) r) (fst x) /\
            items_rel sz (bbase (bshape (fst s)) (rg_blk r)) (half side r) (snd x)) as [H1 H2].
    { destruct side; [by apply si_split_off_right_rel|by apply si_split_off_left_rel]. }
    unfold mut_split_off. fold x. destruct x as [self new]. cbn [fst snd] in *.
    assert (forall sd, rg_blk (half sd r) = rg_blk r) as Hblk by (by intros []).
    assert (forall c, inr c r = inr c (half (negb side) r) + inr c (half side r))%nat as Hc.
    { intros c. rewrite (inr_half c r). destruct side; cbn; lia. }
    assert (forall sd, rg_len (half sd r) <> 0 -> rg_len r <> 0) as Hlen.
    { intros sd. pose proof (half_len_sum r). destruct sd; lia. }
    pose proof (rng_ok_half _ side _ Hr) as Hra. pose proof (rng_ok_half _ (negb side) _ Hr) as Hrb.
    destruct (rng_ok_lim _ _ Hr) as [_ Hb].
    destruct H2 as [H2 H2']. rewrite H2'.
    assert (forall o (L : list label), Forall (xrel sz (bshape (fst s)) T L LI)
      [pamut (MutS new o) (half side r); pamut (MutS self (ms_alloc m)) (half (negb side) r)]) as HF.
    { intros o L. constructor; [|constructor; [|constructor]]; apply xrel_pamut; rewrite Hblk; (split; [done|]); [by split|done]. }
    destruct (N.ltb_spec 0 (rg_len (half side r))) as [Hpos|Hz].
    - assert (exists h, alloc_clone (fst s) (ms_alloc m) = Ok (dw_set_allocs (fst s) h) /\
        xinv LI (dw_set_allocs (fst s) h, snd s) T ([pamut (MutS new (ms_alloc m)) (half side r); pamut (MutS self (ms_alloc m)) (half (negb side) r)] ++ X)) as (h & E & C').
      { pose proof C as (L & D & _ & _).
        destruct (dinv_split_clone (fst s) T L (YD X) (YO X) r (ms_alloc m) (half (negb side) r) (half side r) D Hc) as (h & E & _); eauto.
        exists h. split; [done|]. eapply xinv_owner; [exact C|done..| |apply HF].
        intros L' D'. cbn.
        destruct (dinv_split_clone (fst s) T L' (YD X) (YO X) r (ms_alloc m) (half (negb side) r) (half side r) D' Hc) as (h' & E' & D2); eauto.
        rewrite E in E'. injection E' as E'. assert (dw_set_allocs (fst s) h = dw_set_allocs (fst s) h') as -> by (unfold dw_set_allocs; by rewrite E').
        eapply dinv_perm; [reflexivity|apply Permutation_swap|exact D2]. }
      rewrite E. cbn. eexists _, _, _. split; [reflexivity|]. split; [exact C'|done].
    - cbn. eexists _, _, _. split; [reflexivity|]. split; [|done].
      eapply (xinv_owner s T X (pamut m r) [pamut (MutS new None) (half side r); pamut (MutS self (ms_alloc m)) (half (negb side) r)]); [exact C|done..| |apply HF].
      intros L' D'. cbn. eapply dinv_perm; [reflexivity|apply Permutation_swap|].
      eapply (dinv_split_keep _ _ _ _ _ r); eauto. lia.
  Qed.
  Lemma mut_drop_ok {LI} s T X m r : xinv LI s T (pamut m r :: X) ->
    exists d', mut_drop sz (fst s) m = Ok d' /\ xinv LI (d', snd s) T X /\ asub s (d', snd s).
  Proof.
    intros C. destruct (xinv_pamut _ _ _ _ _ C) as [Hr [Hp Hl]]. pose proof C as (L & D & G & F).
    destruct (items_alloc_drop_ok (fst s) T L (YD X) (YO X) r (ms_alloc m) (si_ptr (ms_items m)) D) as (d' & E & D' & Hm & HB); [done|].
    exists d'. unfold mut_drop. rewrite Hl. split; [done|]. split; [|done].
    exists L. split_and!; [done..|]. cbn [fst]. rewrite HB. by apply Forall_inv_tail in F.
  Qed.

  (** *** ArcSliceMutIter *)
  Lemma mut_into_iter_ok {LI} s T X m r : xinv LI s T (pamut m r :: X) -> xinv LI s T (pait (mut_into_iter sz m) r :: X).
  Proof.
    intros C. destruct (xinv_pamut _ _ _ _ _ C) as [Hr Hi]. destruct (rng_ok_lim _ _ Hr) as [Hlim Hb].
    destruct s as [d g].
    apply (xinv_owner (d, g) T X (pamut m r) [pait (mut_into_iter sz m) r]); try done.
    intros L. constructor; [|done]. apply xrel_pait. split; [done|]. by apply sit_new_rel.
  Qed.
  Lemma iter_drop_ok {LI} s T X m r : xinv LI s T (pait m r :: X) ->
    exists d', iter_drop sz (fst s) m = Ok d' /\ xinv LI (d', snd s) T X /\ asub s (d', snd s).
  Proof.
    intros C. destruct (xinv_pait _ _ _ _ _ C) as [Hr Hi]. pose proof C as (L & D & G & F).
    destruct (sit_as_slice_rel sz _ _ _ Hi) as (p & Ep & Hp).
    destruct (items_alloc_drop_ok (fst s) T L (YD X) (YO X) r (mi_alloc m) p D) as (d' & E & D' & Hm & HB); [done|].
    exists d'. unfold iter_drop. rewrite Ep. cbn. split; [done|]. split; [|done].
    exists L. split_and!; [done..|]. cbn [fst]. rewrite HB. by apply Forall_inv_tail in F.
  Qed.
  Lemma iter_next_ok {LI} s T X m r (back : bool) : xinv LI s T (pait m r :: X) ->
    if rg_len r =? 0
    then exists d' m', iter_next sz back (fst s) m = Ok (d', m', None) /\ xinv LI (d', snd s) T (pait m' r :: X) /\ asame s (d', snd s)
    else exists d' m' v, dw_mem (fst s) !! it_cell back r = Some v /\
      iter_next sz back (fst s) m = Ok (d', m', Some v) /\ xinv LI (d', snd s) T (pait m' (it_rest back r) :: X) /\ asub s (d', snd s).
  Proof.
    intros C. destruct (xinv_pait _ _ _ _ _ C) as [Hr Hi]. pose proof C as (L & D & G & F).
    apply Forall_inv_tail in F. destruct (rng_ok_lim _ _ Hr) as [_ Hb]. cbn in D, G.
    change (YO (pait m r :: X)) with ((r, mi_alloc m) :: YO X) in D.
    change (YS (pait m r :: X)) with (YS X) in D, G. change (YW (pait m r :: X)) with (YW X) in G.
    unfold iter_next. destruct (N.eqb_spec (rg_len r) 0) as [Hz|Hnz].
    - destruct (sit_next_none sz _ _ _ Hi Hz) as [E1 E2].
      assert ((if back then sit_next_back sz (mi_iter m) else sit_next sz (mi_iter m)) = Ok (mi_iter m, None)) as -> by (by destruct back).
      cbn. rewrite (sit_len_rel sz _ _ _ Hi). cbn. rewrite Hz. cbn.
      destruct (dinv_empty_none _ _ _ _ _ _ _ D Hz) as (w' & E & D' & Hm & HB). rewrite E. cbn.
      eexists _, _. split; [reflexivity|]. split; [|done].
      exists L. split_and!; [done..|]. cbn [fst]. rewrite HB. constructor; [by apply xrel_pait|done].
    - assert (exists it' p, (if back then sit_next_back sz (mi_iter m) else sit_next sz (mi_iter m)) = Ok (it', Some p) /\
        iter_rel sz (bbase (bshape (fst s)) (rg_blk r)) (it_rest back r) it' /\
        points sz (bbase (bshape (fst s)) (rg_blk r)) (fst (it_cell back r)) (snd (it_cell back r)) p) as (it' & p & E & Hi' & Hp).
      { destruct back; [by apply sit_next_back_rel|by apply sit_next_rel]. }
      rewrite E. cbn [mbind res_bind]. clear E.
      assert ((p_blk p, p_idx p) = it_cell back r) as Ec by (destruct Hp as (-> & -> & _); by destruct (it_cell back r)).
      assert (forall c, inr c r = inr c (it_rest back r) + (if decide (c = it_cell back r) then 1 else 0))%nat as Hinr.
      { intros c. destruct r as [b lo len]. unfold it_rest, it_cell. destruct back; [by apply inr_back|by apply inr_front]. }
      assert (rng_ok (bshape (fst s)) (it_rest back r)) as Hr'.
      { destruct r as [b lo len]. eapply rng_ok_sub; [exact Hr|]. cbn in *. destruct back; lia. }
      destruct (dinv_take sz _ _ _ _ _ _ (it_rest back r) _ (it_cell back r) D Hinr) as [[v Hv] D'].
      { eapply ent_ok_part; [exact (dinv_ent sz _ _ _ _ _ _ D)|done..]. }
      unfold mem_take. rewrite (mem_at_ok sz _ _ _ _ _ r (mi_alloc m) p D).
      2: { exact (dinv_ent sz _ _ _ _ _ _ D). }
      2: { rewrite Ec. pose proof (Hinr (it_cell back r)) as H1. rewrite decide_True in H1 by done.
           unfold inr in H1. destruct (in_rng (it_cell back r) r); [done|lia]. }
      2: { destruct Hp as (Hp1 & Hp2 & Hp3). split_and!; [done..|]. by rewrite Hp2. }
      rewrite Ec, Hv. cbn [mbind res_bind]. rewrite (sit_len_rel sz _ _ _ Hi'). cbn [mbind res_bind].
      set (w1 := dw_set_mem (fst s) (delete (it_cell back r) (dw_mem (fst s)))) in *.
      assert (dw_mem w1 ⊆ dw_mem (fst s)) as Hsub by apply delete_subseteq.
      destruct (N.eqb_spec (rg_len (it_rest back r)) 0) as [Hz|Hnz'].
      + destruct (dinv_empty_none _ _ _ _ _ _ _ D' Hz) as (w' & E & D2 & Hm & HB). rewrite E. cbn.
        eexists _, _, v. split; [done|]. split; [reflexivity|]. split; [|split; cbn; [by rewrite Hm|done]].
        exists L. split_and!; [done..|]. cbn [fst]. rewrite HB. constructor; [by apply xrel_pait|done].
      + eexists _, _, v. split; [done|]. split; [reflexivity|]. split; [|done].
        exists L. split_and!; [done..|]. constructor; [by apply xrel_pait|done].
  Qed.
  Lemma iter_split_off_ok {LI} s T X m r (to : bool) i : xinv LI s T (pait m r :: X) -> i <= rg_len r ->
    let r1 := Rng (rg_blk r) (rg_lo r) i in
    let r2 := Rng (rg_blk r) (rg_lo r + i) (rg_len r - i) in
    exists d' m1 m2, iter_split_off sz to (fst s) m i = Ok (d', (m1, m2)) /\
      xinv LI (d', snd s) T (pait m2 (if to then r1 else r2) :: pait m1 (if to then r2 else r1) :: X) /\ asame s (d', snd s).
  Proof.
    intros C Hle r1 r2. destruct (xinv_pait _ _ _ _ _ C) as [Hr Hi]. pose proof C as (L & D & G & F).
    apply Forall_inv_tail in F. destruct (rng_ok_lim _ _ Hr) as [_ Hb].
    change (YO (pait m r :: X)) with ((r, mi_alloc m) :: YO X) in D.
    change (YS (pait m r :: X)) with (YS X) in D, G. change (YW (pait m r :: X)) with (YW X) in G.
    destruct (sit_split_rel sz _ _ _ i Hi Hle) as (p1 & p2 & Ef & Et & H1 & H2). fold r1 in H1. fold r2 in H2.
    set (ra := if to then r2 else r1). set (rb := if to then r1 else r2).
    set (pa := if to then p2 else p1). set (pb := if to then p1 else p2).
    assert ((if to then sit_split_off_to sz (mi_iter m) i else sit_split_off_from sz (mi_iter m) i) = Ok (pa, pb)) as E by (by destruct to).
    assert (iter_rel sz (bbase (bshape (fst s)) (rg_blk r)) ra pa) as Ha by (by destruct to).
    assert (iter_rel sz (bbase (bshape (fst s)) (rg_blk r)) rb pb) as Hpb by (by destruct to).
    assert (forall c, inr c r = inr c ra + inr c rb)%nat as Hc.
    { intros c. assert (inr c r = inr c r1 + inr c r2)%nat as ->.
      { unfold r1, r2. rewrite <- inr_split. destruct r; cbn in *. f_equal. f_equal. lia. }
      unfold ra, rb. destruct to; lia. }
    assert (rng_ok (bshape (fst s)) r1) as Hr1.
    { destruct r. eapply rng_ok_sub; [exact Hr|]. cbn in *. lia. }
    assert (rng_ok (bshape (fst s)) r2) as Hr2.
    { destruct r. eapply rng_ok_sub; [exact Hr|]. cbn in *. lia. }
    assert (rng_ok (bshape (fst s)) ra /\ rng_ok (bshape (fst s)) rb) as [Hra Hrb] by (by destruct to).
    assert (rg_blk ra = rg_blk r /\ rg_blk rb = rg_blk r) as [Ba Bb] by (by destruct to).
    assert (rg_len ra + rg_len rb = rg_len r) as Hlen by (unfold ra, rb, r1, r2; destruct to; cbn; lia).
    assert (forall oa ob, dinv (fst s) T L (YD X) ((ra, oa) :: (rb, ob) :: YO X) ->
      xinv LI (fst s, snd s) T (pait (MutI pb ob) rb :: pait (MutI pa oa) ra :: X)) as Hfin.
    { intros oa ob D'. exists L. split_and!; [|done|].
      - eapply dinv_perm; [reflexivity|apply Permutation_swap|exact D'].
      - constructor; [apply xrel_pait; by rewrite Bb|]. constructor; [apply xrel_pait; by rewrite Ba|done]. }
    unfold iter_split_off. rewrite E. cbn [mbind res_bind]. rewrite (sit_len_rel sz _ _ _ Ha). cbn [mbind res_bind].
    destruct (N.eqb_spec (rg_len ra) 0) as [Hz|Hnz].
    { eexists _, _, _. split; [reflexivity|]. split; [|done]. apply Hfin.
      eapply dinv_perm; [reflexivity|apply Permutation_swap|]. eapply (dinv_split_keep _ _ _ _ _ r); eauto; [|lia].
      intros c. rewrite Hc. lia. }
    rewrite (sit_len_rel sz _ _ _ Hpb). cbn [mbind res_bind]. destruct (N.ltb_spec 0 (rg_len rb)) as [Hpos|Hz].
    - destruct (dinv_split_clone (fst s) T L (YD X) (YO X) r (mi_alloc m) ra rb D Hc) as (h & Eh & D'); eauto; [lia..|].
      rewrite Eh. cbn. eexists _, _, _. split; [reflexivity|]. split; [|done].
      exists L. split_and!; [|done|].
      + eapply dinv_perm; [reflexivity|apply Permutation_swap|exact D'].
      + constructor; [apply xrel_pait; by rewrite Bb|]. constructor; [apply xrel_pait; by rewrite Ba|done].
    - eexists _, _, _. split; [reflexivity|]. split; [|done]. apply Hfin.
      eapply (dinv_split_keep _ _ _ _ _ r); eauto; lia.
  Qed.
  Lemma iter_split_off_panic {LI} s T X m r (to : bool) i : xinv LI s T (pait m r :: X) -> rg_len r < i ->
    iter_split_off sz to (fst s) m i = Panic.
  Proof.
    intros C Hlt. destruct (xinv_pait _ _ _ _ _ C) as [Hr Hi]. destruct (sit_split_panic sz _ _ _ i Hi Hlt) as [E1 E2].
    unfold iter_split_off. destruct to; by rewrite ?E1, ?E2.
  Qed.
End relmut.
