(** Every operation on [RcSliceMutParts] and [RcSliceParts] preserves the
    relation with the specification (RelInv.v). *)
From Verif Require Import Base BaseLemmas Api SliceItemsModel BinPartsModel DataModel RcModel Spec
  BinPartsProof SliceItemsProof DataInv DataSteps DataFuns GuardInv GuardSteps GuardFuns RelInv RelOps RelMut.
Local Open Scope N_scope.

#[local] Arguments alloc_release : simpl never.
#[local] Arguments alloc_clone : simpl never.

Section mparts.
  Context {V : Type} (sz : N).
  Notation dworld := (dworld V).
  Notation dg := (dworld * gworld)%type.
  Notation dinv := (@dinv V sz).
  Notation cinv := (@cinv V sz).
  Notation XD X := (fmap (M:=list) rs_data (XS X)).
  Notation XI X := (fmap (M:=list) rs_img (XS X)).

  (** The leaves left. *)
  Definition mleft (k : nat) (r : rng) (f b : N) : list rng :=
    take (N.to_nat (2 ^ N.of_nat k - f - b)) (drop (N.to_nat f) (rng_leaves k r)).
  Definition pmp (m : mutparts) (r : rng) (k : nat) (f b : N) : hpair :=
    HP (HMParts m) (AMParts (mleft k r f b)) [(seg_rng k r f b, mp_alloc m)].
  Lemma hrel_pmp B T L LI LG m r k f b : (rg_blk r < length B)%nat ->
    sip_rel sz (bbase B (rg_blk r)) r k f b (mp_iter m) -> hrel sz B T L LI LG (pmp m r k f b).
  Proof. intros Hb Hs. unfold hrel. cbn. by exists r, k, f, b. Qed.
  Lemma cinv_pmp s T X m rs o : cinv s T (HP (HMParts m) (AMParts rs) o :: X) ->
    exists r k f b, HP (HMParts m) (AMParts rs) o = pmp m r k f b /\
      (rg_blk r < length (bshape (fst s)))%nat /\ rng_ok (bshape (fst s)) (seg_rng k r f b) /\
      sip_rel sz (bbase (bshape (fst s)) (rg_blk r)) r k f b (mp_iter m).
  Proof.
    intros C. pose proof C as (L & LI & LG & D & G & F). apply Forall_inv in F. unfold hrel in F. cbn in F.
    destruct F as (r & k & f & b & -> & Hb & Hs & ->). exists r, k, f, b. split_and!; try done. by eapply own_rng_ok.
  Qed.

  Lemma seg_rng_00 k r : seg_rng k r 0 0 = r.
  Proof. unfold seg_rng. rewrite off_0, (N.sub_0_r (2 ^ _)), off_end, N.sub_0_r, N.add_0_r. by destruct r. Qed.
  Lemma mleft_00 k r : mleft k r 0 0 = rng_leaves k r.
  Proof.
    unfold mleft. rewrite !N.sub_0_r. cbn [N.to_nat drop]. apply take_ge.
    pose proof (rng_leaves_length k r). lia.
  Qed.
  Lemma mut_split_into_parts_ok s T X m r k : cinv s T (pmut m r :: X) -> 2 ^ N.of_nat k < usize_lim ->
    exists m', mut_split_into_parts m (2 ^ N.of_nat k) = Ok m' /\ cinv s T (pmp m' r k 0 0 :: X).
  Proof.
    intros C Hk. destruct (cinv_pmut sz _ _ _ _ _ C) as [Hr Hi]. destruct (rng_ok_lim _ _ Hr) as [Hlim Hb].
    destruct (sip_new_ok sz _ _ _ k Hi Hlim Hk) as (it & E & Hit).
    exists (MutP it (ms_alloc m)). split; [unfold mut_split_into_parts; by rewrite E|].
    destruct s as [d g].
    apply (cinv_owner sz (d, g) T X (pmut m r) [pmp (MutP it (ms_alloc m)) r k 0 0]); try done.
    - intros L D. change (XO [pmp (MutP it (ms_alloc m)) r k 0 0]) with [(seg_rng k r 0 0, ms_alloc m)].
      by rewrite seg_rng_00.
    - intros L LI LG. constructor; [|done]. by apply hrel_pmp.
  Qed.
  Lemma mut_split_into_parts_panic m n : log2_exact n = None -> mut_split_into_parts m n = Panic.
  Proof. intros H. unfold mut_split_into_parts. by rewrite sip_new_panic. Qed.

  Lemma mparts_drop_ok s T X m r k f b : cinv s T (pmp m r k f b :: X) ->
    sip_rel sz (bbase (bshape (fst s)) (rg_blk r)) r k f b (mp_iter m) ->
    exists d', mparts_drop sz (fst s) m = Ok d' /\ cinv (d', snd s) T X /\ sub s (d', snd s).
  Proof.
    intros C Hs. pose proof C as (L & LI & LG & D & G & F).
    destruct (sip_as_slice_rel sz _ _ _ _ _ _ Hs) as (p & Ep & Hp).
    destruct (items_alloc_drop_ok sz (fst s) T L (XD X) (XO X) (seg_rng k r f b) (mp_alloc m) p D) as (d' & E & D' & Hm & HB).
    { intros Hne. apply Hp. destruct Hs as (_ & _ & _ & _ & _ & Hle & _).
      destruct (decide (f + b = 2 ^ N.of_nat k)) as [Heq|]; [|lia]. exfalso. apply Hne. cbn.
      replace (2 ^ N.of_nat k - b) with f by lia. lia. }
    exists d'. unfold mparts_drop. rewrite Ep. cbn [mbind res_bind]. split; [done|]. split; [|done].
    exists L, LI, LG. split_and!; [done..|]. cbn [fst]. rewrite HB. by apply Forall_inv_tail in F.
  Qed.

  (** Part handed out and state left, from either end. *)
  Definition mp_leaf (back : bool) (k : nat) (r : rng) (f b : N) : rng :=
    leaf_rng k r (if back then 2 ^ N.of_nat k - 1 - b else f).
  Definition mp_f (back : bool) (f : N) : N := if back then f else f + 1.
  Definition mp_b (back : bool) (b : N) : N := if back then b + 1 else b.
  Lemma seg_take (back : bool) k r f b c : f + b < 2 ^ N.of_nat k ->
    (inr c (seg_rng k r f b) = inr c (mp_leaf back k r f b) + inr c (seg_rng k r (mp_f back f) (mp_b back b)))%nat /\
    rg_len (mp_leaf back k r f b) + rg_len (seg_rng k r (mp_f back f) (mp_b back b)) = rg_len (seg_rng k r f b) /\
    (forall B, rng_ok B (seg_rng k r f b) -> rng_ok B (mp_leaf back k r f b) /\ rng_ok B (seg_rng k r (mp_f back f) (mp_b back b))).
  Proof.
    intros Hlt. unfold mp_leaf, mp_f, mp_b, leaf_rng, seg_rng. cbn [rg_len].
    destruct back.
    - replace (2 ^ N.of_nat k - 1 - b + 1) with (2 ^ N.of_nat k - b) by lia.
      replace (2 ^ N.of_nat k - (b + 1)) with (2 ^ N.of_nat k - 1 - b) by lia.
      pose proof (off_mono k (rg_len r) f (2 ^ N.of_nat k - 1 - b) ltac:(lia)) as H1.
      pose proof (off_mono k (rg_len r) (2 ^ N.of_nat k - 1 - b) (2 ^ N.of_nat k - b) ltac:(lia)) as H2.
      revert H1 H2. generalize (off k (rg_len r) f), (off k (rg_len r) (2 ^ N.of_nat k - 1 - b)), (off k (rg_len r) (2 ^ N.of_nat k - b)).
      intros x y z H1 H2. split_and!.
      + replace (z - x) with ((y - x) + (z - y)) by lia. rewrite inr_split.
        replace (rg_lo r + x + (y - x)) with (rg_lo r + y) by lia. lia.
      + lia.
      + intros B HB. split; (eapply rng_ok_sub; [exact HB|lia]).
    - pose proof (off_mono k (rg_len r) f (f + 1) ltac:(lia)) as H1.
      pose proof (off_mono k (rg_len r) (f + 1) (2 ^ N.of_nat k - b) ltac:(lia)) as H2.
      revert H1 H2. generalize (off k (rg_len r) f), (off k (rg_len r) (f + 1)), (off k (rg_len r) (2 ^ N.of_nat k - b)).
      intros x y z H1 H2. split_and!.
      + replace (z - x) with ((y - x) + (z - y)) by lia. rewrite inr_split.
        replace (rg_lo r + x + (y - x)) with (rg_lo r + y) by lia. lia.
      + lia.
      + intros B HB. split; (eapply rng_ok_sub; [exact HB|lia]).
  Qed.
  Lemma mleft_take (back : bool) k r f b : f + b < 2 ^ N.of_nat k ->
    (if back then last (mleft k r f b) else head (mleft k r f b)) = Some (mp_leaf back k r f b) /\
    (if back then removelast (mleft k r f b) else tail (mleft k r f b)) = mleft k r (mp_f back f) (mp_b back b).
  Proof.
    intros Hlt. pose proof (rng_leaves_length k r) as Hlen. unfold mleft, mp_leaf, mp_f, mp_b. destruct back.
    - pose proof (rng_leaves_lookup k r (2 ^ N.of_nat k - 1 - b) ltac:(lia)) as Hl.
      replace (N.to_nat (2 ^ N.of_nat k - f - b)) with (S (N.to_nat (2 ^ N.of_nat k - f - (b + 1)))) by lia.
      rewrite (take_S_r _ _ (leaf_rng k r (2 ^ N.of_nat k - 1 - b))).
      + rewrite last_snoc. split; [done|]. by rewrite removelast_last.
      + rewrite lookup_drop. rewrite <- Hl. f_equal. lia.
    - pose proof (rng_leaves_lookup k r f ltac:(lia)) as Hl.
      rewrite (drop_S _ _ _ Hl). replace (N.to_nat (2 ^ N.of_nat k - f - b)) with (S (N.to_nat (2 ^ N.of_nat k - (f + 1) - b))) by lia.
      cbn. split; [done|]. by replace (N.to_nat (f + 1)) with (S (N.to_nat f)) by lia.
  Qed.
  Lemma mleft_nil k r f b : f + b = 2 ^ N.of_nat k -> mleft k r f b = [].
  Proof. intros H. unfold mleft. by replace (2 ^ N.of_nat k - f - b) with 0 by lia. Qed.
  Lemma mleft_length k r f b : f + b <= 2 ^ N.of_nat k -> N.of_nat (length (mleft k r f b)) = 2 ^ N.of_nat k - f - b.
  Proof. intros H. unfold mleft. rewrite take_length, drop_length. pose proof (rng_leaves_length k r). lia. Qed.

  Lemma mparts_next_ok s T X m r k f b (back : bool) : cinv s T (pmp m r k f b :: X) ->
    (rg_blk r < length (bshape (fst s)))%nat ->
    sip_rel sz (bbase (bshape (fst s)) (rg_blk r)) r k f b (mp_iter m) -> f + b < 2 ^ N.of_nat k ->
    exists d' m' x, mparts_next sz back (fst s) m = Ok (d', m', Some x) /\
      cinv (d', snd s) T (pmut x (mp_leaf back k r f b) :: pmp m' r k (mp_f back f) (mp_b back b) :: X) /\
      same s (d', snd s).
  Proof.
    intros C Hb Hs Hlt. assert (rng_ok (bshape (fst s)) (seg_rng k r f b)) as Hr by (by eapply own_rng_ok).
    pose proof C as (L & LI & LG & D & G & F). apply Forall_inv_tail in F.
    change (XO (pmp m r k f b :: X)) with ((seg_rng k r f b, mp_alloc m) :: XO X) in D.
    change (XS (pmp m r k f b :: X)) with (XS X) in D, G. change (XW (pmp m r k f b :: X)) with (XW X) in G.
    assert (exists it' x, (if back then sip_next_back sz (mp_iter m) else sip_next sz (mp_iter m)) = Ok (it', Some x) /\
      sip_rel sz (bbase (bshape (fst s)) (rg_blk r)) r k (mp_f back f) (mp_b back b) it' /\
      items_rel sz (bbase (bshape (fst s)) (rg_blk r)) (mp_leaf back k r f b) x) as (it' & x & E & Hit & Hx).
    { destruct back; [by apply sip_next_back_rel|by apply sip_next_rel]. }
    unfold mparts_next. rewrite E. cbn [mbind res_bind].
    destruct (sip_as_slice_rel sz _ _ _ _ _ _ Hit) as (p & Ep & _). rewrite Ep. cbn [mbind res_bind].
    set (ra := mp_leaf back k r f b) in *. set (rb := seg_rng k r (mp_f back f) (mp_b back b)) in *.
    assert (forall c, inr c (seg_rng k r f b) = inr c ra + inr c rb)%nat as Hc.
    { intros c. by apply (seg_take back k r f b c). }
    destruct (seg_take back k r f b (0%nat, 0) Hlt) as (_ & Hlen & Hok). fold ra rb in Hlen, Hok.
    destruct (Hok _ Hr) as [Hra Hrb].
    assert (forall d' oa ob, bshape d' = bshape (fst s) -> dinv d' T L (XD X) ((ra, oa) :: (rb, ob) :: XO X) ->
      cinv (d', snd s) T (pmut (MutS x oa) ra :: pmp (MutP it' ob) r k (mp_f back f) (mp_b back b) :: X)) as Hfin.
    { intros d' oa ob HB D'. exists L, LI, LG. split_and!; [done..|]. cbn [fst]. rewrite HB.
      constructor; [by apply hrel_pmut|]. constructor; [by apply hrel_pmp|done]. }
    destruct Hx as [Hx1 Hx2].
    destruct (N.eqb_spec (rg_len rb) 0) as [Hz|Hnz]; [|rewrite Hx2; destruct (N.ltb_spec 0 (rg_len ra)) as [Hpos|Hz]].
    - eexists _, _, _. split; [reflexivity|]. split; [|done]. apply Hfin; [done|].
      eapply (dinv_split_keep sz _ _ _ _ _ (seg_rng k r f b)); eauto. lia.
    - destruct (dinv_split_clone sz (fst s) T L (XD X) (XO X) (seg_rng k r f b) (mp_alloc m) ra rb D Hc) as (h & Eh & D'); eauto; [lia..|].
      rewrite Eh. cbn [mbind res_bind]. eexists _, _, _. split; [reflexivity|]. split; [|done]. by apply Hfin.
    - eexists _, _, _. split; [reflexivity|]. split; [|done]. apply Hfin; [done|].
      eapply dinv_perm; [reflexivity|apply Permutation_swap|].
      eapply (dinv_split_keep sz _ _ _ _ _ (seg_rng k r f b)); eauto; [|lia..]. intros c. rewrite Hc. lia.
  Qed.
  Lemma mparts_next_done d m r k f b base (back : bool) :
    sip_rel sz base r k f b (mp_iter m) -> f + b = 2 ^ N.of_nat k ->
    @mparts_next V sz back d m = Ok (d, m, None).
  Proof.
    intros Hs Heq. destruct (sip_next_none sz _ _ _ _ _ _ Hs Heq) as [E1 E2]. unfold mparts_next.
    assert ((if back then sip_next_back sz (mp_iter m) else sip_next sz (mp_iter m)) = Ok (mp_iter m, None)) as -> by (by destruct back).
    cbn. by destruct m.
  Qed.
End mparts.

(** ** RcSliceParts *)
Section parts.
  Context {V : Type} (sz : N) (capf growf : N -> N).
  Notation dworld := (dworld V).
  Notation dg := (dworld * gworld)%type.
  Notation cinv := (@cinv V sz).

  Definition prcs (ps : list (rcslice * label)) : list hpair := (fun y => prc (fst y) (snd y)) <$> ps.
  Definition pps (it : bpi rcslice) (q : list (label * nat)) : hpair := HP (HParts it) (AParts q) [].
  Lemma prcs_app ps qs : prcs (ps ++ qs) = prcs ps ++ prcs qs.
  Proof. apply fmap_app. Qed.
  Lemma XS_prcs ps : XS (prcs ps) = fst <$> ps.
  Proof. induction ps as [|y ps IH]; [done|]. unfold XS, prcs in *. cbn. f_equal. exact IH. Qed.
  Lemma XO_prcs ps : XO (prcs ps) = [].
  Proof. induction ps as [|y ps IH]; [done|]. exact IH. Qed.
  Lemma XW_prcs ps : XW (prcs ps) = [].
  Proof. induction ps as [|y ps IH]; [done|]. exact IH. Qed.

  (** Holding the iterator is holding the slices in its deque. *)
  Lemma cinv_unpack s T X it q : cinv s T (pps it q :: X) ->
    exists k x f b ps, bpi_rel (lhf T) (lht T) it ps k x f b /\ q = cover (lhf T) (lht T) k x f b /\
      (l_tree x < length T)%nat /\ cinv s T (prcs ps ++ X).
  Proof.
    intros (L & LI & LG & D & G & F). pose proof (Forall_inv F) as Hp. apply Forall_inv_tail in F.
    unfold hrel in Hp. cbn in Hp. destruct Hp as (_ & k & x & f & b & ps & Hrel & -> & Hps & Hx).
    exists k, x, f, b, ps. split_and!; try done.
    assert (XS (prcs ps ++ X) = XS (pps it (cover (lhf T) (lht T) k x f b) :: X)) as E.
    { rewrite XS_app, XS_prcs, <- (br_items _ _ _ _ _ _ _ _ Hrel). done. }
    exists L, LI, LG. rewrite E, XO_app, XW_app, XO_prcs, XW_prcs. split_and!; [exact D|exact G|].
    apply Forall_app. split; [|done]. apply Forall_fmap. eapply Forall_impl; [exact Hps|]. intros y Hy. by apply hrel_prc.
  Qed.
  Lemma cinv_pack s T X it k x f b ps : bpi_rel (lhf T) (lht T) it ps k x f b -> (l_tree x < length T)%nat ->
    cinv s T (prcs ps ++ X) -> cinv s T (pps it (cover (lhf T) (lht T) k x f b) :: X).
  Proof.
    intros Hrel Hx (L & LI & LG & D & G & F).
    assert (XS (prcs ps ++ X) = XS (pps it (cover (lhf T) (lht T) k x f b) :: X)) as E.
    { rewrite XS_app, XS_prcs, <- (br_items _ _ _ _ _ _ _ _ Hrel). done. }
    rewrite XO_app, XO_prcs, E in D. rewrite XW_app, XW_prcs, E in G. apply Forall_app in F as [F1 F2].
    exists L, LI, LG. split_and!; [exact D|exact G|]. constructor; [|done].
    unfold hrel. cbn. split; [done|]. exists k, x, f, b, ps. split_and!; try done.
    unfold prcs in F1. rewrite Forall_fmap in F1. eapply Forall_impl; [exact F1|]. intros y [_ Hy]. exact Hy.
  Qed.
  Lemma cinv_tree s T X r l : cinv s T X -> prc r l ∈ X -> (l_tree l < length T)%nat.
  Proof.
    intros C Hin. destruct (cinv_held sz _ _ _ _ _ C Hin) as (L & LI & LG & D & G & F & Hr & Hd & _).
    apply (di_lab _ _ _ _ _ _ D). by eapply elem_of_list_lookup_2.
  Qed.

  Lemma parts_new_ok s T X r l k : cinv s T (prc r l :: X) -> 2 ^ N.of_nat k < usize_lim ->
    exists it, bpi_new capf growf r (2 ^ N.of_nat k) = Ok it /\ cinv s T (pps it [(l, k)] :: X).
  Proof.
    intros C Hk. destruct (bpi_new_ok (lhf T) (lht T) capf growf r l k Hk) as (it & E & Hrel & _).
    exists it. split; [done|]. rewrite <- (cover_00 (lhf T) (lht T)). eapply cinv_pack; [exact Hrel| |done].
    eapply cinv_tree; [exact C|by left].
  Qed.
  Lemma parts_new_panic r n : log2_exact n = None -> n < usize_lim -> @bpi_new rcslice capf growf r n = Panic.
  Proof.
    intros H Hlim. apply bpi_new_panic; [|done]. intros k ->. by rewrite log2_exact_pow2 in H.
  Qed.

  Lemma parts_drop_ok T X ps : forall s, cinv s T (prcs ps ++ X) ->
    exists s', rcs_drop_all sz s (fst <$> ps) = Ok s' /\ cinv s' T X /\ sub s s'.
  Proof.
    induction ps as [|[r l] ps IH]; intros s C; [exists s; split; [done|]; split; [done|by apply same_sub]|].
    destruct (rcs_drop_ok sz s T (prcs ps ++ X) r l C) as (s1 & E1 & C1 & S1).
    destruct (IH s1 C1) as (s2 & E2 & C2 & S2). exists s2. cbn [rcs_drop_all fmap list_fmap fst]. rewrite E1. cbn [mbind res_bind].
    split; [done|]. split; [done|by eapply sub_trans].
  Qed.
  Lemma clone_all_ok T ps : forall X s, cinv s T X -> (forall y, y ∈ prcs ps -> y ∈ X) ->
    exists s', clone_all rcs_clone s (fst <$> ps) = Ok (s', fst <$> ps) /\ cinv s' T (prcs ps ++ X) /\ same s s'.
  Proof.
    induction ps as [|[r l] ps IH]; intros X s C Hin; [by exists s|].
    destruct (rcs_clone_ok sz s T X r l C) as (s1 & E1 & C1 & S1); [apply Hin; by left|].
    destruct (IH _ s1 C1) as (s2 & E2 & C2 & S2).
    { intros y Hy. right. apply Hin. by right. }
    exists s2. cbn [clone_all fmap list_fmap fst]. rewrite E1. cbn [mbind res_bind]. rewrite E2. cbn [mbind res_bind].
    split; [done|]. split.
    - eapply cinv_perm; [|exact C2]. by rewrite <- Permutation_middle.
    - destruct S1, S2. split; by etrans.
  Qed.
  Lemma parts_clone_ok s T XF X it q : cinv s T XF -> XF ≡ₚ pps it q :: X ->
    exists s' it', bpi_clone rcs_clone capf s it = Ok (s', it') /\ cinv s' T (pps it' q :: XF) /\ same s s'.
  Proof.
    intros CF HX. assert (cinv s T (pps it q :: X)) as C by (by eapply cinv_perm).
    destruct (cinv_unpack _ _ _ _ _ C) as (k & x & f & b & ps & Hrel & -> & Hx & C1).
    destruct (clone_all_ok T ps _ s C1) as (s' & E & C2 & S).
    { intros y Hy. apply elem_of_app. by left. }
    eexists s', _. split.
    { unfold bpi_clone. rewrite (br_items _ _ _ _ _ _ _ _ Hrel), E. cbn [mbind res_bind]. reflexivity. }
    split; [|done]. eapply cinv_perm; [apply Permutation_skip; symmetry; exact HX|].
    assert (bpi_rel (lhf T) (lht T) (BPI (bp_num_parts it) (bp_front it) (bp_back it) (Deque (fst <$> ps) (capf (N.of_nat (length (fst <$> ps)))))) ps k x f b) as Hrel'.
    { destruct Hrel. by split. }
    eapply cinv_pack; [exact Hrel'|done|]. eapply cinv_perm; [apply Permutation_middle|].
    eapply cinv_pack; [exact Hrel|done|]. eapply cinv_perm; [|exact C2]. apply Permutation_app_swap_app.
  Qed.

  (** *** Taking parts *)
  Lemma pop_front_eq T l j q : pop_front T l j q = (leftmost (lhf T) j l, cover (lhf T) (lht T) j l 1 0 ++ q).
  Proof.
    revert l q. induction j as [|j IH]; intros l q; [done|]. cbn [pop_front leftmost]. rewrite IH, cover_10, <- app_assoc. done.
  Qed.
  Lemma cover_01 {A} (lc rc : A -> A) j y : cover lc rc (S j) y 0 1 = (lc y, j) :: cover lc rc j (rc y) 0 1.
  Proof.
    rewrite cover_nz by lia. pose proof (pow2_pos j). destruct (N.ltb_spec 0 (2 ^ N.of_nat j)); [|lia].
    replace (1 - 2 ^ N.of_nat j) with 0 by lia. rewrite cover_00. cbn [app]. f_equal.
    destruct (N.ltb_spec 1 (2 ^ N.of_nat j)); [done|]. replace (0 - 2 ^ N.of_nat j) with 0 by lia.
    symmetry. apply cover_full. lia.
  Qed.
  Lemma pop_back_eq T l j q : pop_back T l j q = (leftmost (lht T) j l, q ++ cover (lhf T) (lht T) j l 0 1).
  Proof.
    revert l q. induction j as [|j IH]; intros l q; [cbn; by rewrite app_nil_r|].
    cbn [pop_back leftmost]. rewrite IH, cover_01, <- app_assoc. done.
  Qed.

  (** Step of the splitting operations in the form the iterator lemmas want. *)
  Definition pinv (s0 : dg) (T : trees) (X : list hpair) (s : dg) (ps : list (rcslice * label)) : Prop :=
    cinv s T (prcs ps ++ X) /\ sub s0 s.
  Lemma pinv_perm s0 T X s l l' : l ≡ₚ l' -> pinv s0 T X s l -> pinv s0 T X s l'.
  Proof. intros Hl [C S]. split; [|done]. eapply cinv_perm; [|exact C]. unfold prcs. by rewrite Hl. Qed.
  Lemma pinv_split (side : bool) s0 T X s r a rest : pinv s0 T X s ((r, a) :: rest) ->
    exists s' r1 r2, (if side then rcs_split_off_right sz s r else rcs_split_off_left sz s r) = Ok (s', (r1, r2)) /\
      pinv s0 T X s' ((r2, lhalf T a side) :: (r1, lhalf T a (negb side)) :: rest).
  Proof.
    intros [C S]. destruct (rcs_split_off_ok sz s T (prcs rest ++ X) r a side C) as (s' & r1 & r2 & E & C' & S').
    exists s', r1, r2. split; [done|]. split; [done|by eapply sub_trans].
  Qed.
  Lemma last_snoc_inv {A} (q rest : list A) x : q = rest ++ [x] -> last q = Some x /\ removelast q = rest.
  Proof. intros ->. by rewrite last_snoc, removelast_last. Qed.
  Lemma parts_next_ok s T X it q (back : bool) : cinv s T (pps it q :: X) ->
    match (if back then last q else head q) with
    | Some (l, j) =>
        exists s' it' r, (if back then parts_next_back sz growf false s it else parts_next sz growf false s it) = Ok (s', it', Some r) /\
          let '(l', q') := if back then pop_back T l j (removelast q) else pop_front T l j (tail q) in
          cinv s' T (prc r l' :: pps it' q' :: X) /\ sub s s'
    | None => (if back then parts_next_back sz growf false s it else parts_next sz growf false s it) = Ok (s, it, None)
    end.
  Proof.
    intros C. destruct (cinv_unpack _ _ _ _ _ C) as (k & x & f & b & ps & Hrel & -> & Hx & C1).
    assert (pinv s T X s (ps ++ [])) as HI by (rewrite app_nil_r; split; [done|by apply same_sub]).
    pose proof (br_le _ _ _ _ _ _ _ _ Hrel) as Hle.
    destruct (decide (f + b = 2 ^ N.of_nat k)) as [Heq|Hne].
    { rewrite cover_full by done. destruct back; cbn.
      - by eapply next_back_done.
      - by eapply next_done. }
    destruct back.
    - destruct (next_back_gen (lhf T) (lht T) growf false (pinv s T X) (pinv_perm s T X) (rcs_split_off_right sz) s it ps k x f b []) as (s' & it' & r & y & j & rest & ps' & Ec & Ec' & E & Hrel' & HI' & _); try done.
      { intros w s1 a rest HIw. destruct (pinv_split true _ _ _ _ _ _ _ HIw) as (s' & r1 & r2 & E & HI'). exists s', r1, r2. split; [done|]. exact HI'. }
      { lia. }
      destruct (last_snoc_inv _ _ _ Ec) as [-> ->]. exists s', it', r. split; [exact E|]. rewrite pop_back_eq, <- Ec'.
      destruct HI' as [C' S']. split; [|done]. eapply cinv_perm; [apply Permutation_swap|]. eapply cinv_pack; [exact Hrel'|done|].
      eapply cinv_perm; [|exact C']. rewrite app_nil_r. apply (Permutation_middle (prcs ps')).
    - destruct (next_front_gen growf false (pinv s T X) (lhf T) (lht T) (rcs_split_off_left sz) s it ps k x f b []) as (s' & it' & r & y & j & rest & ps' & Ec & Ec' & E & Hrel' & HI' & _); try done.
      { intros w s1 a rest HIw. destruct (pinv_split false _ _ _ _ _ _ _ HIw) as (s' & r1 & r2 & E & HI'). exists s', r1, r2. split; [done|]. exact HI'. }
      { lia. }
      rewrite Ec. cbn [head]. exists s', it', r. split; [exact E|]. cbn [tail]. rewrite pop_front_eq, <- Ec'.
      destruct HI' as [C' S']. split; [|done]. eapply cinv_perm; [apply Permutation_swap|]. eapply cinv_pack; [exact Hrel'|done|].
      eapply cinv_perm; [|exact C']. rewrite app_nil_r. apply (Permutation_middle (prcs ps')).
  Qed.

  (** *** as_slice *)
  Fixpoint chain (blk : nat) (lo hi : N) (rs : list rng) : Prop :=
    match rs with
    | [] => lo = hi
    | r :: rs => rg_blk r = blk /\ rg_lo r = lo /\ chain blk (lo + rg_len r) hi rs
    end.
  Lemma chain_app blk lo mid hi rs rs' : chain blk lo mid rs -> chain blk mid hi rs' -> chain blk lo hi (rs ++ rs').
  Proof.
    revert lo. induction rs as [|r rs IH]; intros lo; cbn; [by intros ->|]. intros (? & ? & H) H'. split_and!; auto.
  Qed.
  Lemma chain_le blk lo hi rs : chain blk lo hi rs -> lo <= hi.
  Proof. revert lo. induction rs as [|r rs IH]; intros lo; cbn; [lia|]. intros (_ & _ & H%IH). lia. Qed.
  Lemma chain_last blk lo hi rs r : chain blk lo hi rs -> last rs = Some r -> rg_blk r = blk /\ rg_lo r + rg_len r = hi.
  Proof.
    revert lo. induction rs as [|r' rs IH]; intros lo; [done|]. intros (? & ? & H). destruct rs as [|r'' rs].
    - cbn in H. intros [= <-]. split; [done|lia].
    - rewrite last_cons_cons. by eapply IH.
  Qed.
  Lemma chain_sum blk lo hi rs : chain blk lo hi rs -> foldr (fun r acc => rg_len r + acc) 0 rs = hi - lo.
  Proof.
    revert lo. induction rs as [|r rs IH]; intros lo; cbn; [lia|]. intros (_ & _ & H). pose proof (chain_le _ _ _ _ H).
    rewrite (IH _ H). lia.
  Qed.
  Lemma cover_chain T k : forall x f b, f + b <= 2 ^ N.of_nat k ->
    chain (rg_blk (lrng T x)) (rg_lo (lrng T x) + off k (rg_len (lrng T x)) f)
      (rg_lo (lrng T x) + off k (rg_len (lrng T x)) (2 ^ N.of_nat k - b))
      (lrng T <$> (fst <$> cover (lhf T) (lht T) k x f b)).
  Proof.
    assert (forall k x, chain (rg_blk (lrng T x)) (rg_lo (lrng T x) + off k (rg_len (lrng T x)) 0)
      (rg_lo (lrng T x) + off k (rg_len (lrng T x)) (2 ^ N.of_nat k - 0)) [lrng T x]) as Hone.
    { intros k' x. rewrite off_0, N.sub_0_r, off_end. cbn. lia. }
    induction k as [|k IH]; intros x f b Hle.
    - destruct (decide (f = 0 /\ b = 0)) as [[-> ->]|]; [apply Hone|]. rewrite cover_nz by lia. cbn in *.
      assert ((f = 1 /\ b = 0) \/ (f = 0 /\ b = 1)) as [[-> ->]|[-> ->]] by lia; done.
    - destruct (decide (f = 0 /\ b = 0)) as [[-> ->]|]; [rewrite cover_00; apply Hone|]. rewrite cover_nz by lia.
      rewrite !fmap_app. pose proof (pow2_S k) as Hk. pose proof (pow2_pos k). rewrite Hk in *.
      assert (forall side, rg_blk (lrng T (lhalf T x side)) = rg_blk (lrng T x)) as Hb.
      { intros side. rewrite lrng_lhalf. by destruct side. }
      assert (rg_lo (lrng T (lhf T x)) = rg_lo (lrng T x) /\ rg_len (lrng T (lhf T x)) = rg_len (lrng T x) / 2) as [El1 El2].
      { unfold lhf. by rewrite lrng_lhalf. }
      assert (rg_lo (lrng T (lht T x)) = rg_lo (lrng T x) + rg_len (lrng T x) / 2 /\
        rg_len (lrng T (lht T x)) = rg_len (lrng T x) - rg_len (lrng T x) / 2) as [Er1 Er2].
      { unfold lht. by rewrite lrng_lhalf. }
      pose proof (IH (lhf T x) f (b - 2 ^ N.of_nat k)) as H1. pose proof (IH (lht T x) (f - 2 ^ N.of_nat k) b) as H2.
      rewrite El1, El2 in H1. rewrite Er1, Er2 in H2. unfold lhf at 1 in H1. unfold lht at 1 in H2. rewrite Hb in H1, H2.
      clear IH Hone El1 El2 Er1 Er2 Hb.
      assert (forall g, off (S k) (rg_len (lrng T x)) g = if g <? 2 ^ N.of_nat k then off k (rg_len (lrng T x) / 2) g
           else rg_len (lrng T x) / 2 + off k (rg_len (lrng T x) - rg_len (lrng T x) / 2) (g - 2 ^ N.of_nat k)) as Hoff by done.
      pose proof (off_mid k (rg_len (lrng T x))) as Hmid.
      set (len := rg_len (lrng T x)) in *. generalize dependent (len / 2). intros h H1 H2 Hoff Hmid.
      pose proof (off_0 k) as O0. pose proof (off_end k) as OE.
      destruct (N.ltb_spec f (2 ^ N.of_nat k)) as [Hf|Hf]; [specialize (H1 ltac:(lia))|clear H1];
        (destruct (N.ltb_spec b (2 ^ N.of_nat k)) as [Hbb|Hbb]; [specialize (H2 ltac:(lia))|clear H2]).
      + eapply chain_app.
        * replace (off (S k) len f) with (off k h f); [exact H1|]. rewrite Hmid by lia. done.
        * replace (b - 2 ^ N.of_nat k) with 0 by lia. rewrite N.sub_0_r, OE.
          replace (f - 2 ^ N.of_nat k) with 0 in H2 by lia. rewrite O0, N.add_0_r in H2.
          rewrite (Hoff (2 * 2 ^ N.of_nat k - b)). destruct (N.ltb_spec (2 * 2 ^ N.of_nat k - b) (2 ^ N.of_nat k)); [lia|].
          replace (2 * 2 ^ N.of_nat k - b - 2 ^ N.of_nat k) with (2 ^ N.of_nat k - b) by lia.
          replace (f - 2 ^ N.of_nat k) with 0 by lia. by rewrite N.add_assoc.
      + cbn [fmap list_fmap]. rewrite app_nil_r, !Hmid by lia. by replace (2 * 2 ^ N.of_nat k - b) with (2 ^ N.of_nat k - (b - 2 ^ N.of_nat k)) by lia.
      + cbn [fmap list_fmap app]. rewrite !Hoff. destruct (N.ltb_spec f (2 ^ N.of_nat k)); [lia|].
        destruct (N.ltb_spec (2 * 2 ^ N.of_nat k - b) (2 ^ N.of_nat k)); [lia|].
        replace (2 * 2 ^ N.of_nat k - b - 2 ^ N.of_nat k) with (2 ^ N.of_nat k - b) by lia. by rewrite !N.add_assoc.
      + assert (f = 2 ^ N.of_nat k) by lia. assert (b = 2 ^ N.of_nat k) by lia. cbn [fmap list_fmap app chain]. do 2 f_equal. lia.
  Qed.

  Lemma rcs_slices_ok s T X ps : cinv s T X -> (forall y, y ∈ prcs ps -> y ∈ X) ->
    exists xs, rcs_slices s (fst <$> ps) = Ok xs /\
      Forall2 (fun x r => points sz (bbase (bshape (fst s)) (rg_blk r)) (rg_blk r) (rg_lo r) (fst x) /\ snd x = rg_len r)
        xs (lrng T <$> (snd <$> ps)).
  Proof.
    intros C. induction ps as [|[r l] ps IH]; intros Hin; [exists []; split; [done|constructor]|].
    destruct IH as (xs & E & H). { intros y Hy. apply Hin. by right. }
    destruct (rcs_slice_ok sz s T X r l C) as (p & Ep & Hp); [apply Hin; by left|].
    exists ((p, rg_len (lrng T l)) :: xs). cbn [rcs_slices fmap list_fmap fst snd]. rewrite Ep. cbn [mbind res_bind]. rewrite E. cbn [mbind res_bind].
    split; [done|]. by constructor.
  Qed.
  Lemma parts_as_slice_ok s T X it q : cinv s T (pps it q :: X) ->
    exists k x f b p, q = cover (lhf T) (lht T) k x f b /\ f + b <= 2 ^ N.of_nat k /\
      (let r := seg_rng k (lrng T x) f b in
      parts_as_slice sz s it = Ok (p, rg_len r) /\
      (rg_len r <> 0 -> points sz (bbase (bshape (fst s)) (rg_blk r)) (rg_blk r) (rg_lo r) p)).
  Proof.
    intros C. destruct (cinv_unpack _ _ _ _ _ C) as (k & x & f & b & ps & Hrel & -> & Hx & C1).
    pose proof (br_le _ _ _ _ _ _ _ _ Hrel) as Hle.
    destruct (rcs_slices_ok s T _ ps C1) as (xs & E & H2). { intros y Hy. apply elem_of_app. by left. }
    assert (parts_as_slice sz s it = bpi_as_slice sz id (BPI (bp_num_parts it) (bp_front it) (bp_back it) (Deque xs (dq_cap (bp_deque it))))) as ->.
    { unfold parts_as_slice. rewrite (br_items _ _ _ _ _ _ _ _ Hrel), E. done. }
    unfold bpi_as_slice.
    assert (forall q', bpi_len (BPI (bp_num_parts it) (bp_front it) (bp_back it) q' : bpi (ptr * N)) = Ok (2 ^ N.of_nat k - f - b)) as Elen.
    { intros q'. rewrite <- (bpi_rel_len _ _ _ _ _ _ _ _ Hrel). done. }
    rewrite Elen. cbn [mbind res_bind bp_deque dq_items]. clear Elen.
    rewrite (br_cover _ _ _ _ _ _ _ _ Hrel) in H2. pose proof (cover_chain T k x f b Hle) as Hch.
    destruct (N.eqb_spec 0 (2 ^ N.of_nat k - f - b)) as [Hz|Hnz].
    { eexists k, x, f, b, _. split; [done|]. split; [done|]. cbn zeta.
      assert (rg_len (seg_rng k (lrng T x) f b) = 0) as ->.
      { cbn. replace (2 ^ N.of_nat k - b) with f by lia. lia. }
      split; [reflexivity|]. done. }
    set (rs := lrng T <$> (fst <$> cover (lhf T) (lht T) k x f b)) in *.
    assert (exists r1 rest, rs = r1 :: rest) as (r1 & rest & Ers).
    { destruct (cover_front (lhf T) (lht T) k x f b) as (y & j & rest & Ec & _); [lia|].
      unfold rs. rewrite Ec. cbn. eauto. }
    assert (seg_rng k (lrng T x) f b = Rng (rg_blk (lrng T x)) (rg_lo (lrng T x) + off k (rg_len (lrng T x)) f)
      (rg_lo (lrng T x) + off k (rg_len (lrng T x)) (2 ^ N.of_nat k - b) - (rg_lo (lrng T x) + off k (rg_len (lrng T x)) f))) as Eseg.
    { unfold seg_rng. f_equal. lia. }
    pose proof (off_mono k (rg_len (lrng T x)) f (2 ^ N.of_nat k - b) ltac:(lia)) as Hmono.
    set (lo := rg_lo (lrng T x) + off k (rg_len (lrng T x)) f) in *.
    set (hi := rg_lo (lrng T x) + off k (rg_len (lrng T x)) (2 ^ N.of_nat k - b)) in *.
    assert (lo <= hi) as Hlohi by (unfold lo, hi; lia). clearbody lo hi.
    set (blk := rg_blk (lrng T x)) in *. clearbody blk rs.
    destruct (Forall2_cons_inv_r _ _ _ _ (eq_rect _ (Forall2 _ xs) H2 _ Ers)) as (x1 & xs' & [Hp1 Hl1] & Hrest & ->).
    pose proof Hch as Hch'. rewrite Ers in Hch'. destruct Hch' as (Hb1 & Hlo1 & _). rewrite Hb1, Hlo1 in Hp1.
    exists k, x, f, b. rewrite Eseg. cbn zeta. cbn [rg_len rg_blk rg_lo].
    destruct (N.eqb_spec sz 0) as [->|Hsz].
    - eexists. split; [done|]. split; [done|]. split.
      + do 2 f_equal. rewrite <- (chain_sum _ _ _ _ Hch). clear - H2. cbn [id].
        revert H2. generalize (x1 :: xs') as ys. clear. intros ys. revert rs. induction ys as [|y ys IH]; intros rs H.
        * apply Forall2_nil_inv_l in H as ->. done.
        * apply Forall2_cons_inv_l in H as (r & rs' & [_ Hr] & H & ->). cbn. unfold id in *. by rewrite Hr, (IH _ H).
      + intros _. destruct Hp1 as (H1 & H2' & _). split_and!; [done..|]. by right.
    - destruct (last (x1 :: xs')) as [e|] eqn:El; [|by apply last_None in El].
      assert (exists re, last rs = Some re /\ points sz (bbase (bshape (fst s)) (rg_blk re)) (rg_blk re) (rg_lo re) (fst e) /\ snd e = rg_len re) as (re & Hre & Hpe & Hle').
      { revert El H2. generalize (x1 :: xs') as ys. clear. intros ys. revert rs. induction ys as [|y ys IH]; intros rs; [done|].
        intros El H. apply Forall2_cons_inv_l in H as (r & rs' & Hr & H & ->). destruct ys as [|y' ys].
        - cbn in El. injection El as <-. apply Forall2_nil_inv_l in H as ->. by exists r.
        - rewrite last_cons_cons in El. destruct (IH _ El H) as (re & Hre & ?). exists re. split; [|done].
          destruct rs'; [done|]. by rewrite last_cons_cons. }
      destruct (chain_last _ _ _ _ _ Hch Hre) as [Hbe Hend].
      apply points_addr in Hpe; [|done]. rewrite Hbe in Hpe.
      pose proof (points_addr _ _ _ _ _ Hp1 Hsz) as Hpa.
      assert (p_addr (ptr_add sz (fst (id e)) (snd (id e))) = bbase (bshape (fst s)) blk + hi * sz) as Ea.
      { cbn. rewrite Hpe, Hle', <- Hend. lia. }
      rewrite Ea. cbn [id]. unfold id. rewrite Hpa, usub_ok by nia. cbn [mbind res_bind].
      eexists. split; [done|]. split; [done|]. split; [|done].
      do 2 f_equal. replace (bbase (bshape (fst s)) blk + hi * sz - (bbase (bshape (fst s)) blk + lo * sz)) with ((hi - lo) * sz) by nia.
      by apply N.div_mul.
  Qed.
  Lemma parts_len_ok s T X it q : cinv s T (pps it q :: X) ->
    bpi_len it = Ok (foldr (fun x acc => 2 ^ N.of_nat (snd x) + acc) 0 q).
  Proof.
    intros C. destruct (cinv_unpack _ _ _ _ _ C) as (k & x & f & b & ps & Hrel & -> & Hx & C1).
    rewrite (bpi_rel_len _ _ _ _ _ _ _ _ Hrel). f_equal.
    pose proof (br_le _ _ _ _ _ _ _ _ Hrel) as Hle.
    pose proof (flat_cover (lhf T) (lht T) k x f b Hle) as E. apply (f_equal length) in E.
    rewrite take_length, drop_length in E. pose proof (leaves_length (lhf T) (lht T) k x) as El.
    assert (2 ^ N.of_nat k - f - b = N.of_nat (length (flat (lhf T) (lht T) (cover (lhf T) (lht T) k x f b)))) as -> by lia.
    generalize (cover (lhf T) (lht T) k x f b) as q'. clear. induction q' as [|y q' IH]; [done|].
    unfold flat in *. cbn [mbind list_bind foldr]. rewrite app_length, Nat2N.inj_add, IH, leaves_length. done.
  Qed.
End parts.
