(** Every operation on [ArcSliceMutParts] and [ArcSliceParts] preserves the
    relation with the specification (ArcRelInv.v). *)
From Verif Require Import Base BaseLemmas Api SliceItemsModel BinPartsModel DataModel RcModel Spec
  BinPartsProof SliceItemsProof DataInv DataSteps DataFuns GuardInv GuardSteps GuardFuns RelInv RelOps RelMut RelParts
  ArcModel ArcInv ArcRelInv ArcRelOps ArcRelMut.
Local Open Scope N_scope.

#[local] Arguments alloc_release : simpl never.
#[local] Arguments alloc_clone : simpl never.

Section mparts.
  Context {V : Type} (sz : N).
  Notation dworld := (dworld V).
  Notation dg := (dworld * gdworld)%type.
  Notation dinv := (@dinv V sz).
  Notation xinv := (@xinv V sz).
  Notation YD X := (fmap (M:=list) ar_data (YS X)).
  Notation YI X := (fmap (M:=list) ar_guard (YS X)).

  Definition pamp (m : mutparts) (r : rng) (k : nat) (f b : N) : xpair :=
    XP (XMParts m) (AMParts (mleft k r f b)) [(seg_rng k r f b, mp_alloc m)].
  Lemma xrel_pamp B T L LI m r k f b : (rg_blk r < length B)%nat ->
    sip_rel sz (bbase B (rg_blk r)) r k f b (mp_iter m) -> xrel sz B T L LI (pamp m r k f b).
  Proof. intros Hb Hs. unfold xrel. cbn. by exists r, k, f, b. Qed.
  Lemma xinv_pamp {LI} s T X m rs o : xinv LI s T (XP (XMParts m) (AMParts rs) o :: X) ->
    exists r k f b, XP (XMParts m) (AMParts rs) o = pamp m r k f b /\
      (rg_blk r < length (bshape (fst s)))%nat /\ rng_ok (bshape (fst s)) (seg_rng k r f b) /\
      sip_rel sz (bbase (bshape (fst s)) (rg_blk r)) r k f b (mp_iter m).
  Proof.
    intros C. pose proof C as (L & D & G & F). apply Forall_inv in F. unfold xrel in F. cbn in F.
    destruct F as (r & k & f & b & -> & Hb & Hs & ->). exists r, k, f, b. split_and!; try done. by eapply own_rng_ok.
  Qed.

  Lemma mut_split_into_parts_ok {LI} s T X m r k : xinv LI s T (pamut m r :: X) -> 2 ^ N.of_nat k < usize_lim ->
    exists m', mut_split_into_parts m (2 ^ N.of_nat k) = Ok m' /\ xinv LI s T (pamp m' r k 0 0 :: X).
  Proof.
    intros C Hk. destruct (xinv_pamut sz _ _ _ _ _ C) as [Hr Hi]. destruct (rng_ok_lim _ _ Hr) as [Hlim Hb].
    destruct (sip_new_ok sz _ _ _ k Hi Hlim Hk) as (it & E & Hit).
    exists (MutP it (ms_alloc m)). split; [unfold mut_split_into_parts; by rewrite E|].
    destruct s as [d g].
    apply (xinv_owner sz (d, g) T X (pamut m r) [pamp (MutP it (ms_alloc m)) r k 0 0]); try done.
    - intros L D. change (YO [pamp (MutP it (ms_alloc m)) r k 0 0]) with [(seg_rng k r 0 0, ms_alloc m)].
      by rewrite seg_rng_00.
    - intros L. constructor; [|done]. by apply xrel_pamp.
  Qed.
  Lemma mparts_drop_ok {LI} s T X m r k f b : xinv LI s T (pamp m r k f b :: X) ->
    sip_rel sz (bbase (bshape (fst s)) (rg_blk r)) r k f b (mp_iter m) ->
    exists d', mparts_drop sz (fst s) m = Ok d' /\ xinv LI (d', snd s) T X /\ asub s (d', snd s).
  Proof.
    intros C Hs. pose proof C as (L & D & G & F).
    destruct (sip_as_slice_rel sz _ _ _ _ _ _ Hs) as (p & Ep & Hp).
    destruct (items_alloc_drop_ok sz (fst s) T L (YD X) (YO X) (seg_rng k r f b) (mp_alloc m) p D) as (d' & E & D' & Hm & HB).
    { intros Hne. apply Hp. destruct Hs as (_ & _ & _ & _ & _ & Hle & _).
      destruct (decide (f + b = 2 ^ N.of_nat k)) as [Heq|]; [|lia]. exfalso. apply Hne. cbn.
      replace (2 ^ N.of_nat k - b) with f by lia. lia. }
    exists d'. unfold mparts_drop. rewrite Ep. cbn [mbind res_bind]. split; [done|]. split; [|done].
    exists L. split_and!; [done..|]. cbn [fst]. rewrite HB. by apply Forall_inv_tail in F.
  Qed.

  Lemma mparts_next_ok {LI} s T X m r k f b (back : bool) : xinv LI s T (pamp m r k f b :: X) ->
    (rg_blk r < length (bshape (fst s)))%nat ->
    sip_rel sz (bbase (bshape (fst s)) (rg_blk r)) r k f b (mp_iter m) -> f + b < 2 ^ N.of_nat k ->
    exists d' m' x, mparts_next sz back (fst s) m = Ok (d', m', Some x) /\
      xinv LI (d', snd s) T (pamut x (mp_leaf back k r f b) :: pamp m' r k (mp_f back f) (mp_b back b) :: X) /\
      asame s (d', snd s).
  Proof.
    intros C Hb Hs Hlt. assert (rng_ok (bshape (fst s)) (seg_rng k r f b)) as Hr by (by eapply own_rng_ok).
    pose proof C as (L & D & G & F). apply Forall_inv_tail in F.
    change (YO (pamp m r k f b :: X)) with ((seg_rng k r f b, mp_alloc m) :: YO X) in D.
    change (YS (pamp m r k f b :: X)) with (YS X) in D, G. change (YW (pamp m r k f b :: X)) with (YW X) in G.
    assert (exists it' x, (if back then sip_next_back sz (mp_iter m) else sip_next sz (mp_iter m)) = Ok (it', Some x) /\
      sip_rel sz (bbase (bshape (fst s)) (rg_blk r)) r k (mp_f back f) (mp_b back b) it' /\
      items_rel sz (bbase (bshape (fst s)) (rg_blk r)) (mp_leaf back k r f b) x) as (it' & x & E & Hit & Hx).
    { destruct back; [by apply sip_next_back_rel|by apply sip_next_rel]. }
    unfold mparts_next. rewrite E. cbn [mbind res_bind].
    destruct (sip_as_slice_rel sz _ _ _ _ _ _ Hit) as (p & Ep & _). rewrite Ep. cbn [mbind res_bind].
    set (ra := mp_leaf back k r f b) in *. set (rb := seg_rng k r (mp_f back f) (mp_b back b)) in *.
    assert (forall c, inr c (seg_rng k r f b) = inr c ra + inr c rb)%nat as Hc.
    { intros c. by apply (seg_take back k r f b c). }
    destruct (seg_take back k r f b (0%nat, 0) Hlt) as (_ & Hlen & Hok). fold ra rb in Hlen, Hok.
    destruct (Hok _ Hr) as [Hra Hrb].
    assert (forall d' oa ob, bshape d' = bshape (fst s) -> dinv d' T L (YD X) ((ra, oa) :: (rb, ob) :: YO X) ->
      xinv LI (d', snd s) T (pamut (MutS x oa) ra :: pamp (MutP it' ob) r k (mp_f back f) (mp_b back b) :: X)) as Hfin.
    { intros d' oa ob HB D'. exists L. split_and!; [done..|]. cbn [fst]. rewrite HB.
      constructor; [by apply xrel_pamut|]. constructor; [by apply xrel_pamp|done]. }
    destruct Hx as [Hx1 Hx2].
    destruct (N.eqb_spec (rg_len rb) 0) as [Hz|Hnz]; [|rewrite Hx2; destruct (N.ltb_spec 0 (rg_len ra)) as [Hpos|Hz]].
    - eexists _, _, _. split; [reflexivity|]. split; [|done]. apply Hfin; [done|].
      eapply (dinv_split_keep sz _ _ _ _ _ (seg_rng k r f b)); eauto. lia.
    - destruct (dinv_split_clone sz (fst s) T L (YD X) (YO X) (seg_rng k r f b) (mp_alloc m) ra rb D Hc) as (h & Eh & D'); eauto; [lia..|].
      rewrite Eh. cbn [mbind res_bind]. eexists _, _, _. split; [reflexivity|]. split; [|done]. by apply Hfin.
    - eexists _, _, _. split; [reflexivity|]. split; [|done]. apply Hfin; [done|].
      eapply dinv_perm; [reflexivity|apply Permutation_swap|].
      eapply (dinv_split_keep sz _ _ _ _ _ (seg_rng k r f b)); eauto; [|lia..]. intros c. rewrite Hc. lia.
  Qed.
End mparts.

(** ** ArcSliceParts *)
Section parts.
  Context {V : Type} (sz : N) (capf growf : N -> N).
  Notation dworld := (dworld V).
  Notation dg := (dworld * gdworld)%type.
  Notation xinv := (@xinv V sz).

  Definition parcs (ps : list (arcslice * label)) : list xpair := (fun y => parc (fst y) (snd y)) <$> ps.
  Definition paps (it : bpi arcslice) (q : list (label * nat)) : xpair := XP (XParts it) (AParts q) [].
  Lemma prcs_app ps qs : parcs (ps ++ qs) = parcs ps ++ parcs qs.
  Proof. apply fmap_app. Qed.
  Lemma YS_parcs ps : YS (parcs ps) = fst <$> ps.
  Proof. induction ps as [|y ps IH]; [done|]. unfold YS, parcs in *. cbn. f_equal. exact IH. Qed.
  Lemma YO_parcs ps : YO (parcs ps) = [].
  Proof. induction ps as [|y ps IH]; [done|]. exact IH. Qed.
  Lemma YW_parcs ps : YW (parcs ps) = [].
  Proof. induction ps as [|y ps IH]; [done|]. exact IH. Qed.

  (** Holding the iterator is holding the slices in its deque. *)
  Lemma xinv_unpack {LI} s T X it q : xinv LI s T (paps it q :: X) ->
    exists k x f b ps, bpi_rel (lhf T) (lht T) it ps k x f b /\ q = cover (lhf T) (lht T) k x f b /\
      (l_tree x < length T)%nat /\ xinv LI s T (parcs ps ++ X).
  Proof.
    intros (L & D & G & F). pose proof (Forall_inv F) as Hp. apply Forall_inv_tail in F.
    unfold xrel in Hp. cbn in Hp. destruct Hp as (_ & k & x & f & b & ps & Hrel & -> & Hps & Hx).
    exists k, x, f, b, ps. split_and!; try done.
    assert (YS (parcs ps ++ X) = YS (paps it (cover (lhf T) (lht T) k x f b) :: X)) as E.
    { rewrite YS_app, YS_parcs, <- (br_items _ _ _ _ _ _ _ _ Hrel). done. }
    exists L. rewrite E, YO_app, YW_app, YO_parcs, YW_parcs. split_and!; [exact D|exact G|].
    apply Forall_app. split; [|done]. apply Forall_fmap. eapply Forall_impl; [exact Hps|]. intros y Hy. by apply xrel_parc.
  Qed.
  Lemma xinv_pack {LI} s T X it k x f b ps : bpi_rel (lhf T) (lht T) it ps k x f b -> (l_tree x < length T)%nat ->
    xinv LI s T (parcs ps ++ X) -> xinv LI s T (paps it (cover (lhf T) (lht T) k x f b) :: X).
  Proof.
    intros Hrel Hx (L & D & G & F).
    assert (YS (parcs ps ++ X) = YS (paps it (cover (lhf T) (lht T) k x f b) :: X)) as E.
    { rewrite YS_app, YS_parcs, <- (br_items _ _ _ _ _ _ _ _ Hrel). done. }
    rewrite YO_app, YO_parcs, E in D. rewrite YW_app, YW_parcs, E in G. apply Forall_app in F as [F1 F2].
    exists L. split_and!; [exact D|exact G|]. constructor; [|done].
    unfold xrel. cbn. split; [done|]. exists k, x, f, b, ps. split_and!; try done.
    unfold parcs in F1. rewrite Forall_fmap in F1. eapply Forall_impl; [exact F1|]. intros y [_ Hy]. exact Hy.
  Qed.
  Lemma xinv_tree {LI} s T X r l : xinv LI s T X -> parc r l ∈ X -> (l_tree l < length T)%nat.
  Proof.
    intros C Hin. destruct (xinv_held sz _ _ _ _ _ C Hin) as (L & D & G & F & Hr & Hd & _).
    apply (di_lab _ _ _ _ _ _ D). by eapply elem_of_list_lookup_2.
  Qed.

  Lemma parts_new_ok {LI} s T X r l k : xinv LI s T (parc r l :: X) -> 2 ^ N.of_nat k < usize_lim ->
    exists it, bpi_new capf growf r (2 ^ N.of_nat k) = Ok it /\ xinv LI s T (paps it [(l, k)] :: X).
  Proof.
    intros C Hk. destruct (bpi_new_ok (lhf T) (lht T) capf growf r l k Hk) as (it & E & Hrel & _).
    exists it. split; [done|]. rewrite <- (cover_00 (lhf T) (lht T)). eapply xinv_pack; [exact Hrel| |done].
    eapply xinv_tree; [exact C|by left].
  Qed.
  Lemma parts_new_panic r n : log2_exact n = None -> n < usize_lim -> @bpi_new arcslice capf growf r n = Panic.
  Proof.
    intros H Hlim. apply bpi_new_panic; [|done]. intros k ->. by rewrite log2_exact_pow2 in H.
  Qed.

  Lemma parts_drop_ok {LI} T X ps : forall s, xinv LI s T (parcs ps ++ X) ->
    exists s', arc_drop_all sz s (fst <$> ps) = Ok s' /\ xinv LI s' T X /\ asub s s' /\ shrink LI s LI s'.
  Proof.
    induction ps as [|[r l] ps IH]; intros s C; [exists s; split; [done|]; split; [done|]; split; [by apply same_sub|apply shrink_refl]|].
    destruct (arc_drop_ok sz s T (parcs ps ++ X) r l C) as (s1 & E1 & C1 & S1 & W1).
    destruct (IH s1 C1) as (s2 & E2 & C2 & S2 & W2). exists s2. cbn [arc_drop_all fmap list_fmap fst]. rewrite E1. cbn [mbind res_bind].
    split; [done|]. split; [done|]. split; [by eapply sub_trans|by eapply shrink_trans].
  Qed.
  Lemma clone_all_ok {LI} T ps : forall X s, xinv LI s T X -> (forall y, y ∈ parcs ps -> y ∈ X) ->
    exists s', clone_all arc_clone s (fst <$> ps) = Ok (s', fst <$> ps) /\ xinv LI s' T (parcs ps ++ X) /\ asame s s' /\ grow LI s LI s'.
  Proof.
    induction ps as [|[r l] ps IH]; intros X s C Hin; [exists s; split_and!; try done; apply grow_refl|].
    destruct (arc_clone_ok sz s T X r l C) as (s1 & E1 & C1 & S1 & W1); [apply Hin; by left|].
    destruct (IH _ s1 C1) as (s2 & E2 & C2 & S2 & W2).
    { intros y Hy. right. apply Hin. by right. }
    exists s2. cbn [clone_all fmap list_fmap fst]. rewrite E1. cbn [mbind res_bind]. rewrite E2. cbn [mbind res_bind].
    split; [done|]. split; [|split].
    - eapply xinv_perm; [|exact C2]. by rewrite <- Permutation_middle.
    - destruct S1, S2. split; by etrans.
    - by eapply grow_trans.
  Qed.
  Lemma parts_clone_ok {LI} s T XF X it q : xinv LI s T XF -> XF ≡ₚ paps it q :: X ->
    exists s' it', bpi_clone arc_clone capf s it = Ok (s', it') /\ xinv LI s' T (paps it' q :: XF) /\ asame s s' /\ grow LI s LI s'.
  Proof.
    intros CF HX. assert (xinv LI s T (paps it q :: X)) as C by (by eapply xinv_perm).
    destruct (xinv_unpack _ _ _ _ _ C) as (k & x & f & b & ps & Hrel & -> & Hx & C1).
    destruct (clone_all_ok T ps _ s C1) as (s' & E & C2 & S).
    { intros y Hy. apply elem_of_app. by left. }
    eexists s', _. split.
    { unfold bpi_clone. rewrite (br_items _ _ _ _ _ _ _ _ Hrel), E. cbn [mbind res_bind]. reflexivity. }
    split; [|done]. eapply xinv_perm; [apply Permutation_skip; symmetry; exact HX|].
    assert (bpi_rel (lhf T) (lht T) (BPI (bp_num_parts it) (bp_front it) (bp_back it) (Deque (fst <$> ps) (capf (N.of_nat (length (fst <$> ps)))))) ps k x f b) as Hrel'.
    { destruct Hrel. by split. }
    eapply xinv_pack; [exact Hrel'|done|]. eapply xinv_perm; [apply Permutation_middle|].
    eapply xinv_pack; [exact Hrel|done|]. eapply xinv_perm; [|exact C2]. apply Permutation_app_swap_app.
  Qed.

  (** *** Taking parts *)
  (** Step of the splitting operations in the form the iterator lemmas want. *)
  Definition pinv (LI0 : list label) (s0 : dg) (T : trees) (X : list xpair) (s : dg) (ps : list (arcslice * label)) : Prop :=
    exists LI, xinv LI s T (parcs ps ++ X) /\ asub s0 s /\ grow LI0 s0 LI s.
  Lemma pinv_perm LI0 s0 T X s l l' : l ≡ₚ l' -> pinv LI0 s0 T X s l -> pinv LI0 s0 T X s l'.
  Proof. intros Hl (LI & C & S). exists LI. split; [|done]. eapply xinv_perm; [|exact C]. unfold parcs. by rewrite Hl. Qed.
  Lemma pinv_split (side : bool) LI0 s0 T X s r a rest : pinv LI0 s0 T X s ((r, a) :: rest) ->
    exists s' r1 r2, (if side then arc_split_off_right sz s r else arc_split_off_left sz s r) = Ok (s', (r1, r2)) /\
      pinv LI0 s0 T X s' ((r2, lhalf T a side) :: (r1, lhalf T a (negb side)) :: rest).
  Proof.
    intros (LI & C & S & W). destruct (arc_split_off_ok sz s T (parcs rest ++ X) r a side C) as (s' & r1 & r2 & LI' & E & C' & S' & W').
    exists s', r1, r2. split; [done|]. exists LI'. split; [done|]. split; [by eapply sub_trans|by eapply grow_trans].
  Qed.
  Lemma arc_parts_next_ok {LI} s T X it q (back : bool) : xinv LI s T (paps it q :: X) ->
    match (if back then last q else head q) with
    | Some (l, j) =>
        exists s' it' r LI', (if back then arc_parts_next_back sz growf false s it else arc_parts_next sz growf false s it) = Ok (s', it', Some r) /\
          let '(l', q') := if back then pop_back T l j (removelast q) else pop_front T l j (tail q) in
          xinv LI' s' T (parc r l' :: paps it' q' :: X) /\ asub s s' /\ grow LI s LI' s'
    | None => (if back then arc_parts_next_back sz growf false s it else arc_parts_next sz growf false s it) = Ok (s, it, None)
    end.
  Proof.
    intros C. destruct (xinv_unpack _ _ _ _ _ C) as (k & x & f & b & ps & Hrel & -> & Hx & C1).
    assert (pinv LI s T X s (ps ++ [])) as HI by (rewrite app_nil_r; exists LI; split; [done|]; split; [by apply same_sub|apply grow_refl]).
    pose proof (br_le _ _ _ _ _ _ _ _ Hrel) as Hle.
    destruct (decide (f + b = 2 ^ N.of_nat k)) as [Heq|Hne].
    { rewrite cover_full by done. destruct back; cbn.
      - by eapply next_back_done.
      - by eapply next_done. }
    destruct back.
    - destruct (next_back_gen (lhf T) (lht T) growf false (pinv LI s T X) (pinv_perm LI s T X) (arc_split_off_right sz) s it ps k x f b []) as (s' & it' & r & y & j & rest & ps' & Ec & Ec' & E & Hrel' & HI' & _); try done.
      { intros w s1 a rest HIw. destruct (pinv_split true _ _ _ _ _ _ _ _ HIw) as (s' & r1 & r2 & E & HI'). exists s', r1, r2. split; [done|]. exact HI'. }
      { lia. }
      destruct (last_snoc_inv _ _ _ Ec) as [-> ->]. destruct HI' as (LI' & C' & S' & W'). exists s', it', r, LI'. split; [exact E|]. rewrite pop_back_eq, <- Ec'.
      split; [|done]. eapply xinv_perm; [apply Permutation_swap|]. eapply xinv_pack; [exact Hrel'|done|].
      eapply xinv_perm; [|exact C']. rewrite app_nil_r. apply (Permutation_middle (parcs ps')).
    - destruct (next_front_gen growf false (pinv LI s T X) (lhf T) (lht T) (arc_split_off_left sz) s it ps k x f b []) as (s' & it' & r & y & j & rest & ps' & Ec & Ec' & E & Hrel' & HI' & _); try done.
      { intros w s1 a rest HIw. destruct (pinv_split false _ _ _ _ _ _ _ _ HIw) as (s' & r1 & r2 & E & HI'). exists s', r1, r2. split; [done|]. exact HI'. }
      { lia. }
      rewrite Ec. cbn [head]. destruct HI' as (LI' & C' & S' & W'). exists s', it', r, LI'. split; [exact E|]. cbn [tail]. rewrite pop_front_eq, <- Ec'.
      split; [|done]. eapply xinv_perm; [apply Permutation_swap|]. eapply xinv_pack; [exact Hrel'|done|].
      eapply xinv_perm; [|exact C']. rewrite app_nil_r. apply (Permutation_middle (parcs ps')).
  Qed.

  (** *** as_slice *)
  Lemma arc_slices_ok {LI} s T X ps : xinv LI s T X -> (forall y, y ∈ parcs ps -> y ∈ X) ->
    exists xs, arc_slices s (fst <$> ps) = Ok xs /\
      Forall2 (fun x r => points sz (bbase (bshape (fst s)) (rg_blk r)) (rg_blk r) (rg_lo r) (fst x) /\ snd x = rg_len r)
        xs (lrng T <$> (snd <$> ps)).
  Proof.
    intros C. induction ps as [|[r l] ps IH]; intros Hin; [exists []; split; [done|constructor]|].
    destruct IH as (xs & E & H). { intros y Hy. apply Hin. by right. }
    destruct (arc_slice_ok sz s T X r l C) as (p & Ep & Hp); [apply Hin; by left|].
    exists ((p, rg_len (lrng T l)) :: xs). cbn [arc_slices fmap list_fmap fst snd]. rewrite Ep. cbn [mbind res_bind]. rewrite E. cbn [mbind res_bind].
    split; [done|]. by constructor.
  Qed.
  Lemma arc_parts_as_slice_ok {LI} s T X it q : xinv LI s T (paps it q :: X) ->
    exists k x f b p, q = cover (lhf T) (lht T) k x f b /\ f + b <= 2 ^ N.of_nat k /\
      (let r := seg_rng k (lrng T x) f b in
      arc_parts_as_slice sz s it = Ok (p, rg_len r) /\
      (rg_len r <> 0 -> points sz (bbase (bshape (fst s)) (rg_blk r)) (rg_blk r) (rg_lo r) p)).
  Proof.
    intros C. destruct (xinv_unpack _ _ _ _ _ C) as (k & x & f & b & ps & Hrel & -> & Hx & C1).
    pose proof (br_le _ _ _ _ _ _ _ _ Hrel) as Hle.
    destruct (arc_slices_ok s T _ ps C1) as (xs & E & H2). { intros y Hy. apply elem_of_app. by left. }
    assert (arc_parts_as_slice sz s it = bpi_as_slice sz id (BPI (bp_num_parts it) (bp_front it) (bp_back it) (Deque xs (dq_cap (bp_deque it))))) as ->.
    { unfold arc_parts_as_slice. rewrite (br_items _ _ _ _ _ _ _ _ Hrel), E. done. }
    unfold bpi_as_slice.
    assert (forall q', bpi_len (BPI (bp_num_parts it) (bp_front it) (bp_back it) q' : bpi (ptr * N)) = Ok (2 ^ N.of_nat k - f - b)) as Elen.
    { intros q'. rewrite <- (bpi_rel_len _ _ _ _ _ _ _ _ Hrel). done. }
    rewrite Elen. cbn [mbind res_bind bp_deque dq_items]. clear Elen.
    rewrite (br_cover _ _ _ _ _ _ _ _ Hrel) in H2. pose proof (cover_chain T k x f b Hle) as Hch.
    destruct (N.eqb_spec 0 (2 ^ N.of_nat k - f - b)) as [Hz|Hnz].
    { eexists k, x, f, b, _. split; [done|]. split; [done|]. cbn zeta.
      assert (rg_len (seg_rng k (lrng T x) f b) = 0) as ->.
      { cbn. replace (2 ^ N.of_nat k - b) with f by lia. lia. }
      split; [reflexivity|]. done. }
    set (rs := lrng T <$> (fst <$> cover (lhf T) (lht T) k x f b)) in *.
    assert (exists r1 rest, rs = r1 :: rest) as (r1 & rest & Ers).
    { destruct (cover_front (lhf T) (lht T) k x f b) as (y & j & rest & Ec & _); [lia|].
      unfold rs. rewrite Ec. cbn. eauto. }
    assert (seg_rng k (lrng T x) f b = Rng (rg_blk (lrng T x)) (rg_lo (lrng T x) + off k (rg_len (lrng T x)) f)
      (rg_lo (lrng T x) + off k (rg_len (lrng T x)) (2 ^ N.of_nat k - b) - (rg_lo (lrng T x) + off k (rg_len (lrng T x)) f))) as Eseg.
    { unfold seg_rng. f_equal. lia. }
    pose proof (off_mono k (rg_len (lrng T x)) f (2 ^ N.of_nat k - b) ltac:(lia)) as Hmono.
    set (lo := rg_lo (lrng T x) + off k (rg_len (lrng T x)) f) in *.
    set (hi := rg_lo (lrng T x) + off k (rg_len (lrng T x)) (2 ^ N.of_nat k - b)) in *.
    assert (lo <= hi) as Hlohi by (unfold lo, hi; lia). clearbody lo hi.
    set (blk := rg_blk (lrng T x)) in *. clearbody blk rs.
    destruct (Forall2_cons_inv_r _ _ _ _ (eq_rect _ (Forall2 _ xs) H2 _ Ers)) as (x1 & xs' & [Hp1 Hl1] & Hrest & ->).
    pose proof Hch as Hch'. rewrite Ers in Hch'. destruct Hch' as (Hb1 & Hlo1 & _). rewrite Hb1, Hlo1 in Hp1.
    exists k, x, f, b. rewrite Eseg. cbn zeta. cbn [rg_len rg_blk rg_lo].
    destruct (N.eqb_spec sz 0) as [->|Hsz].
    - eexists. split; [done|]. split; [done|]. split.
      + do 2 f_equal. rewrite <- (chain_sum _ _ _ _ Hch). clear - H2. cbn [id].
        revert H2. generalize (x1 :: xs') as ys. clear. intros ys. revert rs. induction ys as [|y ys IH]; intros rs H.
        * apply Forall2_nil_inv_l in H as ->. done.
        * apply Forall2_cons_inv_l in H as (r & rs' & [_ Hr] & H & ->). cbn. unfold id in *. by rewrite Hr, (IH _ H).
      + intros _. destruct Hp1 as (H1 & H2' & _). split_and!; [done..|]. by right.
    - destruct (last (x1 :: xs')) as [e|] eqn:El; [|by apply last_None in El].
      assert (exists re, last rs = Some re /\ points sz (bbase (bshape (fst s)) (rg_blk re)) (rg_blk re) (rg_lo re) (fst e) /\ snd e = rg_len re) as (re & Hre & Hpe & Hle').
      { revert El H2. generalize (x1 :: xs') as ys. clear. intros ys. revert rs. induction ys as [|y ys IH]; intros rs; [done|].
        intros El H. apply Forall2_cons_inv_l in H as (r & rs' & Hr & H & ->). destruct ys as [|y' ys].
        - cbn in El. injection El as <-. apply Forall2_nil_inv_l in H as ->. by exists r.
        - rewrite last_cons_cons in El. destruct (IH _ El H) as (re & Hre & ?). exists re. split; [|done].
          destruct rs'; [done|]. by rewrite last_cons_cons. }
      destruct (chain_last _ _ _ _ _ Hch Hre) as [Hbe Hend].
      apply points_addr in Hpe; [|done]. rewrite Hbe in Hpe.
      pose proof (points_addr _ _ _ _ _ Hp1 Hsz) as Hpa.
      assert (p_addr (ptr_add sz (fst (id e)) (snd (id e))) = bbase (bshape (fst s)) blk + hi * sz) as Ea.
      { cbn. rewrite Hpe, Hle', <- Hend. lia. }
      rewrite Ea. cbn [id]. unfold id. rewrite Hpa, usub_ok by nia. cbn [mbind res_bind].
      eexists. split; [done|]. split; [done|]. split; [|done].
      do 2 f_equal. replace (bbase (bshape (fst s)) blk + hi * sz - (bbase (bshape (fst s)) blk + lo * sz)) with ((hi - lo) * sz) by nia.
      by apply N.div_mul.
  Qed.
  Lemma parts_len_ok {LI} s T X it q : xinv LI s T (paps it q :: X) ->
    bpi_len it = Ok (foldr (fun x acc => 2 ^ N.of_nat (snd x) + acc) 0 q).
  Proof.
    intros C. destruct (xinv_unpack _ _ _ _ _ C) as (k & x & f & b & ps & Hrel & -> & Hx & C1).
    rewrite (bpi_rel_len _ _ _ _ _ _ _ _ Hrel). f_equal.
    pose proof (br_le _ _ _ _ _ _ _ _ Hrel) as Hle.
    pose proof (flat_cover (lhf T) (lht T) k x f b Hle) as E. apply (f_equal length) in E.
    rewrite take_length, drop_length in E. pose proof (leaves_length (lhf T) (lht T) k x) as El.
    assert (2 ^ N.of_nat k - f - b = N.of_nat (length (flat (lhf T) (lht T) (cover (lhf T) (lht T) k x f b)))) as -> by lia.
    generalize (cover (lhf T) (lht T) k x f b) as q'. clear. induction q' as [|y q' IH]; [done|].
    unfold flat in *. cbn [mbind list_bind foldr]. rewrite app_length, Nat2N.inj_add, IH, leaves_length. done.
  Qed.
End parts.
