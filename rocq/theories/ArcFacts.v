(** What the relation between the thread-safe model and its specification says
    about handles, items and labels. *)
From Verif Require Import Base BaseLemmas Api SliceItemsModel BinPartsModel DataModel RcModel Spec
  BinPartsProof SliceItemsProof DataInv DataSteps DataFuns GuardInv GuardSteps GuardFuns RelInv RelOps RelMut RelParts Refine
  Observe Facts ArcModel ArcInv ArcRelInv ArcRelOps ArcRelMut ArcRelParts ArcSpec ArcRefine ArcObserve.
Local Open Scope N_scope.

(** Same kind of value. *)
Definition xkind_ok (c : xhandle) (a : ahandle) : Prop :=
  match c, a with
  | XArc _, ARc _ | XWeak _ _, AWeak _ | XParts _, AParts _ | XMut _, AMut _ | XIter _, AIter _ | XMParts _, AMParts _ => True
  | _, _ => False
  end.

Section facts.
  Context {V : Type} (sz : N) (w : aworld V) (a : astate V).
  Context (R : exists P LI, rel0 sz w a P LI).
  Notation T := (as_trees a).

  Lemma xrel_kind h : match xget w h, a_get a h with
    | Some c, Some x => xkind_ok c x | None, None => True | _, _ => False end.
  Proof.
    destruct R as (P & LI & Hw & Ha & (L & D & G & F) & _). unfold xget, a_get. rewrite Hw, Ha, !list_lookup_fmap.
    destruct (P !! h) as [[p|]|] eqn:E; cbn; try done.
    assert (p ∈ omap id P) as Hin. { apply elem_of_list_omap. exists (Some p). split; [|done]. by eapply elem_of_list_lookup_2. }
    rewrite Forall_forall in F. specialize (F _ Hin). unfold xrel in F. by destruct (xp_c p), (xp_a p).
  Qed.
  Lemma xlive_handle x : x ∈ live_handles (as_h a) <-> exists h, a_get a h = Some x.
  Proof.
    unfold live_handles, a_get. rewrite elem_of_list_omap. split.
    - intros ([y|] & Hy & [= <-]). apply elem_of_list_lookup in Hy as [h Hh]. exists h. by rewrite Hh.
    - intros [h Hh]. exists (Some x). split; [|done]. destruct (as_h a !! h) as [[y|]|] eqn:E; try done.
      injection Hh as ->. by eapply elem_of_list_lookup_2.
  Qed.
  Lemma xfact_alive c : is_Some (as_mem a !! c) <-> exists h x, a_get a h = Some x /\ c ∈ hcells T x.
  Proof.
    destruct R as (P & LI & Hw & Ha & C & Hm & _). rewrite Hm, (xinv_covered sz _ _ _ c C). split.
    - intros Hc. apply elem_of_list_bind in Hc as (p & Hc & Hp).
      assert (xp_a p ∈ live_handles (as_h a)) as Hl. { rewrite Ha, live_has. apply elem_of_list_fmap. eauto. }
      apply xlive_handle in Hl as [h Hh]. eauto.
    - intros (h & x & Hx & Hc). assert (x ∈ live_handles (as_h a)) as Hl by (apply xlive_handle; eauto).
      rewrite Ha, live_has in Hl. apply elem_of_list_fmap in Hl as (p & -> & Hp). apply elem_of_list_bind. eauto.
  Qed.
  Lemma xfact_covered h x c : a_get a h = Some x -> c ∈ hcells T x -> is_Some (as_mem a !! c).
  Proof. intros. apply xfact_alive. eauto. Qed.

  (** Two different variables. *)
  Lemma xtwo_pairs h h' x x' : h <> h' -> a_get a h = Some x -> a_get a h' = Some x' ->
    exists LI p p' X, xp_a p = x /\ xp_a p' = x' /\ xinv sz LI (aw_d w, aw_g w) T (p :: p' :: X).
  Proof.
    intros Hne Hx Hx'. destruct R as (P & LI & Hw & Ha & C & _). unfold a_get in Hx, Hx'.
    rewrite Ha, !list_lookup_fmap in Hx, Hx'.
    destruct (P !! h) as [[p|]|] eqn:E; cbn in Hx; try done. destruct (P !! h') as [[p'|]|] eqn:E'; cbn in Hx'; try done.
    injection Hx as <-. injection Hx' as <-. destruct (omap_id_insert P h p E) as [H1 _].
    destruct (omap_id_insert (<[h := None]> P) h' p') as [H2 _]. { by rewrite list_lookup_insert_ne. }
    exists LI, p, p', (omap id (<[h' := None]> (<[h := None]> P))). split_and!; try done.
    eapply xinv_perm; [|exact C]. rewrite H1. by constructor.
  Qed.
  Lemma xone_pair h x : a_get a h = Some x -> exists LI p X, xp_a p = x /\ xget w h = Some (xp_c p) /\
    xinv sz LI (aw_d w, aw_g w) T (p :: X).
  Proof.
    intros Hx. destruct R as (P & LI & Hw & Ha & C & _). unfold a_get in Hx.
    rewrite Ha, !list_lookup_fmap in Hx. destruct (P !! h) as [[p|]|] eqn:E; cbn in Hx; try done.
    injection Hx as <-. destruct (omap_id_insert P h p E) as [H1 _]. exists LI, p, (omap id (<[h := None]> P)).
    split_and!; [done| |by eapply xinv_perm]. unfold xget. by rewrite Hw, list_lookup_fmap, E.
  Qed.

  Lemma xfact_exclusive h h' x x' c : h <> h' -> a_get a h = Some x -> a_get a h' = Some x' -> a_unique x ->
    c ∈ hcells T x -> c ∉ hcells T x'.
  Proof.
    intros Hne Hx Hx' Hu Hc Hc'. destruct (xtwo_pairs _ _ _ _ Hne Hx Hx') as (LI & p & p' & X & <- & <- & (L & D & G & F)).
    apply Forall_cons in F as [Fp F]. apply Forall_cons in F as [Fp' _].
    apply (xrel_cells sz _ _ _ _ _ c Fp) in Hc. apply (xrel_cells sz _ _ _ _ _ c Fp') in Hc'.
    destruct Hc as [(r & l & Hr & _)|(e & He & Hce)].
    { unfold xrel in Fp. destruct (xp_c p), (xp_a p); try done; by apply elem_of_nil in Hr. }
    assert (xp_o p = [e]) as Ho.
    { unfold xrel in Fp. destruct (xp_c p), (xp_a p); try done.
      - destruct Fp as [E _]. rewrite E in *. apply elem_of_list_singleton in He as ->. done.
      - destruct Fp as [E _]. rewrite E in *. apply elem_of_list_singleton in He as ->. done.
      - destruct Fp as (r & k & f & b & E & _). rewrite E in *. apply elem_of_list_singleton in He as ->. done. }
    destruct (dinv_exclusive sz _ _ _ _ _ D c e (YO (p' :: X))) as [H1 H2]; [|done|].
    { change (YO (p :: p' :: X)) with (xp_o p ++ YO (p' :: X)). by rewrite Ho. }
    destruct Hc' as [(r & l & Hr & Hl & Hin)|(e' & He' & Hin)].
    - rewrite (H2 (ar_data r) l) in Hin; [done| |done]. apply elem_of_list_fmap. exists r. split; [done|].
      apply elem_of_list_bind. exists p'. split; [done|]. right. left.
    - rewrite (H1 e') in Hin; [done|]. apply elem_of_list_bind. exists p'. split; [done|]. left.
  Qed.

  Lemma xfact_tree h x l : a_get a h = Some x -> l ∈ strong_labels x \/ l ∈ weak_labels x -> (l_tree l < length T)%nat.
  Proof.
    intros Hx Hl. destruct (xone_pair _ _ Hx) as (LI & p & X & <- & _ & (L & D & G & F)).
    apply Forall_cons in F as [Fp _]. destruct Hl as [Hl|Hl].
    - pose proof (xrel_strong sz _ _ _ _ _ Fp) as HF. apply elem_of_list_lookup in Hl as [i Hi].
      destruct (Forall2_lookup_r _ _ _ _ _ HF Hi) as (r & _ & [Hr _]).
      apply (di_lab _ _ _ _ _ _ D). by eapply elem_of_list_lookup_2.
    - unfold xrel in Fp. destruct (xp_c p), (xp_a p) as [|[l'|]| | | |]; try done; cbn in Hl; try by apply elem_of_nil in Hl.
      apply elem_of_list_singleton in Hl as ->. destruct Fp as [_ Fp].
      destruct d as [d|], g as [g|]; try done. apply (di_lab _ _ _ _ _ _ D). destruct Fp as [Hd _]. by eapply elem_of_list_lookup_2.
  Qed.

  (** A label held strongly is a live node. *)
  Lemma xfact_comparable h h' x x' l l' c : a_get a h = Some x -> a_get a h' = Some x' ->
    l ∈ strong_labels x -> l' ∈ strong_labels x' -> c ∈ rng_cells (lrng T l) -> c ∈ rng_cells (lrng T l') ->
    anc l l' \/ anc l' l.
  Proof.
    intros Hx Hx' Hl Hl' Hc Hc'. destruct R as (P & LI & Hw & Ha & (L & D & G & F) & _).
    assert (forall x l h, a_get a h = Some x -> l ∈ strong_labels x ->
      exists d s n, live (dw_datas (aw_d w)) d s n /\ L !! d = Some l) as Hlive.
    { clear - D F Ha. intros x l h Hx Hl. assert (x ∈ live_handles (as_h a)) as Hin by (apply xlive_handle; eauto).
      rewrite Ha, live_has in Hin. apply elem_of_list_fmap in Hin as (p & -> & Hp).
      rewrite Forall_forall in F. pose proof (xrel_strong sz _ _ _ _ _ (F _ Hp)) as HF.
      apply elem_of_list_lookup in Hl as [i Hi]. destruct (Forall2_lookup_r _ _ _ _ _ HF Hi) as (r & Hr & [Hr' _]).
      destruct (dinv_ref_live sz _ _ _ _ _ D (ar_data r)) as (s & n & l' & Hd & Hl').
      { apply elem_of_list_fmap. exists r. split; [done|]. apply elem_of_list_bind. exists p. split; [|done].
        by eapply elem_of_list_lookup_2. }
      eauto. }
    destruct (Hlive _ _ _ Hx Hl) as (d1 & s1 & n1 & H1 & L1). destruct (Hlive _ _ _ Hx' Hl') as (d2 & s2 & n2 & H2 & L2).
    eapply (nodes_comparable sz _ _ _ _ _ D c _ _ _ _ _ _ _ _ H1 L1 _ H2 L2).
    Unshelve. all: by apply in_rng_cells.
  Qed.

  (** An item that is alive lies in a buffer that is not freed. *)
  Lemma xfact_block c : is_Some (dw_mem (aw_d w) !! c) ->
    exists blk, dw_blocks (aw_d w) !! fst c = Some blk /\ snd c < b_len blk /\ b_len blk < usize_lim /\
      (sz <> 0 -> b_freed blk = false).
  Proof.
    intros [v Hv]. destruct R as (P & LI & Hw & Ha & (L & D & G & F) & _). cbn [fst] in D.
    assert (exists r o, ent_ok sz (aw_d w) r o /\ in_rng c r = true) as (r & o & [Hr Ha'] & Hc).
    { pose proof (di_own _ _ _ _ _ _ D c) as Hown. unfold memcnt in Hown. rewrite Hv in Hown.
      destruct (decide (0 < ocnt c (YO (omap id P)))%nat) as [Ho|Ho].
      - apply ocnt_pos in Ho as ([r o] & Hin & Hc). exists r, o. split; [|done]. by apply (di_oalloc _ _ _ _ _ _ D (r, o)).
      - destruct (hsum_pos (fun n => inr c (own_rng n)) (dw_datas (aw_d w))) as (d & s & n & Hd & Hc); [lia|].
        exists (nrng n), (d_alloc n). split; [by eapply di_nalloc|]. apply own_in_nrng.
        unfold inr in Hc. destruct (in_rng c (own_rng n)); [done|lia]. }
    destruct (rng_ok_block _ _ Hr) as (blk & E & Hle & Hlim & Hbase). apply in_rng_spec in Hc as [Hb Hi].
    exists blk. rewrite Hb. split_and!; [done|lia|done|]. intros Hs. destruct (Ha' Hs) as (al & s & v' & _ & Hlv & Hpb); [lia|].
    destruct (di_aok _ _ _ _ _ _ D _ _ _ Hlv) as (blk' & E' & Hf & _ & _). congruence.
  Qed.

  (** The slice a xhandle dereferences to. *)
  Lemma xfact_slice (cf : cfg V) h x : c_sz cf = sz -> a_get a h = Some x -> ~ a_weak x ->
    exists r p, hcells T x = rng_cells r /\ x_slice cf w h = Some (p, rg_len r) /\
      (rg_len r <> 0 -> points sz (bbase (bshape (aw_d w)) (rg_blk r)) (rg_blk r) (rg_lo r) p).
  Proof.
    intros Hsz Hx Hw. destruct (xone_pair _ _ Hx) as (LI & p & X & <- & Hg & C). unfold x_slice. rewrite Hg, Hsz.
    assert (p ∈ p :: X) as Hin by left. pose proof (handle_cases sz _ _ _ _ _ C Hin) as Hc.
    destruct (xp_c p) as [r|d0 g0|it|m|m|m] eqn:Ec.
    - destruct Hc as [l ->]. destruct (arc_slice_ok sz _ _ _ _ _ C Hin) as (q & -> & Hq). cbn.
      exists (lrng T l), q. split_and!; try done.
    - destruct Hc as [ol ->]. by cbn in Hw.
    - destruct Hc as [q ->]. destruct (arc_parts_as_slice_ok sz _ _ _ _ _ C) as (k & y & f & b & q' & -> & Hle & E & Hpt).
      rewrite E. cbn [xp_a paps hcells res_opt]. rewrite cover_cells by done. eexists _, _. split_and!; done.
    - destruct Hc as [r ->]. destruct (xinv_pamut sz _ _ _ _ _ C) as [Hr [Hi1 Hi2]]. cbn [xp_a pamut hcells].
      exists r, (si_ptr (ms_items m)). by rewrite Hi2.
    - destruct Hc as [r ->]. destruct (xinv_pait sz _ _ _ _ _ C) as [Hr Hi].
      destruct (sit_as_slice_rel sz _ _ _ Hi) as (q & E & Hpt). exists r, q. by rewrite E.
    - destruct Hc as (r & k & f & b & -> & Hb & Hs).
      assert (f + b <= 2 ^ N.of_nat k) as Hle by (by destruct Hs as (_ & _ & _ & _ & _ & ? & _)).
      destruct (sip_as_slice_rel sz _ _ _ _ _ _ Hs) as (q & E & Hpt). exists (seg_rng k r f b), q. rewrite E.
      cbn [xp_a pamp hcells res_opt]. rewrite mleft_cells by done. split_and!; [done..|].
      intros Hne. apply Hpt. destruct (decide (f + b = 2 ^ N.of_nat k)) as [Heq|]; [|lia]. exfalso. apply Hne. cbn.
      replace (2 ^ N.of_nat k - b) with f by lia. lia.
  Qed.
  Lemma xfact_x_cells (cf : cfg V) h : c_sz cf = sz ->
    x_cells cf w h = match a_get a h with Some x => hcells T x | None => [] end.
  Proof.
    intros Hsz. unfold x_cells. pose proof (xrel_kind h) as Hk. destruct (a_get a h) as [x|] eqn:Hx.
    - destruct (decide (a_weak x)) as [Hw|Hw].
      { unfold x_slice. destruct (xget w h) as [[]|], x; try done. }
      destruct (xfact_slice cf h x Hsz Hx Hw) as (r & p & -> & -> & Hp).
      destruct (decide (rg_len r = 0)) as [Hz|Hnz]; [unfold rng_cells; cbn; by rewrite Hz|].
      destruct (Hp Hnz) as (-> & -> & _). by destruct r.
    - unfold x_slice. by destruct (xget w h).
  Qed.
End facts.
