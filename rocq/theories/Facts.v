(** What the relation between the model and the specification says about
    handles, items and labels. *)
From Verif Require Import Base BaseLemmas Api SliceItemsModel BinPartsModel DataModel RcModel Spec
  BinPartsProof SliceItemsProof DataInv DataSteps DataFuns GuardInv GuardSteps GuardFuns RelInv RelOps RelMut RelParts Refine Observe.
Local Open Scope N_scope.

Definition a_unique (x : ahandle) : Prop :=
  match x with AMut _ | AIter _ | AMParts _ => True | _ => False end.
Definition a_weak (x : ahandle) : Prop := match x with AWeak _ => True | _ => False end.
#[global] Instance a_weak_dec x : Decision (a_weak x).
Proof. destruct x; cbn; apply _. Defined.
(** Same kind of value. *)
Definition kind_ok (c : handle) (a : ahandle) : Prop :=
  match c, a with
  | HRc _, ARc _ | HWeak _ _, AWeak _ | HParts _, AParts _ | HMut _, AMut _ | HIter _, AIter _ | HMParts _, AMParts _ => True
  | _, _ => False
  end.

Lemma anc_comparable l1 l2 l : anc l1 l -> anc l2 l -> anc l1 l2 \/ anc l2 l1.
Proof.
  intros [Ht1 Hp1] [Ht2 Hp2]. unfold anc. rewrite Ht1, Ht2.
  destruct (prefix_weak_total _ _ _ Hp1 Hp2); eauto.
Qed.

(** Two nodes that share an item are comparable. *)
Section nodes.
  Context {V : Type} (sz : N) (w : dworld V) (T : trees) (L : list label) (R : list nat) (O : list (rng * option nat)).
  Context (I : dinv sz w T L R O).
  Lemma node_owner c : forall m d s n l, (length (dw_datas w) - d <= m)%nat -> live (dw_datas w) d s n -> L !! d = Some l ->
    in_rng c (lrng T l) = true ->
    exists d' s' n' l', live (dw_datas w) d' s' n' /\ L !! d' = Some l' /\ anc l l' /\ in_rng c (own_rng n') = true.
  Proof.
    induction m as [|m IH]; intros d s n l Hm Hd Hl Hc.
    - pose proof (live_lt _ _ _ _ Hd). lia.
    - destruct (di_geo _ _ _ _ _ _ I _ _ _ _ Hd Hl) as [Hg _]. rewrite <- Hg in Hc.
      apply nrng_own_or_kid in Hc as [Hc|(side & k & Hk & Hc)].
      + exists d, s, n, l. split_and!; [done..|apply anc_refl|done].
      + destruct (di_link _ _ _ _ _ _ I _ _ _ _ _ _ Hd Hl Hk) as [Hlt Hlk].
        destruct (dinv_linked_live sz _ _ _ _ _ I _ _ _ _ _ Hd Hk) as (s' & n' & Hd').
        pose proof (live_lt _ _ _ _ Hd). pose proof (live_lt _ _ _ _ Hd').
        destruct (IH k s' n' (lchild l side)) as (d2 & s2 & n2 & l2 & H2 & Hl2 & Ha & Ho); try done; [lia| |].
        { by rewrite lrng_child, <- Hg. }
        exists d2, s2, n2, l2. split_and!; try done. eapply anc_trans; [apply anc_child|exact Ha].
  Qed.
  Lemma nodes_comparable c d1 s1 n1 l1 d2 s2 n2 l2 :
    live (dw_datas w) d1 s1 n1 -> L !! d1 = Some l1 -> in_rng c (lrng T l1) = true ->
    live (dw_datas w) d2 s2 n2 -> L !! d2 = Some l2 -> in_rng c (lrng T l2) = true ->
    anc l1 l2 \/ anc l2 l1.
  Proof.
    intros H1 L1 C1 H2 L2 C2.
    destruct (node_owner c _ _ _ _ _ (le_n _) H1 L1 C1) as (d1' & s1' & n1' & l1' & H1' & L1' & A1 & O1).
    destruct (node_owner c _ _ _ _ _ (le_n _) H2 L2 C2) as (d2' & s2' & n2' & l2' & H2' & L2' & A2 & O2).
    assert (d1' = d2') as ->.
    { destruct (decide (d1' = d2')) as [|Hne]; [done|exfalso].
      pose proof (hsum_two (fun n => inr c (own_rng n)) _ _ _ _ _ _ _ H1' H2' Hne) as Hs. cbn in Hs.
      unfold inr in Hs at 1 2. rewrite O1, O2 in Hs.
      pose proof (di_own _ _ _ _ _ _ I c) as Ho. unfold memcnt in Ho. destruct (dw_mem w !! c); lia. }
    rewrite L1' in L2'. injection L2' as <-. by eapply anc_comparable.
  Qed.
End nodes.

Section facts.
  Context {V : Type} (sz : N) (w : world V) (a : astate V).
  Context (R : rel sz w a).
  Notation T := (as_trees a).

  Lemma rel_kind h : match get_h w h, a_get a h with
    | Some c, Some x => kind_ok c x | None, None => True | _, _ => False end.
  Proof.
    destruct R as (P & Hw & Ha & (L & LI & LG & D & G & F) & _). unfold get_h, a_get. rewrite Hw, Ha, !list_lookup_fmap.
    destruct (P !! h) as [[p|]|] eqn:E; cbn; try done.
    assert (p ∈ omap id P) as Hin. { apply elem_of_list_omap. exists (Some p). split; [|done]. by eapply elem_of_list_lookup_2. }
    rewrite Forall_forall in F. specialize (F _ Hin). unfold hrel in F. by destruct (hp_c p), (hp_a p).
  Qed.
  Lemma live_handle x : x ∈ live_handles (as_h a) <-> exists h, a_get a h = Some x.
  Proof.
    unfold live_handles, a_get. rewrite elem_of_list_omap. split.
    - intros ([y|] & Hy & [= <-]). apply elem_of_list_lookup in Hy as [h Hh]. exists h. by rewrite Hh.
    - intros [h Hh]. exists (Some x). split; [|done]. destruct (as_h a !! h) as [[y|]|] eqn:E; try done.
      injection Hh as ->. by eapply elem_of_list_lookup_2.
  Qed.
  Lemma fact_alive c : is_Some (as_mem a !! c) <-> exists h x, a_get a h = Some x /\ c ∈ hcells T x.
  Proof.
    destruct R as (P & Hw & Ha & C & Hm & _). rewrite Hm, (cinv_covered sz _ _ _ c C). split.
    - intros Hc. apply elem_of_list_bind in Hc as (p & Hc & Hp).
      assert (hp_a p ∈ live_handles (as_h a)) as Hl. { rewrite Ha, live_has. apply elem_of_list_fmap. eauto. }
      apply live_handle in Hl as [h Hh]. eauto.
    - intros (h & x & Hx & Hc). assert (x ∈ live_handles (as_h a)) as Hl by (apply live_handle; eauto).
      rewrite Ha, live_has in Hl. apply elem_of_list_fmap in Hl as (p & -> & Hp). apply elem_of_list_bind. eauto.
  Qed.
  Lemma fact_covered h x c : a_get a h = Some x -> c ∈ hcells T x -> is_Some (as_mem a !! c).
  Proof. intros. apply fact_alive. eauto. Qed.

  (** Two different variables. *)
  Lemma two_pairs h h' x x' : h <> h' -> a_get a h = Some x -> a_get a h' = Some x' ->
    exists p p' X, hp_a p = x /\ hp_a p' = x' /\ cinv sz (w_d w, w_g w) T (p :: p' :: X).
  Proof.
    intros Hne Hx Hx'. destruct R as (P & Hw & Ha & C & _). unfold a_get in Hx, Hx'.
    rewrite Ha, !list_lookup_fmap in Hx, Hx'.
    destruct (P !! h) as [[p|]|] eqn:E; cbn in Hx; try done. destruct (P !! h') as [[p'|]|] eqn:E'; cbn in Hx'; try done.
    injection Hx as <-. injection Hx' as <-. destruct (omap_id_insert P h p E) as [H1 _].
    destruct (omap_id_insert (<[h := None]> P) h' p') as [H2 _]. { by rewrite list_lookup_insert_ne. }
    exists p, p', (omap id (<[h' := None]> (<[h := None]> P))). split_and!; try done.
    eapply cinv_perm; [|exact C]. rewrite H1. by constructor.
  Qed.
  Lemma one_pair h x : a_get a h = Some x -> exists p X, hp_a p = x /\ get_h w h = Some (hp_c p) /\
    cinv sz (w_d w, w_g w) T (p :: X).
  Proof.
    intros Hx. destruct R as (P & Hw & Ha & C & _). unfold a_get in Hx.
    rewrite Ha, !list_lookup_fmap in Hx. destruct (P !! h) as [[p|]|] eqn:E; cbn in Hx; try done.
    injection Hx as <-. destruct (omap_id_insert P h p E) as [H1 _]. exists p, (omap id (<[h := None]> P)).
    split_and!; [done| |by eapply cinv_perm]. unfold get_h. by rewrite Hw, list_lookup_fmap, E.
  Qed.

  Lemma fact_exclusive h h' x x' c : h <> h' -> a_get a h = Some x -> a_get a h' = Some x' -> a_unique x ->
    c ∈ hcells T x -> c ∉ hcells T x'.
  Proof.
    intros Hne Hx Hx' Hu Hc Hc'. destruct (two_pairs _ _ _ _ Hne Hx Hx') as (p & p' & X & <- & <- & (L & LI & LG & D & G & F)).
    apply Forall_cons in F as [Fp F]. apply Forall_cons in F as [Fp' _].
    apply (hrel_cells sz _ _ _ _ _ _ c Fp) in Hc. apply (hrel_cells sz _ _ _ _ _ _ c Fp') in Hc'.
    destruct Hc as [(r & l & Hr & _)|(e & He & Hce)].
    { unfold hrel in Fp. destruct (hp_c p), (hp_a p); try done; by apply elem_of_nil in Hr. }
    assert (hp_o p = [e]) as Ho.
    { unfold hrel in Fp. destruct (hp_c p), (hp_a p); try done.
      - destruct Fp as [E _]. rewrite E in *. apply elem_of_list_singleton in He as ->. done.
      - destruct Fp as [E _]. rewrite E in *. apply elem_of_list_singleton in He as ->. done.
      - destruct Fp as (r & k & f & b & E & _). rewrite E in *. apply elem_of_list_singleton in He as ->. done. }
    destruct (dinv_exclusive sz _ _ _ _ _ D c e (XO (p' :: X))) as [H1 H2]; [|done|].
    { change (XO (p :: p' :: X)) with (hp_o p ++ XO (p' :: X)). by rewrite Ho. }
    destruct Hc' as [(r & l & Hr & Hl & Hin)|(e' & He' & Hin)].
    - rewrite (H2 (rs_data r) l) in Hin; [done| |done]. apply elem_of_list_fmap. exists r. split; [done|].
      apply elem_of_list_bind. exists p'. split; [done|]. right. left.
    - rewrite (H1 e') in Hin; [done|]. apply elem_of_list_bind. exists p'. split; [done|]. left.
  Qed.

  Lemma fact_tree h x l : a_get a h = Some x -> l ∈ strong_labels x \/ l ∈ weak_labels x -> (l_tree l < length T)%nat.
  Proof.
    intros Hx Hl. destruct (one_pair _ _ Hx) as (p & X & <- & _ & (L & LI & LG & D & G & F)).
    apply Forall_cons in F as [Fp _]. destruct Hl as [Hl|Hl].
    - pose proof (hrel_strong sz _ _ _ _ _ _ Fp) as HF. apply elem_of_list_lookup in Hl as [i Hi].
      destruct (Forall2_lookup_r _ _ _ _ _ HF Hi) as (r & _ & [Hr _]).
      apply (di_lab _ _ _ _ _ _ D). by eapply elem_of_list_lookup_2.
    - unfold hrel in Fp. destruct (hp_c p), (hp_a p) as [|[l'|]| | | |]; try done; cbn in Hl; try by apply elem_of_nil in Hl.
      apply elem_of_list_singleton in Hl as ->. destruct Fp as (_ & Hg & _). by eapply (gs_lg _ _ _ _ _ (gi_str _ _ _ _ _ _ G)).
  Qed.

  (** A label held strongly is a live node. *)
  Lemma fact_comparable h h' x x' l l' c : a_get a h = Some x -> a_get a h' = Some x' ->
    l ∈ strong_labels x -> l' ∈ strong_labels x' -> c ∈ rng_cells (lrng T l) -> c ∈ rng_cells (lrng T l') ->
    anc l l' \/ anc l' l.
  Proof.
    intros Hx Hx' Hl Hl' Hc Hc'. destruct R as (P & Hw & Ha & (L & LI & LG & D & G & F) & _).
    assert (forall x l h, a_get a h = Some x -> l ∈ strong_labels x ->
      exists d s n, live (dw_datas (w_d w)) d s n /\ L !! d = Some l) as Hlive.
    { clear - D F Ha. intros x l h Hx Hl. assert (x ∈ live_handles (as_h a)) as Hin by (apply live_handle; eauto).
      rewrite Ha, live_has in Hin. apply elem_of_list_fmap in Hin as (p & -> & Hp).
      rewrite Forall_forall in F. pose proof (hrel_strong sz _ _ _ _ _ _ (F _ Hp)) as HF.
      apply elem_of_list_lookup in Hl as [i Hi]. destruct (Forall2_lookup_r _ _ _ _ _ HF Hi) as (r & Hr & [Hr' _]).
      destruct (dinv_ref_live sz _ _ _ _ _ D (rs_data r)) as (s & n & l' & Hd & Hl').
      { apply elem_of_list_fmap. exists r. split; [done|]. apply elem_of_list_bind. exists p. split; [|done].
        by eapply elem_of_list_lookup_2. }
      eauto. }
    destruct (Hlive _ _ _ Hx Hl) as (d1 & s1 & n1 & H1 & L1). destruct (Hlive _ _ _ Hx' Hl') as (d2 & s2 & n2 & H2 & L2).
    eapply (nodes_comparable sz _ _ _ _ _ D c _ _ _ _ _ _ _ _ H1 L1 _ H2 L2).
    Unshelve. all: by apply in_rng_cells.
  Qed.

  (** An item that is alive lies in a buffer that is not freed. *)
  Lemma fact_block c : is_Some (dw_mem (w_d w) !! c) ->
    exists blk, dw_blocks (w_d w) !! fst c = Some blk /\ snd c < b_len blk /\ b_len blk < usize_lim /\
      (sz <> 0 -> b_freed blk = false).
  Proof.
    intros [v Hv]. destruct R as (P & Hw & Ha & (L & LI & LG & D & G & F) & _). cbn [fst] in D.
    assert (exists r o, ent_ok sz (w_d w) r o /\ in_rng c r = true) as (r & o & [Hr Ha'] & Hc).
    { pose proof (di_own _ _ _ _ _ _ D c) as Hown. unfold memcnt in Hown. rewrite Hv in Hown.
      destruct (decide (0 < ocnt c (XO (omap id P)))%nat) as [Ho|Ho].
      - apply ocnt_pos in Ho as ([r o] & Hin & Hc). exists r, o. split; [|done]. by apply (di_oalloc _ _ _ _ _ _ D (r, o)).
      - destruct (hsum_pos (fun n => inr c (own_rng n)) (dw_datas (w_d w))) as (d & s & n & Hd & Hc); [lia|].
        exists (nrng n), (d_alloc n). split; [by eapply di_nalloc|]. apply own_in_nrng.
        unfold inr in Hc. destruct (in_rng c (own_rng n)); [done|lia]. }
    destruct (rng_ok_block _ _ Hr) as (blk & E & Hle & Hlim & Hbase). apply in_rng_spec in Hc as [Hb Hi].
    exists blk. rewrite Hb. split_and!; [done|lia|done|]. intros Hs. destruct (Ha' Hs) as (al & s & v' & _ & Hlv & Hpb); [lia|].
    destruct (di_aok _ _ _ _ _ _ D _ _ _ Hlv) as (blk' & E' & Hf & _ & _). congruence.
  Qed.

  (** The slice a handle dereferences to. *)
  Lemma fact_slice (cf : cfg V) h x : c_sz cf = sz -> a_get a h = Some x -> ~ a_weak x ->
    exists r p, hcells T x = rng_cells r /\ h_slice cf w h = Some (p, rg_len r) /\
      (rg_len r <> 0 -> points sz (bbase (bshape (w_d w)) (rg_blk r)) (rg_blk r) (rg_lo r) p).
  Proof.
    intros Hsz Hx Hw. destruct (one_pair _ _ Hx) as (p & X & <- & Hg & C). unfold h_slice. rewrite Hg, Hsz.
    assert (p ∈ p :: X) as Hin by left. pose proof (handle_cases sz _ _ _ _ C Hin) as Hc.
    destruct (hp_c p) as [r|d0 g0|it|m|m|m] eqn:Ec.
    - destruct Hc as [l ->]. destruct (rcs_slice_ok sz _ _ _ _ _ C Hin) as (q & -> & Hq). cbn.
      exists (lrng T l), q. split_and!; try done.
    - destruct Hc as [ol ->]. by cbn in Hw.
    - destruct Hc as [q ->]. destruct (parts_as_slice_ok sz _ _ _ _ _ C) as (k & y & f & b & q' & -> & Hle & E & Hpt).
      rewrite E. cbn [hp_a pps hcells res_opt]. rewrite cover_cells by done. eexists _, _. split_and!; done.
    - destruct Hc as [r ->]. destruct (cinv_pmut sz _ _ _ _ _ C) as [Hr [Hi1 Hi2]]. cbn [hp_a pmut hcells].
      exists r, (si_ptr (ms_items m)). by rewrite Hi2.
    - destruct Hc as [r ->]. destruct (cinv_pit sz _ _ _ _ _ C) as [Hr Hi].
      destruct (sit_as_slice_rel sz _ _ _ Hi) as (q & E & Hpt). exists r, q. by rewrite E.
    - destruct Hc as (r & k & f & b & -> & Hb & Hs).
      assert (f + b <= 2 ^ N.of_nat k) as Hle by (by destruct Hs as (_ & _ & _ & _ & _ & ? & _)).
      destruct (sip_as_slice_rel sz _ _ _ _ _ _ Hs) as (q & E & Hpt). exists (seg_rng k r f b), q. rewrite E.
      cbn [hp_a pmp hcells res_opt]. rewrite mleft_cells by done. split_and!; [done..|].
      intros Hne. apply Hpt. destruct (decide (f + b = 2 ^ N.of_nat k)) as [Heq|]; [|lia]. exfalso. apply Hne. cbn.
      replace (2 ^ N.of_nat k - b) with f by lia. lia.
  Qed.
  Lemma fact_h_cells (cf : cfg V) h : c_sz cf = sz ->
    h_cells cf w h = match a_get a h with Some x => hcells T x | None => [] end.
  Proof.
    intros Hsz. unfold h_cells. pose proof (rel_kind h) as Hk. destruct (a_get a h) as [x|] eqn:Hx.
    - destruct (decide (a_weak x)) as [Hw|Hw].
      { unfold h_slice. destruct (get_h w h) as [[]|], x; try done. }
      destruct (fact_slice cf h x Hsz Hx Hw) as (r & p & -> & -> & Hp).
      destruct (decide (rg_len r = 0)) as [Hz|Hnz]; [unfold rng_cells; cbn; by rewrite Hz|].
      destruct (Hp Hnz) as (-> & -> & _). by destruct r.
    - unfold h_slice. by destruct (get_h w h).
  Qed.
End facts.
