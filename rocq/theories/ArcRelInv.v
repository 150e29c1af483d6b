(** The relation between the states of ArcModel.v and those of the
    specification, and what it says about memory and reference counts. *)
From Verif Require Import Base BaseLemmas Api SliceItemsModel BinPartsModel DataModel RcModel Spec
  BinPartsProof SliceItemsProof DataInv DataSteps DataFuns GuardInv GuardSteps GuardFuns RelInv ArcModel ArcInv.
Local Open Scope N_scope.

(** A handle, its abstraction, and the ranges it owns exclusively. *)
Record xpair := XP { xp_c : xhandle; xp_a : ahandle; xp_o : list (rng * option nat) }.

Definition xstrong (h : xhandle) : list arcslice :=
  match h with XArc r => [r] | XParts it => dq_items (bp_deque it) | _ => [] end.
Definition xweak (h : xhandle) : list nat := match h with XWeak _ (Some g) => [g] | _ => [] end.
Definition YS (X : list xpair) : list arcslice := X ≫= fun p => xstrong (xp_c p).
Definition YW (X : list xpair) : list nat := X ≫= fun p => xweak (xp_c p).
Definition YO (X : list xpair) : list (rng * option nat) := X ≫= xp_o.

Definition xsrel (L LI : list label) (r : arcslice) (l : label) : Prop :=
  L !! ar_data r = Some l /\ LI !! ar_guard r = Some l.

Section rel.
  Context {V : Type} (sz : N).
  Notation dworld := (dworld V).
  Notation dg := (dworld * gdworld)%type.
  Notation dinv := (@dinv V sz).

  Definition xrel (B : list (N * N)) (T : trees) (L LI : list label) (p : xpair) : Prop :=
    match xp_c p, xp_a p with
    | XArc r, ARc l => xp_o p = [] /\ xsrel L LI r l
    | XWeak d g, AWeak ol => xp_o p = [] /\
        match d, g, ol with
        | Some d, Some g, Some l => L !! d = Some l /\ LI !! g = Some l
        | None, None, None => True
        | _, _, _ => False
        end
    | XParts it, AParts q => xp_o p = [] /\ exists k x f b ps,
        bpi_rel (lhf T) (lht T) it ps k x f b /\ q = cover (lhf T) (lht T) k x f b /\
        Forall (fun y => xsrel L LI (fst y) (snd y)) ps /\ (l_tree x < length T)%nat
    | XMut m, AMut r => xp_o p = [(r, ms_alloc m)] /\ (rg_blk r < length B)%nat /\
        items_rel sz (bbase B (rg_blk r)) r (ms_items m)
    | XIter m, AIter r => xp_o p = [(r, mi_alloc m)] /\ (rg_blk r < length B)%nat /\
        iter_rel sz (bbase B (rg_blk r)) r (mi_iter m)
    | XMParts m, AMParts rs => exists r k f b, xp_o p = [(seg_rng k r f b, mp_alloc m)] /\ (rg_blk r < length B)%nat /\
        sip_rel sz (bbase B (rg_blk r)) r k f b (mp_iter m) /\
        rs = take (N.to_nat (2 ^ N.of_nat k - f - b)) (drop (N.to_nat f) (rng_leaves k r))
    | _, _ => False
    end.

  Definition xinv (LI : list label) (s : dg) (T : trees) (X : list xpair) : Prop := exists L,
    dinv (fst s) T L (ar_data <$> YS X) (YO X) /\
    ainv (snd s) L LI (ar_guard <$> YS X) (YW X) /\
    Forall (xrel (bshape (fst s)) T L LI) X.

  Lemma srel_mono L LI XL YI r l : xsrel L LI r l -> xsrel (L ++ XL) (LI ++ YI) r l.
  Proof. intros [H1 H2]. split; by apply lookup_app_l_Some. Qed.
  Lemma bbase_app B XB b : (b < length B)%nat -> bbase (B ++ XB) b = bbase B b.
  Proof. intros H. unfold bbase. by rewrite lookup_app_l. Qed.
  Lemma xrel_mono B XB T XT L XL LI YI  p :
    xrel B T L LI p -> xrel (B ++ XB) (T ++ XT) (L ++ XL) (LI ++ YI) p.
  Proof.
    unfold xrel. destruct (xp_c p) as [r|d g|it|m|m|m], (xp_a p) as [l|ol|q|r'|r'|rs]; try done.
    - intros [? H]. split; [done|]. by apply srel_mono.
    - intros [? H]. split; [done|]. destruct d, g, ol; try done. destruct H. split; by apply lookup_app_l_Some.
    - intros (? & k & x & f & b & ps & Hrel & -> & Hps & Hx). split; [done|]. exists k, x, f, b, ps.
      rewrite cover_app, app_length by done. split_and!; [|done| |lia].
      + destruct Hrel. split; try done. by rewrite cover_app.
      + eapply Forall_impl; [exact Hps|]. intros. by apply srel_mono.
    - intros (? & Hb & H). rewrite bbase_app, app_length by done. split_and!; [done|lia|done].
    - intros (? & Hb & H). rewrite bbase_app, app_length by done. split_and!; [done|lia|done].
    - intros (r & k & f & b & ? & Hb & H & ?). exists r, k, f, b. rewrite bbase_app, app_length by done.
      split_and!; try done. lia.
  Qed.
  Lemma xrel_ext B T L XL LI YI  p :
    xrel B T L LI p -> xrel B T (L ++ XL) (LI ++ YI) p.
  Proof. intros H. apply (xrel_mono _ [] _ [] _ XL _ YI) in H. by rewrite !app_nil_r in H. Qed.

  Lemma YS_app X Y : YS (X ++ Y) = YS X ++ YS Y.
  Proof. apply bind_app. Qed.
  Lemma YW_app X Y : YW (X ++ Y) = YW X ++ YW Y.
  Proof. apply bind_app. Qed.
  Lemma YO_app X Y : YO (X ++ Y) = YO X ++ YO Y.
  Proof. apply bind_app. Qed.
  Lemma xinv_perm {LI} s T X Y : X ≡ₚ Y -> xinv LI s T X -> xinv LI s T Y.
  Proof.
    intros HXY (L & D & G & F). exists L. split_and!.
    - eapply dinv_perm; [..|exact D].
      + apply fmap_Permutation. unfold YS. by rewrite HXY.
      + unfold YO. by rewrite HXY.
    - eapply ainv_perm; [..|exact G].
      + apply fmap_Permutation. unfold YS. by rewrite HXY.
      + unfold YW. by rewrite HXY.
    - by rewrite <- HXY.
  Qed.

  (** *** Labels of the slices held *)
  Lemma Forall_pairs L LI ps : Forall (fun y => xsrel L LI (fst y) (snd y)) ps ->
    Forall2 (xsrel L LI) (fst <$> ps) (snd <$> ps).
  Proof. intros H. induction H as [|y ps' Hy _ IH']; cbn; constructor; done. Qed.
  Lemma xrel_strong B T L LI p : xrel B T L LI p ->
    Forall2 (xsrel L LI) (xstrong (xp_c p)) (strong_labels (xp_a p)).
  Proof.
    unfold xrel, xstrong, strong_labels. destruct (xp_c p) as [r|d g|it|m|m|m], (xp_a p) as [l|ol|q|r'|r'|rs]; try done.
    - intros [_ ?]. constructor; [done|constructor].
    - intros (_ & k & x & f & b & ps & Hrel & -> & Hps & Hx).
      rewrite (br_items _ _ _ _ _ _ _ _ Hrel), <- (br_cover _ _ _ _ _ _ _ _ Hrel). by apply Forall_pairs.
  Qed.
  Lemma rel_strong B T L LI X : Forall (xrel B T L LI) X ->
    Forall2 (xsrel L LI) (YS X) (X ≫= fun p => strong_labels (xp_a p)).
  Proof.
    intros H. induction H as [|p X Hp _ IH]; [constructor|].
    change (YS (p :: X)) with (xstrong (xp_c p) ++ YS X). rewrite bind_cons.
    apply Forall2_app; [|done]. by eapply xrel_strong.
  Qed.
  (** *** Memory *)
  Lemma xrel_cells B T L LI p c : xrel B T L LI p ->
    c ∈ hcells T (xp_a p) <->
    (exists r l, r ∈ xstrong (xp_c p) /\ L !! ar_data r = Some l /\ in_rng c (lrng T l) = true) \/
    (exists e, e ∈ xp_o p /\ in_rng c (fst e) = true).
  Proof.
    intros H. pose proof (xrel_strong _ _ _ _ _ H) as HS. unfold xrel in H.
    assert (forall q : list label, Forall2 (xsrel L LI) (xstrong (xp_c p)) q -> c ∈ (q ≫= fun l => rng_cells (lrng T l)) <->
      (exists r l, r ∈ xstrong (xp_c p) /\ L !! ar_data r = Some l /\ in_rng c (lrng T l) = true)) as Hq.
    { intros q Hq. rewrite elem_of_list_bind. split.
      - intros (l & Hc & Hl). apply elem_of_list_lookup in Hl as [i Hi].
        destruct (Forall2_lookup_r _ _ _ _ _ Hq Hi) as (r & Hr & [Hd _]).
        exists r, l. split_and!; [by eapply elem_of_list_lookup_2|done|by apply in_rng_cells].
      - intros (r & l & Hr & Hd & Hc). apply elem_of_list_lookup in Hr as [i Hi].
        destruct (Forall2_lookup_l _ _ _ _ _ Hq Hi) as (l' & Hl' & [Hd' _]). rewrite Hd in Hd'. injection Hd' as <-.
        exists l. split; [by apply in_rng_cells|by eapply elem_of_list_lookup_2]. }
    specialize (Hq _ HS).
    assert (forall cs : list (nat * N), xp_o p = [] -> (c ∈ cs <-> exists r l, r ∈ xstrong (xp_c p) /\ L !! ar_data r = Some l /\ in_rng c (lrng T l) = true) ->
      c ∈ cs <-> (exists r l, r ∈ xstrong (xp_c p) /\ L !! ar_data r = Some l /\ in_rng c (lrng T l) = true) \/
        (exists e, e ∈ xp_o p /\ in_rng c (fst e) = true)) as Hno.
    { intros cs -> ->. split; [by left|]. intros [?|(e & He & _)]; [done|by apply elem_of_nil in He]. }
    assert (forall (cs : list (nat * N)) r o, xp_o p = [(r, o)] -> xstrong (xp_c p) = [] -> (c ∈ cs <-> in_rng c r = true) ->
      c ∈ cs <-> (exists r l, r ∈ xstrong (xp_c p) /\ L !! ar_data r = Some l /\ in_rng c (lrng T l) = true) \/
        (exists e, e ∈ xp_o p /\ in_rng c (fst e) = true)) as Hown.
    { intros cs r o -> -> ->. split.
      - intros Hr. right. exists (r, o). split; [by left|done].
      - intros [(? & ? & ?%elem_of_nil & _)|(e & He & Hc)]; [done|]. by apply elem_of_list_singleton in He as ->. }
    destruct (xp_c p) as [r|d g|it|m|m|m], (xp_a p) as [l|ol|q|r'|r'|rs]; try done; cbn [hcells strong_labels] in *.
    - destruct H as [Ho _]. apply Hno; [done|]. cbn in Hq. by rewrite app_nil_r in Hq.
    - destruct H as [Ho _]. apply Hno; [done|]. split; [by intros ?%elem_of_nil|]. intros (? & ? & ?%elem_of_nil & _). done.
    - destruct H as [Ho _]. apply Hno; [done|]. rewrite <- Hq. clear. induction q as [|y q IH]; [done|].
      cbn. rewrite !elem_of_app. by rewrite IH.
    - destruct H as [Ho _]. eapply Hown; [done..|]. by rewrite in_rng_cells.
    - destruct H as [Ho _]. eapply Hown; [done..|]. by rewrite in_rng_cells.
    - destruct H as (r & k & f & b & Ho & _ & Hs & ->). eapply Hown; [done..|].
      rewrite seg_cells by apply Hs. by rewrite in_rng_cells.
  Qed.
  (** The items alive are exactly those some xhandle covers. *)
  Lemma xinv_covered {LI} s T X c : xinv LI s T X ->
    is_Some (dw_mem (fst s) !! c) <-> c ∈ (X ≫= fun p => hcells T (xp_a p)).
  Proof.
    intros (L & D & G & F). rewrite (dinv_covered sz _ _ _ _ _ D c), elem_of_list_bind.
    rewrite Forall_forall in F. unfold YS, YO. setoid_rewrite elem_of_list_fmap. setoid_rewrite elem_of_list_bind. split.
    - intros [(x & l & (r & -> & p & Hr & Hp) & Hl & Hc)|(e & (p & He & Hp) & Hc)]; exists p;
        (split; [|done]); apply (xrel_cells _ _ _ _ _ _ (F p Hp)); [left|right]; eauto.
    - intros (p & Hc & Hp). apply (xrel_cells _ _ _ _ _ _ (F p Hp)) in Hc as [(r & l & Hr & Hl & Hc)|(e & He & Hc)]; [left|right].
      + exists (ar_data r), l. split_and!; [|done..]. eauto.
      + eauto.
  Qed.
  Lemma collect_eq {LI} s T X hs m : xinv LI s T X -> dw_mem (fst s) ⊆ m ->
    live_handles hs = xp_a <$> X -> dw_mem (fst s) = collect T hs m.
  Proof.
    intros C Hsub Hhs. apply map_eq. intros c. unfold collect, all_cells. rewrite Hhs.
    assert (c ∈ ((xp_a <$> X) ≫= hcells T) <-> is_Some (dw_mem (fst s) !! c)) as Hc.
    { rewrite (xinv_covered _ _ _ _ C). clear. induction X as [|p X IH]; [done|]. cbn. rewrite !elem_of_app. by rewrite IH. }
    destruct (dw_mem (fst s) !! c) as [v|] eqn:E.
    - symmetry. apply map_filter_lookup_Some. split; [by eapply lookup_weaken|]. cbn. apply Hc. eauto.
    - symmetry. apply map_filter_lookup_None. right. intros v _. cbn. rewrite Hc. by intros [].
  Qed.

  (** *** Reference counts *)
  Section counts.
    Context (s : dg) (T : trees) (X : list xpair) (L LI : list label).
    Context (D : dinv (fst s) T L (ar_data <$> YS X) (YO X)).
    Context (G : ainv (snd s) L LI (ar_guard <$> YS X) (YW X)).
    Context (F : Forall (xrel (bshape (fst s)) T L LI) X).
    Notation LS := (X ≫= fun p => strong_labels (xp_a p)).

    Lemma cnt_data r l : r ∈ YS X -> xsrel L LI r l -> cnt (ar_data r) (ar_data <$> YS X) = lcnt l LS.
    Proof.
      intros Hr [Hd _]. eapply cnt_labels; [by eapply rel_strong|]. intros x lx Hx [Hdx _]. split.
      - intros E. rewrite E, Hd in Hdx. by injection Hdx.
      - intros ->. by eapply (dinv_label_inj sz _ _ _ _ _ D).
    Qed.
    Lemma cnt_guard r l : r ∈ YS X -> xsrel L LI r l -> cnt (ar_guard r) (ar_guard <$> YS X) = lcnt l LS.
    Proof.
      intros Hr [_ Hd]. eapply cnt_labels; [by eapply rel_strong|]. intros x lx Hx [_ Hdx]. split.
      - intros E. rewrite E, Hd in Hdx. by injection Hdx.
      - intros ->. destruct (ainv_ref _ _ _ _ _ G (ar_guard r)) as (n & _ & Hn & _); [by apply elem_of_list_fmap_1|].
        destruct (ainv_ref _ _ _ _ _ G (ar_guard x)) as (m & _ & Hm & _); [by apply elem_of_list_fmap_1|].
        eapply (ai_u _ _ _ _ _ G); eauto.
    Qed.
    Lemma label_ref l : l ∈ LS <-> exists r, r ∈ YS X /\ xsrel L LI r l.
    Proof.
      pose proof (rel_strong _ _ _ _ _ F) as HS. split.
      - intros [i Hi]%elem_of_list_lookup. destruct (Forall2_lookup_r _ _ _ _ _ HS Hi) as (r & Hr & ?).
        exists r. split; [by eapply elem_of_list_lookup_2|done].
      - intros (r & [i Hi]%elem_of_list_lookup & Hd & _). destruct (Forall2_lookup_l _ _ _ _ _ HS Hi) as (l' & Hl & Hd' & _).
        rewrite Hd in Hd'. injection Hd' as <-. by eapply elem_of_list_lookup_2.
    Qed.
    (** The three counts, in terms of labels. *)
    Lemma data_count_one r l : r ∈ YS X -> xsrel L LI r l ->
      rc_count (dw_datas (fst s)) (ar_data r) = 1%nat <->
      lcnt l LS = 1%nat /\ forall l', l' ∈ LS -> anc l' l -> l' = l.
    Proof.
      intros Hr Hs. pose proof Hs as [Hd _].
      assert (ar_data r ∈ ar_data <$> YS X) as Hin by (by apply elem_of_list_fmap_1).
      destruct (dinv_ref_live sz _ _ _ _ _ D _ Hin) as (c & n & l' & Hv & Hl'). rewrite Hd in Hl'. injection Hl' as <-.
      rewrite (rc_count_live _ _ _ _ Hv), (dinv_count_one sz _ _ _ _ _ D _ _ _ _ Hin Hd Hv), (cnt_data _ _ Hr Hs).
      split; intros [H1 H2]; (split; [done|]).
      - intros l' (r' & Hr' & Hs')%label_ref Ha. pose proof Hs' as [Hd' _].
        rewrite (H2 _ _ (elem_of_list_fmap_1 _ _ _ Hr') Hd' Ha), Hd in Hd'. by injection Hd'.
      - intros x lx (r' & -> & Hr')%elem_of_list_fmap Hlx Ha.
        pose proof (rel_strong _ _ _ _ _ F) as HS. apply elem_of_list_lookup in Hr' as [i Hi].
        destruct (Forall2_lookup_l _ _ _ _ _ HS Hi) as (l' & Hl' & Hd' & _). rewrite Hlx in Hd'. injection Hd' as <-.
        assert (lx = l) as -> by (apply H2; [by eapply elem_of_list_lookup_2|done]).
        by eapply (dinv_label_inj sz _ _ _ _ _ D).
    Qed.
    Lemma below_guard l : (forall j lj, j ∈ ar_guard <$> YS X -> LI !! j = Some lj -> anc l lj -> lj = l) <->
      (forall l', l' ∈ LS -> anc l l' -> l' = l).
    Proof.
      split.
      - intros H l' (r & Hr & [_ Hi])%label_ref. eapply H; [by apply elem_of_list_fmap_1|done].
      - intros H j lj (r & -> & Hr)%elem_of_list_fmap Hlj. apply H.
        pose proof (rel_strong _ _ _ _ _ F) as HS. apply elem_of_list_lookup in Hr as [i Hi].
        destruct (Forall2_lookup_l _ _ _ _ _ HS Hi) as (l' & Hl' & _ & Hd'). rewrite Hlj in Hd'. injection Hd' as <-.
        by eapply elem_of_list_lookup_2.
    Qed.
    Lemma guard_count_one r l : r ∈ YS X -> xsrel L LI r l ->
      rc_count (gd_guards (snd s)) (ar_guard r) = 1%nat <->
      lcnt l LS = 1%nat /\ forall l', l' ∈ LS -> anc l l' -> l' = l.
    Proof.
      intros Hr Hs. pose proof Hs as [_ Hi].
      rewrite (ainv_count_one _ _ _ _ _ G _ _ (elem_of_list_fmap_1 _ _ _ Hr) Hi), (cnt_guard _ _ Hr Hs).
      by rewrite below_guard.
    Qed.
    Lemma data_alive d l : L !! d = Some l ->
      (exists c n, live (dw_datas (fst s)) d c n) <-> (exists l', l' ∈ LS /\ anc l' l).
    Proof.
      intros Hd. rewrite (dinv_alive sz _ _ _ _ _ D _ _ Hd). split.
      - intros (x & lx & (r & -> & Hr)%elem_of_list_fmap & Hlx & Ha). exists lx. split; [|done].
        pose proof (rel_strong _ _ _ _ _ F) as HS. apply elem_of_list_lookup in Hr as [i Hi].
        destruct (Forall2_lookup_l _ _ _ _ _ HS Hi) as (l' & Hl' & Hd' & _). rewrite Hlx in Hd'. injection Hd' as <-.
        by eapply elem_of_list_lookup_2.
      - intros (l' & (r & Hr & [Hr' _])%label_ref & Ha). exists (ar_data r), l'. split_and!; [|done..].
        by apply elem_of_list_fmap_1.
    Qed.
  End counts.
End rel.
