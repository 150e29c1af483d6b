(** The thread-safe model used by one thread (ArcModel.v) behaves exactly like
    its specification (ArcSpec.v), for every sequence of calls. *)
From Verif Require Import Base BaseLemmas Api SliceItemsModel BinPartsModel DataModel RcModel Spec
  BinPartsProof SliceItemsProof DataInv DataSteps DataFuns GuardInv GuardSteps GuardFuns RelInv RelOps RelMut RelParts Refine
  ArcModel ArcInv ArcRelInv ArcRelOps ArcRelMut ArcRelParts ArcSpec.
Local Open Scope N_scope.

#[local] Arguments mem_replace : simpl never.

Notation xcs P := (fmap (M:=list) (fmap (M:=option) xp_c) P).
Notation xas P := (fmap (M:=list) (fmap (M:=option) xp_a) P).

Lemma omap_id_insert (P : list (option xpair)) h p : P !! h = Some (Some p) ->
  omap id P ≡ₚ p :: omap id (<[h := None]> P) /\
  forall q, omap id (<[h := Some q]> P) ≡ₚ q :: omap id (<[h := None]> P).
Proof.
  intros Hp. assert (h < length P)%nat as Hlt by (by eapply lookup_lt_Some).
  assert (forall x, omap id (<[h := x]> P) = omap id (take h P) ++ option_list x ++ omap id (drop (S h) P)) as Hins.
  { intros x. rewrite insert_take_drop by done. rewrite omap_app. f_equal. by destruct x. }
  rewrite <- (list_insert_id P h (Some p) Hp) at 1. rewrite !Hins. cbn [option_list app]. split.
  - symmetry. apply Permutation_middle.
  - intros q. rewrite Hins. symmetry. apply Permutation_middle.
Qed.
Lemma live_has (P : list (option xpair)) : live_handles (xas P) = xp_a <$> omap id P.
Proof.
  unfold live_handles. induction P as [|[p|] P IH]; [done| |]; cbn; [f_equal|]; exact IH.
Qed.
Lemma omap_id_snoc (P : list (option xpair)) p : omap id (P ++ [Some p]) ≡ₚ p :: omap id P.
Proof. rewrite omap_app. cbn. symmetry. apply Permutation_cons_append. Qed.
Lemma omap_id_elem (P : list (option xpair)) p : p ∈ omap id P <-> exists k, P !! k = Some (Some p).
Proof.
  rewrite elem_of_list_omap. split.
  - intros (x & Hx & Ex). cbn in Ex. subst x. by apply elem_of_list_lookup_1 in Hx.
  - intros [k Hk]. exists (Some p). split; [by eapply elem_of_list_lookup_2|done].
Qed.

(** *** Which variables hold weak slices after a call *)
Definition is_weak (p : xpair) : bool := match xp_c p with XWeak _ (Some _) => true | _ => false end.
Definition wold (P P' : list (option xpair)) : Prop := length P' = length P /\
  forall k p, P' !! k = Some (Some p) -> is_weak p = true -> P !! k = Some (Some p).
Definition wq {V} (o : op V) (P : list (option xpair)) (p : xpair) : Prop :=
  match o with
  | ODowngrade h => exists r l, P !! h = Some (Some (parc r l)) /\ exists d, p = pawk d (Some (ar_guard r)) (Some l)
  | OClone h => P !! h = Some (Some p)
  | _ => False
  end.
Definition weaks {V} (o : op V) (P P' : list (option xpair)) : Prop := forall k p,
  P' !! k = Some (Some p) -> is_weak p = true -> P !! k = Some (Some p) \/ k = length P /\ wq o P p.
Definition kout {V} (r : out V) (P P' : list (option xpair)) : Prop :=
  match r with RHandle n => n = length P | _ => length P' = length P end.
Definition no_handle {V} (r : out V) : bool := match r with RHandle _ => false | _ => true end.

Lemma wold_refl P : wold P P.
Proof. split; [done|]. eauto. Qed.
Lemma wold_ins P h x : match x with Some p => is_weak p = false | None => True end -> wold P (<[h := x]> P).
Proof.
  intros Hx. split; [apply insert_length|]. intros k p Hk Hp. apply list_lookup_insert_Some in Hk as [(<- & -> & _)|[_ ?]]; [|done].
  rewrite Hp in Hx. done.
Qed.
Lemma wold_weaks {V} (o : op V) P P' : wold P P' -> weaks o P P'.
Proof. intros [_ H] k p H1 H2. left. eauto. Qed.
Lemma wold_new {V} (o : op V) P P' p : wold P P' -> (is_weak p = true -> wq o P p) -> weaks o P (P' ++ [Some p]).
Proof.
  intros [Hl H] Hp k q Hk Hq. destruct (decide (k = length P')) as [->|Hne].
  - rewrite list_lookup_middle in Hk by done. injection Hk as <-. right. eauto.
  - left. eapply H; [|done]. apply lookup_app_Some in Hk as [?|[? Hk]]; [done|].
    apply list_lookup_singleton_Some in Hk as [? _]. lia.
Qed.

Section refine.
  Context {V : Type} (sz : N) (vclone : V -> V) (capf growf : N -> N).
  Notation dworld := (dworld V).
  Notation dg := (dworld * gdworld)%type.
  Notation aworld := (aworld V).
  Notation astate := (astate V).
  Notation xinv := (@xinv V sz).

  (** The two states agree on the caller's variables, the items in memory and
      the addresses of the buffers, and the model's state is consistent. *)
  Definition rel0 (w : aworld) (a : astate) (P : list (option xpair)) (LI : list label) : Prop :=
    aw_h w = xcs P /\ as_h a = xas P /\
    xinv LI (aw_d w, aw_g w) (as_trees a) (omap id P) /\
    as_mem a = dw_mem (aw_d w) /\ as_base a = fst <$> bshape (aw_d w).
  (** [K] is the set of variables holding a weak slice whose guard is alive. *)
  Definition krel (P : list (option xpair)) (g : gdworld) (K : list nat) : Prop := forall k,
    k ∈ K <-> exists d i ol n, P !! k = Some (Some (pawk d (Some i) ol)) /\ rc_get (gd_guards g) i = Some n.
  Definition rel (w : aworld) (sk : astate * list nat) : Prop := exists P LI,
    rel0 w (fst sk) P LI /\ krel P (aw_g w) (snd sk).

  Definition okstep (o : op V) (LI0 : list label) (s0 : dg) (P0 : list (option xpair))
      (r : res (aworld * out V)) (s : astate * out V) : Prop :=
    exists w' P LI, r = Ok (w', snd s) /\ rel0 w' (fst s) P LI /\
      (grow LI0 s0 LI (aw_d w', aw_g w') \/ shrink LI0 s0 LI (aw_d w', aw_g w')) /\
      weaks o P0 P /\ kout (snd s) P0 P.

  (** A guard alive before is alive after if some strong slice is left at or
      below it. *)
  Lemma keep_live LI0 s0 T0 X0 LI (s : dg) T X i n l l' : xinv LI0 s0 T0 X0 -> xinv LI s T X ->
    grow LI0 s0 LI s \/ shrink LI0 s0 LI s -> rc_get (gd_guards (snd s0)) i = Some n -> LI0 !! i = Some l ->
    l' ∈ (X ≫= fun p => strong_labels (xp_a p)) -> anc l l' -> exists n', rc_get (gd_guards (snd s)) i = Some n'.
  Proof.
    intros (L0 & D0 & G0 & F0) (L & D & G & F) [[_ [K _]]|[-> K]] Hi Hl Hl' Ha; [by eapply K|].
    apply (label_ref sz s T X L LI0 F) in Hl' as (r & Hr & _ & Hg).
    destruct (ainv_ref _ _ _ _ _ G (ar_guard r)) as (m & l1 & Hm & Hl1); [by apply elem_of_list_fmap_1|].
    apply anc_lapp in Ha as [p ->]. destruct (ainv_up _ _ _ _ _ G _ _ _ _ Hm Hg) as (i' & n' & Hi' & Hli' & _).
    destruct (K _ _ Hi') as [n2 Hn2]. assert (i' = i) as -> by (by eapply (ai_u _ _ _ _ _ G0)). eauto.
  Qed.
  (** No guard comes back. *)
  Lemma no_revive LI0 s0 T0 X0 LI (s : dg) i n l : xinv LI0 s0 T0 X0 ->
    grow LI0 s0 LI s \/ shrink LI0 s0 LI s -> rc_get (gd_guards (snd s)) i = Some n -> LI0 !! i = Some l ->
    exists n', rc_get (gd_guards (snd s0)) i = Some n'.
  Proof.
    intros (L0 & D0 & G0 & F0) [[_ (_ & _ & K)]|[-> K]] Hi Hl; [|by eapply K].
    eapply K; [|done]. rewrite <- (ai_len _ _ _ _ _ G0). by eapply lookup_lt_Some.
  Qed.
  Lemma pawk_lab LI s T P k d i ol : xinv LI s T (omap id P) -> P !! k = Some (Some (pawk d (Some i) ol)) ->
    exists l, ol = Some l /\ LI !! i = Some l.
  Proof.
    intros (L & D & G & F) Hk. rewrite Forall_forall in F.
    specialize (F (pawk d (Some i) ol) ltac:(by apply omap_id_elem; eauto)). apply xrel_pawk in F.
    destruct d, ol; try done. destruct F. eauto.
  Qed.
  Lemma is_weak_pawk LI s T P k p : xinv LI s T (omap id P) -> P !! k = Some (Some p) -> is_weak p = true ->
    exists d i l, p = pawk d (Some i) (Some l) /\ LI !! i = Some l.
  Proof.
    intros C Hk Hp. pose proof C as (L & D & G & F). rewrite Forall_forall in F.
    specialize (F p ltac:(by apply omap_id_elem; eauto)). destruct p as [c a w]. unfold is_weak in Hp. cbn in Hp.
    destruct c as [|d [i|]| | | |]; try done. unfold xrel in F. cbn in F. destruct a as [|ol| | | |]; try done.
    destruct F as [-> F]. destruct d, ol; try done. exists (Some n), i, l. by destruct F.
  Qed.
  Lemma guarded_iff LI (s : dg) T P i n l : xinv LI s T (omap id P) -> rc_get (gd_guards (snd s)) i = Some n -> LI !! i = Some l ->
    Exists (fun l' => anc l l') (all_strong (xas P)).
  Proof.
    intros (L & D & G & F) Hi Hl. destruct (ainv_down _ _ _ _ _ G _ _ _ Hi Hl) as (j & lj & Hj & Hlj & Ha).
    apply Exists_exists. exists lj. split; [|done]. rewrite (all_strong_eq _ _ (live_has P)).
    apply elem_of_list_fmap in Hj as (r & -> & Hr).
    pose proof (rel_strong sz _ _ _ _ _ F) as HS. apply elem_of_list_lookup_1 in Hr as [x Hx].
    destruct (Forall2_lookup_l _ _ _ _ _ HS Hx) as (l2 & Hl2 & _ & Hg2). rewrite Hlj in Hg2. injection Hg2 as <-.
    by eapply elem_of_list_lookup_2.
  Qed.

  Lemma krel_step (o : op V) LI0 (s0 : dg) T0 P0 K LI w (a : astate) P (r : out V) :
    xinv LI0 s0 T0 (omap id P0) -> krel P0 (snd s0) K -> rel0 w a P LI ->
    (grow LI0 s0 LI (aw_d w, aw_g w) \/ shrink LI0 s0 LI (aw_d w, aw_g w)) -> weaks o P0 P -> kout r P0 P ->
    krel P (aw_g w) (filter (fun k => still_linked a k = true) (link_new K o r)).
  Proof.
    intros C0 HK (Hw & Ha & C & _) HW Hwk Hout k. rewrite elem_of_list_filter.
    assert (forall d i l, P !! k = Some (Some (pawk d (Some i) (Some l))) -> weak_at a k = Some l) as Hat.
    { intros d i l Hk. unfold weak_at, a_get. rewrite Ha, list_lookup_fmap, Hk. done. }
    assert (weak_at a k <> None -> exists d i l, P !! k = Some (Some (pawk d (Some i) (Some l))) /\ LI !! i = Some l) as Hat2.
    { unfold weak_at, a_get. rewrite Ha, list_lookup_fmap. destruct (P !! k) as [[p|]|] eqn:Hk; try done. cbn. intros Hne.
      assert (is_weak p = true) as Hp.
      { pose proof C as (L & D & G & F). rewrite Forall_forall in F.
        specialize (F p ltac:(apply omap_id_elem; eauto)). unfold xrel in F. unfold is_weak.
        destruct (xp_c p) as [|d [i|]| | | |], (xp_a p) as [|ol| | | |]; try done.
        destruct F as [_ F]. destruct d, ol; try done. }
      destruct (is_weak_pawk _ _ _ _ _ _ C Hk Hp) as (d & i & l & -> & Hl). eauto. }
    assert (forall i l, LI0 !! i = Some l -> LI !! i = Some l) as HLI.
    { intros i l Hl. destruct HW as [[[XI ->] _]|[-> _]]; [by apply lookup_app_l_Some|done]. }
    split.
    - intros [Hs Hin]. unfold still_linked in Hs. destruct (weak_at a k) as [l|] eqn:El; [|done].
      destruct Hat2 as (d & i & l1 & Hk & Hli); [done|]. pose proof (Hat _ _ _ Hk) as [= ->].
      apply bool_decide_eq_true, Exists_exists in Hs as (l' & Hl' & Hanc). rewrite Ha, (all_strong_eq _ _ (live_has P)) in Hl'.
      enough (LI0 !! i = Some l1 /\ exists n, rc_get (gd_guards (snd s0)) i = Some n) as (Hl0 & n & Hn).
      { destruct (keep_live _ _ _ _ _ _ _ _ _ _ _ _ C0 C HW Hn Hl0 Hl' Hanc) as [n' Hn']. exists d, i, (Some l1), n'. done. }
      assert (P0 !! k = Some (Some (pawk d (Some i) (Some l1))) /\ k ∈ K \/ k = length P0 /\
        (k ∉ K \/ True) /\ wq o P0 (pawk d (Some i) (Some l1)) /\ match o with OClone h => h ∈ K | _ => True end) as Hcase.
      { destruct (Hwk _ _ Hk eq_refl) as [Hold|[-> Hq]].
        - left. split; [done|]. unfold link_new in Hin. apply lookup_lt_Some in Hold.
          destruct o; try done; destruct r; try done; cbn in Hout; subst.
          + case_bool_decide; [|done]. apply elem_of_cons in Hin as [->|?]; [lia|done].
          + apply elem_of_cons in Hin as [->|?]; [lia|done].
        - right. split; [done|]. split; [by right|]. split; [done|]. destruct o; try done. unfold link_new in Hin.
          assert (length P0 ∉ K) as Hni.
          { intros (? & ? & ? & ? & Hx & _)%HK. apply lookup_lt_Some in Hx. lia. }
          destruct r; try done. by case_bool_decide. }
      destruct Hcase as [[Hold HinK]|(-> & _ & Hq & Hcl)].
      + apply HK in HinK as (d' & i' & ol' & n & Hk' & Hn). rewrite Hold in Hk'. injection Hk' as <- <- <-.
        destruct (pawk_lab _ _ _ _ _ _ _ _ C0 Hold) as (? & [= <-] & ?). eauto.
      + destruct o; try done; cbn [wq] in Hq.
        * apply HK in Hcl as (d' & i' & ol' & n & Hk' & Hn). rewrite Hq in Hk'. injection Hk' as <- <- <-.
          destruct (pawk_lab _ _ _ _ _ _ _ _ C0 Hq) as (? & [= <-] & ?). eauto.
        * destruct Hq as (r0 & l0 & Hr & d' & [= -> -> ->]).
          destruct (xinv_held sz _ _ _ r0 l0 C0) as (L & D & G & F & Hin0 & Hsr); [apply omap_id_elem; eauto|].
          destruct (ainv_ref _ _ _ _ _ G (ar_guard r0)) as (n & l1 & Hn & Hl1); [by apply elem_of_list_fmap_1|].
          destruct Hsr. eauto.
    - intros (d & i & ol & n & Hk & Hn). destruct (pawk_lab _ _ _ _ _ _ _ _ C Hk) as (l & -> & Hl). split.
      + unfold still_linked. rewrite (Hat _ _ _ Hk). apply bool_decide_eq_true. rewrite Ha. by eapply (guarded_iff _ (aw_d w, aw_g w)).
      + destruct (Hwk _ _ Hk eq_refl) as [Hold|[-> Hq]].
        * assert (k ∈ K) as HinK.
          { apply HK. destruct (pawk_lab _ _ _ _ _ _ _ _ C0 Hold) as (l0 & [= <-] & Hl0).
            destruct (no_revive _ _ _ _ _ _ _ _ _ C0 HW Hn Hl0) as [n' Hn']. eauto 10. }
          unfold link_new. destruct o; try done; destruct r; try done; [case_bool_decide; [by right|done]|by right].
        * assert (r = RHandle (length P0)) as ->.
          { apply lookup_lt_Some in Hk. destruct r; cbn in Hout; try lia. by subst. }
          unfold link_new. destruct o; try done; cbn [wq] in Hq; [|by left].
          rewrite bool_decide_eq_true_2; [by left|]. apply HK.
          destruct (pawk_lab _ _ _ _ _ _ _ _ C0 Hq) as (l0 & [= <-] & Hl0).
          destruct (no_revive _ _ _ _ _ _ _ _ _ C0 HW Hn Hl0) as [n' Hn']. eauto 10.
  Qed.
  (** What [get_mut] looks at. *)
  Lemma no_linked_eq LI (s : dg) T P K (a : astate) r l : xinv LI s T (omap id P) -> krel P (snd s) K -> as_h a = xas P -> parc r l ∈ omap id P ->
    bool_decide (ar_guard r ∉ YW (omap id P)) = no_linked a K l.
  Proof.
    intros C HK Ha Hin. apply bool_decide_ext. rewrite Forall_forall.
    destruct (xinv_held sz _ _ _ _ _ C Hin) as (L & D & G & F & Hin0 & [Hsd Hsg]).
    destruct (ainv_ref _ _ _ _ _ G (ar_guard r)) as (n & l1 & Hn & Hl1); [by apply elem_of_list_fmap_1|].
    split.
    - intros Hnot k (d & i & ol & m & Hk & Hm)%HK Hat. apply Hnot.
      unfold weak_at, a_get in Hat. rewrite Ha, list_lookup_fmap, Hk in Hat. cbn in Hat. destruct ol as [l2|]; [|done]. injection Hat as ->.
      destruct (pawk_lab _ _ _ _ _ _ _ _ C Hk) as (? & [= <-] & Hli).
      assert (i = ar_guard r) as <- by (by eapply (ai_u _ _ _ _ _ G)).
      apply elem_of_list_bind. exists (pawk d (Some i) (Some l)). split; [by left|]. apply omap_id_elem. eauto.
    - intros Hall (p & Hg & (k & Hk)%omap_id_elem)%elem_of_list_bind.
      assert (is_weak p = true) as Hp.
      { unfold is_weak. unfold xweak in Hg. destruct (xp_c p) as [|d [i|]| | | |]; try done; by apply elem_of_nil in Hg. }
      destruct (is_weak_pawk _ _ _ _ _ _ C Hk Hp) as (d & i & l2 & -> & Hl2). cbn in Hg. apply elem_of_list_singleton in Hg. subst i.
      eapply (Hall k); [apply HK; eauto 10|]. unfold weak_at, a_get. rewrite Ha, list_lookup_fmap, Hk. cbn. congruence.
  Qed.

  Section fin.
    Context (o0 : op V) (LI0 : list label) (s0 : dg) (P0 : list (option xpair)).
    Notation okstep := (okstep o0 LI0 s0 P0).
    Notation keeps LI s := (grow LI0 s0 LI s \/ shrink LI0 s0 LI s).
    Lemma fin_set LI (s : dg) T X (P : list (option xpair)) bs m h0 (o : out V) :
      xinv LI s T X -> X ≡ₚ omap id P -> dw_mem (fst s) ⊆ m -> bs = fst <$> bshape (fst s) ->
      keeps LI s -> wold P0 P -> no_handle o = true ->
      okstep (xret s (xcs P) o) (a_set (AS bs T m h0) (xas P), o).
    Proof.
      intros C XP Hm Hb HW Hwk Hno. eexists _, P, LI. split; [reflexivity|].
      assert (xinv LI s T (omap id P)) as C' by (by eapply xinv_perm). destruct s as [d g].
      split; [|split; [done|split; [by apply wold_weaks|destruct o; try done; apply Hwk]]].
      split_and!; try done. symmetry. eapply (collect_eq sz (d, g)); [done..|]. apply live_has.
    Qed.
    Lemma fin_new LI (s : dg) T X (P : list (option xpair)) p c a bs m h0 :
      xinv LI s T X -> X ≡ₚ p :: omap id P -> dw_mem (fst s) ⊆ m -> bs = fst <$> bshape (fst s) ->
      c = xp_c p -> a = xp_a p -> keeps LI s -> wold P0 P -> (is_weak p = true -> wq o0 P0 p) ->
      okstep (xret_new s (xcs P) c) (a_new (AS bs T m h0) (xas P) a).
    Proof.
      intros C XP Hm Hb -> -> HW Hwk Hq. unfold xret_new, a_new. rewrite !fmap_length.
      eexists _, (P ++ [Some p]), LI. split; [reflexivity|].
      assert (xinv LI s T (omap id (P ++ [Some p]))) as C'.
      { eapply xinv_perm; [|exact C]. by rewrite omap_id_snoc. }
      destruct s as [d g]. split; [|split; [done|split; [by apply wold_new|apply Hwk]]].
      assert (forall Q, xas Q ++ [Some (xp_a p)] = xas (Q ++ [Some p])) as Eas by (intros; by rewrite fmap_app).
      split_and!; cbn; rewrite ?Eas; try done.
      - by rewrite fmap_app.
      - symmetry. eapply (collect_eq sz (d, g)); [done..|]. apply live_has.
    Qed.
    Lemma fin_same LI (s : dg) T X (P : list (option xpair)) a (o : out V) :
      xinv LI s T X -> X ≡ₚ omap id P -> as_trees a = T -> as_h a = xas P -> as_mem a = dw_mem (fst s) -> as_base a = fst <$> bshape (fst s) ->
      keeps LI s -> wold P0 P -> no_handle o = true ->
      okstep (xret s (xcs P) o) (a, o).
    Proof.
      intros C XP <- Hh Hm Hb HW Hwk Hno. eexists _, P, LI. split; [reflexivity|]. destruct s as [d g].
      split; [|split; [done|split; [by apply wold_weaks|destruct o; try done; apply Hwk]]].
      split_and!; try done. by eapply xinv_perm.
    Qed.
  (** What reading a covered range through a pointer to it shows. *)
  Lemma ret_slice_ok LI (s : dg) T (P : list (option xpair)) a r p :
    xinv LI s T (omap id P) -> as_trees a = T -> as_h a = xas P -> as_mem a = dw_mem (fst s) -> as_base a = fst <$> bshape (fst s) ->
    (forall c, c ∈ rng_cells r -> is_Some (dw_mem (fst s) !! c)) ->
    (rg_len r <> 0 -> points sz (bbase (bshape (fst s)) (rg_blk r)) (rg_blk r) (rg_lo r) p) ->
    keeps LI s -> wold P0 P ->
    okstep (xret_slice sz s (xcs P) p (rg_len r)) (a, a_slice sz a (rng_cells r)).
  Proof.
    intros C HT Hh Hm Hb Hc Hp HW Hwk. pose proof C as (L & D & _). destruct r as [blk lo len]. cbn [rg_len rg_blk rg_lo] in *.
    unfold xret_slice. rewrite (mem_read_init sz (fst s) T L _ _ D (N.to_nat len) blk lo p); [|intros i Hi|intros; apply Hp; lia].
    2: { apply Hc. apply rng_cells_elem. cbn. lia. }
    res_simpl. rewrite N2Nat.id. unfold a_slice. rewrite Hm.
    assert ((if ((len =? 0) || (sz =? 0))%N then None else Some (p_addr p)) =
      (if (sz =? 0)%N then None else cell_addr sz (as_base a) <$> head (rng_cells (Rng blk lo len)))) as ->.
    { destruct (N.eqb_spec sz 0) as [|Hsz]; [by rewrite orb_true_r|]. rewrite orb_false_r.
      destruct (N.eqb_spec len 0) as [->|Hl]; [done|]. rewrite (points_addr _ _ _ _ _ (Hp Hl) Hsz).
      replace len with (1 + (len - 1)) by lia. rewrite rng_cells_app.
      change (rng_cells (Rng blk lo 1)) with [(blk, lo + 0)]. cbn. unfold cell_addr. cbn. rewrite Hb, N.add_0_r. f_equal. f_equal.
      unfold bbase. by rewrite list_lookup_fmap. }
    by eapply fin_same.
  Qed.
  Lemma ret_replace_ok LI (s : dg) T (P : list (option xpair)) a r p i v :
    xinv LI s T (omap id P) -> as_trees a = T -> as_h a = xas P -> as_mem a = dw_mem (fst s) -> as_base a = fst <$> bshape (fst s) ->
    (forall c, c ∈ rng_cells r -> is_Some (dw_mem (fst s) !! c)) ->
    (rg_len r <> 0 -> points sz (bbase (bshape (fst s)) (rg_blk r)) (rg_blk r) (rg_lo r) p) ->
    keeps LI s -> wold P0 P ->
    okstep (xret_replace sz s (xcs P) p (rg_len r) i v) (a_replace a (rng_cells r) i v).
  Proof.
    intros C HT Hh Hm Hb Hc Hp HW Hwk. unfold xret_replace, a_replace. destruct (N.ltb_spec i (rg_len r)) as [Hi|Hi].
    - rewrite rng_cells_lookup by done. destruct (Hc (rg_blk r, rg_lo r + i)) as [old Hold].
      { apply rng_cells_elem. cbn. lia. }
      rewrite Hm, Hold. pose proof C as (L & D & G & F).
      assert (points sz (bbase (bshape (fst s)) (rg_blk r)) (rg_blk r) (rg_lo r + i) (ptr_add sz p i)) as Hpi.
      { apply points_add, Hp. lia. }
      unfold mem_replace. rewrite (mem_at_init sz _ _ _ _ _ (rg_blk r, rg_lo r + i) old _ D Hold Hpi). res_simpl.
      destruct Hpi as (-> & -> & _). eapply fin_same; cbn; [|done|done|done|done|done|exact HW|done|done].
      exists L. split_and!; [|exact G|exact F]. by apply dinv_write.
    - rewrite lookup_ge_None_2 by (rewrite rng_cells_length; lia). by eapply fin_same.
  Qed.

  End fin.

  (** *** What a live variable holds *)
  Lemma handle_cases LI (s : dg) T X p : xinv LI s T X -> p ∈ X ->
    match xp_c p with
    | XArc r => exists l, p = parc r l
    | XWeak d g => exists ol, p = pawk d g ol
    | XParts it => exists q, p = paps it q
    | XMut m => exists r, p = pamut m r
    | XIter m => exists r, p = pait m r
    | XMParts m => exists r k f b, p = pamp m r k f b /\ (rg_blk r < length (bshape (fst s)))%nat /\
        sip_rel sz (bbase (bshape (fst s)) (rg_blk r)) r k f b (mp_iter m)
    end.
  Proof.
    intros (L & D & G & F) Hin. rewrite Forall_forall in F. specialize (F _ Hin).
    destruct p as [c a o]. unfold xrel in F. cbn in F. cbn. destruct c, a; try done.
    - destruct F as [-> _]. eauto.
    - destruct F as [-> _]. eauto.
    - destruct F as [-> _]. eauto.
    - destruct F as [-> _]. eauto.
    - destruct F as [-> _]. eauto.
    - destruct F as (r & k & f & b & -> & Hb & Hs & ->). exists r, k, f, b. done.
  Qed.
  Lemma covered LI (s : dg) T X p c : xinv LI s T X -> p ∈ X -> c ∈ hcells T (xp_a p) -> is_Some (dw_mem (fst s) !! c).
  Proof.
    intros C Hp Hc. apply (xinv_covered sz s T X c C). apply elem_of_list_bind. eauto.
  Qed.
  Notation astep := (astep sz vclone capf growf false).
  Notation spec_step := (spec_step sz vclone).

  Ltac hsub := first [reflexivity | (by apply (proj1 (same_sub _ _ ltac:(eassumption)))) | by eapply proj1].
  Lemma bs_eq (s s' : dg) bs : bs = fst <$> bshape (fst s) -> bshape (fst s') = bshape (fst s) -> bs = fst <$> bshape (fst s').
  Proof. intros -> ->. done. Qed.
  Lemma mem_eq (s s' : dg) : asame s s' -> dw_mem (fst s') ⊆ dw_mem (fst s).
  Proof. intros [-> _]. done. Qed.
  Lemma ins_new (P : list (option xpair)) h p q Y : P !! h = Some (Some p) ->
    Y = omap id (<[h := None]> P) -> q :: Y ≡ₚ omap id (<[h := Some q]> P).
  Proof. intros Hp ->. symmetry. by apply omap_id_insert with p. Qed.

  Ltac wk := first [apply wold_refl | by apply wold_ins].
  Ltac gr := first [done | by left | by right | by left; apply grow_refl | by left; apply grow_guards].
  Lemma step_ok0 w a K P LI o : rel0 w a P LI -> krel P (aw_g w) K ->
    okstep o LI (aw_d w, aw_g w) P (astep w o) (arc_spec_base sz vclone a K o).
  Proof.
    intros (Hw & Ha & C & Hm & Hb) HK. cbn [snd] in HK. destruct w as [d g hs]. destruct a as [bs T m ah]. cbn in Hw, Ha, C, Hm, Hb. subst hs ah m bs.
    set (A := AS (fst <$> bshape d) T (dw_mem d) (xas P)).
    assert (forall r : out V, no_handle r = true -> okstep o LI (d, g) P (xret (d, g) (xcs P) r) (A, r)) as Hsame.
    { intros r Hr. eapply fin_same; try done; try (by left; apply grow_refl); wk. }
    cbn [aw_d aw_g] in HK |- *.
    assert (forall h, xget (AW d g (xcs P)) h = xp_c <$> mjoin (P !! h)) as Hget.
    { intros h. unfold xget. cbn. rewrite list_lookup_fmap. by destruct (P !! h) as [[]|]. }
    assert (forall h, a_get A h = xp_a <$> mjoin (P !! h)) as Haget.
    { intros h. unfold a_get. cbn. rewrite list_lookup_fmap. by destruct (P !! h) as [[]|]. }
    assert (forall h p, mjoin (P !! h) = Some p -> P !! h = Some (Some p) /\ p ∈ omap id P /\
      exists Y, Y = omap id (<[h := None]> P) /\ omap id P ≡ₚ p :: Y /\ xinv LI (d, g) T (p :: Y)) as Hj.
    { intros h p Hp. assert (P !! h = Some (Some p)) as Hp' by (by destruct (P !! h) as [[]|]; cbn in Hp; congruence).
      split; [done|]. destruct (omap_id_insert P h p Hp') as [Hperm _]. split.
      - apply elem_of_list_omap. exists (Some p). split; [|done]. by eapply elem_of_list_lookup_2.
      - eexists. split; [done|]. split; [done|]. by eapply xinv_perm. }
    destruct o as [base vals|base vals| |h|h base|side h|side h|h n|h|h i v|h|h|h|h|h|h|h i v|h|back h|to h i|h];
      cbn [astep ArcModel.astep arc_spec_base spec_step Spec.spec_step aw_d aw_g aw_h]; fold A; rewrite ?Hget, ?Haget; cbn [as_h as_trees A].
    - (* from_vec *)
      destruct (N.ltb_spec (N.of_nat (length vals)) usize_lim) as [Hlen|]; [|by apply Hsame].
      destruct (arc_from_boxed_slice_ok sz (d, g) T _ base vals C Hlen) as (s' & r & LI' & -> & C' & Hm' & Hb' & W').
      res_simpl. cbn [a_alloc a_root as_base as_trees as_mem as_h A]. rewrite fmap_length.
      eapply fin_new; [exact C'|reflexivity| | |done|done|gr|wk|done].
      + rewrite Hm'. done.
      + by rewrite Hb', fmap_app.
    - (* from_vec *)
      destruct (N.ltb_spec (N.of_nat (length vals)) usize_lim) as [Hlen|]; [|by apply Hsame].
      destruct (arc_mut_from_boxed_slice_ok sz (d, g) T _ base vals C Hlen) as (s' & r & -> & C' & Hm' & Hb' & W').
      cbn [a_alloc a_root as_base as_trees as_mem as_h A]. rewrite fmap_length.
      eapply fin_new; [exact C'|reflexivity| | |done|done|gr|wk|done].
      + rewrite Hm'. done.
      + by rewrite Hb', fmap_app.
    - (* WeakSlice::new *)
      destruct (aweak_new_ok sz (d, g) T _ C) as [E C']. rewrite E.
      eapply fin_new; [exact C'|reflexivity|done|done|done|done|gr|wk|done].
    - (* clone *)
      destruct (mjoin (P !! h)) as [p|] eqn:Hp; [|by apply Hsame]. destruct (Hj _ _ Hp) as (Hp' & Hin & Y & HY & HPY & CY).
      pose proof (handle_cases _ _ _ _ _ C Hin) as Hc. cbn [fmap option_fmap option_map].
      destruct (xp_c p) as [r|d0 g0|it|m|m|m] eqn:Ec.
      + destruct Hc as [l ->]. destruct (arc_clone_ok sz _ _ _ _ _ C Hin) as (s' & -> & C' & S' & W'). res_simpl.
        eapply fin_new; [exact C'|reflexivity|exact (mem_eq (d, g) _ S')|by rewrite (proj2 S')|done|done|gr|wk|done].
      + destruct Hc as [ol ->]. destruct (aweak_clone_ok sz _ _ _ _ _ _ C Hin) as (s' & -> & C' & S' & W'). res_simpl.
        eapply fin_new; [exact C'|reflexivity|exact (mem_eq (d, g) _ S')|by rewrite (proj2 S')|done|done|gr|wk|intros _; exact Hp'].
      + destruct Hc as [q ->]. destruct (parts_clone_ok sz capf _ _ _ _ _ _ C HPY) as (s' & it' & -> & C' & S' & W'). res_simpl.
        eapply fin_new; [exact C'|reflexivity|exact (mem_eq (d, g) _ S')|by rewrite (proj2 S')|done|done|gr|wk|done].
      + destruct Hc as [r ->]. by apply Hsame.
      + destruct Hc as [r ->]. by apply Hsame.
      + destruct Hc as (? & ? & ? & ? & -> & _). by apply Hsame.
    - (* ArcSliceMut::clone *)
      destruct (mjoin (P !! h)) as [p|] eqn:Hp; [|by apply Hsame]. destruct (Hj _ _ Hp) as (Hp' & Hin & Y & HY & HPY & CY).
      pose proof (handle_cases _ _ _ _ _ C Hin) as Hc. cbn [fmap option_fmap option_map].
      destruct (xp_c p) as [r|d0 g0|it|m|m|m] eqn:Ec;
        [destruct Hc as [? ->]; by apply Hsame|destruct Hc as [? ->]; by apply Hsame|destruct Hc as [? ->]; by apply Hsame| |
         destruct Hc as [? ->]; by apply Hsame|destruct Hc as (? & ? & ? & ? & -> & _); by apply Hsame].
      destruct Hc as [r ->]. cbn [xp_a pamut].
      destruct (xinv_pamut sz _ _ _ _ _ CY) as [Hr [Hi1 Hi2]].
      pose proof CY as (L & D & _). unfold arc_mut_clone. rewrite Hi2.
      rewrite (mem_read_init sz _ _ _ _ _ D _ (rg_blk r) (rg_lo r)).
      2: { intros i Hi. eapply (covered _ _ _ _ _ (rg_blk r, i) C Hin). apply rng_cells_elem. cbn. lia. }
      2: done.
      rewrite N2Nat.id. assert (Rng (rg_blk r) (rg_lo r) (rg_len r) = r) as -> by (by destruct r). res_simpl.
      set (vs := cells_vals (dw_mem (d, g).1) (rng_cells r)).
      assert (N.of_nat (length (vclone <$> vs)) < usize_lim) as Hlen.
      { destruct (rng_ok_lim _ _ Hr) as [Hlim _]. rewrite fmap_length. eapply N.le_lt_trans; [|exact Hlim].
        assert (length vs <= length (rng_cells r))%nat; [|rewrite rng_cells_length in *; lia].
        apply cells_vals_le. }
      destruct (arc_mut_from_boxed_slice_ok sz (d, g) T _ base _ C Hlen) as (s' & r' & E & C' & Hm' & Hb' & W').
      rewrite E. cbn [a_alloc a_root as_base as_trees as_mem as_h A]. fold vs. rewrite fmap_length.
      eapply fin_new; [exact C'|reflexivity| | |done|done|gr|wk|done].
      + rewrite Hm'. cbn [fst]. unfold stored, vs. rewrite !fmap_length. done.
      + by rewrite Hb', fmap_app.
    - (* clone_left, clone_right *)
      destruct (mjoin (P !! h)) as [p|] eqn:Hp; [|by apply Hsame]. destruct (Hj _ _ Hp) as (Hp' & Hin & Y & HY & HPY & CY).
      pose proof (handle_cases _ _ _ _ _ C Hin) as Hc. cbn [fmap option_fmap option_map].
      destruct (xp_c p) as [r|d0 g0|it|m|m|m] eqn:Ec;
        [|destruct Hc as [? ->]; by apply Hsame..|destruct Hc as (? & ? & ? & ? & -> & _); by apply Hsame].
      destruct Hc as [l ->]. destruct (arc_clone_half_ok sz _ _ _ _ _ side C Hin) as (s' & r' & LI' & -> & C' & S' & W'). res_simpl.
      eapply fin_new; [exact C'|reflexivity|exact (mem_eq (d, g) _ S')|by rewrite (proj2 S')|done|done|gr|wk|done].
    - (* split_off_left, split_off_right *)
      destruct (mjoin (P !! h)) as [p|] eqn:Hp; [|by apply Hsame]. destruct (Hj _ _ Hp) as (Hp' & Hin & Y & HY & HPY & CY).
      pose proof (handle_cases _ _ _ _ _ C Hin) as Hc. cbn [fmap option_fmap option_map].
      destruct (xp_c p) as [r|d0 g0|it|m|m|m] eqn:Ec;
        [|destruct Hc as [? ->]; by apply Hsame|destruct Hc as [? ->]; by apply Hsame| |
         destruct Hc as [? ->]; by apply Hsame|destruct Hc as (? & ? & ? & ? & -> & _); by apply Hsame].
      + destruct Hc as [l ->]. cbn [xp_a parc].
        destruct (arc_split_off_ok sz _ _ _ _ _ side CY) as (s' & r1 & r2 & LI' & -> & C' & S' & W'). res_simpl.
        set (q := parc r1 (lhalf T l (negb side))). fold q in C'.
        change (Some (XArc r1)) with (xp_c <$> Some q). change (Some (ARc (lhalf T l (negb side)))) with (xp_a <$> Some q).
        rewrite <- !list_fmap_insert.
        eapply fin_new; [exact C'|by constructor; eapply ins_new|exact (proj1 S')|by rewrite (proj2 S')|done|done|gr|wk|done].
      + destruct Hc as [r ->]. cbn [xp_a pamut].
        destruct (mut_split_off_ok sz _ _ _ _ _ side CY) as (s' & r1 & r2 & -> & C' & S'). res_simpl.
        set (q := pamut r1 (half (negb side) r)). fold q in C'.
        change (Some (XMut r1)) with (xp_c <$> Some q). change (Some (AMut (half (negb side) r))) with (xp_a <$> Some q).
        rewrite <- !list_fmap_insert.
        eapply fin_new; [exact C'|by constructor; eapply ins_new|exact (mem_eq (d, g) _ S')|by rewrite (proj2 S')|done|done|gr|wk|done].
    - (* split_into_parts *)
      destruct (N.ltb_spec n usize_lim) as [Hn|]; cbn [negb]; [|by apply Hsame].
      destruct (mjoin (P !! h)) as [p|] eqn:Hp; [|by apply Hsame]. destruct (Hj _ _ Hp) as (Hp' & Hin & Y & HY & HPY & CY).
      pose proof (handle_cases _ _ _ _ _ C Hin) as Hc. cbn [fmap option_fmap option_map].
      change (@None xhandle) with (xp_c <$> (@None xpair)). change (@None ahandle) with (xp_a <$> (@None xpair)).
      rewrite <- !list_fmap_insert.
      destruct (xp_c p) as [r|d0 g0|it|m|m|m] eqn:Ec;
        [|destruct Hc as [? ->]; by apply Hsame|destruct Hc as [? ->]; by apply Hsame| |
         destruct Hc as [? ->]; by apply Hsame|destruct Hc as (? & ? & ? & ? & -> & _); by apply Hsame].
      + destruct Hc as [l ->]. cbn [xp_a parc]. destruct (log2_exact n) as [k|] eqn:Ek.
        * apply log2_exact_Some in Ek as ->. destruct (parts_new_ok sz capf growf _ _ _ _ _ k CY Hn) as (it & -> & C').
          eapply fin_new; [exact C'|by rewrite HY|done|done|done|done|gr|wk|done].
        * rewrite parts_new_panic by done. destruct (arc_drop_ok sz _ _ _ _ _ CY) as (s' & -> & C' & S' & W'). res_simpl.
          eapply fin_set; [exact C'|by rewrite HY|exact (proj1 S')|by rewrite (proj2 S')|gr|wk|done].
      + destruct Hc as [r ->]. cbn [xp_a pamut]. destruct (log2_exact n) as [k|] eqn:Ek.
        * apply log2_exact_Some in Ek as ->. destruct (mut_split_into_parts_ok sz _ _ _ _ _ k CY Hn) as (it & -> & C').
          eapply fin_new; [exact C'|by rewrite HY|done|done|done| |gr|wk|done]. cbn. by rewrite mleft_00.
        * rewrite mut_split_into_parts_panic by done. destruct (mut_drop_ok sz _ _ _ _ _ CY) as (s' & E & C' & S').
          rewrite E. res_simpl. eapply fin_set; [exact C'|by rewrite HY|exact (proj1 S')|by rewrite (proj2 S')|gr|wk|done].
    - (* get_mut *)
      destruct (mjoin (P !! h)) as [p|] eqn:Hp; [|by apply Hsame]. destruct (Hj _ _ Hp) as (Hp' & Hin & Y & HY & HPY & CY).
      pose proof (handle_cases _ _ _ _ _ C Hin) as Hc. cbn [fmap option_fmap option_map].
      destruct (xp_c p) as [r|d0 g0|it|m|m|m] eqn:Ec;
        [|destruct Hc as [? ->]; by apply Hsame..|destruct Hc as (? & ? & ? & ? & -> & _); by apply Hsame].
      destruct Hc as [l ->]. cbn [xp_a parc].
      destruct (arc_get_mut_ok sz _ _ _ (xas P) _ _ C Hin (live_has P)) as (p & Hpt & ->). res_simpl.
      rewrite (no_linked_eq LI (d, g) T P K A r l C HK eq_refl Hin).
      destruct (sole_owner _ l && no_linked _ _ l); [|by apply Hsame].
      eapply ret_slice_ok; try done; try gr; try wk. intros c Hc. by eapply (covered _ _ _ _ _ c C Hin).
    - (* get_mut, then replace *)
      destruct (mjoin (P !! h)) as [p|] eqn:Hp; [|by apply Hsame]. destruct (Hj _ _ Hp) as (Hp' & Hin & Y & HY & HPY & CY).
      pose proof (handle_cases _ _ _ _ _ C Hin) as Hc. cbn [fmap option_fmap option_map].
      destruct (xp_c p) as [r|d0 g0|it|m|m|m] eqn:Ec;
        [|destruct Hc as [? ->]; by apply Hsame..|destruct Hc as (? & ? & ? & ? & -> & _); by apply Hsame].
      destruct Hc as [l ->]. cbn [xp_a parc].
      destruct (arc_get_mut_ok sz _ _ _ (xas P) _ _ C Hin (live_has P)) as (p & Hpt & ->). res_simpl.
      rewrite (no_linked_eq LI (d, g) T P K A r l C HK eq_refl Hin).
      destruct (sole_owner _ l && no_linked _ _ l); [|by apply Hsame].
      eapply ret_replace_ok; try done; try gr; try wk. intros c Hc. by eapply (covered _ _ _ _ _ c C Hin).
    - (* into_mut *)
      destruct (mjoin (P !! h)) as [p|] eqn:Hp; [|by apply Hsame]. destruct (Hj _ _ Hp) as (Hp' & Hin & Y & HY & HPY & CY).
      pose proof (handle_cases _ _ _ _ _ C Hin) as Hc. cbn [fmap option_fmap option_map].
      destruct (xp_c p) as [r|d0 g0|it|m|m|m] eqn:Ec;
        [|destruct Hc as [? ->]; by apply Hsame..|destruct Hc as (? & ? & ? & ? & -> & _); by apply Hsame].
      destruct Hc as [l ->]. cbn [xp_a parc].
      pose proof (arc_into_mut_ok sz _ _ _ _ (xas P) _ _ C HPY (live_has P)) as H.
      destruct (sole_owner (xas P) l).
      + destruct H as (s' & m & -> & C' & S' & W'). res_simpl.
        change (@None xhandle) with (xp_c <$> (@None xpair)). change (@None ahandle) with (xp_a <$> (@None xpair)).
        rewrite <- !list_fmap_insert.
        eapply fin_new; [exact C'|by rewrite HY|exact (mem_eq (d, g) _ S')|by rewrite (proj2 S')|done|done|gr|wk|done].
      + rewrite H. res_simpl. change (Some (XArc r)) with (xp_c <$> Some (parc r l)).
        rewrite <- list_fmap_insert, list_insert_id by done. by apply Hsame.
    - (* into_immut *)
      destruct (mjoin (P !! h)) as [p|] eqn:Hp; [|by apply Hsame]. destruct (Hj _ _ Hp) as (Hp' & Hin & Y & HY & HPY & CY).
      pose proof (handle_cases _ _ _ _ _ C Hin) as Hc. cbn [fmap option_fmap option_map].
      change (@None xhandle) with (xp_c <$> (@None xpair)). change (@None ahandle) with (xp_a <$> (@None xpair)).
      rewrite <- !list_fmap_insert.
      destruct (xp_c p) as [r|d0 g0|it|m|m|m] eqn:Ec;
        [destruct Hc as [? ->]; by apply Hsame|destruct Hc as [? ->]; by apply Hsame|destruct Hc as [? ->]; by apply Hsame| |
         destruct Hc as [? ->]; by apply Hsame|destruct Hc as (? & ? & ? & ? & -> & _); by apply Hsame].
      destruct Hc as [r ->]. cbn [xp_a pamut a_root as_base as_trees as_mem as_h A].
      destruct (arc_mut_into_immut_ok sz _ _ _ _ _ CY) as (s' & r' & LI' & -> & C' & S' & W'). res_simpl.
      eapply fin_new; [exact C'|by rewrite HY|exact (mem_eq (d, g) _ S')|by rewrite (proj2 S')|done|done|gr|wk|done].
    - (* downgrade *)
      destruct (mjoin (P !! h)) as [p|] eqn:Hp; [|by apply Hsame]. destruct (Hj _ _ Hp) as (Hp' & Hin & Y & HY & HPY & CY).
      pose proof (handle_cases _ _ _ _ _ C Hin) as Hc. cbn [fmap option_fmap option_map].
      destruct (xp_c p) as [r|d0 g0|it|m|m|m] eqn:Ec;
        [|destruct Hc as [? ->]; by apply Hsame..|destruct Hc as (? & ? & ? & ? & -> & _); by apply Hsame].
      destruct Hc as [l ->]. cbn [xp_a parc].
      destruct (arc_downgrade_ok sz _ _ _ _ _ C Hin) as (s' & d' & g' & -> & C' & S' & W' & ->). res_simpl.
      eapply fin_new; [exact C'|reflexivity|exact (mem_eq (d, g) _ S')|by rewrite (proj2 S')|done|done|gr|wk|intros _; cbn; eauto 10].
    - (* upgrade *)
      destruct (mjoin (P !! h)) as [p|] eqn:Hp; [|by apply Hsame]. destruct (Hj _ _ Hp) as (Hp' & Hin & Y & HY & HPY & CY).
      pose proof (handle_cases _ _ _ _ _ C Hin) as Hc. cbn [fmap option_fmap option_map].
      destruct (xp_c p) as [r|d0 g0|it|m|m|m] eqn:Ec;
        [destruct Hc as [? ->]; by apply Hsame| |destruct Hc as [? ->]; by apply Hsame..|destruct Hc as (? & ? & ? & ? & -> & _); by apply Hsame].
      destruct Hc as [ol ->]. cbn [xp_a pawk].
      destruct (aweak_upgrade_ok sz _ _ _ (xas P) _ _ _ C Hin (live_has P)) as [(Hal & s' & r & l & LI' & -> & -> & C' & S' & W')|[Hal ->]]; res_simpl.
      + rewrite Hal. eapply fin_new; [exact C'|reflexivity|exact (mem_eq (d, g) _ S')|by rewrite (proj2 S')|done|done|gr|wk|done].
      + destruct ol as [l|]; [rewrite Hal|]; by apply Hsame.
    - (* drop *)
      destruct (mjoin (P !! h)) as [p|] eqn:Hp; [|by apply Hsame]. destruct (Hj _ _ Hp) as (Hp' & Hin & Y & HY & HPY & CY).
      pose proof (handle_cases _ _ _ _ _ C Hin) as Hc. cbn [fmap option_fmap option_map].
      change (@None xhandle) with (xp_c <$> (@None xpair)). change (@None ahandle) with (xp_a <$> (@None xpair)).
      rewrite <- !list_fmap_insert.
      enough (exists s', xhandle_drop sz (d, g) (xp_c p) = Ok s' /\ xinv LI s' T Y /\ asub (d, g) s' /\ (grow LI (d, g) LI s' \/ shrink LI (d, g) LI s')) as (s' & -> & C' & S' & W').
      { res_simpl. eapply fin_set; [exact C'|by rewrite HY|exact (proj1 S')|by rewrite (proj2 S')|gr|wk|done]. }
      destruct (xp_c p) as [r|d0 g0|it|m|m|m] eqn:Ec; cbn [xhandle_drop].
      + destruct Hc as [l ->]. destruct (arc_drop_ok sz _ _ _ _ _ CY) as (s' & E & C' & S' & W'). exists s'. split_and!; try done. by right.
      + destruct Hc as [ol ->]. destruct (aweak_drop_ok sz _ _ _ _ _ _ CY) as (s' & E & C' & S' & W'). exists s'.
        split; [done|]. split; [done|]. split; [by apply same_sub|gr].
      + destruct Hc as [q ->]. destruct (xinv_unpack sz _ _ _ _ _ CY) as (k & x & f & b & ps & Hrel & -> & Hx & C1).
        rewrite (br_items _ _ _ _ _ _ _ _ Hrel). destruct (parts_drop_ok sz _ _ _ _ C1) as (s' & E & C' & S' & W'). exists s'. split_and!; try done. by right.
      + destruct Hc as [r ->]. destruct (mut_drop_ok sz _ _ _ _ _ CY) as (d' & E & C' & S').
        rewrite E. res_simpl. eexists. split; [done|]. split; [done|]. split; [done|gr].
      + destruct Hc as [r ->]. destruct (iter_drop_ok sz _ _ _ _ _ CY) as (d' & E & C' & S').
        rewrite E. res_simpl. eexists. split; [done|]. split; [done|]. split; [done|gr].
      + destruct Hc as (r & k & f & b & -> & Hb & Hs). destruct (mparts_drop_ok sz _ _ _ _ _ _ _ _ CY Hs) as (d' & E & C' & S').
        rewrite E. res_simpl. eexists. split; [done|]. split; [done|]. split; [done|gr].
    - (* deref, as_slice *)
      destruct (mjoin (P !! h)) as [p|] eqn:Hp; [|by apply Hsame]. destruct (Hj _ _ Hp) as (Hp' & Hin & Y & HY & HPY & CY).
      pose proof (handle_cases _ _ _ _ _ C Hin) as Hc. cbn [fmap option_fmap option_map].
      destruct (xp_c p) as [r|d0 g0|it|m|m|m] eqn:Ec.
      + destruct Hc as [l ->]. destruct (arc_slice_ok sz _ _ _ _ _ C Hin) as (p & -> & Hpt). res_simpl. cbn [xp_a parc hcells].
        eapply ret_slice_ok; try done; try gr; try wk. intros c Hc. by eapply (covered _ _ _ _ _ c C Hin).
      + destruct Hc as [ol ->]. by apply Hsame.
      + destruct Hc as [q ->]. destruct (arc_parts_as_slice_ok sz _ _ _ _ _ CY) as (k & x & f & b & p & -> & Hle & E & Hpt).
        rewrite E. res_simpl. cbn [xp_a paps hcells]. rewrite cover_cells by done.
        eapply ret_slice_ok; try done; try gr; try wk. intros c Hc. eapply (covered _ _ _ _ _ c C Hin). cbn. by rewrite cover_cells.
      + destruct Hc as [r ->]. cbn [xp_a pamut hcells]. destruct (xinv_pamut sz _ _ _ _ _ CY) as [Hr [Hi1 ->]].
        eapply ret_slice_ok; try done; try gr; try wk. intros c Hc. by eapply (covered _ _ _ _ _ c C Hin).
      + destruct Hc as [r ->]. cbn [xp_a pait hcells]. destruct (xinv_pait sz _ _ _ _ _ CY) as [Hr Hi].
        destruct (sit_as_slice_rel sz _ _ _ Hi) as (p & -> & Hpt). res_simpl.
        eapply ret_slice_ok; try done; try gr; try wk. intros c Hc. by eapply (covered _ _ _ _ _ c C Hin).
      + destruct Hc as (r & k & f & b & -> & Hb & Hs). cbn [xp_a pamp hcells].
        assert (f + b <= 2 ^ N.of_nat k) as Hle by (by destruct Hs as (_ & _ & _ & _ & _ & ? & _)).
        destruct (sip_as_slice_rel sz _ _ _ _ _ _ Hs) as (p & -> & Hpt). res_simpl. rewrite mleft_cells by done.
        eapply ret_slice_ok; try done; try gr; try wk.
        * intros c Hc. eapply (covered _ _ _ _ _ c C Hin). cbn. by rewrite mleft_cells.
        * intros Hne. apply Hpt. destruct (decide (f + b = 2 ^ N.of_nat k)) as [Heq|]; [|lia]. exfalso. apply Hne. cbn.
          replace (2 ^ N.of_nat k - b) with f by lia. lia.
    - (* replace *)
      destruct (mjoin (P !! h)) as [p|] eqn:Hp; [|by apply Hsame]. destruct (Hj _ _ Hp) as (Hp' & Hin & Y & HY & HPY & CY).
      pose proof (handle_cases _ _ _ _ _ C Hin) as Hc. cbn [fmap option_fmap option_map].
      destruct (xp_c p) as [r|d0 g0|it|m|m|m] eqn:Ec;
        [destruct Hc as [? ->]; by apply Hsame|destruct Hc as [? ->]; by apply Hsame|destruct Hc as [? ->]; by apply Hsame| | |].
      + destruct Hc as [r ->]. cbn [xp_a pamut]. destruct (xinv_pamut sz _ _ _ _ _ CY) as [Hr [Hi1 ->]].
        eapply ret_replace_ok; try done; try gr; try wk. intros c Hc. by eapply (covered _ _ _ _ _ c C Hin).
      + destruct Hc as [r ->]. cbn [xp_a pait]. destruct (xinv_pait sz _ _ _ _ _ CY) as [Hr Hi].
        destruct (sit_as_slice_rel sz _ _ _ Hi) as (p & -> & Hpt). res_simpl.
        eapply ret_replace_ok; try done; try gr; try wk. intros c Hc. by eapply (covered _ _ _ _ _ c C Hin).
      + destruct Hc as (r & k & f & b & -> & Hb & Hs). cbn [xp_a pamp].
        assert (f + b <= 2 ^ N.of_nat k) as Hle by (by destruct Hs as (_ & _ & _ & _ & _ & ? & _)).
        destruct (sip_as_slice_rel sz _ _ _ _ _ _ Hs) as (p & -> & Hpt). res_simpl. rewrite mleft_cells by done.
        eapply ret_replace_ok; try done; try gr; try wk.
        * intros c Hc. eapply (covered _ _ _ _ _ c C Hin). cbn. by rewrite mleft_cells.
        * intros Hne. apply Hpt. destruct (decide (f + b = 2 ^ N.of_nat k)) as [Heq|]; [|lia]. exfalso. apply Hne. cbn.
          replace (2 ^ N.of_nat k - b) with f by lia. lia.
    - (* into_iter *)
      destruct (mjoin (P !! h)) as [p|] eqn:Hp; [|by apply Hsame]. destruct (Hj _ _ Hp) as (Hp' & Hin & Y & HY & HPY & CY).
      pose proof (handle_cases _ _ _ _ _ C Hin) as Hc. cbn [fmap option_fmap option_map].
      change (@None xhandle) with (xp_c <$> (@None xpair)). change (@None ahandle) with (xp_a <$> (@None xpair)).
      rewrite <- !list_fmap_insert.
      destruct (xp_c p) as [r|d0 g0|it|m|m|m] eqn:Ec;
        [destruct Hc as [? ->]; by apply Hsame|destruct Hc as [? ->]; by apply Hsame|destruct Hc as [? ->]; by apply Hsame| |
         destruct Hc as [? ->]; by apply Hsame|destruct Hc as (? & ? & ? & ? & -> & _); by apply Hsame].
      destruct Hc as [r ->]. pose proof (mut_into_iter_ok sz _ _ _ _ _ CY) as C'.
      eapply fin_new; [exact C'|by rewrite HY|done|done|done|done|gr|wk|done].
    - (* next, next_back *)
      destruct (mjoin (P !! h)) as [p|] eqn:Hp; [|by apply Hsame]. destruct (Hj _ _ Hp) as (Hp' & Hin & Y & HY & HPY & CY).
      pose proof (handle_cases _ _ _ _ _ C Hin) as Hc. cbn [fmap option_fmap option_map].
      assert (forall q, xp_a q = xp_a p -> xas (<[h := Some q]> P) = xas P) as Hahas.
      { intros q Hq. rewrite list_fmap_insert. cbn. rewrite Hq. apply list_insert_id. by rewrite list_lookup_fmap, Hp'. }
      destruct (xp_c p) as [r|d0 g0|it|m|m|m] eqn:Ec;
        [destruct Hc as [? ->]; by apply Hsame|destruct Hc as [? ->]; by apply Hsame| |destruct Hc as [? ->]; by apply Hsame| |].
      + destruct Hc as [q ->]. cbn [xp_a paps]. pose proof (arc_parts_next_ok sz growf _ _ _ _ _ back CY) as H.
        destruct (if back then last q else head q) as [[l j]|] eqn:Eq.
        * destruct H as (s' & it' & r & LI' & -> & H). res_simpl.
          destruct (if back then pop_back T l j (removelast q) else pop_front T l j (tail q)) as [l' q'] eqn:El.
          destruct H as (C' & S' & W'). set (q2 := paps it' q'). fold q2 in C'.
          change (Some (XParts it')) with (xp_c <$> Some q2). change (Some (AParts q')) with (xp_a <$> Some q2).
          rewrite <- !list_fmap_insert.
          eapply fin_new; [exact C'|by constructor; eapply ins_new|exact (proj1 S')|by rewrite (proj2 S')|done|done|gr|wk|done].
        * rewrite H. res_simpl. change (Some (XParts it)) with (xp_c <$> Some (paps it q)).
          rewrite <- list_fmap_insert, list_insert_id by done. by apply Hsame.
      + destruct Hc as [r ->]. cbn [xp_a pait]. pose proof (iter_next_ok sz _ _ _ _ _ back CY) as H.
        destruct (rg_len r =? 0).
        * destruct H as (d' & m' & E & C' & S'). rewrite E. res_simpl. set (q2 := pait m' r). fold q2 in C'.
          change (Some (XIter m')) with (xp_c <$> Some q2). rewrite <- list_fmap_insert.
          eapply fin_same; [exact C'|by eapply ins_new|done|by rewrite Hahas|by rewrite (proj1 S')|by rewrite (proj2 S')|gr|wk|done].
        * destruct H as (d' & m' & v & Hv & E & C' & S'). rewrite E. res_simpl.
          change (rg_blk r, if back then rg_lo r + rg_len r - 1 else rg_lo r) with (it_cell back r).
          cbn [as_mem A]. cbn [fst] in Hv. rewrite Hv.
          set (q2 := pait m' (it_rest back r)). fold q2 in C'.
          change (Some (XIter m')) with (xp_c <$> Some q2). change (Some (AIter _)) with (xp_a <$> Some q2).
          rewrite <- !list_fmap_insert. eapply fin_set; [exact C'|by eapply ins_new|exact (proj1 S')|by rewrite (proj2 S')|gr|wk|done].
      + destruct Hc as (r & k & f & b & -> & Hb & Hs). cbn [xp_a pamp].
        assert (f + b <= 2 ^ N.of_nat k) as Hle by (by destruct Hs as (_ & _ & _ & _ & _ & ? & _)).
        destruct (decide (f + b = 2 ^ N.of_nat k)) as [Heq|Hne].
        * assert (mparts_next sz back (fst (d, g)) m = Ok (fst (d, g), m, None)) as -> by (by eapply mparts_next_done).
          res_simpl. rewrite mleft_nil by done. assert ((if back then last [] else head []) = @None rng) as -> by (by destruct back).
          change (Some (XMParts m)) with (xp_c <$> Some (pamp m r k f b)).
          rewrite <- list_fmap_insert, list_insert_id by done. by apply Hsame.
        * destruct (mparts_next_ok sz _ _ _ _ _ _ _ _ back CY Hb Hs ltac:(lia)) as (d' & m' & x & E & C' & S').
          rewrite E. res_simpl. destruct (mleft_take back k r f b ltac:(lia)) as [-> ->].
          set (q2 := pamp m' r k (mp_f back f) (mp_b back b)). fold q2 in C'.
          change (Some (XMParts m')) with (xp_c <$> Some q2). change (Some (AMParts _)) with (xp_a <$> Some q2).
          rewrite <- !list_fmap_insert.
          eapply fin_new; [exact C'|by constructor; eapply ins_new|exact (mem_eq (d, g) _ S')|by rewrite (proj2 S')|done|done|gr|wk|done].
    - (* split_off_from, split_off_to *)
      destruct (mjoin (P !! h)) as [p|] eqn:Hp; [|by apply Hsame]. destruct (Hj _ _ Hp) as (Hp' & Hin & Y & HY & HPY & CY).
      pose proof (handle_cases _ _ _ _ _ C Hin) as Hc. cbn [fmap option_fmap option_map].
      destruct (xp_c p) as [r|d0 g0|it|m|m|m] eqn:Ec;
        [destruct Hc as [? ->]; by apply Hsame|destruct Hc as [? ->]; by apply Hsame|destruct Hc as [? ->]; by apply Hsame|
         destruct Hc as [? ->]; by apply Hsame| |destruct Hc as (? & ? & ? & ? & -> & _); by apply Hsame].
      destruct Hc as [r ->]. cbn [xp_a pait]. destruct (N.ltb_spec (rg_len r) i) as [Hi|Hi].
      + rewrite (iter_split_off_panic sz (d, g) T Y m r to i CY Hi). by apply Hsame.
      + destruct (iter_split_off_ok sz (d, g) T Y m r to i CY Hi) as (d' & m1 & m2 & E & C' & S'). rewrite E.
        set (r1 := Rng (rg_blk r) (rg_lo r) i) in *. set (r2 := Rng (rg_blk r) (rg_lo r + i) (rg_len r - i)) in *.
        set (q2 := pait m1 (if to then r2 else r1)). fold q2 in C'.
        assert ((if to then a_new A (<[h := Some (AIter r2)]> (xas P)) (AIter r1) else a_new A (<[h := Some (AIter r1)]> (xas P)) (AIter r2)) =
          a_new A (<[h := xp_a <$> Some q2]> (xas P)) (AIter (if to then r1 else r2))) as -> by (by destruct to).
        change (Some (XIter m1)) with (xp_c <$> Some q2). rewrite <- !list_fmap_insert.
        eapply fin_new; [exact C'|by constructor; eapply ins_new|exact (mem_eq (d, g) _ S')|by rewrite (proj2 S')|done|done|gr|wk|done].
    - (* len *)
      destruct (mjoin (P !! h)) as [p|] eqn:Hp; [|by apply Hsame]. destruct (Hj _ _ Hp) as (Hp' & Hin & Y & HY & HPY & CY).
      pose proof (handle_cases _ _ _ _ _ C Hin) as Hc. cbn [fmap option_fmap option_map].
      destruct (xp_c p) as [r|d0 g0|it|m|m|m] eqn:Ec;
        [destruct Hc as [? ->]; by apply Hsame|destruct Hc as [? ->]; by apply Hsame| |destruct Hc as [? ->]; by apply Hsame| |].
      + destruct Hc as [q ->]. rewrite (parts_len_ok sz _ _ _ _ _ CY). by apply Hsame.
      + destruct Hc as [r ->]. destruct (xinv_pait sz _ _ _ _ _ CY) as [Hr Hi].
        rewrite (sit_len_rel sz _ _ _ Hi). by apply Hsame.
      + destruct Hc as (r & k & f & b & -> & Hb & Hs).
        assert (f + b <= 2 ^ N.of_nat k) as Hle by (by destruct Hs as (_ & _ & _ & _ & _ & ? & _)).
        rewrite (sip_len_rel sz _ _ _ _ _ _ Hs). cbn [xp_a pamp]. rewrite mleft_length by done. by apply Hsame.
  Qed.

  Lemma step_ok w sk o : rel w sk -> exists w', astep w o = Ok (w', snd (arc_spec_step sz vclone sk o)) /\
    rel w' (fst (arc_spec_step sz vclone sk o)).
  Proof.
    destruct sk as [a K]. intros (P & LI & H & HK). cbn [fst snd] in H, HK.
    destruct (step_ok0 w a K P LI o H HK) as (w' & P' & LI' & E & H' & HW & Hwk & Ho).
    unfold arc_spec_step. cbn [fst snd]. destruct (arc_spec_base sz vclone a K o) as [a' r]. cbn [fst snd] in *.
    exists w'. split; [done|]. exists P', LI'. split; [done|]. destruct H as (_ & _ & C & _).
    by eapply (krel_step o LI (aw_d w, aw_g w)).
  Qed.

  Lemma rel_empty : rel empty_aworld (empty_astate, []).
  Proof.
    exists [], []. split.
    2: { intros k. split; [intros Hk; by apply elem_of_nil in Hk|intros (? & ? & ? & ? & Hk & _); done]. }
    split_and!; try done. exists []. cbn. split_and!; [..|constructor].
    - split; try done; try (by intros ? ? ?); cbn.
      + constructor.
      + intros l Hl. by apply elem_of_nil in Hl.
      + intros l side Hl. by apply elem_of_nil in Hl.
      + intros x Hx. by apply elem_of_nil in Hx.
    - split; try done. intros i Hi. by apply elem_of_nil in Hi.
  Qed.

  Lemma run_ok ops : forall w a, rel w a ->
    exists w', arun sz vclone capf growf false w ops = Ok (w', snd (arc_spec_run sz vclone a ops)) /\ rel w' (fst (arc_spec_run sz vclone a ops)).
  Proof.
    induction ops as [|o ops IH]; intros w a H; [by exists w|].
    destruct (step_ok w a o H) as (w1 & E1 & H1). cbn [arun arc_spec_run]. rewrite E1. res_simpl.
    destruct (arc_spec_step sz vclone a o) as [a1 r1]. cbn in H1. destruct (IH w1 a1 H1) as (w2 & E2 & H2). rewrite E2. res_simpl.
    destruct (arc_spec_run sz vclone a1 ops) as [a2 rs]. cbn. by exists w2.
  Qed.
End refine.
