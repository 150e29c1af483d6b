(** The relation between the states of RcModel.v and those of Spec.v, and what
    it says about memory and reference counts. *)
From Verif Require Import Base BaseLemmas Api SliceItemsModel BinPartsModel DataModel RcModel Spec
  BinPartsProof SliceItemsProof DataInv DataSteps DataFuns GuardInv GuardSteps GuardFuns.
Local Open Scope N_scope.

(** A handle, its abstraction, and the ranges it owns exclusively. *)
Record hpair := HP { hp_c : handle; hp_a : ahandle; hp_o : list (rng * option nat) }.

Definition hstrong (h : handle) : list rcslice :=
  match h with HRc r => [r] | HParts it => dq_items (bp_deque it) | _ => [] end.
Definition hweak (h : handle) : list nat := match h with HWeak _ g => [g] | _ => [] end.
Definition XS (X : list hpair) : list rcslice := X ≫= fun p => hstrong (hp_c p).
Definition XW (X : list hpair) : list nat := X ≫= fun p => hweak (hp_c p).
Definition XO (X : list hpair) : list (rng * option nat) := X ≫= hp_o.

Definition srel (L LI : list label) (r : rcslice) (l : label) : Prop :=
  L !! rs_data r = Some l /\ LI !! rs_img r = Some l.
Definition lhf (T : trees) (l : label) : label := lhalf T l false.
Definition lht (T : trees) (l : label) : label := lhalf T l true.

(** *** Halves of labels *)
Lemma lhalf_tree T l side : l_tree (lhalf T l side) = l_tree l.
Proof. unfold lhalf. by destruct (_ <=? _). Qed.
Lemma lrng_lhalf T l side : lrng T (lhalf T l side) = half side (lrng T l).
Proof.
  unfold lhalf. destruct (N.leb_spec (rg_len (lrng T l)) (if side then 1 else 0)) as [H|H]; [|apply lrng_child].
  destruct (lrng T l) as [b lo len]. cbn in H. destruct side; unfold half; cbn [rg_blk rg_lo rg_len].
  - assert (len = 0 \/ len = 1) as [-> | ->] by lia; cbn; by rewrite N.add_0_r.
  - assert (len = 0) as -> by lia. done.
Qed.
Lemma lrng_app T T2 l : (l_tree l < length T)%nat -> lrng (T ++ T2) l = lrng T l.
Proof. intros H. unfold lrng. by rewrite lookup_app_l. Qed.
Lemma lhalf_app T T2 l side : (l_tree l < length T)%nat -> lhalf (T ++ T2) l side = lhalf T l side.
Proof. intros H. unfold lhalf. by rewrite lrng_app. Qed.
Lemma cover_ext {A} (P : A -> Prop) (lc rc lc' rc' : A -> A) :
  (forall y, P y -> lc y = lc' y /\ rc y = rc' y /\ P (lc y) /\ P (rc y)) ->
  forall k x f b, P x -> cover lc rc k x f b = cover lc' rc' k x f b.
Proof.
  intros HP. induction k as [|k IH]; intros x f b Hx; cbn; [done|].
  destruct (HP x Hx) as (E1 & E2 & H1 & H2).
  rewrite <- E1, <- E2, (IH (lc x)), (IH (rc x)) by done. done.
Qed.
Lemma cover_app T T2 k x f b : (l_tree x < length T)%nat ->
  cover (lhf (T ++ T2)) (lht (T ++ T2)) k x f b = cover (lhf T) (lht T) k x f b.
Proof.
  intros Hx. apply (cover_ext (fun l => (l_tree l < length T)%nat)); [|done].
  intros y Hy. unfold lhf, lht. rewrite !lhalf_app, !lhalf_tree by done. done.
Qed.
Lemma cover_tree T k x f b l : l ∈ fst <$> cover (lhf T) (lht T) k x f b -> l_tree l = l_tree x.
Proof.
  revert x f b. induction k as [|k IH]; intros x f b.
  - cbn. destruct (_ && _); cbn; [by intros ->%elem_of_list_singleton|by intros ?%elem_of_nil].
  - cbn. destruct (_ && _); cbn; [by intros ->%elem_of_list_singleton|].
    rewrite fmap_app, elem_of_app. intros [H|H].
    + destruct (_ <? _); [|by apply elem_of_nil in H]. apply IH in H. by rewrite H; unfold lhf; rewrite lhalf_tree.
    + destruct (_ <? _); [|by apply elem_of_nil in H]. apply IH in H. by rewrite H; unfold lht; rewrite lhalf_tree.
Qed.

(** The cells of a subtree are those of its leaves. *)
Lemma leaves_cells T j l : leaves (lhf T) (lht T) j l ≫= (fun l => rng_cells (lrng T l)) = rng_cells (lrng T l).
Proof.
  revert l. induction j as [|j IH]; intros l; cbn [leaves]; [cbn; by rewrite app_nil_r|].
  rewrite bind_app, !IH. unfold lhf, lht. rewrite !lrng_lhalf. by rewrite <- half_cells.
Qed.
Lemma leaves_rng T j l : lrng T <$> leaves (lhf T) (lht T) j l = rng_leaves j (lrng T l).
Proof.
  revert l. induction j as [|j IH]; intros l; cbn [leaves rng_leaves]; [done|].
  rewrite fmap_app, !IH. unfold lhf, lht. by rewrite !lrng_lhalf.
Qed.
Lemma cover_cells T k x f b : f + b <= 2 ^ N.of_nat k ->
  cover (lhf T) (lht T) k x f b ≫= (fun y => rng_cells (lrng T (fst y))) = rng_cells (seg_rng k (lrng T x) f b).
Proof.
  intros H. rewrite <- seg_cells by done. rewrite <- leaves_rng, <- fmap_drop, <- fmap_take, <- flat_cover by done.
  generalize (cover (lhf T) (lht T) k x f b) as q. induction q as [|[l j] q IH]; [done|].
  unfold flat in *. cbn [mbind list_bind fst snd]. rewrite fmap_app, bind_app. f_equal; [|exact IH].
  rewrite <- (leaves_cells T j l). generalize (leaves (lhf T) (lht T) j l) as q'.
  induction q' as [|y q' IH']; [done|]. cbn. by rewrite IH'.
Qed.

Section rel.
  Context {V : Type} (sz : N).
  Notation dworld := (dworld V).
  Notation dg := (dworld * gworld)%type.
  Notation dinv := (@dinv V sz).

  Definition hrel (B : list (N * N)) (T : trees) (L LI : list label) (LG : list (option label)) (p : hpair) : Prop :=
    match hp_c p, hp_a p with
    | HRc r, ARc l => hp_o p = [] /\ srel L LI r l
    | HWeak d g, AWeak ol => hp_o p = [] /\ LG !! g = Some ol /\
        match d, ol with Some d, Some l => L !! d = Some l | None, None => True | _, _ => False end
    | HParts it, AParts q => hp_o p = [] /\ exists k x f b ps,
        bpi_rel (lhf T) (lht T) it ps k x f b /\ q = cover (lhf T) (lht T) k x f b /\
        Forall (fun y => srel L LI (fst y) (snd y)) ps /\ (l_tree x < length T)%nat
    | HMut m, AMut r => hp_o p = [(r, ms_alloc m)] /\ (rg_blk r < length B)%nat /\
        items_rel sz (bbase B (rg_blk r)) r (ms_items m)
    | HIter m, AIter r => hp_o p = [(r, mi_alloc m)] /\ (rg_blk r < length B)%nat /\
        iter_rel sz (bbase B (rg_blk r)) r (mi_iter m)
    | HMParts m, AMParts rs => exists r k f b, hp_o p = [(seg_rng k r f b, mp_alloc m)] /\ (rg_blk r < length B)%nat /\
        sip_rel sz (bbase B (rg_blk r)) r k f b (mp_iter m) /\
        rs = take (N.to_nat (2 ^ N.of_nat k - f - b)) (drop (N.to_nat f) (rng_leaves k r))
    | _, _ => False
    end.

  Definition cinv (s : dg) (T : trees) (X : list hpair) : Prop := exists L LI LG,
    dinv (fst s) T L (rs_data <$> XS X) (XO X) /\
    ginv (snd s) (length T) LI LG (rs_img <$> XS X) (XW X) /\
    Forall (hrel (bshape (fst s)) T L LI LG) X.

  Lemma srel_mono L LI XL XI r l : srel L LI r l -> srel (L ++ XL) (LI ++ XI) r l.
  Proof. intros [H1 H2]. split; by apply lookup_app_l_Some. Qed.
  Lemma bbase_app B XB b : (b < length B)%nat -> bbase (B ++ XB) b = bbase B b.
  Proof. intros H. unfold bbase. by rewrite lookup_app_l. Qed.
  Lemma hrel_mono B XB T XT L XL LI XI LG XG p :
    hrel B T L LI LG p -> hrel (B ++ XB) (T ++ XT) (L ++ XL) (LI ++ XI) (LG ++ XG) p.
  Proof.
    unfold hrel. destruct (hp_c p) as [r|d g|it|m|m|m], (hp_a p) as [l|ol|q|r'|r'|rs]; try done.
    - intros [? H]. split; [done|]. by apply srel_mono.
    - intros (? & H & Hd). split; [done|]. split; [by apply lookup_app_l_Some|].
      destruct d, ol; try done. by apply lookup_app_l_Some.
    - intros (? & k & x & f & b & ps & Hrel & -> & Hps & Hx). split; [done|]. exists k, x, f, b, ps.
      rewrite cover_app, app_length by done. split_and!; [|done| |lia].
      + destruct Hrel. split; try done. by rewrite cover_app.
      + eapply Forall_impl; [exact Hps|]. intros. by apply srel_mono.
    - intros (? & Hb & H). rewrite bbase_app, app_length by done. split_and!; [done|lia|done].
    - intros (? & Hb & H). rewrite bbase_app, app_length by done. split_and!; [done|lia|done].
    - intros (r & k & f & b & ? & Hb & H & ?). exists r, k, f, b. rewrite bbase_app, app_length by done.
      split_and!; try done. lia.
  Qed.
  Lemma hrel_ext B T L XL LI XI LG XG p :
    hrel B T L LI LG p -> hrel B T (L ++ XL) (LI ++ XI) (LG ++ XG) p.
  Proof. intros H. apply (hrel_mono _ [] _ [] _ XL _ XI _ XG) in H. by rewrite !app_nil_r in H. Qed.

  Lemma XS_app X Y : XS (X ++ Y) = XS X ++ XS Y.
  Proof. apply bind_app. Qed.
  Lemma XW_app X Y : XW (X ++ Y) = XW X ++ XW Y.
  Proof. apply bind_app. Qed.
  Lemma XO_app X Y : XO (X ++ Y) = XO X ++ XO Y.
  Proof. apply bind_app. Qed.
  Lemma cinv_perm s T X Y : X ≡ₚ Y -> cinv s T X -> cinv s T Y.
  Proof.
    intros HXY (L & LI & LG & D & G & F). exists L, LI, LG. split_and!.
    - eapply dinv_perm; [..|exact D].
      + apply fmap_Permutation. unfold XS. by rewrite HXY.
      + unfold XO. by rewrite HXY.
    - eapply ginv_perm; [..|exact G].
      + apply fmap_Permutation. unfold XS. by rewrite HXY.
      + unfold XW. by rewrite HXY.
    - by rewrite <- HXY.
  Qed.

  (** *** Labels of the slices held *)
  Lemma Forall_pairs L LI ps : Forall (fun y => srel L LI (fst y) (snd y)) ps ->
    Forall2 (srel L LI) (fst <$> ps) (snd <$> ps).
  Proof. intros H. induction H as [|y ps' Hy _ IH']; cbn; constructor; done. Qed.
  Lemma hrel_strong B T L LI LG p : hrel B T L LI LG p ->
    Forall2 (srel L LI) (hstrong (hp_c p)) (strong_labels (hp_a p)).
  Proof.
    unfold hrel, hstrong, strong_labels. destruct (hp_c p) as [r|d g|it|m|m|m], (hp_a p) as [l|ol|q|r'|r'|rs]; try done.
    - intros [_ ?]. constructor; [done|constructor].
    - intros (_ & k & x & f & b & ps & Hrel & -> & Hps & Hx).
      rewrite (br_items _ _ _ _ _ _ _ _ Hrel), <- (br_cover _ _ _ _ _ _ _ _ Hrel). by apply Forall_pairs.
  Qed.
  Lemma rel_strong B T L LI LG X : Forall (hrel B T L LI LG) X ->
    Forall2 (srel L LI) (XS X) (X ≫= fun p => strong_labels (hp_a p)).
  Proof.
    intros H. induction H as [|p X Hp _ IH]; [constructor|].
    change (XS (p :: X)) with (hstrong (hp_c p) ++ XS X). rewrite bind_cons.
    apply Forall2_app; [|done]. by eapply hrel_strong.
  Qed.
  Definition wrel (LG : list (option label)) (X : list hpair) (l : label) : Prop :=
    exists g, g ∈ XW X /\ LG !! g = Some (Some l).
  Lemma rel_weak B T L LI LG X l : Forall (hrel B T L LI LG) X ->
    l ∈ (X ≫= fun p => weak_labels (hp_a p)) <-> wrel LG X l.
  Proof.
    intros H. unfold wrel, XW. setoid_rewrite elem_of_list_bind. rewrite Forall_forall in H. split.
    - intros (p & Hl & Hp). specialize (H p Hp). unfold hrel in H. unfold weak_labels in Hl.
      destruct (hp_a p) as [l'|[l'|]|q|r'|r'|rs]; try (by apply elem_of_nil in Hl).
      apply elem_of_list_singleton in Hl as ->.
      destruct (hp_c p) as [r|d g|it|m|m|m] eqn:E; try done. exists g. split; [|apply H].
      exists p. rewrite E. split; [by left|done].
    - intros (g & (p & Hg & Hp) & Hl). specialize (H p Hp). unfold hrel in H.
      destruct (hp_c p) as [r|d g'|it|m|m|m]; try (by apply elem_of_nil in Hg).
      apply elem_of_list_singleton in Hg as ->. exists p. split; [|done].
      destruct (hp_a p) as [l'|ol|q|r'|r'|rs]; try done. destruct H as (_ & H & _). rewrite Hl in H. injection H as <-. by left.
  Qed.

  (** *** Memory *)
  Lemma hrel_cells B T L LI LG p c : hrel B T L LI LG p ->
    c ∈ hcells T (hp_a p) <->
    (exists r l, r ∈ hstrong (hp_c p) /\ L !! rs_data r = Some l /\ in_rng c (lrng T l) = true) \/
    (exists e, e ∈ hp_o p /\ in_rng c (fst e) = true).
  Proof.
    intros H. pose proof (hrel_strong _ _ _ _ _ _ H) as HS. unfold hrel in H.
    assert (forall q : list label, Forall2 (srel L LI) (hstrong (hp_c p)) q -> c ∈ (q ≫= fun l => rng_cells (lrng T l)) <->
      (exists r l, r ∈ hstrong (hp_c p) /\ L !! rs_data r = Some l /\ in_rng c (lrng T l) = true)) as Hq.
    { intros q Hq. rewrite elem_of_list_bind. split.
      - intros (l & Hc & Hl). apply elem_of_list_lookup in Hl as [i Hi].
        destruct (Forall2_lookup_r _ _ _ _ _ Hq Hi) as (r & Hr & [Hd _]).
        exists r, l. split_and!; [by eapply elem_of_list_lookup_2|done|by apply in_rng_cells].
      - intros (r & l & Hr & Hd & Hc). apply elem_of_list_lookup in Hr as [i Hi].
        destruct (Forall2_lookup_l _ _ _ _ _ Hq Hi) as (l' & Hl' & [Hd' _]). rewrite Hd in Hd'. injection Hd' as <-.
        exists l. split; [by apply in_rng_cells|by eapply elem_of_list_lookup_2]. }
    specialize (Hq _ HS).
    assert (forall cs : list (nat * N), hp_o p = [] -> (c ∈ cs <-> exists r l, r ∈ hstrong (hp_c p) /\ L !! rs_data r = Some l /\ in_rng c (lrng T l) = true) ->
      c ∈ cs <-> (exists r l, r ∈ hstrong (hp_c p) /\ L !! rs_data r = Some l /\ in_rng c (lrng T l) = true) \/
        (exists e, e ∈ hp_o p /\ in_rng c (fst e) = true)) as Hno.
    { intros cs -> ->. split; [by left|]. intros [?|(e & He & _)]; [done|by apply elem_of_nil in He]. }
    assert (forall (cs : list (nat * N)) r o, hp_o p = [(r, o)] -> hstrong (hp_c p) = [] -> (c ∈ cs <-> in_rng c r = true) ->
      c ∈ cs <-> (exists r l, r ∈ hstrong (hp_c p) /\ L !! rs_data r = Some l /\ in_rng c (lrng T l) = true) \/
        (exists e, e ∈ hp_o p /\ in_rng c (fst e) = true)) as Hown.
    { intros cs r o -> -> ->. split.
      - intros Hr. right. exists (r, o). split; [by left|done].
      - intros [(? & ? & ?%elem_of_nil & _)|(e & He & Hc)]; [done|]. by apply elem_of_list_singleton in He as ->. }
    destruct (hp_c p) as [r|d g|it|m|m|m], (hp_a p) as [l|ol|q|r'|r'|rs]; try done; cbn [hcells strong_labels] in *.
    - destruct H as [Ho _]. apply Hno; [done|]. cbn in Hq. by rewrite app_nil_r in Hq.
    - destruct H as [Ho _]. apply Hno; [done|]. split; [by intros ?%elem_of_nil|]. intros (? & ? & ?%elem_of_nil & _). done.
    - destruct H as [Ho _]. apply Hno; [done|]. rewrite <- Hq. clear. induction q as [|y q IH]; [done|].
      cbn. rewrite !elem_of_app. by rewrite IH.
    - destruct H as [Ho _]. eapply Hown; [done..|]. by rewrite in_rng_cells.
    - destruct H as [Ho _]. eapply Hown; [done..|]. by rewrite in_rng_cells.
    - destruct H as (r & k & f & b & Ho & _ & Hs & ->). eapply Hown; [done..|].
      rewrite seg_cells by apply Hs. by rewrite in_rng_cells.
  Qed.
  (** The items alive are exactly those some handle covers. *)
  Lemma cinv_covered s T X c : cinv s T X ->
    is_Some (dw_mem (fst s) !! c) <-> c ∈ (X ≫= fun p => hcells T (hp_a p)).
  Proof.
    intros (L & LI & LG & D & G & F). rewrite (dinv_covered sz _ _ _ _ _ D c), elem_of_list_bind.
    rewrite Forall_forall in F. unfold XS, XO. setoid_rewrite elem_of_list_fmap. setoid_rewrite elem_of_list_bind. split.
    - intros [(x & l & (r & -> & p & Hr & Hp) & Hl & Hc)|(e & (p & He & Hp) & Hc)]; exists p;
        (split; [|done]); apply (hrel_cells _ _ _ _ _ _ _ (F p Hp)); [left|right]; eauto.
    - intros (p & Hc & Hp). apply (hrel_cells _ _ _ _ _ _ _ (F p Hp)) in Hc as [(r & l & Hr & Hl & Hc)|(e & He & Hc)]; [left|right].
      + exists (rs_data r), l. split_and!; [|done..]. eauto.
      + eauto.
  Qed.
  Lemma collect_eq s T X hs m : cinv s T X -> dw_mem (fst s) ⊆ m ->
    live_handles hs = hp_a <$> X -> dw_mem (fst s) = collect T hs m.
  Proof.
    intros C Hsub Hhs. apply map_eq. intros c. unfold collect, all_cells. rewrite Hhs.
    assert (c ∈ ((hp_a <$> X) ≫= hcells T) <-> is_Some (dw_mem (fst s) !! c)) as Hc.
    { rewrite (cinv_covered _ _ _ _ C). clear. induction X as [|p X IH]; [done|]. cbn. rewrite !elem_of_app. by rewrite IH. }
    destruct (dw_mem (fst s) !! c) as [v|] eqn:E.
    - symmetry. apply map_filter_lookup_Some. split; [by eapply lookup_weaken|]. cbn. apply Hc. eauto.
    - symmetry. apply map_filter_lookup_None. right. intros v _. cbn. rewrite Hc. by intros [].
  Qed.

  (** *** Reference counts *)
  Definition lcnt (l : label) (LS : list label) : nat := length (filter (fun x => x = l) LS).
  Lemma lcnt_pos l LS : l ∈ LS -> (0 < lcnt l LS)%nat.
  Proof.
    intros H. unfold lcnt. apply Nat.neq_0_lt_0. intros E. apply nil_length_inv in E.
    apply (elem_of_nil l). rewrite <- E. by apply elem_of_list_filter.
  Qed.
  Lemma cnt_labels {A} (f : A -> nat) (R : A -> label -> Prop) (xs : list A) LS i l :
    Forall2 R xs LS -> (forall x lx, x ∈ xs -> R x lx -> f x = i <-> lx = l) ->
    cnt i (f <$> xs) = lcnt l LS.
  Proof.
    intros H. induction H as [|x lx xs LS Hx _ IH]; intros Hi; [done|].
    cbn [fmap list_fmap]. rewrite cnt_cons, IH; [|intros; apply Hi; [by right|done]]. unfold lcnt. rewrite filter_cons.
    pose proof (Hi x lx ltac:(left) Hx) as E.
    destruct (decide (f x = i)), (decide (lx = l)); cbn; intuition lia.
  Qed.
  Lemma filter_lcnt l (P : label -> Prop) `{!forall x, Decision (P x)} LS : P l ->
    (lcnt l LS <= length (filter P LS))%nat /\
    (length (filter P LS) = lcnt l LS <-> forall x, x ∈ LS -> P x -> x = l).
  Proof.
    intros Hl. unfold lcnt. induction LS as [|x LS [IH1 IH2]]; [split; [done|split; [by intros _ x ?%elem_of_nil|done]]|].
    rewrite !filter_cons. destruct (decide (x = l)) as [->|Hne].
    - rewrite decide_True by done. cbn. split; [lia|]. split.
      + intros E y [->|Hy]%elem_of_cons HP; [done|]. apply IH2; [lia|done..].
      + intros E. f_equal. apply IH2. intros y Hy. apply E. by right.
    - destruct (decide (P x)) as [HP|HP]; cbn; (split; [lia|]).
      + split; [lia|]. intros E. exfalso. apply Hne. apply E; [by left|done].
      + rewrite IH2. split.
        * intros E y [->|Hy]%elem_of_cons HP'; [done|]. by apply E.
        * intros E y Hy. apply E. by right.
  Qed.
  (** [l] has exactly one handle and is comparable with no other label *)
  Lemma sole_owner_iff hs l LS : all_strong hs = LS -> l ∈ LS ->
    sole_owner hs l = true <-> lcnt l LS = 1%nat /\ (forall l', l' ∈ LS -> anc l l' -> l' = l) /\ (forall l', l' ∈ LS -> anc l' l -> l' = l).
  Proof.
    intros Hs Hl. unfold sole_owner. rewrite bool_decide_eq_true, Hs. clear Hs.
    pose proof (lcnt_pos _ _ Hl) as Hpos.
    destruct (filter_lcnt l (fun l' => anc l l' ∨ anc l' l) LS) as [Hle Heq]; [left; apply anc_refl|]. split.
    - intros E1. assert (lcnt l LS = 1%nat) as E2 by lia. split; [done|].
      rewrite <- E2 in E1. pose proof (proj1 Heq E1) as E. split; intros l' Hl' Ha; apply E; auto.
    - intros (E1 & E2 & E3). rewrite <- E1. apply Heq. intros x Hx [?|?]; auto.
  Qed.
  Lemma no_weak_below_iff hs l LW : all_weak hs = LW ->
    no_weak_below hs l = true <-> forall l', l' ∈ LW -> ~ anc l l'.
  Proof. intros <-. unfold no_weak_below. rewrite bool_decide_eq_true, Forall_forall. done. Qed.
  Lemma alive_iff hs l LS : all_strong hs = LS -> alive hs l = true <-> exists l', l' ∈ LS /\ anc l' l.
  Proof. intros <-. unfold alive. by rewrite bool_decide_eq_true, Exists_exists. Qed.

  Section counts.
    Context (s : dg) (T : trees) (X : list hpair) (L LI : list label) (LG : list (option label)).
    Context (D : dinv (fst s) T L (rs_data <$> XS X) (XO X)).
    Context (G : ginv (snd s) (length T) LI LG (rs_img <$> XS X) (XW X)).
    Context (F : Forall (hrel (bshape (fst s)) T L LI LG) X).
    Notation LS := (X ≫= fun p => strong_labels (hp_a p)).

    Lemma cnt_data r l : r ∈ XS X -> srel L LI r l -> cnt (rs_data r) (rs_data <$> XS X) = lcnt l LS.
    Proof.
      intros Hr [Hd _]. eapply cnt_labels; [by eapply rel_strong|]. intros x lx Hx [Hdx _]. split.
      - intros E. rewrite E, Hd in Hdx. by injection Hdx.
      - intros ->. by eapply (dinv_label_inj sz _ _ _ _ _ D).
    Qed.
    Lemma cnt_img r l : r ∈ XS X -> srel L LI r l -> cnt (rs_img r) (rs_img <$> XS X) = lcnt l LS.
    Proof.
      intros Hr [_ Hd]. eapply cnt_labels; [by eapply rel_strong|]. intros x lx Hx [_ Hdx]. split.
      - intros E. rewrite E, Hd in Hdx. by injection Hdx.
      - intros ->. destruct (ginv_iref _ _ _ _ _ _ G (rs_img r)) as (n & _ & Hn & _); [by apply elem_of_list_fmap_1|].
        destruct (ginv_iref _ _ _ _ _ _ G (rs_img x)) as (m & _ & Hm & _); [by apply elem_of_list_fmap_1|].
        eapply (gs_iu _ _ _ _ _ (gi_str _ _ _ _ _ _ G)); eauto.
    Qed.
    Lemma label_ref l : l ∈ LS <-> exists r, r ∈ XS X /\ srel L LI r l.
    Proof.
      pose proof (rel_strong _ _ _ _ _ _ F) as HS. split.
      - intros [i Hi]%elem_of_list_lookup. destruct (Forall2_lookup_r _ _ _ _ _ HS Hi) as (r & Hr & ?).
        exists r. split; [by eapply elem_of_list_lookup_2|done].
      - intros (r & [i Hi]%elem_of_list_lookup & Hd & _). destruct (Forall2_lookup_l _ _ _ _ _ HS Hi) as (l' & Hl & Hd' & _).
        rewrite Hd in Hd'. injection Hd' as <-. by eapply elem_of_list_lookup_2.
    Qed.
    (** The three counts, in terms of labels. *)
    Lemma data_count_one r l : r ∈ XS X -> srel L LI r l ->
      rc_count (dw_datas (fst s)) (rs_data r) = 1%nat <->
      lcnt l LS = 1%nat /\ forall l', l' ∈ LS -> anc l' l -> l' = l.
    Proof.
      intros Hr Hs. pose proof Hs as [Hd _].
      assert (rs_data r ∈ rs_data <$> XS X) as Hin by (by apply elem_of_list_fmap_1).
      destruct (dinv_ref_live sz _ _ _ _ _ D _ Hin) as (c & n & l' & Hv & Hl'). rewrite Hd in Hl'. injection Hl' as <-.
      rewrite (rc_count_live _ _ _ _ Hv), (dinv_count_one sz _ _ _ _ _ D _ _ _ _ Hin Hd Hv), (cnt_data _ _ Hr Hs).
      split; intros [H1 H2]; (split; [done|]).
      - intros l' (r' & Hr' & Hs')%label_ref Ha. pose proof Hs' as [Hd' _].
        rewrite (H2 _ _ (elem_of_list_fmap_1 _ _ _ Hr') Hd' Ha), Hd in Hd'. by injection Hd'.
      - intros x lx (r' & -> & Hr')%elem_of_list_fmap Hlx Ha.
        pose proof (rel_strong _ _ _ _ _ _ F) as HS. apply elem_of_list_lookup in Hr' as [i Hi].
        destruct (Forall2_lookup_l _ _ _ _ _ HS Hi) as (l' & Hl' & Hd' & _). rewrite Hlx in Hd'. injection Hd' as <-.
        assert (lx = l) as -> by (apply H2; [by eapply elem_of_list_lookup_2|done]).
        by eapply (dinv_label_inj sz _ _ _ _ _ D).
    Qed.
    Lemma below_img l : (forall j lj, j ∈ rs_img <$> XS X -> LI !! j = Some lj -> anc l lj -> lj = l) <->
      (forall l', l' ∈ LS -> anc l l' -> l' = l).
    Proof.
      split.
      - intros H l' (r & Hr & [_ Hi])%label_ref. eapply H; [by apply elem_of_list_fmap_1|done].
      - intros H j lj (r & -> & Hr)%elem_of_list_fmap Hlj. apply H.
        pose proof (rel_strong _ _ _ _ _ _ F) as HS. apply elem_of_list_lookup in Hr as [i Hi].
        destruct (Forall2_lookup_l _ _ _ _ _ HS Hi) as (l' & Hl' & _ & Hd'). rewrite Hlj in Hd'. injection Hd' as <-.
        by eapply elem_of_list_lookup_2.
    Qed.
    Lemma img_count_one r l : r ∈ XS X -> srel L LI r l ->
      rc_count (gw_imgs (snd s)) (rs_img r) = 1%nat <->
      lcnt l LS = 1%nat /\ forall l', l' ∈ LS -> anc l l' -> l' = l.
    Proof.
      intros Hr Hs. pose proof Hs as [_ Hi].
      rewrite (ginv_icount_one _ _ _ _ _ _ G _ _ (elem_of_list_fmap_1 _ _ _ Hr) Hi), (cnt_img _ _ Hr Hs).
      by rewrite below_img.
    Qed.
    Lemma gmg_count_one r l n : r ∈ XS X -> srel L LI r l -> rc_get (gw_imgs (snd s)) (rs_img r) = Some n ->
      rc_count (gw_gmgs (snd s)) (i_gmg n) = 1%nat <->
      (forall l', l' ∈ (X ≫= fun p => weak_labels (hp_a p)) -> ~ anc l l') /\ (forall l', l' ∈ LS -> anc l l' -> l' = l).
    Proof.
      intros Hr Hs Hn. pose proof Hs as [_ Hi].
      rewrite (ginv_gcount_one _ _ _ _ _ _ G _ _ _ (elem_of_list_fmap_1 _ _ _ Hr) Hi Hn), below_img.
      enough ((forall g lg, g ∈ XW X -> LG !! g = Some (Some lg) -> ~ anc l lg) <->
        (forall l', l' ∈ (X ≫= fun p => weak_labels (hp_a p)) -> ~ anc l l')) by tauto.
      split.
      - intros H l' (g & Hg & Hlg)%(rel_weak _ _ _ _ _ _ _ F). by eapply H.
      - intros H g lg Hg Hlg. apply H. apply (rel_weak _ _ _ _ _ _ _ F). by exists g.
    Qed.
    Lemma data_alive d l : L !! d = Some l ->
      (exists c n, live (dw_datas (fst s)) d c n) <-> (exists l', l' ∈ LS /\ anc l' l).
    Proof.
      intros Hd. rewrite (dinv_alive sz _ _ _ _ _ D _ _ Hd). split.
      - intros (x & lx & (r & -> & Hr)%elem_of_list_fmap & Hlx & Ha). exists lx. split; [|done].
        pose proof (rel_strong _ _ _ _ _ _ F) as HS. apply elem_of_list_lookup in Hr as [i Hi].
        destruct (Forall2_lookup_l _ _ _ _ _ HS Hi) as (l' & Hl' & Hd' & _). rewrite Hlx in Hd'. injection Hd' as <-.
        by eapply elem_of_list_lookup_2.
      - intros (l' & (r & Hr & [Hr' _])%label_ref & Ha). exists (rs_data r), l'. split_and!; [|done..].
        by apply elem_of_list_fmap_1.
    Qed.
  End counts.
End rel.
