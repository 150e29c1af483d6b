(** Every operation on [ArcSlice] and the thread-safe [WeakSlice] preserves the
    relation with the specification (ArcRelInv.v). *)
From Verif Require Import Base BaseLemmas Api SliceItemsModel BinPartsModel DataModel RcModel Spec
  BinPartsProof SliceItemsProof DataInv DataSteps DataFuns GuardInv GuardSteps GuardFuns RelInv ArcModel ArcInv ArcRelInv.
Local Open Scope N_scope.

#[local] Arguments guard_drop : simpl never.
#[local] Arguments guard_for : simpl never.
#[local] Arguments data_drop : simpl never.
#[local] Arguments data_into_mut : simpl never.
#[local] Arguments data_clone_left : simpl never.
#[local] Arguments data_clone_right : simpl never.
#[local] Arguments arc_drop : simpl never.
#[local] Arguments arc_clone : simpl never.
#[local] Arguments arc_clone_left : simpl never.
#[local] Arguments arc_clone_right : simpl never.

Section relops.
  Context {V : Type} (sz : N).
  Notation dworld := (dworld V).
  Notation dg := (dworld * gdworld)%type.
  Notation dinv := (@dinv V sz).
  Notation xinv := (@xinv V sz).
  Notation YD X := (fmap (M:=list) ar_data (YS X)).
  Notation YI X := (fmap (M:=list) ar_guard (YS X)).

  Definition parc (r : arcslice) (l : label) : xpair := XP (XArc r) (ARc l) [].
  Definition pawk (d g : option nat) (ol : option label) : xpair := XP (XWeak d g) (AWeak ol) [].
  Definition pamut (m : mutslice) (r : rng) : xpair := XP (XMut m) (AMut r) [(r, ms_alloc m)].
  Definition pait (m : mutiter) (r : rng) : xpair := XP (XIter m) (AIter r) [(r, mi_alloc m)].

  (** Items do not move; some may have been dropped. *)
  Definition asub (s s' : dg) : Prop := dw_mem (fst s') ⊆ dw_mem (fst s) /\ bshape (fst s') = bshape (fst s).
  Definition asame (s s' : dg) : Prop := dw_mem (fst s') = dw_mem (fst s) /\ bshape (fst s') = bshape (fst s).
  Lemma same_sub s s' : asame s s' -> asub s s'.
  Proof. intros [H1 H2]. split; [by rewrite H1|done]. Qed.
  Lemma sub_trans s1 s2 s3 : asub s1 s2 -> asub s2 s3 -> asub s1 s3.
  Proof. intros [? H1] [? H2]. split; [by etrans|by rewrite H2]. Qed.
  Lemma same_refl s : asame s s.
  Proof. done. Qed.

  Lemma in_YS (r : arcslice) l X : parc r l ∈ X -> r ∈ YS X.
  Proof. intros H. apply elem_of_list_bind. exists (parc r l). split; [by left|done]. Qed.
  Lemma xrel_parc B T L LI r l : xrel sz B T L LI (parc r l) <-> xsrel L LI r l.
  Proof. unfold xrel. cbn. intuition. Qed.

  (** What a held slice refers to. *)
  Lemma held s T X L LI r l :
    dinv (fst s) T L (YD X) (YO X) ->
    ainv (snd s) L LI (YI X) (YW X) ->
    r ∈ YS X -> xsrel L LI r l ->
    exists sd nd ni, live (dw_datas (fst s)) (ar_data r) sd nd /\ nrng nd = lrng T l /\
      points sz (bbase (bshape (fst s)) (rg_blk (lrng T l))) (rg_blk (lrng T l)) (rg_lo (lrng T l)) (d_ptr nd) /\
      d_len nd = rg_len (lrng T l) /\
      live (gd_guards (snd s)) (ar_guard r) (rc_count (gd_guards (snd s)) (ar_guard r)) ni.
  Proof.
    intros D G Hr [Hd Hi].
    destruct (dinv_ref_live sz _ _ _ _ _ D (ar_data r)) as (sd & nd & l' & Hv & Hl'); [by apply elem_of_list_fmap_1|].
    rewrite Hd in Hl'. injection Hl' as <-.
    destruct (ainv_ref _ _ _ _ _ G (ar_guard r)) as (ni & l' & Hn & Hl'); [by apply elem_of_list_fmap_1|].
    destruct (di_geo _ _ _ _ _ _ D _ _ _ _ Hv Hd) as [Hg Hp].
    exists sd, nd, ni. split_and!; try done.
    - by rewrite <- Hg.
    - by rewrite <- Hg.
    - by apply rc_get_count.
  Qed.
  Lemma xinv_held {LI} s T X r l : xinv LI s T X -> parc r l ∈ X ->
    exists L, dinv (fst s) T L (YD X) (YO X) /\
      ainv (snd s) L LI (YI X) (YW X) /\
      Forall (xrel sz (bshape (fst s)) T L LI) X /\ r ∈ YS X /\ xsrel L LI r l.
  Proof.
    intros (L & D & G & F) Hin. exists L. split_and!; try done; [by eapply in_YS|..].
    all: rewrite Forall_forall in F; specialize (F _ Hin); apply xrel_parc in F; apply F.
  Qed.

  (** *** Live guards

      Guards get labels when they are created and keep them. An operation
      either only creates guards ([grow]) or only releases some ([shrink]). *)
  Definition grow (LI : list label) (s : dg) (LI' : list label) (s' : dg) : Prop :=
    (exists XI, LI' = LI ++ XI) /\ ggrow (snd s) (snd s').
  Definition shrink (LI : list label) (s : dg) (LI' : list label) (s' : dg) : Prop :=
    LI' = LI /\ gkeep (snd s') (snd s).
  Lemma grow_refl LI s : grow LI s LI s.
  Proof. split; [exists []; by rewrite app_nil_r|apply ggrow_refl]. Qed.
  Lemma grow_guards LI (s s' : dg) : gd_guards (snd s') = gd_guards (snd s) -> grow LI s LI s'.
  Proof. intros E. split; [exists []; by rewrite app_nil_r|]. unfold ggrow, gkeep. rewrite E. split_and!; eauto. Qed.
  Lemma grow_trans LI1 s1 LI2 s2 LI3 s3 : grow LI1 s1 LI2 s2 -> grow LI2 s2 LI3 s3 -> grow LI1 s1 LI3 s3.
  Proof.
    intros [[X1 ->] K1] [[X2 ->] K2]. split; [exists (X1 ++ X2); by rewrite app_assoc|by eapply ggrow_trans].
  Qed.
  Lemma shrink_refl LI s : shrink LI s LI s.
  Proof. split; [done|apply gkeep_refl]. Qed.
  Lemma shrink_trans LI1 s1 LI2 s2 LI3 s3 : shrink LI1 s1 LI2 s2 -> shrink LI2 s2 LI3 s3 -> shrink LI1 s1 LI3 s3.
  Proof. intros [-> K1] [-> K2]. split; [done|by eapply gkeep_trans]. Qed.

  (** Where no guard is alive the data hangs below a live one. *)
  Lemma up_ok_gen (d : dworld) T L R O LI g : dinv d T L R O ->
    (forall x l, x ∈ R -> L !! x = Some l -> l_path l <> [] ->
      (forall j m, rc_get (gd_guards g) j = Some m -> LI !! j <> Some l) ->
      exists p sp np lp side, live (dw_datas d) p sp np /\ L !! p = Some lp /\ l = lchild lp side) ->
    up_ok d L LI g.
  Proof.
    intros D HR y s n l Hv Hl Hp Hno. pose proof (di_cnt _ _ _ _ _ _ D y) as E. rewrite (rc_count_live _ _ _ _ Hv) in E.
    assert (s <> 0%nat) by (intros ->; by apply (di_pos _ _ _ _ _ _ D) in Hv).
    destruct (decide (0 < cnt y R)%nat) as [Hr%cnt_pos|Hr]; [by eapply HR|].
    destruct (dinv_linked_parent sz _ _ _ _ _ D y l Hl) as (p & s' & n' & lp & side & Hpv & Hlp & -> & _); [lia|].
    exists p, s', n', lp, side. done.
  Qed.
  (** A data held together with a guard has one. *)
  Lemma held_guard T B X L LI g RW x l : Forall (xrel sz B T L LI) X -> ainv g L LI (YI X) RW ->
    x ∈ YD X -> L !! x = Some l -> exists j m, rc_get (gd_guards g) j = Some m /\ LI !! j = Some l.
  Proof.
    intros F G (r & -> & Hr)%elem_of_list_fmap Hl. pose proof (rel_strong sz _ _ _ _ _ F) as HS.
    destruct (ainv_ref _ _ _ _ _ G (ar_guard r)) as (m & l' & Hm & Hl'); [by apply elem_of_list_fmap_1|].
    apply elem_of_list_lookup in Hr as [i Hi]. destruct (Forall2_lookup_l _ _ _ _ _ HS Hi) as (l2 & _ & Hd & Hg).
    rewrite Hl in Hd. injection Hd as <-. eauto.
  Qed.
  Lemma xinv_up_ok s T X L LI : dinv (fst s) T L (YD X) (YO X) -> ainv (snd s) L LI (YI X) (YW X) ->
    Forall (xrel sz (bshape (fst s)) T L LI) X -> up_ok (fst s) L LI (snd s).
  Proof.
    intros D G F. eapply up_ok_gen; [exact D|]. intros x l Hx Hl _ Hno. exfalso.
    destruct (held_guard _ _ _ _ _ _ _ _ _ F G Hx Hl) as (j & m & Hj & Hlj). by eapply Hno.
  Qed.

  (** *** ArcSlice *)
  Lemma arc_clone_ok {LI} s T X r l : xinv LI s T X -> parc r l ∈ X ->
    exists s', arc_clone s r = Ok (s', r) /\ xinv LI s' T (parc r l :: X) /\ asame s s' /\ grow LI s LI s'.
  Proof.
    intros C Hin. destruct (xinv_held _ _ _ _ _ C Hin) as (L & D & G & F & Hr & Hs).
    destruct (held _ _ _ _ _ _ _ D G Hr Hs) as (sd & nd & ni & Hv & _ & _ & _ & Hi).
    eexists. split.
    { unfold arc_clone. rewrite (rc_inc_live _ _ _ _ Hv). cbn. rewrite (rc_inc_live _ _ _ _ Hi). cbn. reflexivity. }
    split; [|split; [done|]].
    - exists L. split_and!.
      + by apply (dinv_inc sz).
      + by apply ainv_inc.
      + constructor; [by apply xrel_parc|done].
    - split; [exists []; by rewrite app_nil_r|]. by eapply ggrow_recount.
  Qed.

  Lemma arc_drop_ok {LI} s T X r l : xinv LI s T (parc r l :: X) ->
    exists s', arc_drop sz s r = Ok s' /\ xinv LI s' T X /\ asub s s' /\ shrink LI s LI s'.
  Proof.
    intros (L & D & G & F).
    destruct (data_drop_ok sz (fst s) T L (ar_data r) (YD X) (YO X) D) as (d & Ed & D' & Hs1 & Hs2 & _).
    destruct (guard_drop_ok L LI (YW X) (snd s) (ar_guard r) (YI X) G) as (g & Eg & G' & K).
    eexists (d, _). split; [unfold arc_drop; rewrite Ed; cbn; rewrite Eg; cbn; reflexivity|].
    split; [|done]. exists L. split_and!; [done..|]. cbn [fst]. rewrite Hs2.
    by apply Forall_inv_tail in F.
  Qed.
  (** If something below stays, no guard is released. *)
  Lemma shrink_keep {LI} s s' T X r l l' : xinv LI s T (parc r l :: X) -> xinv LI s' T X -> shrink LI s LI s' ->
    l' ∈ (X ≫= fun p => strong_labels (xp_a p)) -> anc l l' -> grow LI s LI s'.
  Proof.
    intros (L & D & G & F) (L' & D' & G' & F') [_ K] Hl' Ha. split; [exists []; by rewrite app_nil_r|].
    split; [|split; [by rewrite <- (ai_len _ _ _ _ _ G), <- (ai_len _ _ _ _ _ G')|intros i n _ Hi; by apply K in Hi]].
    intros i n Hi. destruct (ainv_glab _ _ _ _ _ G _ _ Hi) as [li Hli].
    assert (exists j lj, j ∈ YI X /\ LI !! j = Some lj /\ anc li lj) as (j & lj & Hj & Hlj & Haj).
    { destruct (ainv_down _ _ _ _ _ G _ _ _ Hi Hli) as (j & lj & Hj & Hlj & Haj).
      change (YI (parc r l :: X)) with (ar_guard r :: YI X) in Hj. apply elem_of_cons in Hj as [->|Hj]; [|eauto].
      apply Forall_inv, xrel_parc in F. destruct F as [_ Hg]. rewrite Hlj in Hg. injection Hg as <-.
      apply (label_ref sz s' T X L' LI F') in Hl' as (r' & Hr' & _ & Hg').
      exists (ar_guard r'), l'. split_and!; [by apply elem_of_list_fmap_1|done|by eapply anc_trans]. }
    destruct (ainv_ref _ _ _ _ _ G' _ Hj) as (m & lj' & Hm & Hlj'). rewrite Hlj in Hlj'. injection Hlj' as <-.
    apply anc_lapp in Haj as [p ->]. destruct (ainv_up _ _ _ _ _ G' _ _ _ _ Hm Hlj) as (i' & n' & Hi' & Hli' & _).
    destruct (K _ _ Hi') as [n2 Hn2]. assert (i' = i) as -> by (by eapply (ai_u _ _ _ _ _ G)). eauto.
  Qed.

  (** The two cases of [ArcSliceData::clone_left] and [clone_right]. *)
  Lemma adata_clone_half_eq (s : dg) r sd nd (side : bool) : live (dw_datas (fst s)) r sd nd ->
    (if side then adata_clone_right sz s r else adata_clone_left s r) =
    if d_len nd <=? (if side then 1 else 0) then
      h ← rc_inc (dw_datas (fst s)) r; Ok ((dw_set_datas (fst s) h, snd s), r)
    else
      '(d, c) ← (if side then data_clone_right sz (fst s) r else data_clone_left (fst s) r);
      Ok ((d, if d_child side nd then snd s else gd_new_data (snd s) (Some r)), c).
  Proof.
    intros Hv. destruct side; unfold adata_clone_right, adata_clone_left; rewrite (rc_val_live _ _ _ _ Hv); cbn [mbind res_bind].
    - unfold d_child. destruct (d_len nd <=? 1); [done|]. destruct (data_clone_right _ _ _) as [[d c]| | |]; cbn; done.
    - assert ((d_len nd =? 0) = (d_len nd <=? 0)) as ->.
      { destruct (N.eqb_spec (d_len nd) 0) as [->|]; [done|]. symmetry. apply N.leb_gt. lia. }
      unfold d_child. destruct (d_len nd <=? 0); [done|]. destruct (data_clone_left _ _) as [[d c]| | |]; cbn; done.
  Qed.
  Lemma Forall_ext_LI B T L LI XI X : Forall (xrel sz B T L LI) X -> Forall (xrel sz B T L (LI ++ XI)) X.
  Proof.
    intros F. eapply Forall_impl; [exact F|]. intros p Hp. apply (xrel_ext sz _ _ _ [] _ XI) in Hp. by rewrite app_nil_r in Hp.
  Qed.
  (** [from_data] at a live data that the caller has just got hold of. *)
  Lemma arc_from_data_ok (d : dworld) g T X L LI c l :
    dinv d T L (c :: YD X) (YO X) -> ainv g L LI (YI X) (YW X) -> up_ok d L LI g ->
    Forall (xrel sz (bshape d) T L LI) X -> L !! c = Some l ->
    exists g' r LI', arc_from_data sz (d, g) c = Ok ((d, g'), r) /\ xinv LI' (d, g') T (parc r l :: X) /\
      (exists XI, LI' = LI ++ XI) /\ ggrow g g'.
  Proof.
    intros D G Hup F Hl. destruct (dinv_ref_live sz _ _ _ _ _ D c) as (sc & nc & l' & Hv & Hl'); [left|].
    destruct (guard_for_ok sz d c g T L LI _ _ _ _ sc nc l D G Hup Hv Hl) as (g' & i & XI & E & Hi & G' & K).
    exists g', (ArcS c i), (LI ++ XI). unfold arc_from_data. rewrite E. cbn [mbind res_bind]. split; [done|]. split; [|eauto].
    exists L. split_and!; [done..|]. constructor; [by apply xrel_parc|by apply Forall_ext_LI].
  Qed.
  Lemma arc_clone_half_ok {LI} s T X r l (side : bool) : xinv LI s T X -> parc r l ∈ X ->
    exists (s' : dg) r' LI', (if side then arc_clone_right sz s r else arc_clone_left sz s r) = Ok (s', r') /\
      xinv LI' s' T (parc r' (lhalf T l side) :: X) /\ asame s s' /\ grow LI s LI' s'.
  Proof.
    intros C Hin. destruct (xinv_held _ _ _ _ _ C Hin) as (L & D & G & F & Hr & Hs).
    destruct (held _ _ _ _ _ _ _ D G Hr Hs) as (sd & nd & ni & Hv & _ & _ & Hlen & Hi).
    pose proof Hs as [Hd Hg].
    assert ((if side then arc_clone_right sz s r else arc_clone_left sz s r) =
      '(s, c) ← (if side then adata_clone_right sz s (ar_data r) else adata_clone_left s (ar_data r)); arc_from_data sz s c) as ->.
    { destruct side; unfold arc_clone_right, arc_clone_left;
        rewrite (gate_wait_ok _ _ _ _ _ _ _ G) by (by apply elem_of_list_fmap_1); done. }
    rewrite (adata_clone_half_eq _ _ _ _ _ Hv), Hlen. unfold lhalf. destruct (rg_len (lrng T l) <=? (if side then 1 else 0)).
    - rewrite (rc_inc_live _ _ _ _ Hv). cbn [mbind res_bind].
      destruct (arc_from_data_ok (dw_set_datas (fst s) (<[ar_data r := Some (S sd, nd)]> (dw_datas (fst s)))) (snd s) T X L LI (ar_data r) l)
        as (g' & r' & LI' & E & C' & HL & K).
      + by apply (dinv_inc sz).
      + done.
      + eapply up_ok_gen; [by apply (dinv_inc sz)|]. intros x lx Hx Hlx _ Hno. exfalso.
        assert (x ∈ YD X) as Hx'.
        { apply elem_of_cons in Hx as [->|Hx]; [by apply elem_of_list_fmap_1|done]. }
        destruct (held_guard _ _ _ _ _ _ _ _ _ F G Hx' Hlx) as (j & m & Hj & Hlj). by eapply Hno.
      + done.
      + done.
      + rewrite E. eexists _, r', LI'. split; [done|]. split; [done|]. split; [done|]. by split.
    - destruct (data_clone_half_ok sz _ _ _ _ _ _ _ _ _ side D Hv Hd) as (d & c & X1 & Ed & Hc & D' & Hm & HB & _ & EX).
      rewrite Ed. cbn [mbind res_bind].
      set (g1 := if d_child side nd then snd s else gd_new_data (snd s) (Some (ar_data r))).
      assert (ainv g1 (L ++ X1) LI (YI X) (YW X)) as G1.
      { unfold g1. subst X1. destruct (d_child side nd) as [c'|] eqn:Ec; [by rewrite app_nil_r|].
        apply (ainv_new_data _ _ _ _ _ _ (Some (ar_data r, side)) G); [|eauto].
        by apply (di_nolink _ _ _ _ _ _ D _ _ _ _ _ Hv Hd Ec). }
      assert (gd_guards g1 = gd_guards (snd s)) as Eg by (unfold g1; by destruct (d_child side nd)).
      assert (Forall (xrel sz (bshape d) T (L ++ X1) LI) X) as F1.
      { rewrite HB. eapply Forall_impl; [exact F|]. intros p Hp. apply (xrel_ext sz _ _ _ X1 _ []) in Hp. by rewrite app_nil_r in Hp. }
      destruct (arc_from_data_ok d g1 T X (L ++ X1) LI c (lchild l side) D' G1) as (g' & r' & LI' & E & C' & HL & K); [|done|done|].
      + eapply up_ok_gen; [exact D'|]. intros x lx Hx Hlx _ Hno. apply elem_of_cons in Hx as [->|Hx].
        * destruct (dinv_ref_live sz _ _ _ _ _ D' (ar_data r)) as (sp & np & lp & Hp & Hlp); [right; by apply elem_of_list_fmap_1|].
          assert (lp = l) as ->.
          { rewrite (lookup_app_l_Some _ _ _ _ Hd) in Hlp. by injection Hlp. }
          exists (ar_data r), sp, np, l, side. split_and!; try done. rewrite Hc in Hlx. by injection Hlx.
        * exfalso. destruct (held_guard _ _ _ _ _ _ _ _ _ F1 G1 Hx Hlx) as (j & m & Hj & Hlj). by eapply Hno.
      + rewrite E. eexists _, r', LI'. split; [done|]. split; [done|]. split; [by split|]. split; [done|].
        unfold ggrow, gkeep in *. by rewrite Eg in K.
  Qed.

  Lemma lhalf_anc T l side : anc l (lhalf T l side).
  Proof. unfold lhalf. destruct (_ <=? _); [apply anc_refl|apply anc_child]. Qed.
  Lemma arc_split_off_ok {LI} s T X r l (side : bool) : xinv LI s T (parc r l :: X) ->
    exists s' (r1 r2 : arcslice) LI', (if side then arc_split_off_right sz s r else arc_split_off_left sz s r) = Ok (s', (r1, r2)) /\
      xinv LI' s' T (parc r2 (lhalf T l side) :: parc r1 (lhalf T l (negb side)) :: X) /\ asub s s' /\ grow LI s LI' s'.
  Proof.
    intros C.
    destruct (arc_clone_half_ok _ _ _ r l false C) as (s1 & ra & LI1 & E1 & C1 & S1 & W1); [by left|].
    destruct (arc_clone_half_ok _ _ _ r l true C1) as (s2 & rb & LI2 & E2 & C2 & S2 & W2); [right; by left|].
    cbn in E1, E2.
    assert (xinv LI2 s2 T (parc r l :: parc rb (lhalf T l true) :: parc ra (lhalf T l false) :: X)) as C2'.
    { eapply xinv_perm; [|exact C2]. symmetry. apply (Permutation_middle [_; _]). }
    destruct (arc_drop_ok s2 T (parc rb (lhalf T l true) :: parc ra (lhalf T l false) :: X) r l C2') as (s3 & E3 & C3 & S3 & W3).
    assert (asub s s3) as HS by (eauto using sub_trans, same_sub).
    assert (grow LI s LI2 s3) as HW.
    { eapply grow_trans; [exact W1|]. eapply grow_trans; [exact W2|].
      eapply (shrink_keep _ _ _ _ _ _ _ C2' C3 W3); [|apply (lhalf_anc T l true)]. by left. }
    destruct side.
    - exists s3, ra, rb, LI2. unfold arc_split_off_right. rewrite E1. cbn. rewrite E2. cbn. rewrite E3. cbn. done.
    - exists s3, rb, ra, LI2. unfold arc_split_off_left. rewrite E1. cbn. rewrite E2. cbn. rewrite E3. cbn. split; [done|]. split; [|done].
      eapply xinv_perm; [apply Permutation_swap|done].
  Qed.

  (** *** Weak slices *)
  Lemma arc_downgrade_ok {LI} s T X r l : xinv LI s T X -> parc r l ∈ X ->
    exists s' d g, arc_downgrade s r = Ok (s', (d, Some g)) /\ xinv LI s' T (pawk d (Some g) (Some l) :: X) /\ asame s s' /\
      gd_guards (snd s') = gd_guards (snd s) /\ g = ar_guard r.
  Proof.
    intros C Hin. destruct (xinv_held _ _ _ _ _ C Hin) as (L & D & G & F & Hr & Hs).
    destruct (held _ _ _ _ _ _ _ D G Hr Hs) as (sd & nd & ni & Hv & _ & _ & _ & Hi).
    destruct (ainv_winc _ _ _ _ _ (ar_guard r) G) as (w' & Ew & G' & Eg); [by eapply live_lt|].
    eexists _, _, _. split.
    { unfold arc_downgrade. rewrite (gate_wait_ok _ _ _ _ _ _ _ G) by (by apply elem_of_list_fmap_1).
      cbn [mbind res_bind]. rewrite (rc_val_live _ _ _ _ Hv). cbn [mbind res_bind]. rewrite Ew. cbn. reflexivity. }
    split; [|done]. exists L. split_and!; [done|exact G'|].
    constructor; [|done]. unfold xrel. cbn. split_and!; [done|apply Hs..].
  Qed.
  Lemma aweak_new_ok {LI} s T X : xinv LI s T X ->
    aweak_new s = (s, (None, None)) /\ xinv LI s T (pawk None None None :: X).
  Proof.
    intros (L & D & G & F). split; [done|]. exists L. split_and!; [done..|]. by constructor.
  Qed.
  Lemma xrel_pawk B T L LI d g ol : xrel sz B T L LI (pawk d g ol) <->
    match d, g, ol with
    | Some d, Some g, Some l => L !! d = Some l /\ LI !! g = Some l
    | None, None, None => True
    | _, _, _ => False
    end.
  Proof. unfold xrel. cbn. intuition. Qed.
  Lemma aweak_clone_ok {LI} s T X d g ol : xinv LI s T X -> pawk d g ol ∈ X ->
    exists s', aweak_clone s g = Ok s' /\ xinv LI s' T (pawk d g ol :: X) /\ asame s s' /\ gd_guards (snd s') = gd_guards (snd s).
  Proof.
    intros (L & D & G & F) Hin. pose proof F as F'. rewrite Forall_forall in F'. specialize (F' _ Hin).
    pose proof F' as Hp. rewrite xrel_pawk in Hp.
    destruct d as [d|], g as [g|], ol as [l|]; try done.
    - destruct (ainv_winc _ _ _ _ _ g G) as (w' & Ew & G' & Eg).
      { rewrite <- (ai_len _ _ _ _ _ G). destruct Hp; by eapply lookup_lt_Some. }
      eexists. split; [unfold aweak_clone; rewrite Ew; cbn; reflexivity|]. split; [|done].
      exists L. split_and!; [done..|]. by constructor.
    - exists s. destruct s as [ds gs]. split; [done|]. split; [|done]. exists L. split_and!; [done..|]. by constructor.
  Qed.
  Lemma aweak_drop_ok {LI} s T X d g ol : xinv LI s T (pawk d g ol :: X) ->
    exists s', aweak_drop s g = Ok s' /\ xinv LI s' T X /\ asame s s' /\ gd_guards (snd s') = gd_guards (snd s).
  Proof.
    intros (L & D & G & F). destruct g as [g|].
    - destruct (ainv_wdec _ _ _ _ _ g G) as (w' & Ew & G' & Eg).
      eexists. split; [unfold aweak_drop; rewrite Ew; cbn; reflexivity|]. split; [|done].
      exists L. split_and!; [done..|]. by apply Forall_inv_tail in F.
    - exists s. destruct s as [ds gs]. split; [done|]. split; [|done]. exists L. split_and!; [done..|]. by apply Forall_inv_tail in F.
  Qed.
  Lemma all_strong_eq hs X : live_handles hs = xp_a <$> X -> all_strong hs = X ≫= fun p => strong_labels (xp_a p).
  Proof. intros H. unfold all_strong. rewrite H. clear. induction X as [|p X IH]; [done|]. cbn. by rewrite IH. Qed.
  Lemma all_weak_eq hs X : live_handles hs = xp_a <$> X -> all_weak hs = X ≫= fun p => weak_labels (xp_a p).
  Proof. intros H. unfold all_weak. rewrite H. clear. induction X as [|p X IH]; [done|]. cbn. by rewrite IH. Qed.
  Lemma aweak_upgrade_ok {LI} s T X hs d g ol : xinv LI s T X -> pawk d g ol ∈ X -> live_handles hs = xp_a <$> X ->
    match ol with Some l => alive hs l | None => false end = true /\
      (exists s' r l LI', ol = Some l /\ aweak_upgrade sz s d = Ok (s', Some r) /\ xinv LI' s' T (parc r l :: X) /\ asame s s' /\ grow LI s LI' s') \/
    match ol with Some l => alive hs l | None => false end = false /\ aweak_upgrade sz s d = Ok (s, None).
  Proof.
    intros (L & D & G & F) Hin Hhs. pose proof F as F'. rewrite Forall_forall in F'.
    specialize (F' _ Hin). rewrite xrel_pawk in F'.
    destruct d as [d|], g as [g|], ol as [l|]; try done; cycle 1.
    { right. split; [done|]. unfold aweak_upgrade. done. }
    destruct F' as [Hd _].
    pose proof (data_alive sz s T X L LI D F d l Hd) as Hal.
    rewrite <- (alive_iff hs l _ (all_strong_eq _ _ Hhs)) in Hal.
    destruct (rc_upgrade_cases (dw_datas (fst s)) (Some d)) as [(i & c & n & [= <-] & Hv & E)|[Hnone E]].
    - left. split; [apply Hal; eauto|].
      destruct (arc_from_data_ok (dw_set_datas (fst s) (<[d := Some (S c, n)]> (dw_datas (fst s)))) (snd s) T X L LI d l)
        as (g' & r & LI' & E' & C' & HL & K).
      + by apply (dinv_inc sz).
      + done.
      + intros y sy ny ly Hy Hly Hpy Hno.
        assert (exists sy', live (dw_datas (fst s)) y sy' ny) as [sy' Hy'].
        { unfold live, dw_set_datas in Hy |- *. cbn in Hy. destruct (decide (y = d)) as [->|Hne].
          - rewrite list_lookup_insert in Hy by (by eapply live_lt). injection Hy as <- <-. eauto.
          - rewrite list_lookup_insert_ne in Hy by done. eauto. }
        destruct (xinv_up_ok s T X L LI D G F y sy' ny ly Hy' Hly Hpy Hno) as (p & sp & np & lp & side & Hp & Hlp & ->).
        destruct (decide (p = d)) as [->|Hne].
        * exists d, (S c), n, lp, side. split_and!; try done. unfold live, dw_set_datas. cbn.
          apply list_lookup_insert. by eapply live_lt.
        * exists p, sp, np, lp, side. split_and!; try done. unfold live, dw_set_datas. cbn. by rewrite list_lookup_insert_ne.
      + done.
      + done.
      + eexists _, r, l, LI'. split; [done|]. split; [unfold aweak_upgrade; rewrite E, E'; cbn; reflexivity|].
        split; [done|]. split; [done|]. by split.
    - right. split; [|unfold aweak_upgrade; by rewrite E]. apply not_true_iff_false. rewrite <- Hal.
      intros (c & n & Hv). specialize (Hnone d eq_refl). by rewrite (rc_get_live _ _ _ _ Hv) in Hnone.
  Qed.

  (** *** Access and conversion *)
  Lemma strong_in r l X : parc r l ∈ X -> l ∈ (X ≫= fun p => strong_labels (xp_a p)).
  Proof. intros H. apply elem_of_list_bind. exists (parc r l). split; [by left|done]. Qed.
  Lemma arc_slice_ok {LI} s T X r l : xinv LI s T X -> parc r l ∈ X ->
    exists p, arc_slice s r = Ok (p, rg_len (lrng T l)) /\
      points sz (bbase (bshape (fst s)) (rg_blk (lrng T l))) (rg_blk (lrng T l)) (rg_lo (lrng T l)) p.
  Proof.
    intros C Hin. destruct (xinv_held _ _ _ _ _ C Hin) as (L & D & G & F & Hr & Hs).
    destruct (held _ _ _ _ _ _ _ D G Hr Hs) as (sd & nd & ni & Hv & _ & Hp & Hlen & Hi).
    exists (d_ptr nd). split; [|done]. unfold arc_slice. rewrite (rc_val_live _ _ _ _ Hv). cbn. by rewrite Hlen.
  Qed.
  (** Closing a gate and opening it again leaves no trace. *)
  Lemma gate_net w i c n down : live (gd_guards w) i c n -> a_gate down n = false ->
    exists w1, gate_try_close w i down = Ok (w1, true) /\ gate_open w1 i down = Ok w /\
      live (gd_guards w1) i c (a_set_gate down true n) /\ gd_weak w1 = gd_weak w.
  Proof.
    intros Hv Hg. unfold gate_try_close. rewrite (rc_val_live _ _ _ _ Hv). cbn [mbind res_bind].
    rewrite (rc_set_live _ _ _ _ _ Hv). cbn [mbind res_bind]. rewrite Hg. cbn [negb]. eexists. split; [done|].
    assert (live (<[i := Some (c, a_set_gate down true n)]> (gd_guards w)) i c (a_set_gate down true n)) as Hv1.
    { unfold live. apply list_lookup_insert. by eapply live_lt. }
    split_and!; try done. unfold gate_open. cbn [gd_guards gd_set_guards]. rewrite (rc_set_live _ _ _ _ _ Hv1). cbn [mbind res_bind].
    rewrite list_insert_insert. f_equal. destruct w as [gs wk bx ms]. unfold gd_set_guards. cbn [gd_guards gd_weak gd_boxes gd_metas] in *.
    f_equal. rewrite list_insert_id; [done|]. unfold live in Hv. rewrite Hv. f_equal. f_equal. f_equal.
    destruct n as [p a b], down; cbn in *; by subst.
  Qed.
  Lemma arc_get_mut_ok {LI} s T X hs r l : xinv LI s T X -> parc r l ∈ X -> live_handles hs = xp_a <$> X ->
    exists p, points sz (bbase (bshape (fst s)) (rg_blk (lrng T l))) (rg_blk (lrng T l)) (rg_lo (lrng T l)) p /\
    arc_get_mut s r = Ok (s, if sole_owner hs l && bool_decide (ar_guard r ∉ YW X) then Some (p, rg_len (lrng T l)) else None).
  Proof.
    intros C Hin Hhs. destruct (xinv_held _ _ _ _ _ C Hin) as (L & D & G & F & Hr & Hs).
    destruct (held _ _ _ _ _ _ _ D G Hr Hs) as (sd & nd & ni & Hv & _ & Hp & Hlen & Hi).
    exists (d_ptr nd). split; [done|]. unfold arc_get_mut.
    destruct (ai_open _ _ _ _ _ G _ _ (rc_get_live _ _ _ _ Hi)) as [Ho1 Ho2].
    destruct (gate_net _ _ _ _ true Hi Ho2) as (w1 & E1 & E1' & Hi1 & Hw1). rewrite E1. cbn [mbind res_bind negb].
    destruct (gate_net _ _ _ _ false Hi1 Ho1) as (w2 & E2 & E2' & Hi2 & Hw2).
    pose proof (data_count_one sz s T X L LI D F r l Hr Hs) as H1.
    pose proof (guard_count_one sz s T X L LI G F r l Hr Hs) as H2.
    pose proof (sole_owner_iff hs l _ (all_strong_eq _ _ Hhs) (strong_in _ _ _ Hin)) as H3.
    pose proof (ainv_weak_one _ _ _ _ _ G (ar_guard r) (live_lt _ _ _ _ Hi)) as H4.
    assert (gd_weak_count w1 (ar_guard r) = gd_weak_count (snd s) (ar_guard r)) as -> by (unfold gd_weak_count; by rewrite Hw1).
    destruct (Nat.eqb_spec (gd_weak_count (snd s) (ar_guard r)) 1) as [Ew|Ew]; cycle 1.
    { rewrite (bool_decide_eq_false_2 _) by tauto. rewrite andb_false_r. cbn [mbind res_bind]. rewrite E1'. cbn. by destruct s. }
    rewrite (bool_decide_eq_true_2 _) by tauto. rewrite andb_true_r.
    rewrite E2. cbn [mbind res_bind negb]. rewrite (rc_count_live _ _ _ _ Hi2).
    rewrite (rc_val_live _ _ _ _ Hv). cbn [mbind res_bind].
    assert (sole_owner hs l = ((rc_count (gd_guards s.2) (ar_guard r) =? 1)%nat && (rc_count (dw_datas s.1) (ar_data r) =? 1)%nat)) as ->.
    { apply eq_true_iff_eq. rewrite andb_true_iff, !Nat.eqb_eq, H1, H2, H3. tauto. }
    rewrite Hlen. destruct (Nat.eqb_spec (rc_count (gd_guards s.2) (ar_guard r)) 1) as [_|_]; cbn [andb mbind res_bind].
    - destruct (rc_count (dw_datas s.1) (ar_data r) =? 1)%nat; cbn [mbind res_bind]; rewrite E2'; cbn [mbind res_bind]; rewrite E1'; cbn; by destruct s.
    - rewrite E2'; cbn [mbind res_bind]; rewrite E1'; cbn; by destruct s.
  Qed.
End relops.
