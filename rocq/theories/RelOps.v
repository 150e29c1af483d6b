(** Every operation on [RcSlice] and [WeakSlice] preserves the relation with
    the specification (RelInv.v). *)
From Verif Require Import Base BaseLemmas Api SliceItemsModel BinPartsModel DataModel RcModel Spec
  BinPartsProof SliceItemsProof DataInv DataSteps DataFuns GuardInv GuardSteps GuardFuns RelInv.
Local Open Scope N_scope.

#[local] Arguments img_drop : simpl never.
#[local] Arguments gmg_drop : simpl never.
#[local] Arguments img_clone_child : simpl never.
#[local] Arguments img_new : simpl never.
#[local] Arguments gmg_ensure : simpl never.
#[local] Arguments data_drop : simpl never.
#[local] Arguments data_into_mut : simpl never.
#[local] Arguments rcs_drop : simpl never.
#[local] Arguments rcs_clone : simpl never.
#[local] Arguments rcs_clone_left : simpl never.
#[local] Arguments rcs_clone_right : simpl never.

Section relops.
  Context {V : Type} (sz : N).
  Notation dworld := (dworld V).
  Notation dg := (dworld * gworld)%type.
  Notation dinv := (@dinv V sz).
  Notation cinv := (@cinv V sz).
  Notation XD X := (fmap (M:=list) rs_data (XS X)).
  Notation XI X := (fmap (M:=list) rs_img (XS X)).

  Definition prc (r : rcslice) (l : label) : hpair := HP (HRc r) (ARc l) [].
  Definition pwk (d : option nat) (g : nat) (ol : option label) : hpair := HP (HWeak d g) (AWeak ol) [].
  Definition pmut (m : mutslice) (r : rng) : hpair := HP (HMut m) (AMut r) [(r, ms_alloc m)].
  Definition pit (m : mutiter) (r : rng) : hpair := HP (HIter m) (AIter r) [(r, mi_alloc m)].

  (** Items do not move; some may have been dropped. *)
  Definition sub (s s' : dg) : Prop := dw_mem (fst s') ⊆ dw_mem (fst s) /\ bshape (fst s') = bshape (fst s).
  Definition same (s s' : dg) : Prop := dw_mem (fst s') = dw_mem (fst s) /\ bshape (fst s') = bshape (fst s).
  Lemma same_sub s s' : same s s' -> sub s s'.
  Proof. intros [H1 H2]. split; [by rewrite H1|done]. Qed.
  Lemma sub_trans s1 s2 s3 : sub s1 s2 -> sub s2 s3 -> sub s1 s3.
  Proof. intros [? H1] [? H2]. split; [by etrans|by rewrite H2]. Qed.
  Lemma same_refl s : same s s.
  Proof. done. Qed.

  Lemma in_XS (r : rcslice) l X : prc r l ∈ X -> r ∈ XS X.
  Proof. intros H. apply elem_of_list_bind. exists (prc r l). split; [by left|done]. Qed.
  Lemma hrel_prc B T L LI LG r l : hrel sz B T L LI LG (prc r l) <-> srel L LI r l.
  Proof. unfold hrel. cbn. intuition. Qed.

  (** What a held slice refers to. *)
  Lemma held s T X L LI LG r l :
    dinv (fst s) T L (XD X) (XO X) ->
    ginv (snd s) (length T) LI LG (XI X) (XW X) ->
    r ∈ XS X -> srel L LI r l ->
    exists sd nd ni, live (dw_datas (fst s)) (rs_data r) sd nd /\ nrng nd = lrng T l /\
      points sz (bbase (bshape (fst s)) (rg_blk (lrng T l))) (rg_blk (lrng T l)) (rg_lo (lrng T l)) (d_ptr nd) /\
      d_len nd = rg_len (lrng T l) /\
      live (gw_imgs (snd s)) (rs_img r) (rc_count (gw_imgs (snd s)) (rs_img r)) ni /\
      LG !! i_gmg ni = Some (Some l).
  Proof.
    intros D G Hr [Hd Hi].
    destruct (dinv_ref_live sz _ _ _ _ _ D (rs_data r)) as (sd & nd & l' & Hv & Hl'); [by apply elem_of_list_fmap_1|].
    rewrite Hd in Hl'. injection Hl' as <-.
    destruct (ginv_iref _ _ _ _ _ _ G (rs_img r)) as (ni & l' & Hn & Hl'); [by apply elem_of_list_fmap_1|].
    rewrite Hi in Hl'. injection Hl' as <-.
    destruct (di_geo _ _ _ _ _ _ D _ _ _ _ Hv Hd) as [Hg Hp].
    exists sd, nd, ni. split_and!; try done.
    - by rewrite <- Hg.
    - by rewrite <- Hg.
    - by apply rc_get_count.
    - by eapply (gs_igmg _ _ _ _ _ (gi_str _ _ _ _ _ _ G)).
  Qed.
  Lemma cinv_held s T X r l : cinv s T X -> prc r l ∈ X ->
    exists L LI LG, dinv (fst s) T L (XD X) (XO X) /\
      ginv (snd s) (length T) LI LG (XI X) (XW X) /\
      Forall (hrel sz (bshape (fst s)) T L LI LG) X /\ r ∈ XS X /\ srel L LI r l.
  Proof.
    intros (L & LI & LG & D & G & F) Hin. exists L, LI, LG. split_and!; try done; [by eapply in_XS|..].
    all: rewrite Forall_forall in F; specialize (F _ Hin); apply hrel_prc in F; apply F.
  Qed.

  Lemma rcs_clone_ok s T X r l : cinv s T X -> prc r l ∈ X ->
    exists s', rcs_clone s r = Ok (s', r) /\ cinv s' T (prc r l :: X) /\ same s s'.
  Proof.
    intros C Hin. destruct (cinv_held _ _ _ _ _ C Hin) as (L & LI & LG & D & G & F & Hr & Hs).
    destruct (held _ _ _ _ _ _ _ _ D G Hr Hs) as (sd & nd & ni & Hv & _ & _ & _ & Hi & _).
    eexists. split.
    { unfold rcs_clone. rewrite (rc_inc_live _ _ _ _ Hv). cbn. rewrite (rc_inc_live _ _ _ _ Hi). cbn. reflexivity. }
    split; [|done]. exists L, LI, LG. split_and!.
    - by apply (dinv_inc sz).
    - by apply ginv_iinc.
    - constructor; [by apply hrel_prc|done].
  Qed.

  Lemma rcs_drop_ok s T X r l : cinv s T (prc r l :: X) ->
    exists s', rcs_drop sz s r = Ok s' /\ cinv s' T X /\ sub s s'.
  Proof.
    intros (L & LI & LG & D & G & F).
    destruct (data_drop_ok sz (fst s) T L (rs_data r) (XD X) (XO X) D) as (d & Ed & D' & Hs1 & Hs2 & _).
    destruct (img_drop_ok (length T) (snd s) LI LG (XI X) (XW X) (rs_img r) G) as (g & Eg & G').
    exists (d, g). split; [unfold rcs_drop; rewrite Ed; cbn; by rewrite Eg|].
    split; [|done]. exists L, LI, LG. split_and!; [done..|]. cbn [fst]. rewrite Hs2.
    by apply Forall_inv_tail in F.
  Qed.

  Lemma rcs_clone_half_ok s T X r l (side : bool) : cinv s T X -> prc r l ∈ X ->
    exists (s' : dg) r', (if side then rcs_clone_right sz s r else rcs_clone_left s r) = Ok (s', r') /\
      cinv s' T (prc r' (lhalf T l side) :: X) /\ same s s'.
  Proof.
    intros C Hin. destruct (cinv_held _ _ _ _ _ C Hin) as (L & LI & LG & D & G & F & Hr & Hs).
    destruct (held _ _ _ _ _ _ _ _ D G Hr Hs) as (sd & nd & ni & Hv & _ & _ & Hlen & Hi & _).
    assert ((if side then rcs_clone_right sz s r else rcs_clone_left s r) =
      if rg_len (lrng T l) <=? (if side then 1 else 0) then rcs_clone s r else
      '(d, c) ← (if side then data_clone_right sz (fst s) (rs_data r) else data_clone_left (fst s) (rs_data r));
      '(g, i) ← img_clone_child (snd s) (rs_img r) side;
      Ok ((d, g), RcS c i)) as ->.
    { destruct side; unfold rcs_clone_right, rcs_clone_left; rewrite (rc_val_live _ _ _ _ Hv); cbn [mbind res_bind]; rewrite Hlen; [done|].
      destruct (N.eqb_spec (rg_len (lrng T l)) 0) as [->|?]; [done|]. destruct (N.leb_spec (rg_len (lrng T l)) 0); [lia|done]. }
    unfold lhalf. destruct (rg_len (lrng T l) <=? (if side then 1 else 0)).
    { destruct (rcs_clone_ok _ _ _ _ _ C Hin) as (s' & E & C' & Hsame). eauto. }
    destruct Hs as [Hd Hi'].
    destruct (data_clone_half_ok sz _ _ _ _ _ _ _ _ _ side D Hv Hd) as (d & c & X1 & Ed & Hc & D' & Hm & HB & _).
    destruct (img_clone_child_ok (length T) _ _ _ _ _ _ _ _ side G (rc_get_live _ _ _ _ Hi) Hi') as (g & i & X2 & X3 & Eg & Hci & G').
    exists (d, g), (RcS c i). rewrite Ed. cbn. rewrite Eg. cbn. split; [done|]. split; [|done].
    exists (L ++ X1), (LI ++ X2), (LG ++ X3). split_and!; [done..|]. constructor; [by apply hrel_prc|].
    cbn [fst]. rewrite HB. eapply Forall_impl; [exact F|]. intros p. apply hrel_ext.
  Qed.

  Lemma rcs_split_off_ok s T X r l (side : bool) : cinv s T (prc r l :: X) ->
    exists s' (r1 r2 : rcslice), (if side then rcs_split_off_right sz s r else rcs_split_off_left sz s r) = Ok (s', (r1, r2)) /\
      cinv s' T (prc r2 (lhalf T l side) :: prc r1 (lhalf T l (negb side)) :: X) /\ sub s s'.
  Proof.
    intros C.
    destruct (rcs_clone_half_ok _ _ _ r l false C) as (s1 & ra & E1 & C1 & S1); [by left|].
    destruct (rcs_clone_half_ok _ _ _ r l true C1) as (s2 & rb & E2 & C2 & S2); [right; by left|].
    cbn in E1, E2.
    destruct (rcs_drop_ok s2 T (prc rb (lhalf T l true) :: prc ra (lhalf T l false) :: X) r l) as (s3 & E3 & C3 & S3).
    { eapply cinv_perm; [|exact C2]. symmetry. apply (Permutation_middle [_; _]). }
    assert (sub s s3) as HS by (eauto using sub_trans, same_sub).
    destruct side.
    - exists s3, ra, rb. unfold rcs_split_off_right. rewrite E1. cbn. rewrite E2. cbn. rewrite E3. cbn. done.
    - exists s3, rb, ra. unfold rcs_split_off_left. rewrite E1. cbn. rewrite E2. cbn. rewrite E3. cbn. split; [done|]. split; [|done].
      eapply cinv_perm; [apply Permutation_swap|done].
  Qed.

  (** *** Weak slices *)
  Lemma rcs_downgrade_ok s T X r l : cinv s T X -> prc r l ∈ X ->
    exists s' d g, rcs_downgrade s r = Ok (s', (d, g)) /\ cinv s' T (pwk d g (Some l) :: X) /\ same s s'.
  Proof.
    intros C Hin. destruct (cinv_held _ _ _ _ _ C Hin) as (L & LI & LG & D & G & F & Hr & Hs).
    destruct (held _ _ _ _ _ _ _ _ D G Hr Hs) as (sd & nd & ni & Hv & _ & _ & _ & Hi & Hg).
    destruct (ginv_igmg_live _ _ _ _ _ _ G _ _ (rc_get_live _ _ _ _ Hi)) as (gn & Hgn%rc_get_count).
    eexists _, _, _. split.
    { unfold rcs_downgrade. rewrite (rc_val_live _ _ _ _ Hv), (rc_val_live _ _ _ _ Hi). cbn.
      rewrite (rc_inc_live _ _ _ _ Hgn). cbn. reflexivity. }
    split; [|done]. exists L, LI, LG. split_and!.
    - done.
    - by apply ginv_ginc.
    - constructor; [|done]. unfold hrel. cbn. split_and!; [done..|]. apply Hs.
  Qed.
  Lemma weak_new_ok s T X : cinv s T X ->
    exists s' g, weak_new s = (s', (None, g)) /\ cinv s' T (pwk None g None :: X) /\ same s s'.
  Proof.
    intros (L & LI & LG & D & G & F). eexists _, _. split; [unfold weak_new; cbn; reflexivity|]. split; [|done].
    exists L, LI, (LG ++ [None]). split_and!.
    - done.
    - by apply ginv_gnone.
    - constructor.
      + unfold hrel. cbn. split_and!; [done| |done]. rewrite <- (gi_leng _ _ _ _ _ _ G). by apply list_lookup_middle.
      + eapply Forall_impl; [exact F|]. intros p Hp. apply (hrel_ext sz _ _ _ [] _ [] _ [None]) in Hp. by rewrite !app_nil_r in Hp.
  Qed.
  Lemma in_XW d g ol X : pwk d g ol ∈ X -> g ∈ XW X.
  Proof. intros H. apply elem_of_list_bind. exists (pwk d g ol). split; [by left|done]. Qed.
  Lemma weak_clone_ok s T X d g ol : cinv s T X -> pwk d g ol ∈ X ->
    exists s', weak_clone s g = Ok s' /\ cinv s' T (pwk d g ol :: X) /\ same s s'.
  Proof.
    intros (L & LI & LG & D & G & F) Hin.
    destruct (ginv_gref _ _ _ _ _ _ G g) as (n & _ & Hn%rc_get_count & _); [by eapply in_XW|].
    eexists. split; [unfold weak_clone; rewrite (rc_inc_live _ _ _ _ Hn); cbn; reflexivity|]. split; [|done].
    exists L, LI, LG. split_and!.
    - done.
    - by apply ginv_ginc.
    - constructor; [|done]. rewrite Forall_forall in F. by apply F.
  Qed.
  Lemma weak_drop_ok s T X d g ol : cinv s T (pwk d g ol :: X) ->
    exists s', weak_drop s g = Ok s' /\ cinv s' T X /\ same s s'.
  Proof.
    intros (L & LI & LG & D & G & F).
    destruct (gmg_drop_ok (length T) (snd s) LI LG (XI X) (XW X) g G) as (gs & Eg & G').
    eexists. split; [unfold weak_drop; rewrite Eg; cbn; reflexivity|]. split; [|done].
    exists L, LI, LG. split_and!; [done..|]. by apply Forall_inv_tail in F.
  Qed.
  Lemma all_strong_eq hs X : live_handles hs = hp_a <$> X -> all_strong hs = X ≫= fun p => strong_labels (hp_a p).
  Proof. intros H. unfold all_strong. rewrite H. clear. induction X as [|p X IH]; [done|]. cbn. by rewrite IH. Qed.
  Lemma all_weak_eq hs X : live_handles hs = hp_a <$> X -> all_weak hs = X ≫= fun p => weak_labels (hp_a p).
  Proof. intros H. unfold all_weak. rewrite H. clear. induction X as [|p X IH]; [done|]. cbn. by rewrite IH. Qed.
  Lemma weak_upgrade_ok s T X hs d g ol : cinv s T X -> pwk d g ol ∈ X -> live_handles hs = hp_a <$> X ->
    match ol with Some l => alive hs l | None => false end = true /\
      (exists s' r l, ol = Some l /\ weak_upgrade s d g = Ok (s', Some r) /\ cinv s' T (prc r l :: X) /\ same s s') \/
    match ol with Some l => alive hs l | None => false end = false /\ weak_upgrade s d g = Ok (s, None).
  Proof.
    intros (L & LI & LG & D & G & F) Hin Hhs. pose proof F as F'. rewrite Forall_forall in F'.
    specialize (F' _ Hin). unfold hrel in F'. cbn in F'. destruct F' as (_ & Hg & Hd).
    destruct d as [d|], ol as [l|]; try done; cycle 1.
    { right. split; [done|]. unfold weak_upgrade. done. }
    pose proof (data_alive sz s T X L LI LG D F d l Hd) as Hal.
    rewrite <- (alive_iff hs l _ (all_strong_eq _ _ Hhs)) in Hal.
    destruct (rc_upgrade_cases (dw_datas (fst s)) (Some d)) as [(i & c & n & [= <-] & Hv & E)|[Hnone E]].
    - left. split; [apply Hal; eauto|].
      destruct (ginv_gref _ _ _ _ _ _ G g) as (gn & _ & Hgn & _); [by eapply in_XW|].
      destruct (gmg_ensure_ok (length T) _ _ _ _ _ _ _ _ G Hgn Hg) as (g' & i & XI & XG & Eg & Hi & G').
      eexists _, _, l. split; [done|]. split; [unfold weak_upgrade; rewrite E, Eg; cbn; reflexivity|]. split; [|done].
      exists L, (LI ++ XI), (LG ++ XG). split_and!.
      + by apply (dinv_inc sz).
      + done.
      + constructor; [by apply hrel_prc|]. eapply Forall_impl; [exact F|]. intros p Hp.
        apply (hrel_ext sz _ _ _ [] _ XI _ XG) in Hp. by rewrite app_nil_r in Hp.
    - right. split; [|unfold weak_upgrade; by rewrite E]. apply not_true_iff_false. rewrite <- Hal.
      intros (c & n & Hv). specialize (Hnone d eq_refl). by rewrite (rc_get_live _ _ _ _ Hv) in Hnone.
  Qed.

  (** *** Access and conversion *)
  Lemma strong_in r l X : prc r l ∈ X -> l ∈ (X ≫= fun p => strong_labels (hp_a p)).
  Proof. intros H. apply elem_of_list_bind. exists (prc r l). split; [by left|done]. Qed.
  Lemma rcs_slice_ok s T X r l : cinv s T X -> prc r l ∈ X ->
    exists p, rcs_slice s r = Ok (p, rg_len (lrng T l)) /\
      points sz (bbase (bshape (fst s)) (rg_blk (lrng T l))) (rg_blk (lrng T l)) (rg_lo (lrng T l)) p.
  Proof.
    intros C Hin. destruct (cinv_held _ _ _ _ _ C Hin) as (L & LI & LG & D & G & F & Hr & Hs).
    destruct (held _ _ _ _ _ _ _ _ D G Hr Hs) as (sd & nd & ni & Hv & _ & Hp & Hlen & Hi & Hg).
    exists (d_ptr nd). split; [|done]. unfold rcs_slice. rewrite (rc_val_live _ _ _ _ Hv). cbn. by rewrite Hlen.
  Qed.
  Lemma rcs_get_mut_ok s T X hs r l : cinv s T X -> prc r l ∈ X -> live_handles hs = hp_a <$> X ->
    exists p, points sz (bbase (bshape (fst s)) (rg_blk (lrng T l))) (rg_blk (lrng T l)) (rg_lo (lrng T l)) p /\
    rcs_get_mut s r = Ok (if sole_owner hs l && no_weak_below hs l then Some (p, rg_len (lrng T l)) else None).
  Proof.
    intros C Hin Hhs. destruct (cinv_held _ _ _ _ _ C Hin) as (L & LI & LG & D & G & F & Hr & Hs).
    destruct (held _ _ _ _ _ _ _ _ D G Hr Hs) as (sd & nd & ni & Hv & _ & Hp & Hlen & Hi & Hg).
    exists (d_ptr nd). split; [done|]. unfold rcs_get_mut. rewrite (rc_val_live _ _ _ _ Hv), (rc_val_live _ _ _ _ Hi). cbn.
    pose proof (data_count_one sz s T X L LI LG D F r l Hr Hs) as H1.
    pose proof (gmg_count_one sz s T X L LI LG G F r l ni Hr Hs (rc_get_live _ _ _ _ Hi)) as H2.
    pose proof (sole_owner_iff hs l _ (all_strong_eq _ _ Hhs) (strong_in _ _ _ Hin)) as H3.
    pose proof (no_weak_below_iff hs l _ (all_weak_eq _ _ Hhs)) as H4.
    enough (((rc_count (dw_datas s.1) (rs_data r) =? 1)%nat && (rc_count (gw_gmgs s.2) (i_gmg ni) =? 1)%nat)
      = sole_owner hs l && no_weak_below hs l) as ->.
    { rewrite Hlen. by destruct (_ && _). }
    apply eq_true_iff_eq. rewrite !andb_true_iff, !Nat.eqb_eq, H1, H2, H3, H4. tauto.
  Qed.
End relops.
