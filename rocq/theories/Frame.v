(** Which facts about a variable survive calls on other variables. *)
From Verif Require Import Base BaseLemmas Api SliceItemsModel BinPartsModel DataModel RcModel Spec
  DataInv RelInv Refine Observe Facts SpecTheory.
Local Open Scope N_scope.

Lemma lrng_prefix (T T2 : trees) l : (l_tree l < length T)%nat -> lrng (T ++ T2) l = lrng T l.
Proof. intros H. unfold lrng. by rewrite lookup_app_l. Qed.

Section labels.
  Context {V : Type}.
  Implicit Types (a : astate V) (l : label) (h : nat).

  Lemma strong_in a l : l ∈ all_strong (as_h a) <-> exists h x, a_get a h = Some x /\ l ∈ strong_labels x.
  Proof.
    unfold all_strong. rewrite elem_of_list_bind. split.
    - intros (x & Hl & Hx). apply live_handle in Hx as [h Hh]. eauto.
    - intros (h & x & Hx & Hl). exists x. split; [done|]. apply live_handle. eauto.
  Qed.
  Lemma weak_in a l : l ∈ all_weak (as_h a) <-> exists h x, a_get a h = Some x /\ l ∈ weak_labels x.
  Proof.
    unfold all_weak. rewrite elem_of_list_bind. split.
    - intros (x & Hl & Hx). apply live_handle in Hx as [h Hh]. eauto.
    - intros (h & x & Hx & Hl). exists x. split; [done|]. apply live_handle. eauto.
  Qed.
  Lemma alive_spec a l : alive (as_h a) l = true <->
    exists h x l', a_get a h = Some x /\ l' ∈ strong_labels x /\ anc l' l.
  Proof.
    unfold alive. rewrite bool_decide_eq_true, Exists_exists. split.
    - intros (l' & Hl & Ha). apply strong_in in Hl as (h & x & ? & ?). eauto 10.
    - intros (h & x & l' & Hx & Hl & Ha). exists l'. split; [|done]. apply strong_in. eauto.
  Qed.
  Lemma no_weak_spec a l : no_weak_below (as_h a) l = true <->
    forall h x l', a_get a h = Some x -> l' ∈ weak_labels x -> ~ anc l l'.
  Proof.
    unfold no_weak_below. rewrite bool_decide_eq_true, Forall_forall. split.
    - intros H h x l' Hx Hl. apply H. apply weak_in. eauto.
    - intros H l' Hl. apply weak_in in Hl as (h & x & Hx & Hl). eauto.
  Qed.
  Lemma all_strong_split a h x : a_get a h = Some x ->
    exists pre post, as_h a = pre ++ Some x :: post /\ length pre = h /\
      all_strong (as_h a) = all_strong pre ++ strong_labels x ++ all_strong post.
  Proof.
    unfold a_get. destruct (as_h a !! h) as [[y|]|] eqn:E; try done. intros [= ->].
    exists (take h (as_h a)), (drop (S h) (as_h a)). pose proof (lookup_lt_Some _ _ _ E). split_and!.
    - symmetry. by apply take_drop_middle.
    - rewrite take_length. lia.
    - rewrite <- (take_drop_middle _ _ _ E) at 1. unfold all_strong, live_handles.
      rewrite omap_app, bind_app. by cbn.
  Qed.
  Lemma sole_owner_spec a h l : a_get a h = Some (ARc l) -> sole_owner (as_h a) l = true <->
    forall h' x' l', h' <> h -> a_get a h' = Some x' -> l' ∈ strong_labels x' -> ~ anc l l' /\ ~ anc l' l.
  Proof.
    intros Hx. destruct (all_strong_split _ _ _ Hx) as (pre & post & E & Hlen & Es). unfold sole_owner.
    rewrite bool_decide_eq_true, Es, !filter_app, !app_length. cbn [strong_labels].
    rewrite filter_cons_True by (left; apply anc_refl). cbn [filter list_filter length].
    set (Q := fun l' => anc l l' \/ anc l' l). split.
    - intros Hz h' x' l' Hne Hx' Hl'.
      assert (filter Q (all_strong pre) = [] /\ filter Q (all_strong post) = []) as [H1 H2].
      { split; apply length_zero_iff_nil; revert Hz; unfold Q; cbn; lia. }
      assert (l' ∈ all_strong pre \/ l' ∈ all_strong post) as Hin.
      { unfold a_get in Hx'. destruct (as_h a !! h') as [[y|]|] eqn:E'; try done. injection Hx' as ->. rewrite E in E'.
        apply lookup_app_Some in E' as [E'|[Hge E']].
        - left. apply elem_of_list_bind. exists x'. split; [done|]. apply elem_of_list_omap. exists (Some x').
          split; [by eapply elem_of_list_lookup_2|done].
        - right. destruct (h' - length pre)%nat as [|j] eqn:Ej; [lia|]. cbn in E'.
          apply elem_of_list_bind. exists x'. split; [done|]. apply elem_of_list_omap. exists (Some x').
          split; [by eapply elem_of_list_lookup_2|done]. }
      assert (~ Q l') as HQ.
      { intros HQ. destruct Hin as [Hin|Hin].
        - assert (l' ∈ filter Q (all_strong pre)) as Hf by (by apply elem_of_list_filter). rewrite H1 in Hf. by apply elem_of_nil in Hf.
        - assert (l' ∈ filter Q (all_strong post)) as Hf by (by apply elem_of_list_filter). rewrite H2 in Hf. by apply elem_of_nil in Hf. }
      unfold Q in HQ. tauto.
    - intros H.
      assert (forall hs, (forall l', l' ∈ all_strong hs -> ~ Q l') -> filter Q (all_strong hs) = []) as Hnil.
      { intros hs Hhs. destruct (filter Q (all_strong hs)) as [|y ys] eqn:Ef; [done|].
        assert (y ∈ filter Q (all_strong hs)) as Hy by (rewrite Ef; left).
        apply elem_of_list_filter in Hy as [? ?]. exfalso. by eapply Hhs. }
      rewrite !Hnil; [done| |].
      + intros l' Hl' HQ. apply elem_of_list_bind in Hl' as (x' & Hl' & Hx'). apply elem_of_list_omap in Hx' as ([y|] & Hy & [= ->]).
        apply elem_of_list_lookup in Hy as [i Hi]. destruct (H (length pre + S i)%nat x' l') as [? ?]; try done; [lia| |].
        { unfold a_get. rewrite E. rewrite lookup_app_r by lia. replace (length pre + S i - length pre)%nat with (S i) by lia. rewrite <- lookup_tail. cbn [tail]. by rewrite Hi. }
        destruct HQ; done.
      + intros l' Hl' HQ. apply elem_of_list_bind in Hl' as (x' & Hl' & Hx'). apply elem_of_list_omap in Hx' as ([y|] & Hy & [= ->]).
        apply elem_of_list_lookup in Hy as [i Hi]. pose proof (lookup_lt_Some _ _ _ Hi). destruct (H i x' l') as [? ?]; try done; [lia| |].
        { unfold a_get. rewrite E. rewrite lookup_app_l by lia. by rewrite Hi. }
        destruct HQ; done.
  Qed.
End labels.

Section stays.
  Context {V : Type} (sz : N) (vclone : V -> V) (a : astate V).
  Notation T := (as_trees a).
  Implicit Types (o : op V) (l : label) (h : nat).

  (** A slice that may be mutated stays so while only other variables are used. *)
  Lemma stays_core o h l : target o <> Some h -> a_get a h = Some (ARc l) -> (l_tree l < length T)%nat ->
    a_get (fst (spec_step sz vclone a o)) h = Some (ARc l) ->
    sole_owner (as_h a) l && no_weak_below (as_h a) l = true ->
    let a' := fst (spec_step sz vclone a o) in sole_owner (as_h a') l && no_weak_below (as_h a') l = true.
  Proof.
    intros Ht Hx Hlt Hx' Hb a'. apply andb_true_iff in Hb as [Hs Hn]. fold a' in Hx'.
    destruct (spec_shape sz vclone a o) as [_ _ _ _ SO _]. fold a' in SO.
    pose proof (proj1 (sole_owner_spec _ _ _ Hx) Hs) as Hs'. pose proof (proj1 (no_weak_spec _ _) Hn) as Hn'.
    assert (forall h' x' l', a_target o = Some h' -> a_get a h' = Some x' -> l' ∈ strong_labels x' -> ~ anc l l' /\ ~ anc l' l) as Htgt.
    { intros h' x' l' Ht'. eapply Hs'. intros ->. done. }
    apply andb_true_iff. split.
    - apply (sole_owner_spec _ h); [done|]. intros h' x' l' Hne Hx1 Hl'.
      destruct (SO _ _ Hx1) as [[_ Hx1']|[Hsf _]]; [by eapply Hs'|].
      destruct (Hsf _ Hl') as [(h0 & x0 & l0 & Ht0 & Hx0 & Hl0 & Ha0)|[(h0 & Ht0 & Hx0 & Hal)|Hnew]].
      + destruct (Htgt _ _ _ Ht0 Hx0 Hl0) as [H1 H2]. split.
        * intros Hll. destruct (anc_comparable _ _ _ Hll Ha0); done.
        * intros Hll. apply H2. by eapply anc_trans.
      + assert (~ anc l l') as Hnl. { eapply Hn'; [exact Hx0|]. left. }
        split; [done|]. intros Hll. apply alive_spec in Hal as (h1 & x1 & l1 & Hx1' & Hl1 & Ha1).
        destruct (decide (h1 = h)) as [->|Hne1].
        * rewrite Hx in Hx1'. injection Hx1' as <-. apply elem_of_list_singleton in Hl1 as ->. done.
        * destruct (Hs' _ _ _ Hne1 Hx1' Hl1) as [_ H2]. apply H2. by eapply anc_trans.
      + split; intros [Htr _]; lia.
    - apply no_weak_spec. intros h' x' l' Hx1 Hl'. destruct (SO _ _ Hx1) as [[_ Hx1']|[_ Hwf]]; [by eapply Hn'|].
      destruct (Hwf _ Hl') as (h0 & x0 & Ht0 & Hx0 & [Hl0|Hl0]); [by eapply Hn'|]. by eapply Htgt.
  Qed.
End stays.

Section frame.
  Context {V : Type} (sz : N) (vclone : V -> V) (w : world V) (a : astate V).
  Context (R : rel sz w a).
  Notation T := (as_trees a).
  Implicit Types (o : op V) (l : label) (h : nat).

  Lemma rel_base_len : length (as_base a) = length (dw_blocks (w_d w)).
  Proof. destruct R as (P & _ & _ & _ & _ & ->). unfold bshape; by rewrite !fmap_length. Qed.
  Lemma cell_blk h x c : a_get a h = Some x -> c ∈ hcells T x -> (fst c < length (as_base a))%nat.
  Proof.
    intros Hx Hc. destruct (fact_covered _ _ _ R _ _ _ Hx Hc) as [v Hv].
    destruct (fact_block _ _ _ R c) as (blk & E & _).
    { destruct R as (P & _ & _ & _ & <- & _). eauto. }
    rewrite rel_base_len. by eapply lookup_lt_Some.
  Qed.
  Lemma mem_blk c v : as_mem a !! c = Some v -> (fst c < length (as_base a))%nat.
  Proof.
    intros Hv. destruct (proj1 (fact_alive _ _ _ R c)) as (h & x & Hx & Hc); [eauto|]. by eapply cell_blk.
  Qed.
  Lemma hcells_prefix T2 h x : a_get a h = Some x -> hcells (T ++ T2) x = hcells T x.
  Proof.
    intros Hx. pose proof (fun l => fact_tree _ _ _ R h x l Hx) as Hl. destruct x as [l|ol|q|r|r|rs]; try done; cbn.
    - rewrite lrng_prefix; [done|]. apply Hl. left. left.
    - assert (forall l, l ∈ q.*1 -> lrng (T ++ T2) l = lrng T l) as Hq.
      { intros l Hin. apply lrng_prefix. apply Hl. by left. }
      clear - Hq. induction q as [|[l j] q IH]; [done|]. cbn. rewrite Hq by left. f_equal. apply IH. intros. apply Hq. by right.
  Qed.

  (** A call that does not change the handle changes its items only by writing through it. *)
  Lemma keep o h x : let a' := fst (spec_step sz vclone a o) in target o <> Some h \/ ~ writes o ->
    a_get a h = Some x -> a_get a' h = Some x ->
    hcells (as_trees a') x = hcells T x /\
    forall c, c ∈ hcells T x -> as_mem a' !! c = as_mem a !! c.
  Proof.
    intros a' Ht Hx Hx'. destruct (spec_shape sz vclone a o) as [(T2 & ST & _) SB SL SK SO SM]. fold a' in ST, SB, SL, SK, SO, SM.
    assert (hcells (as_trees a') x = hcells T x) as Hc by (rewrite ST; by eapply hcells_prefix).
    split; [done|]. intros c Hin. destruct SM as [[-> _]|[(Hw & _)|(m0 & Hf & ->)]]; [done| |].
    - destruct Hw as (h0 & x0 & c0 & v & old & Ht0 & Hx0 & Hc0 & Hm0 & -> & Hwr & Hu). destruct Ht as [Ht|]; [|done].
      rewrite lookup_insert_ne; [done|]. intros ->. assert (h0 <> h) as Hne by (intros ->; done).
      destruct Hu as [Hu|(l & -> & Hs & Hn)].
      + by eapply (fact_exclusive _ _ _ R h0 h x0 x).
      + pose proof (proj1 (sole_owner_spec _ _ _ Hx0) Hs) as Hso.
        destruct x as [l1|ol|q|r|r|rs]; cbn in Hin.
        * destruct (Hso h (ARc l1) l1) as [H1 H2]; [congruence|done|left|].
          destruct (fact_comparable _ _ _ R h0 h (ARc l) (ARc l1) l l1 c Hx0 Hx); try done; left.
        * by apply elem_of_nil in Hin.
        * apply elem_of_list_bind in Hin as ([l1 j] & Hin & Hq). cbn in Hin.
          assert (l1 ∈ strong_labels (AParts q)) as Hl1. { cbn. apply elem_of_list_fmap. by exists (l1, j). }
          destruct (Hso h (AParts q) l1) as [H1 H2]; [congruence|done|done|].
          destruct (fact_comparable _ _ _ R h0 h (ARc l) (AParts q) l l1 c Hx0 Hx); try done; left.
        * by eapply (fact_exclusive _ _ _ R h h0 (AMut r) (ARc l)).
        * by eapply (fact_exclusive _ _ _ R h h0 (AIter r) (ARc l)).
        * by eapply (fact_exclusive _ _ _ R h h0 (AMParts rs) (ARc l)).
    - unfold collect. rewrite map_filter_lookup. rewrite lookup_union_r.
      2: { destruct (m0 !! c) as [v|] eqn:E; [|done]. apply Hf in E. pose proof (cell_blk _ _ _ Hx Hin). lia. }
      destruct (as_mem a !! c) as [v|] eqn:E; cbn; [|done]. rewrite option_guard_True; [done|]. cbn.
      unfold all_cells. apply elem_of_list_bind. exists x. split; [by rewrite Hc|]. apply live_handle. eauto.
  Qed.

  (** The frame: a call on another variable changes neither the handle nor its items. *)
  Lemma frame o h x : target o <> Some h -> a_get a h = Some x ->
    let a' := fst (spec_step sz vclone a o) in
    a_get a' h = Some x /\ hcells (as_trees a') x = hcells T x /\
    forall c, c ∈ hcells T x -> as_mem a' !! c = as_mem a !! c.
  Proof.
    intros Ht Hx a'. assert (a_get a' h = Some x) as Hx'.
    { unfold a_get. rewrite (sh_keep _ _ _ (spec_shape sz vclone a o)); [exact Hx|done|by eapply a_get_lt]. }
    split; [done|]. apply (keep o h x); auto.
  Qed.

  (** Labels. *)
  Lemma dead_stays o l : (l_tree l < length T)%nat -> alive (as_h a) l = false ->
    alive (as_h (fst (spec_step sz vclone a o))) l = false.
  Proof.
    intros Hlt Hd. destruct (spec_shape sz vclone a o) as [_ _ _ _ SO _].
    destruct (alive (as_h (fst _)) l) eqn:E; [exfalso|done].
    apply alive_spec in E as (h & x & l' & Hx & Hl & Ha).
    apply not_true_iff_false in Hd. apply Hd. clear Hd.
    destruct (SO _ _ Hx) as [[_ Hx']|[Hs _]].
    - apply alive_spec. eauto 10.
    - destruct (Hs _ Hl) as [(h0 & x0 & l0 & _ & Hx0 & Hl0 & Ha0)|[(h0 & _ & _ & Hal)|Hnew]].
      + apply alive_spec. exists h0, x0, l0. split_and!; try done. by eapply anc_trans.
      + apply alive_spec in Hal as (h1 & x1 & l1 & ? & ? & ?). apply alive_spec. exists h1, x1, l1. split_and!; try done. by eapply anc_trans.
      + destruct Ha as [Ht _]. lia.
  Qed.
  Lemma get_mut_stays o h l : target o <> Some h -> a_get a h = Some (ARc l) ->
    sole_owner (as_h a) l && no_weak_below (as_h a) l = true ->
    let a' := fst (spec_step sz vclone a o) in sole_owner (as_h a') l && no_weak_below (as_h a') l = true.
  Proof.
    intros Ht Hx Hb. destruct (frame o h _ Ht Hx) as (Hx' & _). eapply stays_core; try done. exact (fact_tree _ _ _ R _ _ l Hx ltac:(left; left)).
  Qed.

  (** Items. *)
  Lemma mem_step o c v : let a' := fst (spec_step sz vclone a o) in as_mem a' !! c = Some v ->
    as_mem a !! c = Some v \/ fst c = length (as_base a) \/ wrote a o (<[c := v]> (as_mem a)).
  Proof.
    intros a' Hv. destruct (spec_shape sz vclone a o) as [_ _ _ _ _ SM]. fold a' in SM.
    destruct SM as [[<- _]|[(Hw & _)|(m0 & Hf & Hm)]]; [by left| |].
    - destruct Hw as (h0 & x0 & c0 & v0 & old & Ht0 & Hx0 & Hc0 & Hm0 & Hm & Hwr & Hu).
      destruct (decide (c = c0)) as [->|Hne].
      + rewrite Hm, lookup_insert in Hv. injection Hv as <-. right. right. exists h0, x0, c0, v0, old. done.
      + left. rewrite Hm, lookup_insert_ne in Hv by congruence. done.
    - rewrite Hm in Hv. apply map_filter_lookup_Some in Hv as [Hv _]. apply lookup_union_Some_raw in Hv as [Hv|[_ Hv]]; [|by left].
      right. left. by eapply Hf.
  Qed.
End frame.
