(** The trait impls (C52): the functions of [core] on slices, and what the two
    crates show of a variable's items. *)
From stdpp Require Import pretty.
From Verif Require Import Base BaseLemmas Api SliceItemsModel BinPartsModel DataModel RcModel Spec
  BinPartsProof SliceItemsProof DataInv DataSteps GuardInv RelInv Refine Observe Facts SpecTheory Frame Views RcTheory IterTheory ShareTheory WriteTheory
  ArcModel ArcInv ArcRelInv ArcRelOps ArcSpec ArcRefine ArcObserve ArcFacts ArcTheory TraitModel TraitObserve.
Local Open Scope nat_scope.

(** ** Slices *)
Section pure.
  Context {V H : Type}.
  Implicit Types (l : list V) (x y : V).

  Lemma slice_eq_Forall2 eq l : forall l', slice_eq eq l l' = true <-> Forall2 (fun x y : V => eq x y = true) l l'.
  Proof.
    unfold slice_eq. induction l as [|x l IH]; intros [|y l']; cbn.
    - split; [constructor|done].
    - split; [done|by inversion 1].
    - split; [done|by inversion 1].
    - rewrite Forall2_cons. rewrite <- IH, !andb_true_iff. cbn. tauto.
  Qed.
  Lemma slice_eq_refl eq l : (forall x, eq x x = true) -> slice_eq eq l l = true.
  Proof. intros Hr. apply slice_eq_Forall2. induction l; constructor; auto. Qed.
  Lemma slice_eq_sym eq l l' : (forall x y, eq x y = eq y x) -> slice_eq eq l l' = slice_eq eq l' l.
  Proof.
    intros Hs. apply eq_true_iff_eq. rewrite !slice_eq_Forall2. split; intros HF; apply Forall2_flip in HF; (eapply Forall2_impl; [exact HF|]); intros x y; cbn; by rewrite Hs.
  Qed.
  Lemma slice_eq_trans eq l1 l2 l3 : (forall x y z, eq x y = true -> eq y z = true -> eq x z = true) ->
    slice_eq eq l1 l2 = true -> slice_eq eq l2 l3 = true -> slice_eq eq l1 l3 = true.
  Proof. intros Ht. rewrite !slice_eq_Forall2. intros H1 H2. eapply Forall2_transitive; [|exact H1|exact H2]. cbn. eauto. Qed.

  (** The equations of the orders *)
  Lemma spc_cons cmp x y l l' : slice_partial_cmp cmp (x :: l) (y :: l') =
    match cmp x y with Some Eq => slice_partial_cmp cmp l l' | r => r end.
  Proof. unfold slice_partial_cmp. cbn. by destruct (cmp x y) as [[]|]. Qed.
  Lemma sc_cons cmp x y l l' : slice_cmp cmp (x :: l) (y :: l') =
    match cmp x y with Eq => slice_cmp cmp l l' | r => r end.
  Proof. unfold slice_cmp. cbn. by destruct (cmp x y). Qed.
  Lemma lex_nil eqv lt s : ~ lex eqv lt s ([] : list V) [].
  Proof. intros (k & _ & [(_ & -> & ?)|(x & y & Hx & _)]); [cbn in *; lia|done]. Qed.
  Lemma lex_nil_cons eqv lt s y l' : lex eqv lt s [] (y :: l') <-> s = true.
  Proof.
    split.
    - intros (k & _ & [(-> & _)|(x & y' & Hx & _)]); done.
    - intros ->. exists 0. split; [constructor|]. left. cbn. split_and!; [done|done|lia].
  Qed.
  Lemma lex_cons_nil eqv lt s x l : ~ lex eqv lt s (x :: l) [].
  Proof. intros (k & _ & [(_ & _ & ?)|(x' & y & _ & Hy & _)]); [cbn in *; lia|done]. Qed.
  Lemma lex_cons eqv lt s x y l l' : lex eqv lt s (x :: l) (y :: l') <-> lt x y \/ (eqv x y /\ lex eqv lt s l l').
  Proof.
    split.
    - intros ([|k] & HF & Hk).
      + destruct Hk as [(_ & ? & _)|(x' & y' & [= <-] & [= <-] & ?)]; [done|by left].
      + cbn in HF. apply Forall2_cons in HF as [Hxy HF]. right. split; [done|]. exists k. split; [done|].
        destruct Hk as [(-> & E & Hlt)|Hk]; [left|by right]. cbn in *. split_and!; [done|lia|lia].
    - intros [Hlt|[Hxy (k & HF & Hk)]].
      + exists 0. split; [constructor|]. right. exists x, y. done.
      + exists (S k). split; [by constructor|]. destruct Hk as [(-> & E & Hlt)|Hk]; [left|by right]. cbn. split_and!; [done|lia|lia].
  Qed.
  Lemma spc_spec cmp l : forall l',
    (slice_partial_cmp cmp l l' = Some Eq <-> Forall2 (fun x y => cmp x y = Some Eq) l l') /\
    (slice_partial_cmp cmp l l' = Some Lt <-> lex (fun x y => cmp x y = Some Eq) (fun x y => cmp x y = Some Lt) true l l') /\
    (slice_partial_cmp cmp l l' = Some Gt <-> lex (fun y x => cmp x y = Some Eq) (fun y x => cmp x y = Some Gt) true l' l) /\
    (slice_partial_cmp cmp l l' = None <-> lex (fun x y => cmp x y = Some Eq) (fun x y => cmp x y = None) false l l').
  Proof.
    induction l as [|x l IH]; intros [|y l'].
    - cbn. split_and!; split; intros Hx; try done; try constructor; by apply lex_nil in Hx.
    - cbn. rewrite !lex_nil_cons. split_and!; split; intros Hx; try done; try by inversion Hx. by apply lex_cons_nil in Hx.
    - cbn. rewrite !lex_nil_cons. split_and!; split; intros Hx; try done; try (by inversion Hx); by apply lex_cons_nil in Hx.
    - rewrite spc_cons, !lex_cons, Forall2_cons. destruct (IH l') as (I1 & I2 & I3 & I4). rewrite <- I1, <- I2, <- I3, <- I4.
      destruct (cmp x y) as [[]|]; split_and!; split; intros Hx; try done; auto; try (by destruct Hx as [?|[? ?]]); try (by destruct Hx as [? ?]).
  Qed.
  Lemma sc_spc cmp l : forall l', slice_partial_cmp (fun x y => Some (cmp x y)) l l' = Some (slice_cmp cmp l l').
  Proof.
    induction l as [|x l IH]; intros [|y l']; try done. rewrite spc_cons, sc_cons. destruct (cmp x y); [apply IH|done..].
  Qed.
  Lemma spc_ext cmp cmp' l : (forall x y, cmp x y = cmp' x y) -> forall l', slice_partial_cmp cmp l l' = slice_partial_cmp cmp' l l'.
  Proof.
    intros He. induction l as [|x l IH]; intros [|y l']; try done. rewrite !spc_cons, He, IH. done.
  Qed.
  Lemma lex_ext (e e' r r' : V -> V -> Prop) s : (forall x y, e x y <-> e' x y) -> (forall x y, r x y <-> r' x y) ->
    forall l l', lex e r s l l' <-> lex e' r' s l l'.
  Proof.
    intros He Hr l l'. unfold lex. split; intros (k & HF & Hk); exists k; (split; [eapply Forall2_impl; [exact HF|]; intros x y; cbn; by rewrite He|]);
      (destruct Hk as [Hk|(x & y & ? & ? & Hk)]; [by left|right; exists x, y; split_and!; try done; by apply Hr]).
  Qed.
  Lemma sc_spec cmp l l' :
    (slice_cmp cmp l l' = Eq <-> Forall2 (fun x y => cmp x y = Eq) l l') /\
    (slice_cmp cmp l l' = Lt <-> lex (fun x y => cmp x y = Eq) (fun x y => cmp x y = Lt) true l l') /\
    (slice_cmp cmp l l' = Gt <-> lex (fun y x => cmp x y = Eq) (fun y x => cmp x y = Gt) true l' l).
  Proof.
    destruct (spc_spec (fun x y => Some (cmp x y)) l l') as (I1 & I2 & I3 & _). rewrite sc_spc in *.
    assert (forall c c' : comparison, Some c = Some c' <-> c = c') as Hs by (intros; split; congruence).
    rewrite Hs in *. split_and!.
    - rewrite I1. split; intros HF; (eapply Forall2_impl; [exact HF|]); intros x y; cbn; by rewrite Hs.
    - rewrite I2. apply lex_ext; intros; apply Hs.
    - rewrite I3. apply lex_ext; intros; apply Hs.
  Qed.
  Lemma sc_opp cmp l : (forall x y, cmp y x = CompOpp (cmp x y)) -> forall l', slice_cmp cmp l' l = CompOpp (slice_cmp cmp l l').
  Proof.
    intros Ho. induction l as [|x l IH]; intros [|y l']; try done. rewrite !sc_cons, (Ho x y), IH. by destruct (cmp x y).
  Qed.
  Lemma sc_eq_l cmp l1 : lawful_cmp cmp -> forall l2 l3, slice_cmp cmp l1 l2 = Eq -> slice_cmp cmp l1 l3 = slice_cmp cmp l2 l3.
  Proof.
    intros (Ho & Ht & He). induction l1 as [|x l1 IH]; intros [|y l2] [|z l3]; try done.
    rewrite !sc_cons. destruct (cmp x y) eqn:E; [|done..]. intros E2. rewrite (He x y z E), (IH l2 l3 E2). done.
  Qed.
  Lemma sc_trans cmp l1 : lawful_cmp cmp -> forall l2 l3, slice_cmp cmp l1 l2 = Lt -> slice_cmp cmp l2 l3 = Lt -> slice_cmp cmp l1 l3 = Lt.
  Proof.
    intros (Ho & Ht & He). induction l1 as [|x l1 IH]; intros [|y l2] [|z l3]; try done.
    rewrite !sc_cons. destruct (cmp x y) eqn:E1; [| |done].
    - intros H1. rewrite (He x y z E1). destruct (cmp y z); [|done|done]. by apply IH.
    - intros _. destruct (cmp y z) eqn:E2; [| |done].
      + intros _. assert (cmp x z = Lt) as ->; [|done].
        pose proof (He y z x E2) as H3. rewrite (Ho x y), (Ho x z), E1 in H3. cbn in H3. by destruct (cmp x z).
      + intros _. by rewrite (Ht _ _ _ E1 E2).
  Qed.

  (** Hashing *)
  Lemma slice_hash_eq (eq : V -> V -> bool) (hash : V -> list H) l l' : (forall x y, eq x y = true -> hash x = hash y) ->
    slice_eq eq l l' = true -> slice_hash hash l = slice_hash hash l'.
  Proof.
    intros Hh. rewrite slice_eq_Forall2. intros HF. unfold slice_hash. rewrite (Forall2_length _ _ _ HF). f_equal.
    induction HF as [|x y l l' Hxy _ IH]; [done|]. cbn. rewrite (Hh _ _ Hxy). by rewrite IH.
  Qed.
  Lemma slice_hash_inj (hash : V -> list H) l l' r r' : (forall x y (r r' : list H), hash x ++ r = hash y ++ r' -> x = y) ->
    slice_hash hash l ++ r = slice_hash hash l' ++ r' -> l = l' /\ r = r'.
  Proof.
    intros Hp [= Hlen E]. revert l' Hlen E. induction l as [|x l IH]; intros [|y l'] Hlen E; try done.
    cbn in E. assert (x = y) as <-.
    { rewrite <- !app_assoc in E. cut (exists (r1 r2 : list H), hash x ++ r1 = hash y ++ r2). { intros (r1 & r2 & E'). by eapply Hp. }
      clear - E. revert E. generalize ((l ≫= fun v => WItem <$> hash v) ++ r) as t1. generalize ((l' ≫= fun v => WItem <$> hash v) ++ r') as t2. generalize (hash x) (hash y).
      intros a. induction a as [|u a IH]; intros b t2 t1 E; [exists b, []; cbn; by rewrite app_nil_r|].
      destruct b as [|v b]; [exists [], (u :: a); cbn; by rewrite app_nil_r|]. cbn in E. injection E as -> E. destruct (IH _ _ _ E) as (r1 & r2 & E2). exists r1, r2. cbn. by rewrite E2. }
    rewrite <- !app_assoc in E. apply app_inv_head in E. destruct (IH l') as [-> ->]; [by injection Hlen|done|done].
  Qed.
End pure.

(** ** What both specifications say about the items *)
Section afacts.
  Context {V : Type} (sz : N) (vclone : V -> V).
  Implicit Types (a : astate V) (o : op V).
  Record afacts a : Prop := {
    af_alive : forall c, is_Some (as_mem a !! c) <-> exists h x, a_get a h = Some x /\ c ∈ hcells (as_trees a) x;
    af_blk : forall c, is_Some (as_mem a !! c) -> fst c < length (as_base a);
    af_excl : forall h h' x x' c, h <> h' -> a_get a h = Some x -> a_get a h' = Some x' -> a_unique x ->
      c ∈ hcells (as_trees a) x -> c ∉ hcells (as_trees a) x';
    af_comp : forall h h' x x' l l' c, a_get a h = Some x -> a_get a h' = Some x' ->
      l ∈ strong_labels x -> l' ∈ strong_labels x' -> c ∈ rng_cells (lrng (as_trees a) l) -> c ∈ rng_cells (lrng (as_trees a) l') ->
      anc l l' \/ anc l' l;
    af_tree : forall h x l, a_get a h = Some x -> l ∈ strong_labels x \/ l ∈ weak_labels x -> l_tree l < length (as_trees a)
  }.
  Lemma af_covered a h x c : afacts a -> a_get a h = Some x -> c ∈ hcells (as_trees a) x -> is_Some (as_mem a !! c).
  Proof. intros F Hx Hc. apply (af_alive _ F). eauto. Qed.
  Lemma rc_afacts (w : world V) a : Refine.rel sz w a -> afacts a.
  Proof.
    intros R. split.
    - apply (fact_alive _ _ _ R).
    - intros c [v Hv]. by eapply (mem_blk _ _ _ R).
    - intros h h' x x' c. apply (fact_exclusive _ _ _ R).
    - apply (fact_comparable _ _ _ R).
    - apply (fact_tree _ _ _ R).
  Qed.
  Lemma arc_afacts (w : aworld V) sk : ArcRefine.rel sz w sk -> afacts (fst sk).
  Proof.
    intros R. pose proof R as (P & LI & R0 & _). assert (exists P LI, rel0 sz w (fst sk) P LI) as R' by eauto. split.
    - apply (xfact_alive _ _ _ R').
    - intros c Hc. destruct R0 as (_ & _ & _ & Hm & Hb). rewrite Hm in Hc. destruct (xfact_block _ _ _ R' c Hc) as (blk & E & _).
      rewrite Hb. unfold bshape. rewrite !fmap_length. by eapply lookup_lt_Some.
    - intros h h' x x' c. apply (xfact_exclusive _ _ _ R').
    - apply (xfact_comparable _ _ _ R').
    - apply (xfact_tree _ _ _ R').
  Qed.

  Lemma af_prefix a T2 h x : afacts a -> a_get a h = Some x -> hcells (as_trees a ++ T2) x = hcells (as_trees a) x.
  Proof.
    intros F Hx. pose proof (fun l => af_tree _ F h x l Hx) as Hl. destruct x as [l|ol|q|r|r|rs]; try done; cbn.
    - rewrite lrng_prefix; [done|]. apply Hl. left. left.
    - assert (forall l, l ∈ q.*1 -> lrng (as_trees a ++ T2) l = lrng (as_trees a) l) as Hq.
      { intros l Hin. apply lrng_prefix. apply Hl. by left. }
      clear - Hq. induction q as [|[l j] q IH]; [done|]. cbn. rewrite Hq by left. f_equal. apply IH. intros. apply Hq. by right.
  Qed.
  (** The only owner of a node shares no item with another variable. *)
  Lemma af_sole a h0 l h x c : afacts a -> a_get a h0 = Some (ARc l) -> sole_owner (as_h a) l = true -> h <> h0 ->
    a_get a h = Some x -> c ∈ hcells (as_trees a) x -> c ∉ rng_cells (lrng (as_trees a) l).
  Proof.
    intros F Hx0 Hs Hne Hx Hin Hc0. pose proof (proj1 (sole_owner_spec _ _ _ Hx0) Hs) as Hso.
    assert (forall l1, l1 ∈ strong_labels x -> c ∈ rng_cells (lrng (as_trees a) l1) -> False) as Hno.
    { intros l1 Hl1 Hc1. destruct (Hso h x l1) as [H1 H2]; [congruence|done|done|].
      destruct (af_comp _ F h0 h (ARc l) x l l1 c Hx0 Hx ltac:(left) Hl1 Hc0 Hc1); done. }
    destruct x as [l1|ol|q|r|r|rs]; cbn in Hin.
    - apply (Hno l1); [left|done].
    - by apply elem_of_nil in Hin.
    - apply elem_of_list_bind in Hin as ([l1 j] & Hin & Hq). apply (Hno l1); [|done]. cbn. apply elem_of_list_fmap. by exists (l1, j).
    - by eapply (af_excl _ F h h0 (AMut r) (ARc l)).
    - by eapply (af_excl _ F h h0 (AIter r) (ARc l)).
    - by eapply (af_excl _ F h h0 (AMParts rs) (ARc l)).
  Qed.
  Lemma af_keep a o h x : let a' := fst (spec_step sz vclone a o) in afacts a -> target o <> Some h \/ ~ writes o ->
    a_get a h = Some x -> a_get a' h = Some x ->
    hcells (as_trees a') x = hcells (as_trees a) x /\
    forall c, c ∈ hcells (as_trees a) x -> as_mem a' !! c = as_mem a !! c.
  Proof.
    intros a' F Ht Hx Hx'. destruct (spec_shape sz vclone a o) as [(T2 & ST & _) SB SL SK SO SM]. fold a' in ST, SB, SL, SK, SO, SM.
    assert (hcells (as_trees a') x = hcells (as_trees a) x) as Hc by (rewrite ST; by eapply af_prefix).
    split; [done|]. intros c Hin. destruct SM as [[-> _]|[(Hw & _)|(m0 & Hf & ->)]]; [done| |].
    - destruct Hw as (h0 & x0 & c0 & v & old & Ht0 & Hx0 & Hc0 & Hm0 & -> & Hwr & Hu). destruct Ht as [Ht|]; [|done].
      rewrite lookup_insert_ne; [done|]. intros ->. assert (h0 <> h) as Hne by (intros ->; done).
      destruct Hu as [Hu|(l & -> & Hs & Hn)].
      + by eapply (af_excl _ F h0 h x0 x).
      + by eapply (af_sole a h0 l h x).
    - unfold collect. rewrite map_filter_lookup. rewrite lookup_union_r.
      2: { destruct (m0 !! c) as [v|] eqn:E; [|done]. apply Hf in E. pose proof (af_blk _ F c (af_covered _ _ _ _ F Hx Hin)). lia. }
      destruct (as_mem a !! c) as [v|] eqn:E; cbn; [|done]. rewrite option_guard_True; [done|]. cbn.
      unfold all_cells. apply elem_of_list_bind. exists x. split; [by rewrite Hc|]. apply live_handle. eauto.
  Qed.
  (** The items a handle shows *)
  Definition aitems a h : option (list V) :=
    match a_get a h with
    | Some (AWeak _) | None => None
    | Some x => Some (cells_vals (as_mem a) (hcells (as_trees a) x))
    end.
  Lemma aitems_ext a a' h x : a_get a h = Some x -> a_get a' h = Some x -> hcells (as_trees a') x = hcells (as_trees a) x ->
    (forall c, c ∈ hcells (as_trees a) x -> as_mem a' !! c = as_mem a !! c) -> aitems a' h = aitems a h.
  Proof.
    intros Hx Hx' Hc Hm. unfold aitems. rewrite Hx, Hx', Hc, (cells_vals_ext (as_mem a') (as_mem a)) by done. done.
  Qed.
  Lemma aitems_keep a o h x : afacts a -> target o <> Some h \/ ~ writes o ->
    a_get a h = Some x -> a_get (fst (spec_step sz vclone a o)) h = Some x -> aitems (fst (spec_step sz vclone a o)) h = aitems a h.
  Proof. intros F Ht Hx Hx'. destruct (af_keep a o h x F Ht Hx Hx') as [Hc Hm]. by eapply aitems_ext. Qed.
  Lemma aitems_frame a o h : afacts a -> target o <> Some h -> h < length (as_h a) -> aitems (fst (spec_step sz vclone a o)) h = aitems a h.
  Proof.
    intros F Ht Hlt. assert (a_get (fst (spec_step sz vclone a o)) h = a_get a h) as Hg.
    { unfold a_get. by rewrite (sh_keep _ _ _ (spec_shape sz vclone a o)). }
    destruct (a_get a h) as [x|] eqn:Hx; [by eapply aitems_keep; eauto|]. unfold aitems. by rewrite Hg, Hx.
  Qed.
  Lemma aitems_replace a h0 l i v h : afacts a -> a_get a h0 = Some (ARc l) -> sole_owner (as_h a) l = true -> h <> h0 ->
    aitems (fst (a_replace a (rng_cells (lrng (as_trees a) l)) i v)) h = aitems a h.
  Proof.
    intros F Hx0 Hs Hne. unfold a_replace. destruct (_ !! _) as [c|] eqn:Ec; [|done]. destruct (as_mem a !! c) as [old|]; [|done].
    destruct (a_get a h) as [x|] eqn:Hx; [|unfold aitems; cbn; unfold a_get in *; cbn; by rewrite Hx]. cbn [fst].
    apply (aitems_ext _ _ h x); try done. intros c' Hc'. cbn. apply lookup_insert_ne. intros ->.
    eapply (af_sole a h0 l h x); try done. by eapply elem_of_list_lookup_2.
  Qed.
End afacts.

(** ** Both crates *)
Section sim.
  Context {V : Type} (cf : cfg V).
  Notation sz := (c_sz cf).
  Notation vclone := (c_clone cf).
  Notation st := (astate V * list nat)%type.
  Implicit Types (c : crate) (s : st) (o : op V) (h : nat).

  Definition sim c : lib_world V c -> st -> Prop :=
    match c with CrRc => fun w s => Refine.rel sz w (fst s) | CrArc => fun w s => ArcRefine.rel sz w s end.
  Definition sbase c s o : astate V * out V :=
    match c with CrRc => spec_step sz vclone (fst s) o | CrArc => arc_spec_base sz vclone (fst s) (snd s) o end.

  Lemma sim_reach c ops (w : lib_world V c) : lib_reach cf c ops w -> exists s, sim c w s.
  Proof.
    destruct c; cbn; intros R.
    - exists (hist cf ops, []). by apply reach_rel.
    - eexists. by apply xreach_rel.
  Qed.
  Lemma sim_step c (w : lib_world V c) s o : sim c w s ->
    exists w' s', lib_call cf c w o = Ok (w', snd (sbase c s o)) /\ sim c w' s' /\ fst s' = fst (sbase c s o).
  Proof.
    destruct c; cbn; intros R.
    - destruct (rstep_spec cf _ _ o R) as (w' & E & R'). exists w', (fst (spec_step sz vclone (fst s) o), []). done.
    - destruct (xstep_spec cf _ _ o R) as (w' & E & R'). unfold arc_spec_step in E, R'.
      destruct (arc_spec_base sz vclone (fst s) (snd s) o) as [a1 r]. cbn in *. eauto.
  Qed.
  Lemma sim_facts c (w : lib_world V c) s : sim c w s -> afacts (fst s).
  Proof. destruct c; cbn; intros R; [by eapply rc_afacts|by eapply arc_afacts]. Qed.
  Lemma sbase_spec c s o : ~ get_muts o -> sbase c s o = spec_step sz vclone (fst s) o.
  Proof. destruct c; [done|]. by destruct o; cbn; intros Hn; try (by destruct Hn). Qed.
  Lemma sim_read c (w : lib_world V c) s o h : sim c w s -> o = OLen h \/ o = ODeref h -> lib_call cf c w o = Ok (w, snd (spec_step sz vclone (fst s) o)).
  Proof.
    intros R Ho. destruct (sim_step c w s o R) as (w' & s' & E & _). rewrite (sbase_spec c s o) in E by (destruct Ho as [->| ->]; intros []).
    rewrite E. f_equal. f_equal. destruct c; cbn in *.
    - eapply (read_same cf w h o); [|exact E]. tauto.
    - clear R. unfold xstep in E. destruct w as [d g hs]. destruct Ho as [->| ->]; cbn [astep] in E; unfold xret, xret_slice in E;
      destruct (xget _ _) as [[]|]; try (by injection E as <- _);
      repeat match type of E with
      | (?m ≫= _) = Ok _ => destruct m; cbn [mbind res_bind] in E; try done
      | (match ?m with _ => _ end) = Ok _ => destruct m; cbn [mbind res_bind] in E; try done
      end; unfold xret in E; by injection E as <- _.
  Qed.
  Definition aty (x : ahandle) : option ty :=
    match x with ARc _ => Some TySlice | AMut _ => Some TyMut | AIter _ => Some TyIter | AParts _ => Some TyParts | AMParts _ => Some TyMParts | AWeak _ => None end.
  Lemma sim_type c (w : lib_world V c) s h : sim c w s -> lib_type c w h = a_get (fst s) h ≫= aty.
  Proof.
    destruct c; cbn; intros R.
    - pose proof (rel_kind _ _ _ R h) as Hk. unfold rc_type. destruct (get_h w h) as [[]|], (a_get (fst s) h) as [[]|]; done.
    - pose proof (xrel_kind _ _ _ (ArcTheory.rel_pi cf _ _ R) h) as Hk. unfold arc_type. destruct (xget w h) as [[]|], (a_get (fst s) h) as [[]|]; done.
  Qed.
  Lemma sim_items c (w : lib_world V c) s h : sim c w s -> lib_items cf c w h = aitems (fst s) h.
  Proof.
    intros R. unfold lib_items. rewrite (sim_read c w s (ODeref h) h R) by tauto. unfold aitems. cbn.
    by destruct (a_get (fst s) h) as [[]|].
  Qed.
  Lemma sim_deref c (w : lib_world V c) s h t : sim c w s -> lib_type c w h = Some t ->
    exists l, lib_items cf c w h = Some l /\ deref (lib_call cf c) w h = Ok (w, Some l).
  Proof.
    intros R Ht. rewrite (sim_items c w s h R). unfold deref. rewrite (sim_read c w s (ODeref h) h R) by tauto.
    rewrite (sim_type c w s h R) in Ht. unfold aitems. cbn. destruct (a_get (fst s) h) as [[]|]; try done; cbn; eauto.
  Qed.
  Lemma sim_len c (w : lib_world V c) s h t : sim c w s -> lib_type c w h = Some t -> is_iterator (Some t) = true ->
    exists x, a_get (fst s) h = Some x /\ a_iter x /\
    exact_len (lib_call cf c) w h = Ok (w, Some (N.of_nat (length (aqueue (as_trees (fst s)) x)))).
  Proof.
    intros R Ht Hi. rewrite (sim_type c w s h R) in Ht. destruct (a_get (fst s) h) as [x|] eqn:Hx; [|done]. cbn in Ht.
    assert (a_iter x) as Hix. { destruct x; cbn in Ht; simplify_eq; done. }
    exists x. split_and!; [done|done|]. unfold exact_len. rewrite (sim_read c w s (OLen h) h R) by tauto.
    rewrite (len_spec cf (fst s) h x Hx Hix). done.
  Qed.
  (** A run *)
  Lemma lib_run_nil c (w w' : lib_world V c) rs : lib_run cf c w [] = Ok (w', rs) -> w' = w /\ rs = [].
  Proof. destruct c; cbn; by intros [= <- <-]. Qed.
  Lemma lib_run_cons c (w w' : lib_world V c) o ops rs : lib_run cf c w (o :: ops) = Ok (w', rs) ->
    exists w1 r rs', lib_call cf c w o = Ok (w1, r) /\ lib_run cf c w1 ops = Ok (w', rs') /\ rs = r :: rs'.
  Proof. destruct c; cbn; intros E; [by apply (rrun_cons cf)|by apply (xrun_cons cf)]. Qed.
  Lemma sbase_frame c s o h : afacts (fst s) -> target o <> Some h -> h < length (as_h (fst s)) ->
    aitems (fst (sbase c s o)) h = aitems (fst s) h /\ a_get (fst (sbase c s o)) h = a_get (fst s) h /\ h < length (as_h (fst (sbase c s o))).
  Proof.
    intros F Ht Hlt. assert (c = CrArc /\ get_muts o \/ sbase c s o = spec_step sz vclone (fst s) o) as [[-> Hg]|E].
    { destruct c; [by right|]. destruct o; auto; left; done. }
    - destruct s as [a K]. cbn [fst snd sbase] in *. pose proof (base_get cf a K o h Ht Hlt) as Hget. split_and!; [|done|]; destruct o; try done; cbn.
      + destruct (a_get a h0) as [[lb| | | | |]|]; try done. by destruct (_ && _).
      + destruct (a_get a h0) as [[lb| | | | |]|] eqn:Hx0; try done. destruct (sole_owner (as_h a) lb) eqn:Es; cbn; [|done]. destruct (no_linked a K lb); [|done].
        apply (aitems_replace a h0 lb i v h F Hx0 Es). intros ->. done.
      + destruct (a_get a h0) as [[lb| | | | |]|]; try done. by destruct (_ && _).
      + destruct (a_get a h0) as [[lb| | | | |]|]; try done. destruct (_ && _); [|done]. unfold a_replace. destruct (_ !! _) as [c|]; [|done]. by destruct (as_mem a !! c).
    - rewrite E. split_and!; [by apply aitems_frame| |].
      + unfold a_get. by rewrite (sh_keep _ _ _ (spec_shape sz vclone (fst s) o)).
      + pose proof (sh_len _ _ _ (spec_shape sz vclone (fst s) o)). lia.
  Qed.
  Lemma sim_run_frame c ops : forall (w w' : lib_world V c) s rs h, sim c w s -> lib_run cf c w ops = Ok (w', rs) -> Forall (spares h) ops ->
    h < length (as_h (fst s)) -> lib_items cf c w' h = lib_items cf c w h /\ lib_type c w' h = lib_type c w h.
  Proof.
    induction ops as [|o ops IH]; intros w w' s rs h R E HF Hlt.
    - apply lib_run_nil in E as [-> ->]. done.
    - apply Forall_cons in HF as [Ho HF]. apply lib_run_cons in E as (w1 & r & rs' & E1 & E2 & ->).
      destruct (sim_step c w s o R) as (w1' & s1 & E1' & R1 & Hs1). rewrite E1 in E1'. injection E1' as <- ->.
      destruct (sbase_frame c s o h (sim_facts _ _ _ R) Ho Hlt) as (H1 & H2 & H3). rewrite <- Hs1 in *.
      destruct (IH _ _ _ _ _ R1 E2 HF H3) as [-> ->]. rewrite (sim_items c w1 s1 h R1), (sim_items c w s h R), (sim_type c w1 s1 h R1), (sim_type c w s h R), H1, H2. done.
  Qed.
  Lemma lib_type_lt c (w : lib_world V c) s h t : sim c w s -> lib_type c w h = Some t -> h < length (as_h (fst s)).
  Proof.
    intros R Ht. rewrite (sim_type c w s h R) in Ht. destruct (a_get (fst s) h) as [x|] eqn:Hx; [|done]. by eapply a_get_lt.
  Qed.
End sim.
