(** The trait impls of both crates: equality, order, hashing, text, iterators,
    collecting (C52). *)
From stdpp Require Import pretty.
From Verif Require Import Base BaseLemmas Api SliceItemsModel BinPartsModel DataModel RcModel Spec
  BinPartsProof SliceItemsProof DataInv DataSteps GuardInv RelInv Refine Observe Facts SpecTheory Frame Views RcTheory IterTheory ShareTheory WriteTheory
  ArcModel ArcInv ArcRelInv ArcRelOps ArcSpec ArcRefine ArcObserve ArcFacts ArcTheory TraitModel TraitObserve TraitTheory.
Local Open Scope nat_scope.

Section laws.
  Context {V H : Type} (cf : cfg V) (c : crate) (it : itraits V H).
  Notation sz := (c_sz cf).
  Notation vclone := (c_clone cf).
  Notation tstep := (lib_tstep cf c it).
  Notation items := (lib_items cf c).
  Notation call := (lib_call cf c).
  Notation run := (lib_run cf c).
  Implicit Types (ops : list (op V)) (w : lib_world V c) (h : nat) (l : list V).

  (** *** Reading *)
  Lemma one_ok w s h t f : sim cf c w s -> lib_type c w h = Some t ->
    exists l, items w h = Some l /\ one (H := H) call w h f = Ok (w, f l).
  Proof. intros R Ht. destruct (sim_deref cf c w s h t R Ht) as (l & Hl & E). exists l. split; [done|]. unfold one. by rewrite E. Qed.
  Lemma two_ok w s h h' t t' f : sim cf c w s -> lib_type c w h = Some t -> lib_type c w h' = Some t' ->
    exists l l', items w h = Some l /\ items w h' = Some l' /\ two (H := H) call w h h' f = Ok (w, f l l').
  Proof.
    intros R Ht Ht'. destruct (sim_deref cf c w s h t R Ht) as (l & Hl & E). destruct (sim_deref cf c w s h' t' R Ht') as (l' & Hl' & E').
    exists l, l'. split_and!; [done|done|]. unfold two. rewrite E. cbn. by rewrite E'.
  Qed.
  Lemma comparable_iff w h h' : comparable (lib_type c) w h h' = true <->
    exists t, (t = TySlice \/ t = TyMut) /\ lib_type c w h = Some t /\ lib_type c w h' = Some t.
  Proof.
    unfold comparable. split.
    - intros E. destruct (lib_type c w h) as [[]|]; try done; destruct (lib_type c w h') as [[]|]; try done; eauto.
    - by intros (t & [->| ->] & -> & ->).
  Qed.
  Lemma is_slice_iff w h : is_slice (lib_type c w h) = true <-> lib_type c w h = Some TySlice \/ lib_type c w h = Some TyMut.
  Proof. destruct (lib_type c w h) as [[]|]; cbn; split; auto; try done; by intros [|]. Qed.
  Lemma is_iterator_iff w h : is_iterator (lib_type c w h) = true <->
    lib_type c w h = Some TyIter \/ lib_type c w h = Some TyParts \/ lib_type c w h = Some TyMParts.
  Proof. destruct (lib_type c w h) as [[]|]; cbn; split; auto; try done; by intros [|[|]]. Qed.

  (** *** Each impl *)
  Definition reads (o : top) : Prop := forall h, o <> TCount h.
  Lemma slice_cases ops w h : lib_reach cf c ops w -> lib_type c w h = Some TySlice \/ lib_type c w h = Some TyMut ->
    exists l, items w h = Some l /\ tstep w (TAsRef h) = Ok (w, TRef l) /\ tstep w (THash h) = Ok (w, TWrites (slice_hash (it_hash it) l)) /\
      tstep w (TDebug h) = Ok (w, TText (slice_debug (it_debug it) l)).
  Proof.
    intros [s R]%sim_reach Ht. pose proof Ht as Hb%is_slice_iff.
    assert (exists t, lib_type c w h = Some t) as [t Et] by (destruct Ht; eauto).
    destruct (one_ok w s h t TRef R Et) as (l & Hl & E1). destruct (one_ok w s h t (fun l => TWrites (slice_hash (it_hash it) l)) R Et) as (l2 & Hl2 & E2).
    destruct (one_ok w s h t (fun l => TText (slice_debug (it_debug it) l)) R Et) as (l3 & Hl3 & E3).
    rewrite Hl in Hl2, Hl3. injection Hl2 as <-. injection Hl3 as <-. exists l. unfold lib_tstep, TraitModel.tstep. rewrite Hb, E1, E2. split_and!; try done.
    by destruct Ht as [-> | ->].
  Qed.
  Lemma pair_cases ops w h h' : lib_reach cf c ops w -> well_typed c w (TEq h h') ->
    exists l l', items w h = Some l /\ items w h' = Some l' /\
      tstep w (TEq h h') = Ok (w, TBool (slice_eq (it_eq it) l l')) /\
      tstep w (TNe h h') = Ok (w, TBool (negb (slice_eq (it_eq it) l l'))) /\
      tstep w (TPartialCmp h h') = Ok (w, TPartialOrdering (slice_partial_cmp (it_partial_cmp it) l l')) /\
      tstep w (TCmp h h') = Ok (w, TOrdering (slice_cmp (it_cmp it) l l')).
  Proof.
    intros [s R]%sim_reach Ht. cbn in Ht. pose proof Ht as Hb%comparable_iff. destruct Ht as (t & _ & Et & Et').
    destruct (sim_deref cf c w s h t R Et) as (l & Hl & E). destruct (sim_deref cf c w s h' t R Et') as (l' & Hl' & E').
    exists l, l'. unfold lib_tstep, TraitModel.tstep. rewrite Hb. unfold two. rewrite E. cbn. rewrite E'. done.
  Qed.
  Lemma iter_cases ops w h t : lib_reach cf c ops w -> lib_type c w h = Some t -> is_iterator (Some t) = true ->
    exists l n w', items w h = Some l /\ call w (OLen h) = Ok (w, RLen n) /\ tstep w (TSizeHint h) = Ok (w, THint n (Some n)) /\
      call w (ODrop h) = Ok (w', RUnit) /\ tstep w (TCount h) = Ok (w', TNumber n) /\
      tstep w (TDebug h) = Ok (w, TText (match t with
        | TyIter => lib_name c TyIter +:+ "(" +:+ slice_debug (it_debug it) l +:+ ")"
        | _ => lib_name c t +:+ " { remaining_parts: " +:+ pretty n +:+ ", remaining_items: " +:+ slice_debug (it_debug it) l +:+ " }" end)).
  Proof.
    intros [s R]%sim_reach Et Hi. destruct (sim_len cf c w s h t R Et Hi) as (x & Hx & Hix & E). set (n := N.of_nat _) in E.
    destruct (sim_deref cf c w s h t R Et) as (l & Hl & E').
    destruct (sim_step cf c w s (ODrop h) R) as (w' & s' & Ed & _). rewrite sbase_spec in Ed by (intros []). cbn in Ed. rewrite Hx in Ed. cbn in Ed.
    exists l, n, w'. split_and!; try done.
    - rewrite (sim_read cf c w s (OLen h) h R) by tauto. by rewrite (len_spec cf _ _ _ Hx Hix).
    - unfold lib_tstep, TraitModel.tstep. rewrite Et, Hi, E. cbn. by rewrite E.
    - unfold lib_tstep, TraitModel.tstep. rewrite Et, Hi, E. cbn. by rewrite Ed.
    - unfold lib_tstep, TraitModel.tstep. rewrite Et. unfold one. destruct t; try done.
      + by rewrite E'.
      + rewrite E. cbn. by rewrite E'.
      + rewrite E. cbn. by rewrite E'.
  Qed.
  Lemma ill_typed w o : ~ well_typed c w o -> tstep w o = Ok (w, TInvalid).
  Proof.
    intros Hn. unfold lib_tstep, TraitModel.tstep. destruct o; cbn in Hn.
    - rewrite <- is_slice_iff in Hn. by destruct (is_slice _).
    - rewrite <- comparable_iff in Hn. by destruct (comparable _ _ _).
    - rewrite <- comparable_iff in Hn. by destruct (comparable _ _ _).
    - rewrite <- comparable_iff in Hn. by destruct (comparable _ _ _).
    - rewrite <- comparable_iff in Hn. by destruct (comparable _ _ _).
    - rewrite <- is_slice_iff in Hn. by destruct (is_slice _).
    - destruct (lib_type c w h) as [t|]; [|done]. destruct Hn. eauto.
    - rewrite <- is_iterator_iff in Hn. by destruct (is_iterator _).
    - rewrite <- is_iterator_iff in Hn. by destruct (is_iterator _).
  Qed.
  Lemma safe ops w o : lib_reach cf c ops w -> exists w' r, tstep w o = Ok (w', r) /\ (r = TInvalid <-> ~ well_typed c w o) /\
    ((forall h, o <> TCount h) -> w' = w).
  Proof.
    intros R. assert (well_typed c w o \/ ~ well_typed c w o) as [Ht|Hn].
    { destruct o; cbn; rewrite <- ?is_slice_iff, <- ?comparable_iff, <- ?is_iterator_iff;
        try (match goal with |- ?b = true \/ _ => by destruct b; [left|right] end). destruct (lib_type c w h); [left; eauto|right; by intros []]. }
    2: { exists w, TInvalid. split_and!; [by apply ill_typed|done|done]. }
    assert (forall h t, lib_type c w h = Some t -> is_iterator (Some t) = true -> o = TDebug h \/ o = TSizeHint h \/ o = TCount h ->
      exists w' r, tstep w o = Ok (w', r) /\ (r = TInvalid <-> ~ well_typed c w o) /\ ((forall h, o <> TCount h) -> w' = w)) as Hiter.
    { intros h t Et Hi Ho. destruct (iter_cases ops w h t R Et Hi) as (l & n & w' & _ & _ & E1 & _ & E2 & E3).
      destruct Ho as [->|[->| ->]]; rewrite ?E1, ?E2, ?E3; eexists _, _; (split; [done|]); (split; [|intros Hc; try done; by destruct (Hc h)]); done. }
    destruct o; cbn in Ht.
    - destruct (slice_cases _ _ _ R Ht) as (l & _ & E & _). rewrite E. eexists _, _. done.
    - destruct (pair_cases _ _ _ _ R Ht) as (l & l' & _ & _ & E & _). rewrite E. eexists _, _. done.
    - destruct (pair_cases _ _ _ _ R Ht) as (l & l' & _ & _ & _ & E & _). rewrite E. eexists _, _. done.
    - destruct (pair_cases _ _ _ _ R Ht) as (l & l' & _ & _ & _ & _ & E & _). rewrite E. eexists _, _. done.
    - destruct (pair_cases _ _ _ _ R Ht) as (l & l' & _ & _ & _ & _ & _ & E). rewrite E. eexists _, _. done.
    - destruct (slice_cases _ _ _ R Ht) as (l & _ & _ & E & _). rewrite E. eexists _, _. done.
    - destruct Ht as [t Et]. destruct (is_iterator (Some t)) eqn:Hi; [by eapply Hiter; eauto|].
      destruct (slice_cases ops w h R) as (l & _ & _ & _ & E). { destruct t; try done; auto. }
      rewrite E. eexists _, _. split; [done|]. split; [|done]. split; [done|]. intros Hn. destruct Hn. cbn. eauto.
    - apply is_iterator_iff in Ht as Hi. destruct (lib_type c w h) as [t|] eqn:Et; [|done]. eapply Hiter; eauto.
    - apply is_iterator_iff in Ht as Hi. destruct (lib_type c w h) as [t|] eqn:Et; [|done]. eapply Hiter; eauto.
  Qed.

  (** *** Equality *)
  Lemma eq_spec ops w h h' : lib_reach cf c ops w -> well_typed c w (TEq h h') ->
    exists l l' b, items w h = Some l /\ items w h' = Some l' /\ tstep w (TEq h h') = Ok (w, TBool b) /\
      tstep w (TNe h h') = Ok (w, TBool (negb b)) /\ (b = true <-> Forall2 (fun x y => it_eq it x y = true) l l').
  Proof.
    intros R Ht. destruct (pair_cases _ _ _ _ R Ht) as (l & l' & Hl & Hl' & E1 & E2 & _). exists l, l', (slice_eq (it_eq it) l l').
    split_and!; try done; by apply slice_eq_Forall2.
  Qed.
  Lemma well_typed_sym w h h' : well_typed c w (TEq h h') -> well_typed c w (TEq h' h).
  Proof. intros (t & ? & ? & ?). exists t. done. Qed.
  Lemma well_typed_trans w h1 h2 h3 : well_typed c w (TEq h1 h2) -> well_typed c w (TEq h2 h3) -> well_typed c w (TEq h1 h3).
  Proof. intros (t & ? & ? & E) (t' & ? & E' & ?). rewrite E in E'. injection E' as <-. exists t. done. Qed.
  Lemma eq_laws ops w h1 h2 h3 : lib_reach cf c ops w -> well_typed c w (TEq h1 h2) -> well_typed c w (TEq h2 h3) ->
    ((forall x, it_eq it x x = true) -> tstep w (TEq h1 h1) = Ok (w, TBool true)) /\
    ((forall x y, it_eq it x y = it_eq it y x) -> tstep w (TEq h2 h1) = tstep w (TEq h1 h2)) /\
    ((forall x y z, it_eq it x y = true -> it_eq it y z = true -> it_eq it x z = true) ->
      tstep w (TEq h1 h2) = Ok (w, TBool true) -> tstep w (TEq h2 h3) = Ok (w, TBool true) -> tstep w (TEq h1 h3) = Ok (w, TBool true)).
  Proof.
    intros R H12 H23. pose proof (well_typed_sym _ _ _ H12) as H21. pose proof (well_typed_trans _ _ _ _ H12 H21) as H11.
    pose proof (well_typed_trans _ _ _ _ H12 H23) as H13.
    destruct (pair_cases _ _ _ _ R H11) as (l1 & l1' & E1 & E1' & -> & _). rewrite E1 in E1'. injection E1' as <-.
    destruct (pair_cases _ _ _ _ R H12) as (l1' & l2 & E1' & E2 & -> & _). rewrite E1 in E1'. injection E1' as <-.
    destruct (pair_cases _ _ _ _ R H21) as (l2' & l1' & E2' & E1' & -> & _). rewrite E1 in E1'. injection E1' as <-. rewrite E2 in E2'. injection E2' as <-.
    destruct (pair_cases _ _ _ _ R H23) as (l2' & l3 & E2' & E3 & -> & _). rewrite E2 in E2'. injection E2' as <-.
    destruct (pair_cases _ _ _ _ R H13) as (l1' & l3' & E1' & E3' & -> & _). rewrite E1 in E1'. injection E1' as <-. rewrite E3 in E3'. injection E3' as <-.
    split_and!.
    - intros Hr. by rewrite slice_eq_refl.
    - intros Hs. do 3 f_equal. by apply slice_eq_sym.
    - intros Htr [= A] [= B]. by rewrite (slice_eq_trans _ _ _ _ Htr A B).
  Qed.

  (** *** Order *)
  Lemma partial_cmp_spec ops w h h' : lib_reach cf c ops w -> well_typed c w (TPartialCmp h h') ->
    let pc := it_partial_cmp it in
    exists l l' r, items w h = Some l /\ items w h' = Some l' /\ tstep w (TPartialCmp h h') = Ok (w, TPartialOrdering r) /\
      (r = Some Eq <-> Forall2 (fun x y => pc x y = Some Eq) l l') /\
      (r = Some Lt <-> lex (fun x y => pc x y = Some Eq) (fun x y => pc x y = Some Lt) true l l') /\
      (r = Some Gt <-> lex (fun y x => pc x y = Some Eq) (fun y x => pc x y = Some Gt) true l' l) /\
      (r = None <-> lex (fun x y => pc x y = Some Eq) (fun x y => pc x y = None) false l l').
  Proof.
    intros R Ht pc. destruct (pair_cases _ _ _ _ R Ht) as (l & l' & Hl & Hl' & _ & _ & E & _). exists l, l', (slice_partial_cmp pc l l').
    split_and!; try done; by apply spc_spec.
  Qed.
  Lemma cmp_spec ops w h h' : lib_reach cf c ops w -> well_typed c w (TCmp h h') ->
    let cmp := it_cmp it in
    exists l l' r, items w h = Some l /\ items w h' = Some l' /\ tstep w (TCmp h h') = Ok (w, TOrdering r) /\
      (r = Eq <-> Forall2 (fun x y => cmp x y = Eq) l l') /\
      (r = Lt <-> lex (fun x y => cmp x y = Eq) (fun x y => cmp x y = Lt) true l l') /\
      (r = Gt <-> lex (fun y x => cmp x y = Eq) (fun y x => cmp x y = Gt) true l' l) /\
      ((forall x y, it_partial_cmp it x y = Some (cmp x y)) -> tstep w (TPartialCmp h h') = Ok (w, TPartialOrdering (Some r))) /\
      ((forall x y, it_eq it x y = true <-> cmp x y = Eq) -> tstep w (TEq h h') = Ok (w, TBool true) <-> r = Eq).
  Proof.
    intros R Ht cmp. destruct (pair_cases _ _ _ _ R Ht) as (l & l' & Hl & Hl' & E1 & _ & E2 & E3). exists l, l', (slice_cmp cmp l l').
    destruct (sc_spec cmp l l') as (I1 & I2 & I3). split_and!; try done.
    - intros Hp. rewrite E2. do 3 f_equal. rewrite <- sc_spc. by apply spc_ext.
    - intros He. rewrite E1, I1. transitivity (slice_eq (it_eq it) l l' = true); [split; congruence|]. rewrite slice_eq_Forall2.
      split; intros HF; (eapply Forall2_impl; [exact HF|]); intros x y; apply He.
  Qed.
  Lemma cmp_laws ops w h1 h2 h3 : lib_reach cf c ops w -> well_typed c w (TCmp h1 h2) -> well_typed c w (TCmp h2 h3) -> lawful_cmp (it_cmp it) ->
    (forall r, tstep w (TCmp h1 h2) = Ok (w, TOrdering r) -> tstep w (TCmp h2 h1) = Ok (w, TOrdering (CompOpp r))) /\
    (tstep w (TCmp h1 h2) = Ok (w, TOrdering Lt) -> tstep w (TCmp h2 h3) = Ok (w, TOrdering Lt) -> tstep w (TCmp h1 h3) = Ok (w, TOrdering Lt)) /\
    (tstep w (TCmp h1 h2) = Ok (w, TOrdering Eq) -> tstep w (TCmp h1 h3) = tstep w (TCmp h2 h3)).
  Proof.
    intros R H12 H23 Hlaw. pose proof (well_typed_sym _ _ _ H12) as H21. pose proof (well_typed_trans _ _ _ _ H12 H23) as H13.
    destruct (pair_cases _ _ _ _ R H12) as (l1 & l2 & E1 & E2 & _ & _ & _ & ->).
    destruct (pair_cases _ _ _ _ R H21) as (l2' & l1' & E2' & E1' & _ & _ & _ & ->). rewrite E1 in E1'. injection E1' as <-. rewrite E2 in E2'. injection E2' as <-.
    destruct (pair_cases _ _ _ _ R H23) as (l2' & l3 & E2' & E3 & _ & _ & _ & ->). rewrite E2 in E2'. injection E2' as <-.
    destruct (pair_cases _ _ _ _ R H13) as (l1' & l3' & E1' & E3' & _ & _ & _ & ->). rewrite E1 in E1'. injection E1' as <-. rewrite E3 in E3'. injection E3' as <-.
    split_and!.
    - intros r [= <-]. do 3 f_equal. apply sc_opp, Hlaw.
    - intros [= A] [= B]. do 3 f_equal. by eapply sc_trans.
    - intros [= A]. do 3 f_equal. by apply sc_eq_l.
  Qed.

  (** *** Hash, and borrowing as a plain slice *)
  Lemma hash_spec ops w h : lib_reach cf c ops w -> well_typed c w (THash h) ->
    exists l ws, items w h = Some l /\ tstep w (TAsRef h) = Ok (w, TRef l) /\ tstep w (THash h) = Ok (w, TWrites ws) /\
      ws = slice_hash (it_hash it) l.
  Proof. intros R Ht. destruct (slice_cases _ _ _ R Ht) as (l & Hl & E1 & E2 & _). eauto 10. Qed.
  Lemma hash_text l : slice_hash (it_hash it) l = WLen (length l) :: concat (map (fun v => map WItem (it_hash it v)) l).
  Proof. unfold slice_hash. f_equal. induction l as [|x l IH]; [done|]. cbn. rewrite IH. f_equal. Qed.
  Lemma debug_text l : slice_debug (it_debug it) l = "[" +:+ String.concat ", " (map (it_debug it) l) +:+ "]".
  Proof.
    unfold slice_debug. do 2 f_equal. change (it_debug it <$> l) with (map (it_debug it) l).
    induction (map (it_debug it) l) as [|x [|y t] IH]; [done|done|].
    change (commas (x :: y :: t)) with (x +:+ ", " +:+ commas (y :: t)). rewrite IH. done.
  Qed.
  Lemma hash_spec' ops w h : lib_reach cf c ops w -> well_typed c w (THash h) ->
    exists l, items w h = Some l /\ tstep w (TAsRef h) = Ok (w, TRef l) /\
      tstep w (THash h) = Ok (w, TWrites (WLen (length l) :: concat (map (fun v => map WItem (it_hash it v)) l))).
  Proof. intros R Ht. destruct (hash_spec _ _ _ R Ht) as (l & ws & Hl & E1 & E2 & ->). rewrite hash_text in E2. eauto. Qed.
  Lemma debug_spec ops w h t : lib_reach cf c ops w -> lib_type c w h = Some t ->
    exists l, items w h = Some l /\
      let body := "[" +:+ String.concat ", " (map (it_debug it) l) +:+ "]" in
      match t with
      | TySlice | TyMut => tstep w (TDebug h) = Ok (w, TText body)
      | TyIter => tstep w (TDebug h) = Ok (w, TText (lib_name c t +:+ "(" +:+ body +:+ ")"))
      | _ => exists n, call w (OLen h) = Ok (w, RLen n) /\
          tstep w (TDebug h) = Ok (w, TText (lib_name c t +:+ " { remaining_parts: " +:+ pretty n +:+ ", remaining_items: " +:+ body +:+ " }"))
      end.
  Proof.
    intros R Et. destruct (is_iterator (Some t)) eqn:Hi.
    - destruct (iter_cases _ _ _ _ R Et Hi) as (l & n & _ & Hl & En & _ & _ & _ & Ed). exists l. split; [done|]. cbn zeta. rewrite <- debug_text. destruct t; try done; eauto.
    - destruct (slice_cases _ _ h R) as (l & Hl & _ & _ & Ed); [destruct t; auto; done|]. exists l. split; [done|]. cbn zeta. rewrite <- debug_text. by destruct t.
  Qed.
  Lemma hash_eq ops w h h' : lib_reach cf c ops w -> well_typed c w (TEq h h') ->
    (forall x y, it_eq it x y = true -> it_hash it x = it_hash it y) ->
    tstep w (TEq h h') = Ok (w, TBool true) -> tstep w (THash h) = tstep w (THash h').
  Proof.
    intros R Ht Hh. destruct (pair_cases _ _ _ _ R Ht) as (l & l' & Hl & Hl' & E & _). rewrite E. intros [= Eb].
    destruct Ht as (t & Htt & E1 & E2).
    destruct (slice_cases _ _ h R) as (l1 & Hl1 & _ & -> & _); [destruct Htt; subst; auto|].
    destruct (slice_cases _ _ h' R) as (l2 & Hl2 & _ & -> & _); [destruct Htt; subst; auto|].
    rewrite Hl in Hl1. rewrite Hl' in Hl2. injection Hl1 as <-. injection Hl2 as <-. do 3 f_equal. by eapply slice_hash_eq.
  Qed.
  Lemma hash_inj ops w h h' ws ws' r r' : lib_reach cf c ops w -> well_typed c w (THash h) -> well_typed c w (THash h') ->
    (forall x y (r r' : list H), it_hash it x ++ r = it_hash it y ++ r' -> x = y) ->
    tstep w (THash h) = Ok (w, TWrites ws) -> tstep w (THash h') = Ok (w, TWrites ws') -> ws ++ r = ws' ++ r' ->
    items w h = items w h' /\ r = r'.
  Proof.
    intros R Ht Ht' Hp. destruct (slice_cases _ _ _ R Ht) as (l & -> & _ & -> & _). destruct (slice_cases _ _ _ R Ht') as (l' & -> & _ & -> & _).
    intros [= <-] [= <-] E. destruct (slice_hash_inj _ l l' r r' Hp E) as [-> ->]. done.
  Qed.

  (** *** Copies *)
  Lemma clone_items ops w h w' n : lib_reach cf c ops w -> lib_type c w h = Some TySlice -> call w (OClone h) = Ok (w', RHandle n) ->
    lib_type c w' h = Some TySlice /\ lib_type c w' n = Some TySlice /\ items w' h = items w h /\ items w' n = items w h.
  Proof.
    intros [s R]%sim_reach Ht E. destruct (sim_step cf c w s (OClone h) R) as (w1 & s1 & E1 & R1 & Hs1). rewrite E in E1. injection E1 as <- Hn.
    rewrite sbase_spec in Hn, Hs1 by (intros []). rewrite (sim_type cf c w s h R) in Ht. destruct (a_get (fst s) h) as [[lb| | | | |]|] eqn:Hx; try done.
    assert (snd (spec_step sz vclone (fst s) (OClone h)) = RHandle (length (as_h (fst s)))) as Hr by (cbn; by rewrite Hx).
    rewrite Hr in Hn. injection Hn as ->.
    assert (a_get (fst s1) h = Some (ARc lb) /\ a_get (fst s1) (length (as_h (fst s))) = Some (ARc lb) /\ as_trees (fst s1) = as_trees (fst s)) as (G1 & G2 & G3).
    { rewrite Hs1. cbn. rewrite Hx. cbn. split_and!; [|rewrite get_tget; apply get_new|done].
      rewrite get_tget. cbn. rewrite get_old by (by eapply a_get_lt). by rewrite <- get_tget. }
    rewrite !(sim_type cf c w' s1 _ R1), !(sim_items cf c w' s1 _ R1), (sim_items cf c w s h R), G1, G2.
    assert (aitems (fst s1) h = aitems (fst s) h) as Hi.
    { pose proof G1 as G1'. rewrite Hs1 in G1' |- *. eapply aitems_keep; [by eapply sim_facts|right; intros []|exact Hx|exact G1']. }
    split_and!; try done. rewrite <- Hi. unfold aitems. by rewrite G1, G2.
  Qed.
  Lemma fresh_items (a : astate V) base vals hs x (T : trees) :
    let a' := AS (as_base a ++ [base]) T
      (collect T (hs ++ [Some x]) (list_to_map (zip (rng_cells (Rng (length (as_base a)) 0 (N.of_nat (length vals)))) vals) ∪ as_mem a)) (hs ++ [Some x]) in
    aty x <> None -> hcells T x = rng_cells (Rng (length (as_base a)) 0 (N.of_nat (length vals))) ->
    aitems a' (length hs) = Some vals.
  Proof.
    intros a' Hw Hc. assert (a_get a' (length hs) = Some x) as Hx by (rewrite get_tget; apply get_new).
    transitivity (Some (cells_vals (as_mem a') (hcells T x))). { unfold aitems. rewrite Hx. by destruct x. }
    rewrite Hc. cbn [as_mem a']. rewrite (collect_vals _ _ _ _ x) by (done || apply live_new). by rewrite fresh_vals.
  Qed.
  Lemma mut_clone_items ops w h base w' n : lib_reach cf c ops w -> lib_type c w h = Some TyMut -> call w (OMutClone h base) = Ok (w', RHandle n) ->
    lib_type c w' h = Some TyMut /\ lib_type c w' n = Some TyMut /\ items w' h = items w h /\ items w' n = fmap (M := option) (fmap (M := list) vclone) (items w h).
  Proof.
    intros [s R]%sim_reach Ht E. destruct (sim_step cf c w s (OMutClone h base) R) as (w1 & s1 & E1 & R1 & Hs1). rewrite E in E1. injection E1 as <- Hn.
    rewrite sbase_spec in Hn, Hs1 by (intros []). rewrite (sim_type cf c w s h R) in Ht. destruct (a_get (fst s) h) as [[| | |rg| |]|] eqn:Hx; try done.
    assert (snd (spec_step sz vclone (fst s) (OMutClone h base)) = RHandle (length (as_h (fst s)))) as Hr by (cbn; by rewrite Hx).
    rewrite Hr in Hn. injection Hn as ->.
    assert (a_get (fst s1) h = Some (AMut rg)) as G1.
    { rewrite Hs1. cbn. rewrite Hx. cbn. rewrite get_tget. cbn. rewrite get_old by (by eapply a_get_lt). by rewrite <- get_tget. }
    rewrite !(sim_type cf c w' s1 _ R1), !(sim_items cf c w' s1 _ R1), (sim_items cf c w s h R), G1.
    assert (aitems (fst s1) h = aitems (fst s) h) as Hi.
    { pose proof G1 as G1'. rewrite Hs1 in G1' |- *. eapply aitems_keep; [by eapply sim_facts|right; intros []|exact Hx|exact G1']. }
    assert (aitems (fst s) h = Some (cells_vals (as_mem (fst s)) (rng_cells rg))) as Hi2 by (unfold aitems; by rewrite Hx).
    split_and!; try done.
    - rewrite Hs1. cbn. rewrite Hx. cbn [a_new fst]. rewrite get_tget. cbn [as_h a_set]. by rewrite get_new.
    - rewrite Hi2. cbn. rewrite Hs1. cbn. rewrite Hx. cbn. apply fresh_items; done.
  Qed.
  Lemma clone_eq ops w h w' n : lib_reach cf c ops w -> (forall x, it_eq it x x = true) ->
    lib_type c w h = Some TySlice -> call w (OClone h) = Ok (w', RHandle n) ->
    tstep w' (TEq h n) = Ok (w', TBool true) /\ tstep w' (THash n) = tstep w' (THash h) /\ items w' h = items w h.
  Proof.
    intros R Hr Ht E. destruct (clone_items _ _ _ _ _ R Ht E) as (T1 & T2 & I1 & I2). 
    assert (lib_reach cf c (ops ++ [OClone h]) w') as R'.
    { clear - R E. destruct c; cbn in *; [by eapply reach_step|by eapply xreach_step]. }
    destruct (pair_cases _ w' h n R') as (l & l' & Hl & Hl' & -> & _); [exists TySlice; auto|].
    destruct (slice_cases _ w' h R') as (l1 & Hl1 & _ & -> & _); [auto|]. destruct (slice_cases _ w' n R') as (l2 & Hl2 & _ & -> & _); [auto|].
    rewrite I1, <- I2 in *. rewrite Hl in *. simplify_eq. by rewrite slice_eq_refl.
  Qed.
  Lemma mut_clone_eq ops w h base w' n : lib_reach cf c ops w -> (forall x, it_eq it x (vclone x) = true) ->
    lib_type c w h = Some TyMut -> call w (OMutClone h base) = Ok (w', RHandle n) ->
    tstep w' (TEq h n) = Ok (w', TBool true) /\ items w' h = items w h.
  Proof.
    intros R Hr Ht E. destruct (mut_clone_items _ _ _ _ _ _ R Ht E) as (T1 & T2 & I1 & I2).
    assert (lib_reach cf c (ops ++ [OMutClone h base]) w') as R'.
    { clear - R E. destruct c; cbn in *; [by eapply reach_step|by eapply xreach_step]. }
    destruct (pair_cases _ w' h n R') as (l & l' & Hl & Hl' & -> & _); [exists TyMut; auto|]. split; [|done].
    rewrite <- I1, Hl in I2. rewrite Hl' in I2. cbn in I2. injection I2 as ->. do 3 f_equal. apply slice_eq_Forall2.
    clear - Hr. induction l; constructor; auto.
  Qed.

  (** *** A variable used as a key *)
  Lemma key_stable ops w ops2 w2 outs h : lib_reach cf c ops w -> well_typed c w (THash h) -> run w ops2 = Ok (w2, outs) -> Forall (spares h) ops2 ->
    exists l ws t, items w h = Some l /\ items w2 h = Some l /\
      tstep w (THash h) = Ok (w, TWrites ws) /\ tstep w2 (THash h) = Ok (w2, TWrites ws) /\
      tstep w (TDebug h) = Ok (w, TText t) /\ tstep w2 (TDebug h) = Ok (w2, TText t).
  Proof.
    intros R Ht E HF. pose proof R as [s S]%sim_reach.
    assert (exists t, lib_type c w h = Some t) as [t Et] by (destruct Ht; eauto).
    destruct (sim_run_frame cf c ops2 w w2 s outs h S E HF (lib_type_lt cf c w s h t S Et)) as [Hi Hty].
    assert (lib_reach cf c (ops ++ ops2) w2) as R2.
    { clear - R E. destruct c; cbn in *; [by eapply reach_app|]. destruct R as [o1 E1]. exists (o1 ++ outs). rewrite xrun_app, E1. cbn. by rewrite E. }
    destruct (slice_cases _ _ _ R Ht) as (l & Hl & _ & E1 & E2). cbn in Ht. rewrite <- Hty in Ht.
    destruct (slice_cases _ _ _ R2 Ht) as (l2 & Hl2 & _ & E3 & E4). rewrite Hi, Hl in Hl2. injection Hl2 as <-.
    exists l. eexists _, _. split_and!; [done|by rewrite Hi|exact E1|exact E3|exact E2|exact E4].
  Qed.

  (** *** Iterators *)
  Definition taken (o : op V) h : nat := length (nexts h [o]).
  Lemma queue_step (a : astate V) o h x : afacts a -> iterates h o -> a_get a h = Some x -> a_iter x ->
    exists x', a_get (fst (spec_step sz vclone a o)) h = Some x' /\ a_iter x' /\ aty x' = aty x /\
      length (aqueue (as_trees (fst (spec_step sz vclone a o))) x') = length (aqueue (as_trees a) x) - length (nexts h [o]) /\
      (forall b, o = ONext b h -> let r := snd (spec_step sz vclone a o) in
        (r = RNone <-> length (aqueue (as_trees a) x) = 0) /\ (r = RNone \/ (exists n, r = RHandle n) \/ exists v, r = RVal v)).
  Proof.
    intros F Ho Hx Hi. set (a' := fst (spec_step sz vclone a o)). assert (h < length (as_h a)) as Hlt by (by eapply a_get_lt).
    destruct (sh_trees _ _ _ (spec_shape sz vclone a o)) as (T2 & HT & _). fold a' in HT.
    assert (aqueue (as_trees a') x = aqueue (as_trees a) x) as Hq.
    { rewrite HT. destruct x as [l|l|q|r|r|rs]; try done. cbn. apply qrngs_ext. intros l Hl. apply lrng_prefix. apply (af_tree _ F h (AParts q) l Hx). by left. }
    assert (a_get a' h = Some x -> (forall b, o <> ONext b h) -> exists x', a_get a' h = Some x' /\ a_iter x' /\ aty x' = aty x /\
      length (aqueue (as_trees a') x') = length (aqueue (as_trees a) x) - length (nexts h [o]) /\
      (forall b, o = ONext b h -> let r := snd (spec_step sz vclone a o) in
        (r = RNone <-> length (aqueue (as_trees a) x) = 0) /\ (r = RNone \/ (exists n, r = RHandle n) \/ exists v, r = RVal v))) as fin.
    { intros Hx' Hn. exists x. split_and!; try done.
      - rewrite Hq. replace (nexts h [o]) with (@nil bool); [cbn; lia|]. destruct o; try done. cbn. rewrite decide_False; [done|]. intros ->. by eapply Hn.
      - intros b ->. by destruct (Hn b). }
    destruct (decide (target o = Some h)) as [Ht|Ht].
    2: { apply fin.
      - unfold a_get, a'. by rewrite (sh_keep _ _ _ (spec_shape sz vclone a o)).
      - intros b ->. done. }
    specialize (Ho Ht). destruct o as [| | |h1| | | | | | | | | | | |h1|h1 i v| |b h1| |h1]; try done; cbn in Ht; injection Ht as ->.
    - apply fin; [|done]. unfold a'. cbn. rewrite Hx. destruct x; try done; cbn [fst a_new]; try done. rewrite get_tget. cbn [as_h a_set]. rewrite get_old by done. by rewrite <- get_tget.
    - apply fin; [|done]. unfold a'. cbn. rewrite Hx. by destruct x.
    - apply fin; [|done]. unfold a'. cbn. rewrite Hx. unfold a_replace. destruct x; try done; cbn [fst]; repeat case_match; cbn; try done.
    - clear fin. pose proof (next_spec cf a b h x Hx Hi) as Hn. 
      assert (nexts h [ONext (V:=V) b h] = [b]) as -> by (cbn; by rewrite decide_True).
      destruct (deque_take b (aqueue (as_trees a) x)) as [[r Q]|] eqn:Ed.
      + destruct Hn as (x' & HQ & Hk' & Ho'); [intros c0 Hc; by eapply af_covered|].
        assert (length (aqueue (as_trees a) x) = S (length Q)) as Hlen.
        { destruct (deque_take_sub _ _ _ _ Ed) as [Hp _]. rewrite Hp. done. }
        assert (as_trees a' = as_trees a /\ (exists hs2, as_h a' = <[h := Some x']> (as_h a) ++ hs2) /\
          ((exists n, snd (spec_step sz vclone a (ONext b h)) = RHandle n) \/ exists v, snd (spec_step sz vclone a (ONext b h)) = RVal v)) as (HT' & (hs2 & Hh) & Hr).
        { unfold a'. destruct x as [l|l|q|r0|r0|rs]; try done; unfold next_out in Ho'.
          - destruct Ho' as (l' & _ & ->). cbn. split_and!; eauto.
          - destruct Ho' as (_ & v & _ & ->). cbn. split; [done|]. split; [|eauto]. exists []. by rewrite app_nil_r.
          - rewrite Ho'. cbn. split_and!; eauto. }
        exists x'. split_and!.
        * rewrite get_tget, Hh. unfold tget. rewrite lookup_app_l by (by rewrite insert_length). by rewrite list_lookup_insert.
        * by destruct x, x'.
        * by destruct x, x'.
        * rewrite HT', HQ, Hlen. cbn. lia.
        * intros b' _. rewrite Hlen. split; [|tauto]. split; [|done]. intros Hr'. destruct Hr as [[n Hr]|[v Hr]]; congruence.
      + specialize (Hn (fun c0 Hc => af_covered _ _ _ _ F Hx Hc)). apply deque_take_None in Ed. exists x. unfold a'. rewrite Hn. cbn [fst snd]. split_and!; try done.
        * rewrite Ed. done.
        * intros b' _. rewrite Ed. split; [done|by left].
    - apply fin; [|done]. unfold a'. cbn. rewrite Hx. by destruct x.
  Qed.
  Lemma queue_run ops : forall w w' s outs h x, sim cf c w s -> run w ops = Ok (w', outs) -> Forall (iterates h) ops -> a_get (fst s) h = Some x -> a_iter x ->
    exists s' x', sim cf c w' s' /\ a_get (fst s') h = Some x' /\ a_iter x' /\ aty x' = aty x /\
      length (aqueue (as_trees (fst s')) x') = length (aqueue (as_trees (fst s)) x) - length (nexts h ops).
  Proof.
    induction ops as [|o ops IH]; intros w w' s outs h x R E HF Hx Hi.
    - apply lib_run_nil in E as [-> ->]. exists s, x. split_and!; try done. cbn. lia.
    - apply Forall_cons in HF as [Ho HF]. apply lib_run_cons in E as (w1 & r & rs' & E1 & E2 & ->).
      destruct (sim_step cf c w s o R) as (w1' & s1 & E1' & R1 & Hs1). rewrite E1 in E1'. injection E1' as <- ->.
      assert (exists x1, a_get (fst s1) h = Some x1 /\ a_iter x1 /\ aty x1 = aty x /\
        length (aqueue (as_trees (fst s1)) x1) = length (aqueue (as_trees (fst s)) x) - length (nexts h [o])) as (x1 & Hx1 & Hi1 & Ht1 & Hl1).
      { assert (get_muts o \/ ~ get_muts o) as [Hg|Hg]; [destruct o; ((by left) || (right; intros []))| |].
        - assert (target o <> Some h) as Ht. { intros Ht. specialize (Ho Ht). by destruct o. }
          destruct (sbase_frame cf c s o h (sim_facts _ _ _ _ R) Ht (a_get_lt _ _ _ Hx)) as (_ & Hg' & _). rewrite <- Hs1 in Hg'.
          exists x. rewrite Hg'. split_and!; try done. replace (nexts h [o]) with (@nil bool) by (by destruct o). cbn. rewrite Nat.sub_0_r.
          replace (as_trees (fst s1)) with (as_trees (fst s)); [done|]. rewrite Hs1. clear - Hg.
          destruct c; destruct o; try done; cbn; repeat case_match; try done; unfold a_replace; repeat case_match; done.
        - rewrite (sbase_spec cf c s o Hg) in Hs1. destruct (queue_step (fst s) o h x (sim_facts _ _ _ _ R) Ho Hx Hi) as (x1 & G1 & G2 & G3 & G4 & _).
          rewrite <- Hs1 in G1, G4. eauto. }
      destruct (IH _ _ _ _ _ _ R1 E2 HF Hx1 Hi1) as (s' & x' & R' & Hx' & Hi' & Ht' & Hl'). exists s', x'. split_and!; try done; [congruence|].
      rewrite Hl', Hl1, (nexts_cons h o ops), app_length. lia.
  Qed.
  Lemma size_hint_exact ops w h : lib_reach cf c ops w -> well_typed c w (TSizeHint h) ->
    exists n, tstep w (TSizeHint h) = Ok (w, THint n (Some n)) /\
      (exists w', tstep w (TCount h) = Ok (w', TNumber n) /\ call w (ODrop h) = Ok (w', RUnit)) /\
      forall ops2 w2 outs, run w ops2 = Ok (w2, outs) -> Forall (iterates h) ops2 ->
        let left := (n - N.of_nat (length (nexts h ops2)))%N in
        tstep w2 (TSizeHint h) = Ok (w2, THint left (Some left)) /\
        forall b, exists w3 r, call w2 (ONext b h) = Ok (w3, r) /\ (r = RNone <-> left = 0%N) /\
          (r = RNone \/ (exists n, r = RHandle n) \/ exists v, r = RVal v).
  Proof.
    intros R Ht. apply is_iterator_iff in Ht. destruct (lib_type c w h) as [t|] eqn:Et; [|done].
    pose proof R as [s S]%sim_reach. destruct (sim_len cf c w s h t S Et Ht) as (x & Hx & Hi & El).
    destruct (iter_cases _ _ _ _ R Et Ht) as (l & n & w' & _ & En & E1 & Ed & E2 & _).
    unfold exact_len in El. rewrite En in El. cbn in El. injection El as ->. eexists. split; [exact E1|]. split; [eauto|].
    intros ops2 w2 outs Er HF left. destruct (queue_run _ _ _ _ _ _ _ S Er HF Hx Hi) as (s2 & x2 & S2 & Hx2 & Hi2 & Ht2 & Hl2).
    assert (lib_type c w2 h = Some t) as Et2. { rewrite (sim_type cf c w2 s2 h S2), Hx2. cbn. rewrite Ht2. rewrite (sim_type cf c w s h S), Hx in Et. done. }
    assert (lib_reach cf c (ops ++ ops2) w2) as R2.
    { clear - R Er. destruct c; cbn in *; [by eapply reach_app|]. destruct R as [o1 E1]. exists (o1 ++ outs). rewrite xrun_app, E1. cbn. by rewrite Er. }
    destruct (sim_len cf c w2 s2 h t S2 Et2 Ht) as (x2' & Hx2' & _ & El2). rewrite Hx2 in Hx2'. injection Hx2' as <-.
    destruct (iter_cases _ _ _ _ R2 Et2 Ht) as (l2 & n2 & w2' & _ & En2 & E3 & _). unfold exact_len in El2. rewrite En2 in El2. cbn in El2. injection El2 as ->.
    assert (N.of_nat (length (aqueue (as_trees (fst s2)) x2)) = left) as Hleft. { unfold left. rewrite Hl2. lia. }
    rewrite E3, Hleft. split; [done|]. intros b.
    destruct (sim_step cf c w2 s2 (ONext b h) S2) as (w3 & s3 & E4 & _). rewrite sbase_spec in E4 by (intros []). eexists _, _. split; [exact E4|].
    destruct (queue_step (fst s2) (ONext b h) h x2 (sim_facts _ _ _ _ S2) ltac:(by intros _) Hx2 Hi2) as (_ & _ & _ & _ & _ & Hr).
    destruct (Hr b eq_refl) as [Hr1 Hr2]. split; [|done]. rewrite Hr1, <- Hleft. lia.
  Qed.

  (** *** Collecting *)
  Lemma gather_yields {I} (next : I -> option (V * I)) i l : yields next i l -> forall fuel, length l < fuel -> gather next fuel i = Ok l.
  Proof.
    induction 1 as [i E|i v i' l E _ IH]; intros [|fuel] Hf; cbn in *; try lia.
    - by rewrite E.
    - rewrite E, IH by lia. done.
  Qed.
  Lemma gather_ok {I} (next : I -> option (V * I)) fuel : forall i l, gather next fuel i = Ok l -> yields next i l /\ length l < fuel.
  Proof.
    induction fuel as [|fuel IH]; intros i l E; [done|]. cbn in E. destruct (next i) as [[v i']|] eqn:En.
    - destruct (gather next fuel i') as [l'| | |] eqn:E'; try done. cbn in E. injection E as <-. destruct (IH _ _ E'). split; [by econstructor|cbn; lia].
    - injection E as <-. split; [by constructor|cbn; lia].
  Qed.
  Lemma gather_cases {I} (next : I -> option (V * I)) fuel : forall i, (exists l, gather next fuel i = Ok l) \/ gather next fuel i = NoFuel.
  Proof.
    induction fuel as [|fuel IH]; intros i; [by right|]. cbn. destruct (next i) as [[v i']|]; [|eauto].
    destruct (IH i') as [[l ->]| ->]; cbn; eauto.
  Qed.
  Lemma from_iter_ok {I} (next : I -> option (V * I)) ops w mutable base i l fuel : lib_reach cf c ops w ->
    yields next i l -> length l < fuel -> (N.of_nat (length l) < usize_lim)%N ->
    exists w' n, lib_from_iter cf c mutable base next fuel w i = Ok (w', RHandle n) /\ items w' n = Some l /\
      lib_type c w' n = Some (if mutable then TyMut else TySlice) /\ lib_type c w n = None /\
      forall h, lib_type c w h <> None -> items w' h = items w h.
  Proof.
    intros R Hy Hf Hlen. pose proof R as [s S]%sim_reach. unfold lib_from_iter, from_iter. rewrite (gather_yields _ _ _ Hy _ Hf). cbn [mbind res_bind].
    set (o := if mutable then OMutFromVec base l else OFromVec base l).
    destruct (sim_step cf c w s o S) as (w' & s' & E & S' & Hs'). rewrite sbase_spec in E, Hs' by (unfold o; by destruct mutable; intros []).
    exists w', (length (as_h (fst s))). apply N.ltb_lt in Hlen.
    assert (snd (spec_step sz vclone (fst s) o) = RHandle (length (as_h (fst s)))) as Hr by (unfold o; destruct mutable; cbn; by rewrite Hlen).
    rewrite E, Hr. split; [done|].
    rewrite (sim_items cf c w' s' _ S'), (sim_type cf c w' s' _ S'), (sim_type cf c w s _ S), Hs'. split_and!.
    - unfold o. destruct mutable; cbn; rewrite Hlen; cbn; apply fresh_items; try done. cbn. unfold lrng. cbn. by rewrite lookup_app_r, Nat.sub_diag by lia.
    - unfold o. destruct mutable; cbn [spec_step]; rewrite Hlen; cbn [a_alloc a_root a_new fst]; rewrite get_tget; cbn [as_h a_set]; by rewrite get_new.
    - unfold a_get. by rewrite lookup_ge_None_2 by lia.
    - intros h Hh. destruct (lib_type c w h) as [t|] eqn:Et; [|done]. rewrite (sim_items cf c w' s' _ S'), (sim_items cf c w s _ S), Hs'.
      apply aitems_frame; [by eapply sim_facts|unfold o; by destruct mutable|by eapply lib_type_lt].
  Qed.
  Lemma from_iter_fuel {I} (next : I -> option (V * I)) w mutable base i fuel : lib_from_iter cf c mutable base next fuel w i = NoFuel ->
    (exists ops, lib_reach cf c ops w) -> forall l, yields next i l -> fuel <= length l.
  Proof.
    intros E [ops [s S]%sim_reach] l Hy. destruct (decide (length l < fuel)) as [Hf|]; [|lia]. exfalso. unfold lib_from_iter, from_iter in E. rewrite (gather_yields _ _ _ Hy _ Hf) in E. cbn in E.
    destruct (sim_step cf c w s (if mutable then OMutFromVec base l else OFromVec base l) S) as (w' & s' & E' & _). rewrite E in E'. done.
  Qed.
End laws.
