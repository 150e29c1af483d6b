(** Iterators: any interleaving of [next] and [next_back] takes from the two ends
    of a fixed queue (C16 to C21, C23, C25). *)
From Verif Require Import Base BaseLemmas Api SliceItemsModel BinPartsModel DataModel RcModel Spec SliceItemsProof Observe RelInv Refine Facts SpecTheory Frame Views RcTheory ShareTheory WriteTheory.

(** *** Queues of ranges *)
Definition rng_units (r : rng) : list rng :=
  (fun i => Rng (rg_blk r) (rg_lo r + N.of_nat i) 1) <$> seq 0 (N.to_nat (rg_len r)).
Definition qrngs (T : trees) (q : list (label * nat)) : list rng := q ≫= fun y => rng_leaves (snd y) (lrng T (fst y)).
Definition aqueue (T : trees) (x : ahandle) : list rng :=
  match x with AIter r => rng_units r | AMParts rs => rs | AParts q => qrngs T q | _ => [] end.
Definition a_iter (x : ahandle) : Prop := match x with AIter _ | AMParts _ | AParts _ => True | _ => False end.
Definition same_kind (x x' : ahandle) : Prop :=
  match x, x' with AIter _, AIter _ | AMParts _, AMParts _ | AParts _, AParts _ => True | _, _ => False end.
Lemma deque_take_snoc {A} (q : list A) x : deque_take true (q ++ [x]) = Some (x, q).
Proof. unfold deque_take. rewrite last_snoc. cbn. by rewrite removelast_last. Qed.
Lemma deque_take_None {A} b (q : list A) : deque_take b q = None <-> q = [].
Proof.
  destruct b; cbn; [|by destruct q]. destruct q as [|x q]; [done|]. split; [|done]. destruct (last (x :: q)) eqn:E; [done|]. by apply last_None in E.
Qed.
Lemma deque_take_fmap {A B} (f : A -> B) b (q : list A) :
  deque_take b (fmap (M:=list) f q) = match deque_take b q with Some (x, q) => Some (f x, fmap (M:=list) f q) | None => None end.
Proof.
  destruct b; cbn; [|by destruct q]. destruct (decide (q = [])) as [->|Hn]; [done|]. destruct (exists_last Hn) as (q' & x & ->).
  rewrite fmap_app. cbn. rewrite !last_snoc. cbn. by rewrite !removelast_last.
Qed.
Lemma deque_left_fmap {A B} (f : A -> B) bs : forall q : list A, deque_left bs (fmap (M:=list) f q) = fmap (M:=list) f (deque_left bs q).
Proof.
  induction bs as [|b bs IH]; intros q; [done|]. cbn [deque_left]. rewrite deque_take_fmap. destruct (deque_take b q) as [[x q']|]; apply IH.
Qed.
Lemma deque_left_app {A} bs bs' (q : list A) : deque_left (bs ++ bs') q = deque_left bs' (deque_left bs q).
Proof. revert q. induction bs as [|b bs IH]; intros q; [done|]. cbn. apply IH. Qed.
Lemma deque_take_sub {A} b (q q' : list A) x : deque_take b q = Some (x, q') -> q ≡ₚ x :: q' /\ (forall y, y ∈ q' -> y ∈ q).
Proof.
  destruct b; cbn.
  - destruct (decide (q = [])) as [->|Hn]; [done|]. destruct (exists_last Hn) as (q1 & y & ->). rewrite last_snoc. cbn. rewrite removelast_last. intros [= <- <-].
    split; [|set_solver]. by rewrite Permutation_app_comm.
  - destruct q; [done|]. intros [= <- <-]. split; [done|set_solver].
Qed.

Lemma rng_units_cells r : rng_units r ≫= rng_cells = rng_cells r.
Proof.
  unfold rng_units, rng_cells. generalize (seq 0 (N.to_nat (rg_len r))). intros l. induction l as [|i l IH]; [done|]. cbn. rewrite IH. change (Pos.to_nat 1) with 1%nat. cbn. do 2 f_equal. lia.
Qed.
Lemma qrngs_cells T q : qrngs T q ≫= rng_cells = q ≫= fun x => rng_cells (lrng T (fst x)).
Proof.
  induction q as [|[l j] q IH]; [done|]. unfold qrngs in *. cbn. rewrite bind_app, IH. f_equal. apply leaves_all_cells.
Qed.
Lemma aqueue_cells T x : a_iter x -> aqueue T x ≫= rng_cells = hcells T x.
Proof. destruct x; try done; intros _; cbn; [apply qrngs_cells|apply rng_units_cells]. Qed.
Lemma qrngs_app T q q' : qrngs T (q ++ q') = qrngs T q ++ qrngs T q'.
Proof. apply bind_app. Qed.
Lemma pop_front_rngs T j : forall l q l' q', pop_front T l j q = (l', q') ->
  rng_leaves j (lrng T l) ++ qrngs T q = lrng T l' :: qrngs T q'.
Proof.
  induction j as [|j IH]; intros l q l' q' E; cbn in E; [by injection E as <- <-|].
  apply IH in E. rewrite <- E. cbn. rewrite !lrng_lhalf, <- app_assoc. done.
Qed.
Lemma pop_back_rngs T j : forall l q l' q', pop_back T l j q = (l', q') ->
  qrngs T q ++ rng_leaves j (lrng T l) = qrngs T q' ++ [lrng T l'].
Proof.
  induction j as [|j IH]; intros l q l' q' E; cbn in E; [by injection E as <- <-|].
  apply IH in E. rewrite <- E, qrngs_app. cbn. rewrite !lrng_lhalf, app_nil_r, <- app_assoc. done.
Qed.
Lemma units_take b r : deque_take b (rng_units r) =
  if (rg_len r =? 0)%N then None else
  Some (Rng (rg_blk r) (if b then rg_lo r + rg_len r - 1 else rg_lo r)%N 1,
        rng_units (Rng (rg_blk r) (if b then rg_lo r else rg_lo r + 1)%N (rg_len r - 1))).
Proof.
  destruct (N.eqb_spec (rg_len r) 0) as [E|E].
  - unfold rng_units. rewrite E. by destruct b.
  - unfold rng_units. cbn [rg_len rg_blk rg_lo]. replace (N.to_nat (rg_len r)) with (S (N.to_nat (rg_len r - 1))) by lia. destruct b.
    + rewrite seq_S, fmap_app. cbn [fmap list_fmap]. rewrite deque_take_snoc. do 3 f_equal. lia.
    + cbn. do 2 f_equal; [f_equal; lia|]. rewrite <- seq_shift, <- list_fmap_compose. apply list_fmap_ext. intros i x _. unfold compose. f_equal. lia.
Qed.

Section iter.
  Context {V : Type} (cf : cfg V).
  Notation sz := (c_sz cf).
  Notation rel := (rel (c_sz cf)).
  Notation sstep := (spec_step (c_sz cf) (c_clone cf)).
  Notation srun := (spec_run (c_sz cf) (c_clone cf)).
  Implicit Types (w : world V) (a : astate V) (o : op V) (h : nat) (ops : list (op V)).

  Definition next_out a (x : ahandle) (h : nat) (b : bool) (r : rng) (x' : ahandle) : Prop :=
    match x with
    | AIter _ => rg_len r = 1%N /\ exists v, as_mem a !! (rg_blk r, rg_lo r) = Some v /\
        sstep a (ONext b h) = (a_set a (<[h := Some x']> (as_h a)), RVal v)
    | AMParts _ => sstep a (ONext b h) = a_new a (<[h := Some x']> (as_h a)) (AMut r)
    | _ => exists l', lrng (as_trees a) l' = r /\ sstep a (ONext b h) = a_new a (<[h := Some x']> (as_h a)) (ARc l')
    end.
  Lemma next_spec a b h x : a_get a h = Some x -> a_iter x -> (forall c, c ∈ hcells (as_trees a) x -> is_Some (as_mem a !! c)) ->
    match deque_take b (aqueue (as_trees a) x) with
    | None => sstep a (ONext b h) = (a, RNone)
    | Some (r, Q) => exists x', aqueue (as_trees a) x' = Q /\ same_kind x x' /\ next_out a x h b r x'
    end.
  Proof.
    intros Hx Hi Hc. destruct x as [l|l|q|r|r|rs]; try done; cbn [aqueue].
    - destruct b.
      + destruct (decide (q = [])) as [->|Hn]; [cbn; by rewrite Hx|]. destruct (exists_last Hn) as (q' & [l j] & ->).
        rewrite qrngs_app. unfold qrngs at 2. cbn [mbind list_bind fst snd]. rewrite app_nil_r.
        destruct (pop_back (as_trees a) l j q') as [l' q2] eqn:E. rewrite (pop_back_rngs _ _ _ _ _ _ E), deque_take_snoc.
        exists (AParts q2). split_and!; [done|done|]. cbn. exists l'. split; [done|]. rewrite Hx, last_snoc, removelast_last. by rewrite E.
      + destruct q as [|[l j] q]; [cbn; by rewrite Hx|]. unfold qrngs. cbn [mbind list_bind fst snd]. fold (qrngs (as_trees a) q).
        destruct (pop_front (as_trees a) l j q) as [l' q2] eqn:E. rewrite (pop_front_rngs _ _ _ _ _ _ E). cbn [deque_take].
        exists (AParts q2). split_and!; [done|done|]. cbn. exists l'. split; [done|]. rewrite Hx. cbn. by rewrite E.
    - rewrite units_take. destruct (N.eqb_spec (rg_len r) 0) as [E|E]; [cbn; rewrite Hx; by rewrite (proj2 (N.eqb_eq _ _) E)|].
      eexists (AIter _). split_and!; [done|done|]. cbn. split; [done|]. rewrite Hx, (proj2 (N.eqb_neq _ _) E).
      destruct (Hc (rg_blk r, if b then (rg_lo r + rg_len r - 1)%N else rg_lo r)) as [v Hv].
      { cbn. apply rng_cells_elem. cbn. destruct b; lia. }
      exists v. split; [done|]. by rewrite Hv.
    - destruct b.
      + destruct (decide (rs = [])) as [->|Hn]; [cbn; by rewrite Hx|]. destruct (exists_last Hn) as (q' & r & ->).
        rewrite deque_take_snoc. exists (AMParts q'). split_and!; [done|done|]. cbn. by rewrite Hx, last_snoc, removelast_last.
      + destruct rs as [|r rs]; [cbn; by rewrite Hx|]. exists (AMParts rs). split_and!; [done|done|]. cbn. by rewrite Hx.
  Qed.

  Lemma qrngs_ext T T' q : (forall l, l ∈ q.*1 -> lrng T' l = lrng T l) -> qrngs T' q = qrngs T q.
  Proof.
    induction q as [|[l j] q IH]; intros H; [done|]. unfold qrngs in *. cbn. rewrite (H l) by (cbn; by left). f_equal. apply IH. intros l' Hl. apply H. cbn. by right.
  Qed.
  Lemma aqueue_prefix w a h x T2 : rel w a -> a_get a h = Some x -> aqueue (as_trees a ++ T2) x = aqueue (as_trees a) x.
  Proof.
    intros R Hx. destruct x as [l|l|q|r|r|rs]; try done. cbn. apply qrngs_ext. intros l Hl. apply lrng_prefix.
    apply (fact_tree _ _ _ R h (AParts q) l Hx). by left.
  Qed.
  (** One call. *)
  Lemma iter_inv w a w' o h x : rel w a -> rel w' (fst (sstep a o)) -> iterates h o -> a_get a h = Some x -> a_iter x ->
    let a' := fst (sstep a o) in
    exists x', a_get a' h = Some x' /\ same_kind x x' /\ aqueue (as_trees a') x' = deque_left (nexts h [o]) (aqueue (as_trees a) x) /\
      ((target o = Some h -> ~ writes o) -> forall c, c ∈ hcells (as_trees a') x' -> as_mem a' !! c = as_mem a !! c).
  Proof.
    intros R R' Ho Hx Hi a'. assert (same_kind x x) as Hk by (by destruct x).
    assert (h < length (as_h a))%nat as Hlt by (by eapply a_get_lt).
    destruct (decide (target o = Some h)) as [Ht|Ht].
    2: { destruct (frame _ (c_clone cf) _ _ R o h x Ht Hx) as (H1 & H2 & H3). exists x. split_and!; [done|done| |].
      - destruct (sh_trees _ _ _ (spec_shape sz (c_clone cf) a o)) as (T2 & HT & _). unfold a'. rewrite HT, (aqueue_prefix _ _ _ _ T2 R Hx).
        destruct o; try done. cbn in Ht |- *. destruct (decide (h = h0)) as [->|]; [by destruct Ht|done].
      - intros _ c Hc. apply H3. by rewrite <- H2. }
    (* the cells and items left over are unchanged *)
    assert (forall x', a_get a' h = Some x' -> (target o = Some h -> ~ writes o) -> forall c, c ∈ hcells (as_trees a') x' -> as_mem a' !! c = as_mem a !! c) as Hmem.
    { intros x' Hx' Hw c Hc. destruct (fact_covered _ _ _ R' _ _ _ Hx' Hc) as [v Hv]. fold a' in Hv. rewrite Hv.
      destruct (mem_step sz (c_clone cf) a o c v Hv) as [H|[H|H]].
      - done.
      - exfalso. assert (forall y, y ∈ hcells (as_trees a') x' -> (fst y < length (as_base a))%nat) as Hb; [|specialize (Hb c Hc); lia].
        intros y Hy. eapply (cell_blk _ _ _ R h x y Hx).
        destruct (derived_spec cf a o h x Ht Hx) as [Hd _].
        { specialize (Ho Ht). destruct o; cbn; try tauto; done. }
        { intros l Hl. apply (fact_tree _ _ _ R h x l Hx). by left. }
        destruct (Hd x' Hx') as (l1 & l2 & Heq). fold a' in Heq. rewrite Heq, !elem_of_app. tauto.
      - exfalso. destruct H as (h0 & x0 & c0 & v0 & old & _ & _ & _ & _ & _ & Hwr & _). by apply (Hw Ht). }
    assert (forall a1 x', a' = a1 -> a_get a1 h = Some x' -> same_kind x x' -> aqueue (as_trees a1) x' = deque_left (nexts h [o]) (aqueue (as_trees a) x) ->
      exists x', a_get a' h = Some x' /\ same_kind x x' /\ aqueue (as_trees a') x' = deque_left (nexts h [o]) (aqueue (as_trees a) x) /\
      ((target o = Some h -> ~ writes o) -> forall c, c ∈ hcells (as_trees a') x' -> as_mem a' !! c = as_mem a !! c)) as fin.
    { intros a1 x' <- H1 H2 H3. exists x'. split_and!; try done. by apply Hmem. }
    specialize (Ho Ht). destruct o as [| | |h1| | | | | | | | | | | |h1|h1 i v| |b h1| |h1]; try done; cbn in Ht; injection Ht as ->.
    - (* clone *)
      destruct x as [l|l|q|r|r|rs]; try done.
      + assert (as_h a' = as_h a ++ [Some (AParts q)] /\ as_trees a' = as_trees a) as [Hh HT] by (unfold a'; cbn; by rewrite Hx).
        eapply (fin a' (AParts q)); [done| |done|by rewrite HT]. destruct (tab_app a' _ h _ Hh Hlt) as [-> _]. by rewrite <- get_tget.
      + eapply (fin a (AIter r)); [|exact Hx|done|done]. unfold a'. cbn. by rewrite Hx.
      + eapply (fin a (AMParts rs)); [|exact Hx|done|done]. unfold a'. cbn. by rewrite Hx.
    - eapply (fin a x); [|exact Hx|done|done]. unfold a'. cbn. rewrite Hx. by destruct x.
    - assert ((exists cs, a' = fst (a_replace a cs i v)) \/ a' = a) as Hr.
      { unfold a'. cbn. rewrite Hx. destruct x; eauto. }
      assert (as_trees a' = as_trees a /\ as_h a' = as_h a) as [HT Hh].
      { destruct Hr as [[cs ->]| ->]; [|done]. unfold a_replace. repeat case_match; done. }
      eapply (fin a' x); [done| |done|by rewrite HT]. rewrite get_tget, Hh, <- get_tget. done.
    - pose proof (next_spec a b h x Hx Hi) as Hn. 
      assert (deque_left (nexts h [ONext (V:=V) b h]) (aqueue (as_trees a) x) = match deque_take b (aqueue (as_trees a) x) with Some (_, q) => q | None => aqueue (as_trees a) x end) as Hq.
      { cbn. by rewrite decide_True by done. }
      destruct (deque_take b _) as [[r Q]|]; [|].
      + destruct Hn as (x' & HQ & Hk' & Ho'); [intros c Hc; by eapply fact_covered|].
        assert (as_trees a' = as_trees a /\ exists hs2, as_h a' = <[h := Some x']> (as_h a) ++ hs2) as (HT & hs2 & Hh).
        { unfold a'. destruct x as [l|l|q|r0|r0|rs]; try done; unfold next_out in Ho'.
          - destruct Ho' as (l' & _ & ->). cbn. eauto.
          - destruct Ho' as (_ & v & _ & ->). cbn. split; [done|]. exists []. by rewrite app_nil_r.
          - rewrite Ho'. cbn. eauto. }
        eapply (fin a' x'); [done| |done|by rewrite HT, Hq]. rewrite get_tget, Hh. unfold tget. rewrite lookup_app_l by (by rewrite insert_length).
        by rewrite list_lookup_insert.
      + eapply (fin a x); [|exact Hx|done|by rewrite Hq]. unfold a'. rewrite Hn; [done|]. intros c Hc. by eapply fact_covered.
    - eapply (fin a x); [|exact Hx|done|done]. unfold a'. cbn. rewrite Hx. by destruct x.
  Qed.

  Lemma nexts_cons h o ops : nexts h (o :: ops) = nexts h [o] ++ nexts h ops.
  Proof. cbn. by repeat case_match. Qed.
  Lemma deque_left_sub {A} bs : forall (q : list A) y, y ∈ deque_left bs q -> y ∈ q.
  Proof.
    induction bs as [|b bs IH]; intros q y H; [done|]. cbn in H. apply IH in H. destruct (deque_take b q) as [[x q']|] eqn:E; [|done].
    by apply (proj2 (deque_take_sub _ _ _ _ E)).
  Qed.
  Lemma queue_cells T x c : a_iter x -> c ∈ hcells T x <-> exists r, r ∈ aqueue T x /\ c ∈ rng_cells r.
  Proof. intros Hi. rewrite <- (aqueue_cells T x Hi), elem_of_list_bind. firstorder. Qed.
  Lemma same_iter x x' : same_kind x x' -> a_iter x'.
  Proof. by destruct x, x'. Qed.
  Lemma same_trans x x' x'' : same_kind x x' -> same_kind x' x'' -> same_kind x x''.
  Proof. by destruct x, x', x''. Qed.

  Lemma iter_run h ops : forall w a x w' rs, rel w a -> rrun cf w ops = Ok (w', rs) -> Forall (iterates h) ops ->
    a_get a h = Some x -> a_iter x -> let a' := fst (srun a ops) in rel w' a' /\
    exists x', a_get a' h = Some x' /\ same_kind x x' /\ aqueue (as_trees a') x' = deque_left (nexts h ops) (aqueue (as_trees a) x) /\
      as_base a `prefix_of` as_base a' /\
      (Forall (only_iterates h) ops -> forall c, c ∈ hcells (as_trees a') x' -> as_mem a' !! c = as_mem a !! c).
  Proof.
    induction ops as [|o ops IH]; intros w a x w' rs R E Ho Hx Hi.
    - injection E as <- <-. split; [done|]. exists x. split_and!; try done. by destruct x.
    - apply rrun_cons in E as (w1 & r & rs' & E1 & E2 & ->). destruct (step_rel _ _ _ _ _ _ R E1) as [_ R1].
      apply Forall_cons in Ho as [Ho Hos].
      destruct (iter_inv _ _ _ o h x R R1 Ho Hx Hi) as (x1 & Hx1 & Hk1 & Hq1 & Hm1).
      destruct (IH _ _ x1 _ _ R1 E2 Hos Hx1 (same_iter _ _ Hk1)) as (R2 & x2 & Hx2 & Hk2 & Hq2 & Hb2 & Hm2).
      rewrite srun_cons. split; [done|]. exists x2. split_and!; [done|by eapply same_trans| | |].
      + by rewrite Hq2, Hq1, (nexts_cons h o ops), deque_left_app.
      + etrans; [|exact Hb2]. apply (sh_base _ _ _ (spec_shape sz (c_clone cf) a o)).
      + intros [[_ Hw] Hos']%Forall_cons c Hc. rewrite Hm2 by done. apply Hm1; [done|].
        apply (queue_cells _ x2) in Hc as (r' & Hr & Hc); [|by eapply same_iter].
        apply (queue_cells _ x1); [by eapply same_iter|]. exists r'. split; [|done]. rewrite Hq2 in Hr. by apply deque_left_sub in Hr.
  Qed.

  (** *** Reading queues *)
  Lemma rview_fst a r : fst (rview cf a r) = if (sz =? 0)%N then None else cell_addr sz (as_base a) <$> head (rng_cells r).
  Proof.
    unfold rview. cbn. destruct (sz =? 0)%N; [done|]. cbn. unfold rng_cells. destruct (N.eqb_spec (rg_len r) 0) as [->|E]; [done|].
    replace (N.to_nat (rg_len r)) with (S (N.to_nat (rg_len r - 1))) by lia. cbn. do 3 f_equal. lia.
  Qed.
  Lemma join_rview a r q : q ≫= rng_cells = rng_cells r -> join_view (rview cf a <$> q) = rview cf a r.
  Proof.
    intros Hq. apply injective_projections.
    - rewrite rview_fst, <- Hq. cbn [join_view fst]. clear Hq r. induction q as [|r q IH]; [by destruct (sz =? 0)%N|].
      cbn [fmap list_fmap omap list_omap]. rewrite rview_fst. destruct (sz =? 0)%N eqn:E; [exact IH|]. cbn [mbind list_bind].
      destruct (rng_cells r) as [|c cs]; [cbn; exact IH|done].
    - cbn [join_view snd]. unfold rview at 2. cbn [snd]. rewrite <- Hq. clear Hq r.
      induction q as [|r q IH]; [done|]. cbn [mbind list_bind fmap list_fmap]. rewrite cells_vals_app, <- IH. done.
  Qed.
  Lemma units_view a r : covered a r -> rview cf a <$> rng_units r = items_view cf (rview cf a r).
  Proof.
    intros Hc. unfold items_view. rewrite rview_len by done. unfold rng_units. rewrite <- list_fmap_compose. apply list_fmap_ext.
    intros i x Hi. apply lookup_seq in Hi as [-> Hi]. unfold compose. cbn [Nat.add]. pose proof (rview_sub cf a r (N.of_nat i) 1 Hc) as H.
    rewrite Nat2N.id in H. change (N.to_nat 1) with 1%nat in H. rewrite <- H by lia. done.
  Qed.
  Lemma half_cells_list r : rng_cells (half false r) = take (length (rng_cells r) / 2) (rng_cells r) /\
    rng_cells (half true r) = drop (length (rng_cells r) / 2) (rng_cells r).
  Proof.
    assert (length (rng_cells (half false r)) = length (rng_cells r) / 2)%nat as Hl.
    { rewrite !rng_cells_length. cbn. rewrite N2Nat.inj_div. done. }
    rewrite <- Hl. rewrite (half_cells r). by rewrite take_app, drop_app.
  Qed.
  Lemma leaves_cells k : forall r, rng_cells <$> rng_leaves k r = list_leaves k (rng_cells r).
  Proof.
    induction k as [|k IH]; intros r; [done|]. cbn [rng_leaves list_leaves]. destruct (half_cells_list r) as [<- <-].
    by rewrite fmap_app, !IH.
  Qed.
  Lemma qrngs_len T q : N.of_nat (length (qrngs T q)) = foldr (fun x acc => 2 ^ N.of_nat (snd x) + acc)%N 0%N q.
  Proof.
    induction q as [|[l j] q IH]; [done|]. unfold qrngs in *. cbn [mbind list_bind foldr]. rewrite app_length, Nat2N.inj_add, IH, rng_leaves_length. done.
  Qed.
  Lemma len_spec a h x : a_get a h = Some x -> a_iter x -> sstep a (OLen h) = (a, RLen (N.of_nat (length (aqueue (as_trees a) x)))).
  Proof.
    intros Hx Hi. cbn. rewrite Hx. destruct x; try done; cbn.
    - by rewrite qrngs_len.
    - unfold rng_units. rewrite fmap_length, seq_length. by rewrite N2Nat.id.
  Qed.
  (** Reading does not change anything. *)
  Lemma read_same w h o w' r : o = OLen h \/ o = ODeref h \/ o = OGetMut h -> rstep cf w o = Ok (w', r) -> w' = w.
  Proof.
    intros Ho E. unfold rstep in E. destruct w as [d g hs]. destruct Ho as [->|[->| ->]]; cbn [step] in E; unfold ret, ret_slice in E;
      destruct (get_h _ _) as [[]|]; try (by injection E as <- _);
      repeat match type of E with
      | (?m ≫= _) = Ok _ => destruct m; cbn [mbind res_bind] in E; try done
      | (match ?m with _ => _ end) = Ok _ => destruct m; cbn [mbind res_bind] in E; try done
      end; unfold ret in E; by injection E as <- _.
  Qed.

  (** What the queue of an iterator variable says about the calls on it. *)
  Lemma queue_calls w a h x q : rel w a -> a_get a h = Some x -> a_iter x -> aqueue (as_trees a) x = q ->
    h_cells cf w h = q ≫= rng_cells /\
    view cf w h = Some (join_view (rview cf a <$> q)) /\
    rstep cf w (OLen h) = Ok (w, RLen (N.of_nat (length q))) /\
    forall b, exists w', rstep cf w (ONext b h) = Ok (w', snd (sstep a (ONext b h))) /\
      match deque_take b q with
      | None => snd (sstep a (ONext b h)) = RNone
      | Some (r, _) =>
        match x with
        | AIter _ => exists v, item w (rg_blk r, rg_lo r) = Some v /\ rview cf a r = (fst (rview cf a r), [v]) /\ snd (sstep a (ONext b h)) = RVal v
        | _ => snd (sstep a (ONext b h)) = RHandle (length (w_h w)) /\ h_cells cf w' (length (w_h w)) = rng_cells r /\
               view cf w' (length (w_h w)) = Some (rview cf a r) /\
               match x with AMParts _ => is_mut w' (length (w_h w)) | _ => is_rc w' (length (w_h w)) end
        end
      end.
  Proof.
    intros R Hx Hi Hq. assert (~ a_weak x) as Hw by (intros ?; by destruct x).
    destruct (handle_rng cf _ _ _ _ R Hx Hw) as (r & Hr & Hcov & Hv).
    assert (q ≫= rng_cells = rng_cells r) as Hqc by (by rewrite <- Hq, aqueue_cells).
    pose proof (rel_len cf _ _ R) as Hlen. assert (h < length (as_h a))%nat as Hlt by (by eapply a_get_lt).
    split_and!.
    - rewrite (get_view_at cf _ _ _ _ r R Hx Hw Hr). done.
    - rewrite Hv. by rewrite (join_rview _ r q).
    - destruct (rstep_spec cf _ _ (OLen h) R) as (w' & E & _). rewrite (len_spec _ _ _ Hx Hi), Hq in E. cbn in E.
      pose proof (read_same _ _ _ _ _ (or_introl eq_refl) E) as ->. exact E.
    - intros b. destruct (rstep_spec cf _ _ (ONext b h) R) as (w' & E & R'). exists w'. split; [done|].
      pose proof (next_spec a b h x Hx Hi) as Hn. rewrite Hq in Hn.
      assert (forall c, c ∈ hcells (as_trees a) x -> is_Some (as_mem a !! c)) as Hall by (intros c Hc; by eapply (fact_covered _ _ _ R)).
      specialize (Hn Hall). destruct (deque_take b q) as [[r1 Q]|] eqn:Ed; [|by rewrite Hn].
      destruct Hn as (x' & HQ & Hk & Hout).
      assert (covered a r1) as Hcov1.
      { intros c Hc. apply Hall. apply (queue_cells _ _ _ Hi). exists r1. split; [|done]. rewrite Hq.
        rewrite (proj1 (deque_take_sub _ _ _ _ Ed)). by left. }
      assert (forall y l, y = ARc l \/ y = AMut r1 -> hcells (as_trees a) y = rng_cells r1 -> sstep a (ONext b h) = a_new a (<[h:=Some x']> (as_h a)) y ->
        snd (sstep a (ONext b h)) = RHandle (length (w_h w)) /\ h_cells cf w' (length (w_h w)) = rng_cells r1 /\
        view cf w' (length (w_h w)) = Some (rview cf a r1) /\ a_get (fst (sstep a (ONext b h))) (length (w_h w)) = Some y) as Hnew.
      { intros y l Hy Hyc Hs. assert (~ a_weak y) as Hwy by (destruct Hy as [->| ->]; by cbn; intros []).
        assert (as_h (fst (sstep a (ONext b h))) = <[h := Some x']> (as_h a) ++ [Some y]) as Hh by (by rewrite Hs).
        destruct (tab_new _ _ _ _ _ Hh Hlt) as [_ Hn]. rewrite Hlen in Hn.
        split_and!; [by rewrite Hs; cbn; rewrite insert_length, Hlen| | |done].
        - eapply (get_view_at cf _ _ _ _ r1 R' Hn Hwy). by rewrite Hs.
        - eapply (view_new cf _ _ _ _ _ _ r1 R R'); [by cbn; intros []|exact Hn|done|by rewrite Hs|done]. }
      unfold next_out in Hout. destruct x as [l|l|qq|r0|r0|rs]; try done.
      + destruct Hout as (l' & Hl & Hs). destruct (Hnew (ARc l') l' (or_introl eq_refl)) as (H1 & H2 & H3 & H4); [cbn; by rewrite Hl|done|].
        split_and!; try done. apply (kind_rc cf _ _ _ R'). eauto.
      + destruct Hout as (Hl1 & v & Hv1 & Hs). exists v. assert (as_mem a = dw_mem (w_d w)) as Hm by (by destruct R as (P & _ & _ & _ & Hm & _)).
        split_and!; [by unfold item; rewrite <- Hm| |by rewrite Hs].
        apply injective_projections; [done|]. unfold rview. cbn. unfold rng_cells. rewrite Hl1. change (N.to_nat 1) with 1%nat. cbn. rewrite N.add_0_r, Hv1. done.
      + destruct (Hnew (AMut r1) (Lbl 0 []) (or_intror eq_refl) eq_refl Hout) as (H1 & H2 & H3 & H4).
        split_and!; try done. apply (kind_mut cf _ _ _ R'). eauto.
  Qed.

  Lemma run_rview w a h ops w' rs x x' : rel w a -> a_get a h = Some x -> a_iter x -> rel w' (fst (srun a ops)) ->
    a_get (fst (srun a ops)) h = Some x' -> same_kind x x' -> aqueue (as_trees (fst (srun a ops))) x' = deque_left (nexts h ops) (aqueue (as_trees a) x) ->
    as_base a `prefix_of` as_base (fst (srun a ops)) -> rrun cf w ops = Ok (w', rs) ->
    (forall c, c ∈ hcells (as_trees (fst (srun a ops))) x' -> as_mem (fst (srun a ops)) !! c = as_mem a !! c) ->
    forall r, r ∈ deque_left (nexts h ops) (aqueue (as_trees a) x) -> rview cf (fst (srun a ops)) r = rview cf a r.
  Proof.
    intros R Hx Hi R' Hx' Hk Hq Hb E Hm r Hr.
    apply rview_ext; [|done|].
    - intros c Hc. apply Hm. apply (queue_cells _ _ _ (same_iter _ _ Hk)). exists r. split; [by rewrite Hq|done].
    - eapply (covered_blk cf _ _ _ R). intros c Hc. eapply (fact_covered _ _ _ R _ _ _ Hx). apply (queue_cells _ _ _ Hi). exists r. split; [|done]. by apply deque_left_sub in Hr.
  Qed.
  Lemma run_only h ops : Forall (only_iterates (V:=V) h) ops -> Forall (iterates h) ops.
  Proof. intros H. eapply Forall_impl; [exact H|]. by intros o []. Qed.


  Definition kind_of (x : ahandle) : world V -> nat -> Prop := match x with AMParts _ => is_mut | _ => is_rc end.
  Lemma queue_over w a h x : rel w a -> a_get a h = Some x -> a_iter x ->
    match x with
    | AIter _ => items_over cf w h (rview cf a <$> aqueue (as_trees a) x)
    | _ => parts_over cf (kind_of x) w h (rview cf a <$> aqueue (as_trees a) x) /\ parts_over_cells cf w h (rng_cells <$> aqueue (as_trees a) x)
    end.
  Proof.
    intros R Hx Hi. destruct (queue_calls _ _ h x _ R Hx Hi eq_refl) as (H1 & H2 & H3 & H4).
    assert (forall q : list rng, q ≫= rng_cells = concat (rng_cells <$> q)) as Hcc by (intros q; induction q as [|r q IH]; [done|]; cbn; by rewrite IH).
    destruct x as [l|l|qq|r0|r0|rs]; try done.
    - split; [split_and!|split].
      + done.
      + by rewrite fmap_length.
      + intros b. destruct (H4 b) as (w' & E' & H). exists w'. cbn zeta. rewrite deque_take_fmap. destruct (deque_take b _) as [[r Q]|].
        * destruct H as (H & _ & ? & ?). rewrite H in E'. done.
        * by rewrite H in E'.
      + by rewrite H1, Hcc.
      + intros b. destruct (H4 b) as (w' & E' & H). exists w'. cbn zeta. rewrite deque_take_fmap. destruct (deque_take b _) as [[r Q]|].
        * destruct H as (H & ? & _). rewrite H in E'. done.
        * by rewrite H in E'.
    - split_and!; [done|by rewrite fmap_length|].
      intros b. destruct (H4 b) as (w' & E' & H). exists w'. rewrite deque_take_fmap. destruct (deque_take b _) as [[r Q]|].
      + destruct H as (v & _ & Hr & H). rewrite E', Hr, H. done.
      + by rewrite E', H.
    - split; [split_and!|split].
      + done.
      + by rewrite fmap_length.
      + intros b. destruct (H4 b) as (w' & E' & H). exists w'. cbn zeta. rewrite deque_take_fmap. destruct (deque_take b _) as [[r Q]|].
        * destruct H as (H & _ & ? & ?). rewrite H in E'. done.
        * by rewrite H in E'.
      + by rewrite H1, Hcc.
      + intros b. destruct (H4 b) as (w' & E' & H). exists w'. cbn zeta. rewrite deque_take_fmap. destruct (deque_take b _) as [[r Q]|].
        * destruct H as (H & ? & _). rewrite H in E'. done.
        * by rewrite H in E'.
  Qed.

  Lemma same_kind_of x x' : same_kind x x' -> kind_of x' = kind_of x.
  Proof. by destruct x, x'. Qed.
  Lemma over_run w a h x ops w' rs : rel w a -> a_get a h = Some x -> a_iter x -> rrun cf w ops = Ok (w', rs) -> Forall (iterates h) ops ->
    exists x', rel w' (fst (srun a ops)) /\ a_get (fst (srun a ops)) h = Some x' /\ same_kind x x' /\
    match x with
    | AIter _ => True
    | _ => parts_over_cells cf w' h (deque_left (nexts h ops) (rng_cells <$> aqueue (as_trees a) x))
    end /\ h_cells cf w' h = deque_left (nexts h ops) (aqueue (as_trees a) x) ≫= rng_cells /\
    (Forall (only_iterates h) ops ->
      (rview cf (fst (srun a ops)) <$> aqueue (as_trees (fst (srun a ops))) x') = deque_left (nexts h ops) (rview cf a <$> aqueue (as_trees a) x) /\
      match x with
      | AIter _ => items_over cf w' h (deque_left (nexts h ops) (rview cf a <$> aqueue (as_trees a) x))
      | _ => parts_over cf (kind_of x) w' h (deque_left (nexts h ops) (rview cf a <$> aqueue (as_trees a) x))
      end).
  Proof.
    intros R Hx Hi E Ho. destruct (iter_run h ops _ _ _ _ _ R E Ho Hx Hi) as (R2 & x2 & Hx2 & Hk2 & Hq2 & Hb & Hm). exists x2.
    pose proof (queue_over _ _ _ _ R2 Hx2 (same_iter _ _ Hk2)) as Hov. rewrite Hq2 in Hov. split_and!; [done|done|done| | |].
    - rewrite <- (deque_left_fmap rng_cells) in Hov. destruct x, x2; try done; by destruct Hov.
    - destruct (queue_calls _ _ h x2 _ R2 Hx2 (same_iter _ _ Hk2) Hq2) as (H1 & _). done.
    - intros Ho'. specialize (Hm Ho'). pose proof (run_rview _ _ h ops _ _ _ _ R Hx Hi R2 Hx2 Hk2 Hq2 Hb E Hm) as Hrv.
      assert (rview cf (fst (srun a ops)) <$> deque_left (nexts h ops) (aqueue (as_trees a) x) = deque_left (nexts h ops) (rview cf a <$> aqueue (as_trees a) x)) as Hl.
      { rewrite deque_left_fmap. apply list_fmap_ext. intros i r1 Hr. apply Hrv. by apply elem_of_list_lookup_2 in Hr. }
      rewrite Hl in Hov. split; [by rewrite Hq2|]. rewrite <- (same_kind_of _ _ Hk2). destruct x, x2; try done; by destruct Hov.
  Qed.

  (** C16 *)
  Lemma iter_items ops w h v ops2 w2 outs : reach cf ops w -> is_iter w h -> view cf w h = Some v ->
    rrun cf w ops2 = Ok (w2, outs) -> Forall (only_iterates h) ops2 ->
    is_iter w2 h /\ items_over cf w2 h (deque_left (nexts h ops2) (items_view cf v)).
  Proof.
    intros R Hk Hv E Ho. apply reach_rel in R. generalize dependent (hist cf ops). intros a R. clear ops.
    destruct (proj1 (kind_iter cf w a h R) Hk) as [r Hx].
    destruct (view_cov cf _ _ _ _ r R Hx ltac:(by intros []) eq_refl) as [Hcov Hv']. rewrite Hv in Hv'. apply (inj Some) in Hv' as ->.
    destruct (over_run _ _ _ _ _ _ _ R Hx I E (run_only _ _ Ho)) as (x' & R2 & Hx' & Hk' & _ & _ & H). destruct (H Ho) as [_ H'].
    split; [apply (kind_iter cf _ _ _ R2); destruct x'; eauto; done|]. cbn [aqueue] in H'. by rewrite units_view in H'.
  Qed.
  Lemma deque_left_list {A B} (f : A -> list B) bs : forall q, (forall x, x ∈ q -> length (f x) = 1%nat) ->
    deque_left bs (q ≫= f) = deque_left bs q ≫= f.
  Proof.
    induction bs as [|b bs IH]; intros q Hq; [done|]. cbn [deque_left].
    destruct (deque_take b q) as [[x q']|] eqn:Ed.
    - rewrite <- IH. 2:{ intros y Hy. apply Hq. by eapply deque_take_sub. } f_equal.
      destruct b; cbn in *.
      + destruct (decide (q = [])) as [->|Hn]; [done|]. destruct (exists_last Hn) as (q1 & y & ->). rewrite last_snoc in Ed. cbn in Ed. rewrite removelast_last in Ed. injection Ed as -> ->.
        rewrite bind_app. cbn. rewrite app_nil_r. specialize (Hq x ltac:(set_solver)). destruct (f x) as [|z [|]]; [done| |done]. rewrite last_snoc. cbn. by rewrite removelast_last.
      + destruct q as [|y q]; [done|]. injection Ed as -> ->. cbn. specialize (Hq x ltac:(set_solver)). by destruct (f x) as [|z [|]].
    - apply deque_take_None in Ed as ->. cbn [mbind list_bind]. rewrite <- IH by set_solver. cbn. by destruct b.
  Qed.
  (** The same with writes through the iterator's [as_mut_slice]: which cells remain. *)
  Lemma iter_cells ops w h ops2 w2 outs : reach cf ops w -> is_iter w h ->
    rrun cf w ops2 = Ok (w2, outs) -> Forall (iterates h) ops2 ->
    is_iter w2 h /\ h_cells cf w2 h = deque_left (nexts h ops2) (h_cells cf w h) /\
    forall b, exists w3, rstep cf w2 (ONext b h) =
      Ok (w3, match deque_take b (h_cells cf w2 h) with Some (c, _) => match item w2 c with Some v => RVal v | None => RNone end | None => RNone end).
  Proof.
    intros R Hk E Ho. apply reach_rel in R. generalize dependent (hist cf ops). intros a R. clear ops.
    destruct (proj1 (kind_iter cf w a h R) Hk) as [r Hx].
    destruct (over_run _ _ _ _ _ _ _ R Hx I E Ho) as (x' & R2 & Hx' & Hk' & _ & Hc & _).
    split; [apply (kind_iter cf _ _ _ R2); destruct x'; eauto; done|].
    assert (forall r, forall x, x ∈ rng_units r -> length (rng_cells x) = 1%nat) as Hu by (intros r0 x (i & -> & _)%elem_of_list_fmap; done). split.
    - rewrite Hc, (fact_h_cells _ _ _ R cf h eq_refl), Hx. cbn [aqueue hcells]. rewrite <- deque_left_list by apply Hu. by rewrite rng_units_cells.
    - destruct x' as [l|l|qq|r0|r'|rs]; try done.
      destruct (queue_calls _ _ _ _ _ R2 Hx' I eq_refl) as (H1 & _ & _ & H4). intros b. destruct (H4 b) as (w3 & E3 & H3). exists w3. rewrite E3. do 2 f_equal.
      rewrite H1. cbn [aqueue] in *. 
      assert (forall q : list rng, (forall x, x ∈ q -> length (rng_cells x) = 1%nat) -> deque_take b (q ≫= rng_cells) = match deque_take b q with Some (r, q') => Some ((rg_blk r, rg_lo r), q' ≫= rng_cells) | None => None end) as Hd.
      { intros q Hq. assert (forall x, x ∈ q -> rng_cells x = [(rg_blk x, rg_lo x)]) as Hq'.
        { intros x Hx0. specialize (Hq x Hx0). unfold rng_cells in *. rewrite fmap_length, seq_length in Hq. rewrite Hq. cbn. do 2 f_equal. lia. }
        destruct b; cbn.
        - destruct (decide (q = [])) as [->|Hn]; [done|]. destruct (exists_last Hn) as (q1 & y & ->). rewrite bind_app, last_snoc. cbn. rewrite app_nil_r, removelast_last. rewrite Hq' by set_solver. rewrite last_snoc. cbn. by rewrite removelast_last.
        - destruct q as [|y q]; [done|]. cbn. by rewrite Hq' by set_solver. }
      rewrite Hd by apply Hu. destruct (deque_take b (rng_units r')) as [[r1 Q]|]; [|done]. destruct H3 as (v & -> & _ & ->). done.
  Qed.

  Lemma log2_exact_pow k : log2_exact (2 ^ N.of_nat k) = Some k.
  Proof. unfold log2_exact. rewrite N.log2_pow2, N.eqb_refl by lia. by rewrite Nat2N.id. Qed.

  (** C18-C21: splitting into parts *)
  Lemma parts_run ops w h k v : reach cf ops w -> is_rc w h \/ is_mut w h -> view cf w h = Some v -> (2 ^ N.of_nat k < usize_lim)%N ->
    let n := length (w_h w) in
    exists w1, rstep cf w (OSplitIntoParts h (2 ^ N.of_nat k)) = Ok (w1, RHandle n) /\
      (is_rc w h -> is_parts w1 n) /\ (is_mut w h -> is_mparts w1 n) /\
      forall ops2 w2 outs, rrun cf w1 ops2 = Ok (w2, outs) ->
        (Forall (iterates n) ops2 -> parts_over_cells cf w2 n (deque_left (nexts n ops2) (list_leaves k (h_cells cf w h)))) /\
        (Forall (only_iterates n) ops2 ->
           (is_rc w h -> parts_over cf is_rc w2 n (deque_left (nexts n ops2) (view_leaves cf k v))) /\
           (is_mut w h -> parts_over cf is_mut w2 n (deque_left (nexts n ops2) (view_leaves cf k v)))).
  Proof.
    cbn zeta. intros R Hk Hv Hlt. apply reach_rel in R. generalize dependent (hist cf ops). intros a R. clear ops.
    pose proof (rel_len cf _ _ R) as Hlen.
    assert (exists r y y', a_get a h = Some y /\ (y = AMut r /\ y' = AMParts (rng_leaves k r) \/ exists l, y = ARc l /\ r = lrng (as_trees a) l /\ y' = AParts [(l, k)]) /\
      hcells (as_trees a) y = rng_cells r /\
      aqueue (as_trees a) y' = rng_leaves k r /\ sstep a (OSplitIntoParts h (2 ^ N.of_nat k)) = a_new a (<[h := None]> (as_h a)) y') as (r & y & y' & Hx & Hy & Hc & Hq & Hs).
    { cbn [spec_step]. rewrite (proj2 (N.ltb_lt _ _) Hlt). cbn [negb]. rewrite log2_exact_pow. destruct Hk as [Hk|Hk].
      - destruct (proj1 (kind_rc cf w a h R) Hk) as [l Hx]. exists (lrng (as_trees a) l), (ARc l), (AParts [(l, k)]). rewrite Hx. split_and!; eauto. cbn. by rewrite app_nil_r.
      - destruct (proj1 (kind_mut cf w a h R) Hk) as [r Hx]. exists r, (AMut r), (AMParts (rng_leaves k r)). rewrite Hx. split_and!; eauto. }
    destruct (rstep_spec cf _ _ (OSplitIntoParts h (2 ^ N.of_nat k)) R) as (w1 & E1 & R1). exists w1.
    assert (a_get (fst (sstep a (OSplitIntoParts h (2 ^ N.of_nat k)))) (length (w_h w)) = Some y') as Hg.
    { rewrite Hs, get_tget. cbn. rewrite <- Hlen. replace (length (as_h a)) with (length (<[h := None]> (as_h a))) by apply insert_length. apply get_new. }
    assert (~ a_weak y) as Hnw by (destruct Hy as [[-> _]|(l & -> & _)]; intros []).
    assert (a_iter y') as Hi by (destruct Hy as [[_ ->]|(l & _ & _ & ->)]; exact I).
    destruct (view_cov cf _ _ _ _ r R Hx Hnw Hc) as [Hcov Hv']. rewrite Hv in Hv'. apply (inj Some) in Hv' as ->.
    assert (as_trees (fst (sstep a (OSplitIntoParts h (2 ^ N.of_nat k)))) = as_trees a) as HT by by rewrite Hs.
    assert (as_base (fst (sstep a (OSplitIntoParts h (2 ^ N.of_nat k)))) = as_base a) as HB by by rewrite Hs.
    assert (rview cf (fst (sstep a (OSplitIntoParts h (2 ^ N.of_nat k)))) <$> aqueue (as_trees a) y' = view_leaves cf k (rview cf a r)) as Hvl.
    { rewrite Hq, <- rview_leaves by done. apply list_fmap_ext. intros i r1 Hr1. apply elem_of_list_lookup_2 in Hr1.
      pose proof (covered_leaves a k r Hcov) as Hall. rewrite Forall_forall in Hall. specialize (Hall r1 Hr1).
      apply rview_ext; [|by rewrite HB|by apply (covered_blk cf _ _ _ R)].
      assert (forall c, c ∈ rng_cells r1 -> c ∈ hcells (as_trees a) y') as Hin.
      { intros c Hc1. apply (queue_cells _ _ _ Hi). exists r1. by rewrite Hq. }
      intros c Hc1. destruct (Hall c Hc1) as [v0 Hv0]. rewrite Hv0. 
      destruct (fact_covered _ _ _ R1 _ _ c Hg ltac:(rewrite HT; by apply Hin)) as [v1 Hv1]. rewrite Hv1. rewrite Hs in Hv1. cbn in Hv1.
      apply map_filter_lookup_Some in Hv1 as [Hv1 _]. congruence. }
    assert (snd (sstep a (OSplitIntoParts h (2 ^ N.of_nat k))) = RHandle (length (w_h w))) as Hout by (rewrite Hs; cbn; by rewrite insert_length, Hlen).
    rewrite Hout in E1. split; [done|].
    assert (is_rc w h -> exists l, y' = AParts l) as K1.
    { intros [l Hl]%(kind_rc cf _ _ _ R). rewrite Hx in Hl. injection Hl as ->. destruct Hy as [[? _]|(l' & _ & _ & ->)]; [done|eauto]. }
    assert (is_mut w h -> exists l, y' = AMParts l) as K2.
    { intros [l Hl]%(kind_mut cf _ _ _ R). rewrite Hx in Hl. injection Hl as ->. destruct Hy as [[? ->]|(l' & ? & _ & ->)]; [eauto|done]. }
    split_and!.
    - intros [l ->]%K1. apply (kind_parts cf _ _ _ R1). eauto.
    - intros [l ->]%K2. apply (kind_mparts cf _ _ _ R1). eauto.
    - intros ops2 w2 outs E2. split.
      + intros Ho. destruct (over_run _ _ _ _ _ _ _ R1 Hg Hi E2 Ho) as (x2 & _ & _ & _ & H & _).
        rewrite HT, Hq, leaves_cells in H. rewrite (get_view_at cf _ _ _ _ _ R Hx Hnw Hc).
        destruct Hy as [[_ ->]|(l & _ & _ & ->)]; done.
      + intros Ho. destruct (over_run _ _ _ _ _ _ _ R1 Hg Hi E2 (run_only _ _ Ho)) as (x2 & _ & _ & _ & _ & _ & H). destruct (H Ho) as [_ H'].
        rewrite HT, Hvl in H'. split.
        * intros [l ->]%K1. done.
        * intros [l ->]%K2. done.
  Qed.

  (** C23 *)
  Lemma parts_clone ops w h : reach cf ops w -> is_parts w h ->
    let m := length (w_h w) in
    exists q w1, parts_over cf is_rc w h q /\ rstep cf w (OClone h) = Ok (w1, RHandle m) /\ is_parts w1 m /\
      forall ops2 w2 outs, rrun cf w1 ops2 = Ok (w2, outs) ->
        (Forall (only_iterates h) ops2 -> parts_over cf is_rc w2 h (deque_left (nexts h ops2) q)) /\
        (Forall (only_iterates m) ops2 -> parts_over cf is_rc w2 m (deque_left (nexts m ops2) q)).
  Proof.
    cbn zeta. intros R Hk. apply reach_rel in R. generalize dependent (hist cf ops). intros a R. clear ops.
    pose proof (rel_len cf _ _ R) as Hlen. destruct (proj1 (kind_parts cf w a h R) Hk) as [qq Hx].
    destruct (rstep_spec cf _ _ (OClone h) R) as (w1 & E1 & R1). exists (rview cf a <$> aqueue (as_trees a) (AParts qq)), w1.
    assert (sstep a (OClone h) = a_new a (as_h a) (AParts qq)) as Hs by (cbn [spec_step]; by rewrite Hx).
    assert (a_get (fst (sstep a (OClone h))) (length (w_h w)) = Some (AParts qq)) as Hg by (rewrite Hs, get_tget; cbn; rewrite <- Hlen; apply get_new).
    assert (a_get (fst (sstep a (OClone h))) h = Some (AParts qq)) as Hg'.
    { rewrite Hs, get_tget. cbn. rewrite get_old by (by eapply a_get_lt). by rewrite <- get_tget. }
    assert (as_trees (fst (sstep a (OClone h))) = as_trees a) as HT by by rewrite Hs.
    assert (rview cf (fst (sstep a (OClone h))) <$> aqueue (as_trees a) (AParts qq) = rview cf a <$> aqueue (as_trees a) (AParts qq)) as Hvl.
    { apply list_fmap_ext. intros i r Hr. apply elem_of_list_lookup_2 in Hr.
      assert (covered a r) as Hcov. { intros c Hc. eapply (fact_covered _ _ _ R _ _ _ Hx). apply (queue_cells (as_trees a) (AParts qq) c I). exists r. done. }
      apply rview_ext; [|by rewrite Hs|by apply (covered_blk cf _ _ _ R)].
      intros c Hc1. destruct (Hcov c Hc1) as [v0 Hv0]. rewrite Hv0.
      destruct (fact_covered _ _ _ R1 _ _ c Hg ltac:(rewrite HT; apply (queue_cells (as_trees a) (AParts qq) c I); by exists r)) as [v1 Hv1]. rewrite Hv1. rewrite Hs in Hv1. cbn in Hv1.
      apply map_filter_lookup_Some in Hv1 as [Hv1 _]. congruence. }
    assert (snd (sstep a (OClone h)) = RHandle (length (w_h w))) as Hout by (rewrite Hs; cbn; by rewrite Hlen).
    rewrite Hout in E1. split_and!; [by apply (queue_over _ _ _ (AParts qq) R Hx I)|done|apply (kind_parts cf _ _ _ R1); eauto|].
    intros ops2 w2 outs E2. split; intros Ho.
    - destruct (over_run _ _ _ _ _ _ _ R1 Hg' I E2 (run_only _ _ Ho)) as (x2 & _ & _ & _ & _ & _ & H). destruct (H Ho) as [_ H']. rewrite HT, Hvl in H'. done.
    - destruct (over_run _ _ _ _ _ _ _ R1 Hg I E2 (run_only _ _ Ho)) as (x2 & _ & _ & _ & _ & _ & H). destruct (H Ho) as [_ H']. rewrite HT, Hvl in H'. done.
  Qed.

  (** C17 *)
  Lemma split_at_views ops w h v to i : reach cf ops w -> is_iter w h -> view cf w h = Some v ->
    let len := length (snd v) in let n := length (w_h w) in
    ((len < i)%nat -> rstep cf w (OSplitAt to h (N.of_nat i)) = Ok (w, RPanic)) /\
    ((i <= len)%nat -> exists w', rstep cf w (OSplitAt to h (N.of_nat i)) = Ok (w', RHandle n) /\ is_iter w' h /\ is_iter w' n /\
      view cf w' (if to then n else h) = Some (sub_view cf v 0 i) /\
      view cf w' (if to then h else n) = Some (sub_view cf v i (len - i)) /\
      (forall h', h' <> h -> (h' < n)%nat -> view cf w' h' = view cf w h')).
  Proof.
    cbn zeta. intros R Hk Hv. apply reach_rel in R. generalize dependent (hist cf ops). intros a R. clear ops.
    pose proof (rel_len cf _ _ R) as Hlen. destruct (proj1 (kind_iter cf w a h R) Hk) as [r Hx].
    destruct (view_cov cf _ _ _ _ r R Hx ltac:(by intros []) eq_refl) as [Hcov Hv']. rewrite Hv in Hv'. apply (inj Some) in Hv' as ->.
    rewrite (rview_len cf a r Hcov). destruct (rstep_spec cf _ _ (OSplitAt to h (N.of_nat i)) R) as (w1 & E1 & R1).
    cbn [spec_step] in E1, R1. rewrite Hx in E1, R1. split; intros Hi.
    - rewrite (proj2 (N.ltb_lt _ _)) in E1, R1 by lia. cbn [snd] in E1. rewrite E1. do 2 f_equal.
      clear R1. unfold rstep in E1. cbn [step] in E1. destruct w as [d g hs]. cbn [w_d w_g w_h fst snd] in *. unfold ret, ret_new in E1. destruct (get_h _ h) as [[]|]; try done.
      destruct (iter_split_off _ _ _ _) as [[d' [m1 m2]]| | |]; try done. by injection E1 as <-.
    - rewrite (proj2 (N.ltb_ge _ _)) in E1, R1 by lia. exists w1.
      assert (N.of_nat i <= rg_len r)%N as Hi' by lia.
      set (r1 := Rng (rg_blk r) (rg_lo r) (N.of_nat i)) in *. set (r2 := Rng (rg_blk r) (rg_lo r + N.of_nat i) (rg_len r - N.of_nat i)) in *.
      assert (sub_view cf (rview cf a r) 0 i = rview cf a r1 /\ covered a r1) as [-> Hc1].
      { assert (r1 = sub_rng r 0 (N.of_nat i)) as -> by (unfold sub_rng, r1; f_equal; lia).
        split; [rewrite rview_sub by (done || lia); by rewrite Nat2N.id|apply covered_sub; [done|lia]]. }
      assert (sub_view cf (rview cf a r) i (N.to_nat (rg_len r) - i) = rview cf a r2 /\ covered a r2) as [-> Hc2].
      { change r2 with (sub_rng r (N.of_nat i) (rg_len r - N.of_nat i)).
        split; [rewrite rview_sub by (done || lia); rewrite Nat2N.id; f_equal; lia|apply covered_sub; [done|lia]]. }
      assert (h < length (as_h a))%nat as Hlt by (by eapply a_get_lt).
      assert (exists y1 y2, sstep a (OSplitAt to h (N.of_nat i)) = a_new a (<[h := Some (AIter y1)]> (as_h a)) (AIter y2) /\
        (y1, y2) = if to then (r2, r1) else (r1, r2)) as (y1 & y2 & Hs & Hy).
      { cbn [spec_step]. rewrite Hx, (proj2 (N.ltb_ge _ _)) by lia. destruct to; eauto. }
      assert (snd (sstep a (OSplitAt to h (N.of_nat i))) = RHandle (length (w_h w))) as Hout by (rewrite Hs; cbn; by rewrite insert_length, Hlen).
      destruct (rstep_spec cf _ _ (OSplitAt to h (N.of_nat i)) R) as (w1' & E1' & R1'). rewrite Hout in E1'.
      assert (w1' = w1) as ->. { rewrite E1' in E1. by injection E1. }
      assert (a_get (fst (sstep a (OSplitAt to h (N.of_nat i)))) (length (w_h w)) = Some (AIter y2)) as Hnew.
      { rewrite Hs, get_tget. cbn. rewrite <- Hlen, <- (insert_length (as_h a) h (Some (AIter y1))). apply get_new. }
      assert (a_get (fst (sstep a (OSplitAt to h (N.of_nat i)))) h = Some (AIter y1)) as Hold.
      { rewrite Hs, get_tget. cbn. rewrite get_old by (by rewrite insert_length). by apply get_upd. }
      assert (forall r, ~ a_weak (AIter r)) as Hw by (by intros ? []).
      split_and!; [done|apply (kind_iter cf _ _ _ R1'); eauto|apply (kind_iter cf _ _ _ R1'); eauto| | |].
      + destruct to; injection Hy as -> ->.
        * by eapply (view_new cf _ _ _ _ _ _ _ R R1' id Hnew (Hw _)).
        * by eapply (view_new cf _ _ _ _ _ _ _ R R1' id Hold (Hw _)).
      + destruct to; injection Hy as -> ->.
        * by eapply (view_new cf _ _ _ _ _ _ _ R R1' id Hold (Hw _)).
        * by eapply (view_new cf _ _ _ _ _ _ _ R R1' id Hnew (Hw _)).
      + intros h' Hne Hlt'. eapply view_frame; try done. cbn. congruence.
  Qed.

  (** C25: how halving distributes [n] items over [2^k] parts *)
  Lemma leaves_count k : forall v : option N * list V, length (view_leaves cf k v) = (2 ^ k)%nat.
  Proof. induction k as [|k IH]; intros v; [done|]. cbn [view_leaves]. rewrite app_length, !IH. cbn. lia. Qed.
  Lemma half_view_items side (v : option N * list V) : snd (half_view cf side v) =
    if side then drop (length (snd v) / 2) (snd v) else take (length (snd v) / 2) (snd v).
  Proof.
    unfold half_view, sub_view. destruct side; cbn; [|done]. apply take_ge. rewrite drop_length. lia.
  Qed.
  Lemma leaves_items k : forall v : option N * list V, view_leaves cf k v ≫= snd = snd v.
  Proof.
    induction k as [|k IH]; intros v; [cbn; apply app_nil_r|]. cbn [view_leaves]. rewrite bind_app, !IH, !half_view_items. apply take_drop.
  Qed.
  Lemma half_sizes side (v : option N * list V) : length (snd (half_view cf side v)) =
    if side then ((length (snd v) + 1) / 2)%nat else (length (snd v) / 2)%nat.
  Proof.
    rewrite half_view_items. destruct side; [rewrite drop_length|rewrite take_length].
    - pose proof (Nat.div_mod_eq (length (snd v)) 2). pose proof (Nat.mod_upper_bound (length (snd v)) 2).
      pose proof (Nat.div_mod_eq (length (snd v) + 1) 2). pose proof (Nat.mod_upper_bound (length (snd v) + 1) 2). lia.
    - apply Nat.min_l. apply Nat.div_le_upper_bound; lia.
  Qed.
  Lemma div_pow_S n k : (n / 2 ^ S k = n / 2 / 2 ^ k)%nat.
  Proof. cbn [Nat.pow]. by rewrite Nat.div_div by (try apply Nat.pow_nonzero; lia). Qed.
  Lemma leaves_sizes k : forall (v : option N * list V) u, u ∈ view_leaves cf k v ->
    (length (snd v) / 2 ^ k <= length (snd u) <= (length (snd v) + 2 ^ k - 1) / 2 ^ k)%nat.
  Proof.
    induction k as [|k IH]; intros v u.
    - intros ->%elem_of_list_singleton. cbn [Nat.pow]. rewrite !Nat.div_1_r. lia.
    - assert (2 ^ k <> 0)%nat as Hk by (apply Nat.pow_nonzero; lia).
      cbn [view_leaves]. rewrite elem_of_app. intros [Hu|Hu]; apply IH in Hu; rewrite half_sizes in Hu; set (n := length (snd v)) in *.
      + assert (n / 2 ^ S k = n / 2 / 2 ^ k)%nat as E1 by apply div_pow_S.
        assert ((n / 2 + 2 ^ k - 1) / 2 ^ k <= (n + 2 ^ S k - 1) / 2 ^ S k)%nat as E2.
        { rewrite div_pow_S. apply Nat.div_le_mono; [done|]. cbn [Nat.pow].
          pose proof (Nat.div_mod_eq n 2). pose proof (Nat.mod_upper_bound n 2).
          apply Nat.div_le_lower_bound; lia. }
        lia.
      + assert (n / 2 ^ S k <= (n + 1) / 2 / 2 ^ k)%nat as E1.
        { rewrite div_pow_S. apply Nat.div_le_mono; [done|]. apply Nat.div_le_mono; lia. }
        assert (((n + 1) / 2 + 2 ^ k - 1) / 2 ^ k <= (n + 2 ^ S k - 1) / 2 ^ S k)%nat as E2.
        { rewrite div_pow_S. apply Nat.div_le_mono; [done|]. cbn [Nat.pow].
          pose proof (Nat.div_mod_eq (n+1) 2). pose proof (Nat.mod_upper_bound (n+1) 2).
          apply Nat.div_le_lower_bound; lia. }
        lia.
  Qed.
End iter.
