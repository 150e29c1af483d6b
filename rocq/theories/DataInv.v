(** The invariant of the data layer (DataModel.v) and its preservation by the
    elementary steps. *)
From Verif Require Import Base BaseLemmas SliceItemsModel DataModel Spec SliceItemsProof.
Local Open Scope N_scope.

(** ** Heaps, again *)
Section heap.
  Context {A : Type}.
  Implicit Types (h : heap A).
  Local Open Scope nat_scope.
  Definition cval (o : option (nat * A)) : nat := match o with Some (s, _) => s | None => 0 end.
  Lemma rc_count_insert h i o j : i < length h ->
    rc_count (<[i := o]> h) j = if decide (j = i) then cval o else rc_count h j.
  Proof.
    intros Hi. unfold rc_count. case_decide; subst.
    - rewrite list_lookup_insert by done. by destruct o as [[]|].
    - by rewrite list_lookup_insert_ne.
  Qed.
  Lemma rc_count_snoc h o j :
    rc_count (h ++ [o]) j = if decide (j = length h) then cval o else rc_count h j.
  Proof.
    unfold rc_count. case_decide; subst.
    - rewrite list_lookup_middle by done. by destruct o as [[]|].
    - destruct (decide (j < length h)).
      + by rewrite lookup_app_l.
      + rewrite (lookup_ge_None_2 h) by lia. by rewrite lookup_ge_None_2 by (rewrite app_length; cbn; lia).
  Qed.
  Lemma live_insert h i o j s v : live (<[i := o]> h) j s v ->
    (i = j /\ o = Some (s, v) /\ j < length h) \/ (i <> j /\ live h j s v).
  Proof. unfold live. rewrite list_lookup_insert_Some. tauto. Qed.
  Lemma live_insert_eq h i s v : i < length h -> live (<[i := Some (s, v)]> h) i s v.
  Proof. intros. unfold live. by rewrite list_lookup_insert. Qed.
  Lemma live_insert_ne h i o j s v : i <> j -> live h j s v -> live (<[i := o]> h) j s v.
  Proof. intros. unfold live. by rewrite list_lookup_insert_ne. Qed.
  Lemma live_snoc h o j s v : live (h ++ [o]) j s v ->
    (j = length h /\ o = Some (s, v)) \/ (j < length h /\ live h j s v).
  Proof.
    unfold live. rewrite lookup_app_Some, list_lookup_singleton_Some.
    intros [H|(? & ? & ?)]; [right; split; [by eapply lookup_lt_Some|done]|left; split; [lia|done]].
  Qed.
  Lemma live_app_l h h' j s v : live h j s v -> live (h ++ h') j s v.
  Proof. unfold live. intros. by apply lookup_app_l_Some. Qed.
  Lemma live_fun h j s v s' v' : live h j s v -> live h j s' v' -> s = s' /\ v = v'.
  Proof. unfold live. intros H1 H2. rewrite H1 in H2. by inversion H2. Qed.
  Lemma rc_count_pos h j : 0 < rc_count h j -> exists s v, live h j s v /\ s = rc_count h j.
  Proof. unfold rc_count, live. destruct (h !! j) as [[[s v]|]|] eqn:E; [eauto|lia|lia]. Qed.
  Lemma hsum_insert_live f h i s v o :
    live h i s v -> hsum f (<[i := o]> h) + f v = hsum f h + ev f o.
  Proof. intros H. by apply (hsum_insert f h i _ o) in H. Qed.
End heap.

(** ** Ranges and cells *)
Definition in_rng (c : nat * N) (r : rng) : bool :=
  (fst c =? rg_blk r)%nat && (rg_lo r <=? snd c) && (snd c <? rg_lo r + rg_len r).
Lemma in_rng_spec c r : in_rng c r = true <-> fst c = rg_blk r /\ rg_lo r <= snd c < rg_lo r + rg_len r.
Proof.
  unfold in_rng. rewrite !andb_true_iff, Nat.eqb_eq, N.leb_le, N.ltb_lt. tauto.
Qed.
Lemma in_rng_cells c r : in_rng c r = true <-> c ∈ rng_cells r.
Proof. by rewrite in_rng_spec, rng_cells_elem. Qed.
(** 1 if the cell is in the range. *)
Definition inr (c : nat * N) (r : rng) : nat := if in_rng c r then 1 else 0.
Lemma inr_split c b lo x y :
  inr c (Rng b lo (x + y)) = (inr c (Rng b lo x) + inr c (Rng b (lo + x) y))%nat.
Proof.
  unfold inr, in_rng. cbn. destruct (fst c =? b)%nat; [|done]. cbn.
  destruct (N.leb_spec lo (snd c)), (N.ltb_spec (snd c) (lo + (x + y))), (N.ltb_spec (snd c) (lo + x)),
    (N.leb_spec (lo + x) (snd c)), (N.ltb_spec (snd c) (lo + x + y)); cbn; lia.
Qed.
Lemma inr_empty c b lo : inr c (Rng b lo 0) = 0%nat.
Proof.
  unfold inr. destruct (in_rng c (Rng b lo 0)) eqn:E; [|done].
  apply in_rng_spec in E as [_ E]. cbn in E. lia.
Qed.
Lemma inr_half c r : inr c r = (inr c (half false r) + inr c (half true r))%nat.
Proof.
  destruct r as [b lo len]. cbn. rewrite <- inr_split. f_equal. f_equal. pose proof (div2_le len). lia.
Qed.
Lemma inr_le1 c r : (inr c r <= 1)%nat.
Proof. unfold inr. destruct (in_rng c r); lia. Qed.
Lemma inr_blk c r : (0 < inr c r)%nat -> fst c = rg_blk r.
Proof. unfold inr. destruct (in_rng c r) eqn:E; [|lia]. by apply in_rng_spec in E as [-> _]. Qed.

(** ** Labels *)
Lemma lchild_inj l s l' s' : lchild l s = lchild l' s' -> l = l' /\ s = s'.
Proof.
  destruct l as [t p], l' as [t' p']. unfold lchild. cbn. intros [= -> [-> ->]%app_inj_tail]. done.
Qed.
Lemma lchild_ne l s : lchild l s <> l.
Proof.
  destruct l as [t p]. unfold lchild. cbn. intros [= E]. apply (f_equal length) in E.
  rewrite app_length in E. cbn in E. lia.
Qed.
Lemma lrng_child T l s : lrng T (lchild l s) = half s (lrng T l).
Proof. unfold lrng, path_rng, lchild. cbn. by rewrite foldl_app. Qed.
Lemma lrng_snoc T r l : (l_tree l < length T)%nat -> lrng (T ++ [r]) l = lrng T l.
Proof. intros H. unfold lrng. by rewrite lookup_app_l. Qed.
Lemma lrng_new T r : lrng (T ++ [r]) (Lbl (length T) []) = r.
Proof. unfold lrng. cbn. by rewrite list_lookup_middle. Qed.
Definition lapp (l : label) (p : list bool) : label := Lbl (l_tree l) (l_path l ++ p).
Lemma lapp_nil l : lapp l [] = l.
Proof. destruct l. unfold lapp. cbn. by rewrite app_nil_r. Qed.
Lemma lapp_snoc l p s : lapp l (p ++ [s]) = lchild (lapp l p) s.
Proof. unfold lapp, lchild. cbn. by rewrite app_assoc. Qed.
Lemma lapp_cons l s p : lapp l (s :: p) = lapp (lchild l s) p.
Proof. unfold lapp, lchild. cbn. by rewrite <- app_assoc. Qed.
Lemma anc_lapp l l' : anc l l' <-> exists p, l' = lapp l p.
Proof.
  destruct l as [t q], l' as [t' q']. unfold anc, lapp, prefix. cbn. split.
  - intros [-> [k ->]]. eauto.
  - intros [p [= -> ->]]. eauto.
Qed.
Lemma anc_refl l : anc l l.
Proof. by split. Qed.
Lemma anc_trans l1 l2 l3 : anc l1 l2 -> anc l2 l3 -> anc l1 l3.
Proof. intros [? ?] [? ?]. split; [congruence|by etrans]. Qed.
Lemma anc_antisym l1 l2 : anc l1 l2 -> anc l2 l1 -> l1 = l2.
Proof. destruct l1, l2. intros [? ?] [? ?]. cbn in *. f_equal; [done|by apply (anti_symm prefix)]. Qed.
Lemma anc_child l s : anc l (lchild l s).
Proof. apply anc_lapp. exists [s]. done. Qed.
Lemma lapp_inj l p p' : lapp l p = lapp l p' -> p = p'.
Proof. unfold lapp. intros [= ?%app_inv_head]. done. Qed.
(** A strict descendant of a child is not the other child's. *)
Lemma anc_sibling l s s' l' : anc (lchild l s) l' -> anc (lchild l s') l' -> s = s'.
Proof.
  rewrite !anc_lapp. intros [p ->] [p' E]. rewrite <- !lapp_cons in E. apply lapp_inj in E. by inversion E.
Qed.
Lemma anc_inv l l' : anc l l' -> l' = l \/ exists s, anc (lchild l s) l'.
Proof.
  rewrite anc_lapp. intros [[|s p] ->]; [left; apply lapp_nil|right; exists s].
  rewrite lapp_cons. apply anc_lapp. eauto.
Qed.
Lemma anc_lchild_inv l l' s : anc l (lchild l' s) -> l = lchild l' s \/ anc l l'.
Proof.
  rewrite anc_lapp. intros [p E]. destruct p as [|x p _] using rev_ind.
  - left. by rewrite lapp_nil in E.
  - right. rewrite lapp_snoc in E. apply lchild_inj in E as [-> _]. apply anc_lapp. eauto.
Qed.
Lemma in_rng_half c s r : in_rng c (half s r) = true -> in_rng c r = true.
Proof.
  intros H. pose proof (inr_half c r) as E. unfold inr in E. 
  destruct (in_rng c r); [done|]. destruct s; rewrite H in E; destruct (in_rng c (half _ r)); lia.
Qed.
Lemma in_rng_anc T c l l' : anc l l' -> in_rng c (lrng T l') = true -> in_rng c (lrng T l) = true.
Proof.
  intros [p ->]%anc_lapp. induction p as [|s p IH] using rev_ind; [by rewrite lapp_nil|].
  rewrite lapp_snoc, lrng_child. intros H%in_rng_half. auto.
Qed.

(** ** The invariant *)
Section inv.
  Context {V : Type} (sz : N).
  Notation dworld := (dworld V).

  (** Address and length of the buffers. *)
  Definition bshape (w : dworld) : list (N * N) := (fun b => (b_base b, b_len b)) <$> dw_blocks w.
  Definition bbase (B : list (N * N)) (b : nat) : N := default 0 (fst <$> B !! b).

  (** The range of a node and the part of it that belongs to no child. *)
  Definition nrng (n : dnode) : rng := Rng (p_blk (d_ptr n)) (p_idx (d_ptr n)) (d_len n).
  Definition own_rng (n : dnode) : rng :=
    match d_left n, d_right n with
    | None, None => nrng n
    | Some _, None => half true (nrng n)
    | None, Some _ => half false (nrng n)
    | Some _, Some _ => Rng (rg_blk (nrng n)) (rg_lo (nrng n)) 0
    end.
  Definition kids (n : dnode) : list nat := option_list (d_left n) ++ option_list (d_right n).

  Definition rng_ok (B : list (N * N)) (r : rng) : Prop :=
    exists base len, B !! rg_blk r = Some (base, len) /\ rg_lo r + rg_len r <= len /\ len < usize_lim.
  (** A live [SliceAlloc] holds the pointer and length of a buffer that is not freed. *)
  Definition alloc_ok (w : dworld) (v : salloc) : Prop :=
    exists blk, dw_blocks w !! p_blk (sa_ptr v) = Some blk /\ b_freed blk = false /\
      p_addr (sa_ptr v) = b_base blk /\ sa_len v = b_len blk.
  (** A non-empty range is kept allocated. *)
  Definition ent_ok (w : dworld) (r : rng) (o : option nat) : Prop :=
    rng_ok (bshape w) r /\
    (sz <> 0 -> rg_len r <> 0 ->
     exists a s v, o = Some a /\ live (dw_allocs w) a s v /\ p_blk (sa_ptr v) = rg_blk r).

  Definition ocnt (c : nat * N) (O : list (rng * option nat)) : nat := sum_list ((fun x => inr c (fst x)) <$> O).
  Definition alloc_refs (O : list (rng * option nat)) : list nat := O ≫= fun x => option_list (snd x).
  Definition memcnt (w : dworld) (c : nat * N) : nat := if dw_mem w !! c then 1 else 0.

  (** [T]: the halving trees; [L]: the label of every node ever created; [R]:
      references to nodes held outside the heap of nodes; [O]: ranges owned
      outside the heap of nodes, with the [SliceAlloc] reference that comes
      along. *)
  Record dinv (w : dworld) (T : trees) (L : list label) (R : list nat) (O : list (rng * option nat)) : Prop := {
    di_len : length L = length (dw_datas w);
    di_nodup : NoDup L;
    di_lab : forall l, l ∈ L -> (l_tree l < length T)%nat;
    di_closed : forall l side, lchild l side ∈ L -> l ∈ L;
    di_pos : forall d n, ~ live (dw_datas w) d 0 n;
    di_cnt : forall d, rc_count (dw_datas w) d = (cnt d R + hsum (fun n => cnt d (kids n)) (dw_datas w))%nat;
    di_geo : forall d s n l, live (dw_datas w) d s n -> L !! d = Some l ->
      nrng n = lrng T l /\ points sz (bbase (bshape w) (p_blk (d_ptr n))) (p_blk (d_ptr n)) (p_idx (d_ptr n)) (d_ptr n);
    di_link : forall p s n l side c, live (dw_datas w) p s n -> L !! p = Some l ->
      d_child side n = Some c -> (p < c)%nat /\ L !! c = Some (lchild l side);
    di_nolink : forall p s n l side, live (dw_datas w) p s n -> L !! p = Some l ->
      d_child side n = None -> lchild l side ∉ L;
    di_own : forall c, (hsum (fun n => inr c (own_rng n)) (dw_datas w) + ocnt c O)%nat = memcnt w c;
    di_acnt : forall a, rc_count (dw_allocs w) a =
      (hsum (fun n => cnt a (option_list (d_alloc n))) (dw_datas w) + cnt a (alloc_refs O))%nat;
    di_apos : forall a v, ~ live (dw_allocs w) a 0 v;
    di_aok : forall a s v, live (dw_allocs w) a s v -> alloc_ok w v;
    di_auniq : forall a s v a' s' v', live (dw_allocs w) a s v -> live (dw_allocs w) a' s' v' ->
      p_blk (sa_ptr v) = p_blk (sa_ptr v') -> a = a';
    di_nalloc : forall d s n, live (dw_datas w) d s n -> ent_ok w (nrng n) (d_alloc n);
    di_oalloc : forall x, x ∈ O -> ent_ok w (fst x) (snd x);
    di_freed : sz <> 0 -> forall b blk, dw_blocks w !! b = Some blk -> b_freed blk = false -> b_len blk <> 0 ->
      exists a s v, live (dw_allocs w) a s v /\ p_blk (sa_ptr v) = b
  }.

  Lemma ocnt_cons c x O : ocnt c (x :: O) = (inr c (fst x) + ocnt c O)%nat.
  Proof. done. Qed.
  Lemma alloc_refs_cons x O : alloc_refs (x :: O) = option_list (snd x) ++ alloc_refs O.
  Proof. done. Qed.
  Lemma ocnt_pos c O : (0 < ocnt c O)%nat <-> exists e, e ∈ O /\ in_rng c (fst e) = true.
  Proof.
    induction O as [|x O IH].
    - split; [cbn; lia|]. by intros (? & ?%elem_of_nil & _).
    - rewrite ocnt_cons. unfold inr. destruct (in_rng c (fst x)) eqn:E.
      + split; [|lia]. intros _. exists x. split; [left|done].
      + rewrite Nat.add_0_l, IH. split; intros (e & He & ?); exists e; (split; [|done]).
        * by right.
        * apply elem_of_cons in He as [->|]; [congruence|done].
  Qed.
  Lemma ocnt_perm c O O' : O ≡ₚ O' -> ocnt c O = ocnt c O'.
  Proof. unfold ocnt. intros H. induction H; cbn; lia. Qed.
  Lemma alloc_refs_perm O O' : O ≡ₚ O' -> alloc_refs O ≡ₚ alloc_refs O'.
  Proof. unfold alloc_refs. by intros ->. Qed.

  Lemma dinv_perm w T L R R' O O' : R ≡ₚ R' -> O ≡ₚ O' -> dinv w T L R O -> dinv w T L R' O'.
  Proof.
    intros HR HO [].
    split; try done.
    - intros d. rewrite <- (cnt_perm d _ _ HR). done.
    - intros c. rewrite <- (ocnt_perm c _ _ HO). done.
    - intros a. rewrite <- (cnt_perm a _ _ (alloc_refs_perm _ _ HO)). done.
    - intros x. rewrite <- HO. auto.
  Qed.

  (** *** Consequences *)
  Section facts.
    Context (w : dworld) (T : trees) (L : list label) (R : list nat) (O : list (rng * option nat)).
    Context (I : dinv w T L R O).
    Notation D := (dw_datas w).

    Lemma dinv_ref_live d : d ∈ R -> exists s n l, live D d s n /\ L !! d = Some l.
    Proof.
      intros H%cnt_pos. pose proof (di_cnt _ _ _ _ _ I d).
      destruct (rc_count_pos D d) as (s & n & Hl & _); [lia|].
      destruct (lookup_lt_is_Some_2 L d) as [l E].
      { rewrite (di_len _ _ _ _ _ I). by eapply live_lt. }
      eauto.
    Qed.
    Lemma dinv_live_label d s n : live D d s n -> exists l, L !! d = Some l.
    Proof.
      intros H. apply lookup_lt_is_Some_2. rewrite (di_len _ _ _ _ _ I). by eapply live_lt.
    Qed.
    Lemma dinv_label_inj d d' l : L !! d = Some l -> L !! d' = Some l -> d = d'.
    Proof. intros. by eapply NoDup_lookup; [apply (di_nodup _ _ _ _ _ I)|..]. Qed.
    Lemma kids_elem d n : d ∈ kids n <-> exists side, d_child side n = Some d.
    Proof.
      unfold kids, d_child. rewrite elem_of_app. split.
      - intros [H|H]; [exists false|exists true]; by destruct (d_left n), (d_right n); cbn in *; set_solver.
      - intros [[] H]; rewrite H; set_solver.
    Qed.
    Lemma dinv_linked_live p s n side c : live D p s n -> d_child side n = Some c -> exists s' n', live D c s' n'.
    Proof.
      intros Hp Hc. pose proof (di_cnt _ _ _ _ _ I c) as E.
      pose proof (hsum_ge (fun n => cnt c (kids n)) _ _ _ _ Hp) as Hge. cbn beta in Hge.
      assert (0 < cnt c (kids n))%nat by (apply cnt_pos, kids_elem; eauto).
      destruct (rc_count_pos D c) as (s' & n' & Hl & _); [lia|]. eauto.
    Qed.
    (** What is below a live node and was ever created is alive. *)
    Lemma dinv_live_desc x s n l p d : live D x s n -> L !! x = Some l -> L !! d = Some (lapp l p) ->
      exists s' n', live D d s' n'.
    Proof.
      intros Hx Hl. revert d. induction p as [|b p IH] using rev_ind; intros d Hd.
      - rewrite lapp_nil in Hd. assert (d = x) as -> by (eapply dinv_label_inj; eauto). eauto.
      - rewrite lapp_snoc in Hd.
        destruct (elem_of_list_lookup_1 L (lapp l p)) as [y Hy].
        { eapply (di_closed _ _ _ _ _ I), elem_of_list_lookup_2, Hd. }
        destruct (IH y Hy) as (sy & ny & Hly).
        destruct (d_child b ny) as [c|] eqn:Ec.
        + destruct (di_link _ _ _ _ _ I _ _ _ _ _ _ Hly Hy Ec) as [_ Hc].
          assert (c = d) as -> by (eapply dinv_label_inj; eauto). eapply dinv_linked_live; eauto.
        + exfalso. eapply (di_nolink _ _ _ _ _ I _ _ _ _ _ Hly Hy Ec), elem_of_list_lookup_2, Hd.
    Qed.
    (** A live node strictly below a live node is linked. *)
    Lemma dinv_live_desc_linked x s n l p d : live D x s n -> L !! x = Some l -> L !! d = Some (lapp l p) -> p <> [] ->
      (0 < hsum (fun n => cnt d (kids n)) D)%nat.
    Proof.
      intros Hx Hl Hd Hp. destruct p as [|b p _] using rev_ind; [done|].
      rewrite lapp_snoc in Hd.
      destruct (elem_of_list_lookup_1 L (lapp l p)) as [y Hy].
      { eapply (di_closed _ _ _ _ _ I), elem_of_list_lookup_2, Hd. }
      destruct (dinv_live_desc _ _ _ _ p y Hx Hl Hy) as (sy & ny & Hly).
      destruct (d_child b ny) as [c|] eqn:Ec.
      - destruct (di_link _ _ _ _ _ I _ _ _ _ _ _ Hly Hy Ec) as [_ Hc].
        assert (c = d) as -> by (eapply dinv_label_inj; eauto).
        pose proof (hsum_ge (fun n => cnt d (kids n)) _ _ _ _ Hly) as Hge. cbn beta in Hge.
        assert (0 < cnt d (kids ny))%nat by (apply cnt_pos, kids_elem; eauto). lia.
      - exfalso. eapply (di_nolink _ _ _ _ _ I _ _ _ _ _ Hly Hy Ec), elem_of_list_lookup_2, Hd.
    Qed.
    (** A linked node has a live parent. *)
    Lemma dinv_linked_parent d l : L !! d = Some l -> (0 < hsum (fun n => cnt d (kids n)) D)%nat ->
      exists p s n lp side, live D p s n /\ L !! p = Some lp /\ l = lchild lp side /\ d_child side n = Some d /\ (p < d)%nat.
    Proof.
      intros Hl (p & s & n & Hp & Hc)%hsum_pos. apply cnt_pos, kids_elem in Hc as [side Hc].
      destruct (dinv_live_label _ _ _ Hp) as [lp Hlp].
      destruct (di_link _ _ _ _ _ I _ _ _ _ _ _ Hp Hlp Hc) as [? E].
      rewrite Hl in E. injection E as ->. do 5 eexists. split_and!; eauto.
    Qed.
    (** Every live node is held by an outside reference to it or above it. *)
    Lemma dinv_live_root d s n l : live D d s n -> L !! d = Some l ->
      exists x lx, x ∈ R /\ L !! x = Some lx /\ anc lx l.
    Proof.
      revert s n l. induction d as [d IH] using lt_wf_ind. intros s n l Hd Hl.
      pose proof (di_cnt _ _ _ _ _ I d) as E. rewrite (rc_count_live _ _ _ _ Hd) in E.
      assert (s <> 0%nat) by (intros ->; by eapply (di_pos _ _ _ _ _ I)).
      destruct (decide (0 < cnt d R)%nat) as [Hr%cnt_pos|Hr].
      - exists d, l. split_and!; try done.
      - destruct (dinv_linked_parent d l Hl) as (p & s' & n' & lp & side & Hp & Hlp & -> & _ & Hlt); [lia|].
        destruct (IH p Hlt _ _ _ Hp Hlp) as (x & lx & ? & ? & ?).
        exists x, lx. split_and!; try done. eapply anc_trans; [done|apply anc_child].
    Qed.
    (** A node's strong count is 1 iff nobody else holds it or something above it. *)
    Lemma dinv_count_one d l s n : d ∈ R -> L !! d = Some l -> live D d s n ->
      s = 1%nat <-> (cnt d R = 1%nat /\ forall x lx, x ∈ R -> L !! x = Some lx -> anc lx l -> x = d).
    Proof.
      intros Hd Hl Hv. pose proof (di_cnt _ _ _ _ _ I d) as E. rewrite (rc_count_live _ _ _ _ Hv) in E.
      apply cnt_pos in Hd. split.
      - intros ->. split; [lia|]. intros x lx Hx Hlx Ha.
        destruct (decide (x = d)); [done|exfalso].
        destruct (dinv_ref_live x Hx) as (sx & nx & lx' & Hvx & ?). simplify_eq.
        apply anc_lapp in Ha as [p ->].
        pose proof (dinv_live_desc_linked _ _ _ _ p d Hvx Hlx Hl) as Hp.
        destruct p; [|specialize (Hp ltac:(done)); lia].
        rewrite lapp_nil in Hl. by assert (x = d) by (eapply dinv_label_inj; eauto).
      - intros [H1 H2]. destruct (decide (0 < hsum (fun n => cnt d (kids n)) D)%nat) as [Hh|]; [|lia].
        exfalso. destruct (dinv_linked_parent d l Hl Hh) as (p & s' & n' & lp & side & Hp & Hlp & -> & _ & Hlt).
        destruct (dinv_live_root _ _ _ _ Hp Hlp) as (x & lx & Hx & Hlx & Ha).
        assert (x = d) as ->. { eapply H2; [done..|]. eapply anc_trans; [done|apply anc_child]. }
        rewrite Hl in Hlx. injection Hlx as <-.
        apply (lchild_ne lp side). eapply anc_antisym; [done|apply anc_child].
    Qed.
    (** A node is alive iff it or something above it is held. *)
    Lemma dinv_alive d l : L !! d = Some l ->
      (exists s n, live D d s n) <-> (exists x lx, x ∈ R /\ L !! x = Some lx /\ anc lx l).
    Proof.
      intros Hl. split.
      - intros (s & n & Hv). eapply dinv_live_root; eauto.
      - intros (x & lx & Hx & Hlx & [p ->]%anc_lapp).
        destruct (dinv_ref_live x Hx) as (sx & nx & lx' & Hvx & ?). simplify_eq.
        eapply dinv_live_desc; eauto.
    Qed.

    Lemma own_in_nrng c n : in_rng c (own_rng n) = true -> in_rng c (nrng n) = true.
    Proof.
      unfold own_rng. destruct (d_left n), (d_right n); try done; try apply in_rng_half.
      rewrite in_rng_spec. cbn. lia.
    Qed.
    Lemma nrng_own_or_kid c n : in_rng c (nrng n) = true ->
      in_rng c (own_rng n) = true \/ exists side k, d_child side n = Some k /\ in_rng c (half side (nrng n)) = true.
    Proof.
      intros H. pose proof (inr_half c (nrng n)) as E. unfold inr in E. rewrite H in E.
      unfold own_rng, d_child. destruct (in_rng c (half false (nrng n))) eqn:E1.
      - destruct (d_left n) as [k|] eqn:El; [right; exists false, k; done|left]. destruct (d_right n); done.
      - destruct (in_rng c (half true (nrng n))) eqn:E2; [|lia].
        destruct (d_right n) as [k|] eqn:El; [right; exists true, k; done|left]. destruct (d_left n); done.
    Qed.
    (** An item is alive iff it lies in the range of something held. *)
    Lemma dinv_covered c :
      is_Some (dw_mem w !! c) <->
      (exists x l, x ∈ R /\ L !! x = Some l /\ in_rng c (lrng T l) = true) \/
      (exists e, e ∈ O /\ in_rng c (fst e) = true).
    Proof.
      assert (is_Some (dw_mem w !! c) <-> (0 < memcnt w c)%nat) as ->.
      { unfold memcnt. destruct (dw_mem w !! c) as [v|] eqn:Ev; split; try lia; [eauto|by intros []]. }
      rewrite <- (di_own _ _ _ _ _ I c). split.
      - intros H. destruct (decide (0 < ocnt c O)%nat) as [Ho|Ho].
        + right. by apply ocnt_pos.
        + left. destruct (hsum_pos (fun n => inr c (own_rng n)) D) as (d & s & n & Hd & Hc); [lia|].
          unfold inr in Hc. destruct (in_rng c (own_rng n)) eqn:E; [|lia].
          destruct (dinv_live_label _ _ _ Hd) as [l Hl].
          destruct (dinv_live_root _ _ _ _ Hd Hl) as (x & lx & Hx & Hlx & Ha).
          exists x, lx. split_and!; try done. eapply in_rng_anc; [done|].
          destruct (di_geo _ _ _ _ _ I _ _ _ _ Hd Hl) as [<- _]. by apply own_in_nrng.
      - intros [(x & l & Hx & Hl & Hc)|(e & He & Hc)].
        + destruct (dinv_ref_live x Hx) as (s & n & lx' & Hv & ?). simplify_eq. clear Hx.
          enough (0 < hsum (fun n => inr c (own_rng n)) D)%nat by lia.
          assert (exists m, m = (length D - x)%nat) as [m Em] by eauto. revert x l s n Hl Hc Hv Em.
          induction m as [m IH] using lt_wf_ind. intros x l s n Hl Hc Hv ->.
          destruct (di_geo _ _ _ _ _ I _ _ _ _ Hv Hl) as [Hg _]. rewrite <- Hg in Hc.
          destruct (nrng_own_or_kid c n Hc) as [Ho|(side & k & Hk & Hc')].
          * pose proof (hsum_ge (fun n => inr c (own_rng n)) _ _ _ _ Hv) as Hge. cbn beta in Hge.
            unfold inr in Hge at 1. rewrite Ho in Hge. lia.
          * destruct (di_link _ _ _ _ _ I _ _ _ _ _ _ Hv Hl Hk) as [Hlt Hlk].
            destruct (dinv_linked_live _ _ _ _ _ Hv Hk) as (sk & nk & Hvk).
            eapply (IH (length D - k)%nat); [pose proof (live_lt _ _ _ _ Hvk); lia|exact Hlk| |exact Hvk|done].
            by rewrite lrng_child, <- Hg.
        + enough (0 < ocnt c O)%nat by lia. apply ocnt_pos. eauto.
    Qed.
    (** Ranges held exclusively overlap nothing. *)
    Lemma dinv_exclusive c e O' : O ≡ₚ e :: O' -> in_rng c (fst e) = true ->
      (forall e', e' ∈ O' -> in_rng c (fst e') = false) /\
      (forall x l, x ∈ R -> L !! x = Some l -> in_rng c (lrng T l) = false).
    Proof.
      intros HO Hc. pose proof (di_own _ _ _ _ _ I c) as E.
      rewrite (ocnt_perm c _ _ HO), ocnt_cons in E. unfold inr in E at 2. rewrite Hc in E.
      assert (memcnt w c <= 1)%nat by (unfold memcnt; destruct (dw_mem w !! c); lia).
      assert (ocnt c O' = 0 /\ hsum (fun n => inr c (own_rng n)) D = 0)%nat as [E1 E2] by lia. split.
      - intros e' He. destruct (in_rng c (fst e')) eqn:Hin; [|done].
        assert (0 < ocnt c O')%nat by (apply ocnt_pos; eauto). lia.
      - intros x l Hx Hl. destruct (in_rng c (lrng T l)) eqn:Hin; [exfalso|done].
        destruct (dinv_ref_live x Hx) as (s & n & lx' & Hv & ?). simplify_eq. clear Hx.
        assert (exists m, m = (length D - x)%nat) as [m Em] by eauto. revert x l s n Hl Hin Hv Em.
        induction m as [m IH] using lt_wf_ind. intros x l s n Hl Hin Hv ->.
        destruct (di_geo _ _ _ _ _ I _ _ _ _ Hv Hl) as [Hg _]. rewrite <- Hg in Hin.
        destruct (nrng_own_or_kid c n Hin) as [Ho|(side & k & Hk & Hc')].
        * pose proof (hsum_ge (fun n => inr c (own_rng n)) _ _ _ _ Hv) as Hge. cbn beta in Hge.
          unfold inr in Hge at 1. rewrite Ho in Hge. lia.
        * destruct (di_link _ _ _ _ _ I _ _ _ _ _ _ Hv Hl Hk) as [Hlt Hlk].
          destruct (dinv_linked_live _ _ _ _ _ Hv Hk) as (sk & nk & Hvk).
          eapply (IH (length D - k)%nat); [pose proof (live_lt _ _ _ _ Hvk); lia|exact Hlk| |exact Hvk|done].
          by rewrite lrng_child, <- Hg.
    Qed.
  End facts.
End inv.
Global Arguments ocnt : simpl never.
Global Arguments alloc_refs : simpl never.
Global Arguments own_rng : simpl never.
Global Arguments kids : simpl never.

