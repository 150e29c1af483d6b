(** When an item changes; what the holder of the result of [get_mut] has to itself. *)
From Verif Require Import Base BaseLemmas Api SliceItemsModel Spec SliceItemsProof DataModel RcModel DataInv DataSteps GuardInv ArcModel ArcInv ArcConc Conserve ConcInv ConcGuard ConcWorld ConcChild ConcData ConcSafe ConcSpec ConcTheory ConcConserve ConcShare ConcTree ConcCov ConcCalm ConcHold.
Local Open Scope nat_scope.
#[local] Arguments slo {A} F hs : simpl never.
#[local] Arguments thr {V A} F ts : simpl never.

Section item.
  Context {V : Type} (sz : N).
  Notation stack := (list (frame V)).
  Implicit Types (s : cstate V) (t : nat) (es : list (sched (V:=V))).
  Notation datas s := (dw_datas (cs_d s)).

  (** ** Which step changes an item *)
  Lemma mstep_mem d g (st : stack) d' g' st' : mstep sz d g st = Ok (d', g', st') -> dw_mem d' = dw_mem d \/
    exists n p a k, st = FItems (S n) p a :: k /\ dw_mem d' = delete (p_blk p, p_idx p) (dw_mem d).
  Proof.
    intros H. destruct st as [|f k]; [done|]. destruct f; try done; cbn [mstep] in H.
    all: repeat (first
      [ match type of H with mbind _ _ = Ok _ => let x := fresh "x" in let Hx := fresh "Hx" in apply bind_inv in H as (x & Hx & H) end
      | match type of H with Ok _ = Ok _ => fail 1 | _ => idtac end; case_match; try done ]).
    all: subst; try (injection H as <- <- <-); try done; try (by left).
    all: try (left; match goal with H : alloc_release _ _ _ = Ok _ |- _ => by apply alloc_release_mem in H as [? _] end).
    all: try (left; match goal with H : alloc_clone _ _ = Ok _ |- _ => by apply alloc_clone_mem in H as [? _] end).
    right. match goal with H : mem_take _ _ _ = Ok _ |- _ => unfold mem_take in H; apply bind_inv in H as (v' & _ & [= <- <-]) end. eauto 10.
  Qed.
  Lemma store_vals_ne (m : gmap (nat * N) V) b i vals c : fst c <> b -> store_vals m b i vals !! c = m !! c.
  Proof.
    intros Hc. revert m i. induction vals as [|v vals IH]; intros m i; [done|]. cbn. rewrite IH. apply lookup_insert_ne. intros <-. done.
  Qed.
  Lemma new_block_item (d : dworld V) base (vals : list V) d' p len c : new_block d base vals = (d', p, len) -> fst c < length (dw_blocks d) ->
    dw_mem d' !! c = dw_mem d !! c.
  Proof. intros [= <- _ _] Hc. cbn. apply store_vals_ne. lia. Qed.
  Lemma mem_replace_item (d : dworld V) p v d' old c : mem_replace sz d p v = Ok (d', old) -> c <> (p_blk p, p_idx p) -> dw_mem d' !! c = dw_mem d !! c.
  Proof. unfold mem_replace. intros H Hc. apply bind_inv in H as (v' & _ & [= <- _]). cbn. by apply lookup_insert_ne. Qed.

  Lemma cstep_item s e s' c : cstep sz s e = Ok s' -> fst c < length (dw_blocks (cs_d s)) -> citem s' c = citem s c \/
    (exists t n p a k, e = SStep t /\ cs_t s !! t = Some (FItems (S n) p a :: k) /\ c = (p_blk p, p_idx p)) \/
    (exists t h i v m, e = SStart t (CReplace h i v) /\ slot s h = Some (XMut m, 0) /\ (i < si_len (ms_items m))%N /\
      c = (p_blk (si_ptr (ms_items m)), (p_idx (si_ptr (ms_items m)) + i)%N)) \/
    (exists t i v r n, e = SWrite t i v /\ cs_t s !! t = Some [FHold r; KEnd None] /\ rc_get (datas s) (ar_data r) = Some n /\
      (i < d_len n)%N /\ c = (p_blk (d_ptr n), (p_idx (d_ptr n) + i)%N)).
  Proof.
    intros Hs Hc. unfold citem. destruct e as [t o|t|t i v|t]; cbn [cstep] in Hs.
    - unfold cstart in Hs. destruct (cs_t s !! t) as [[|f st]|] eqn:Ht; [|injection Hs as <-; by left..].
      destruct o; repeat (first
        [ match type of Hs with mbind _ _ = Ok _ => let x := fresh "x" in let Hx := fresh "Hx" in apply bind_inv in Hs as (x & Hx & Hs) end
        | match type of Hs with Ok _ = Ok _ => fail 1 | _ => idtac end; case_match; try done ]); subst; injection Hs as <-; try (by left).
      + left. cbn. match goal with H : new_block _ _ _ = _ |- _ => rewrite <- (new_block_item _ _ _ _ _ _ _ H Hc) end.
        match goal with H : data_from_boxed_slice _ _ _ = _ |- _ => unfold data_from_boxed_slice in H; destruct (_ =? _)%N; cbn in H; by injection H as <- <- end.
      + left. cbn. match goal with H : new_block _ _ _ = _ |- _ => rewrite <- (new_block_item _ _ _ _ _ _ _ H Hc) end.
        match goal with H : split_alloc_from_items _ _ _ _ = _ |- _ => unfold split_alloc_from_items in H; destruct (_ || _); cbn in H; by injection H as <- <- <- end.
      + left. cbn. match goal with H : data_new _ _ _ _ = _ |- _ => unfold data_new in H; cbn in H; by injection H as <- <- end.
      + left. cbn. match goal with H : mut_split_off _ _ _ _ = Ok _ |- _ => unfold mut_split_off in H; destruct (if side then _ else _) as [x1 x2];
          apply bind_inv in H as (x & Hx' & H) end. simplify_eq. by apply alloc_clone_mem in Hx' as [-> _].
      + match goal with H : mem_replace _ _ ?p _ = Ok _ |- _ => destruct (decide (c = (p_blk p, p_idx p))) as [->|Hne]; [right; right; left|left; by eapply mem_replace_item] end.
        eexists _, _, _, _, _. split_and!; [done|done|by apply N.ltb_lt|done].
    - destruct (cs_t s !! t) as [st|] eqn:Ht; [|unfold tstep in Hs; rewrite Ht in Hs; left; by injection Hs as <-].
      destruct (tstep_cases sz s t st Ht) as [(-> & Hc')|[(r & -> & Hc')|[(x & o & h & -> & Hc')|[(r & -> & Hc')|Hc']]]]; rewrite Hc' in Hs; clear Hc'; try (left; by injection Hs as <-).
      apply bind_inv in Hs as ([[d g] st'] & Hm & [= <-]). cbn. destruct (mstep_mem _ _ _ _ _ _ Hm) as [->|(n & p & a & k & -> & ->)]; [by left|].
      destruct (decide (c = (p_blk p, p_idx p))) as [->|Hne]; [right; left; eauto 10|left]. by apply lookup_delete_ne.
    - unfold hold_write in Hs. destruct (cs_t s !! t) as [st|] eqn:Ht; [|left; by injection Hs as <-].
      repeat (case_match; try (left; by injection Hs as <-)). subst. apply bind_inv in Hs as (n & Hn & Hs).
      destruct (_ <? _)%N eqn:Hi; [|left; by injection Hs as <-]. apply bind_inv in Hs as ([d old] & Hd & [= <-]).
      match goal with H : mem_replace _ _ ?p _ = Ok _ |- _ => destruct (decide (c = (p_blk p, p_idx p))) as [->|Hne]; [right; right; right|left; by eapply mem_replace_item] end.
      apply rc_val_inv in Hn as [k Hn]. eexists _, _, _, _, n. split_and!; [done|done|by eapply rc_get_live|by apply N.ltb_lt|done].
    - unfold hold_end in Hs. destruct (cs_t s !! t) as [st|] eqn:Ht; [|left; by injection Hs as <-].
      repeat (case_match; try (left; by injection Hs as <-)).
  Qed.

  (** An item that an [ArcSlice] covers changes only when it is written through the result of a [get_mut]. *)
  Lemma item_stable s T L e s' x j n c : DI sz s T L -> x ∈ tot hR fR s -> live (datas s) x j n -> in_rng c (nrng n) = true ->
    fst c < length (dw_blocks (cs_d s)) -> cstep sz s e = Ok s' -> citem s' c = citem s c \/
    exists t i v r m, e = SWrite t i v /\ cs_t s !! t = Some [FHold r; KEnd None] /\ rc_get (datas s) (ar_data r) = Some m /\ in_rng c (nrng m) = true.
  Proof.
    intros I Hx Hn Hc Hb Hs. destruct (dinv_live_label sz _ _ _ _ _ (D_inv _ _ _ _ I) _ _ _ Hn) as [l Hl].
    assert (forall o, o ∈ tot hO fO s -> in_rng c (fst o) = true -> False) as Hno.
    { intros o Ho Hco. destruct (proj1 (elem_of_Permutation _ _) Ho) as [O' HP].
      destruct (dinv_exclusive sz _ _ _ _ _ (D_inv _ _ _ _ I) c o O' HP Hco) as [_ H2]. specialize (H2 x l Hx Hl).
      rewrite <- (proj1 (di_geo _ _ _ _ _ _ (D_inv _ _ _ _ I) _ _ _ _ Hn Hl)) in H2. congruence. }
    destruct (cstep_item s e s' c Hs Hb) as [H|[(t & k & p & a & st & -> & Ht & ->)|[(t & h & i & v & m & -> & Hh & Hi & ->)|(t & i & v & r & m & -> & Ht & Hm & Hi & ->)]]].
    - by left.
    - exfalso. eapply Hno.
      + apply elem_of_app. right. apply thr_elem. eexists t, _. split; [exact Ht|left].
      + cbn. apply in_rng_spec. cbn. lia.
    - exfalso. unfold slot in Hh. destruct (cs_h s !! h) as [o|] eqn:E; [|done]. subst o. eapply Hno.
      + apply elem_of_app. left. apply slo_elem. eexists h, _, _. split; [exact E|left].
      + cbn. apply in_rng_spec. cbn. lia.
    - right. eexists _, _, _, _, m. split_and!; [done|done|done|]. apply in_rng_spec. cbn. lia.
  Qed.

  (** ** Slices with an item in common *)
  Lemma ance_linear g x y z : ance g x z -> ance g y z -> ance g x y \/ ance g y x.
  Proof.
    intros Hx [->|Hy]; [by left|]. destruct Hx as [->|Hx]; [right; by right|].
    revert Hx. induction Hy as [z Hp|p z Hp Hy IH]; intros Hx.
    - left. by eapply below_parent.
    - destruct (below_parent _ _ _ _ Hx Hp) as [->|Hx']; [right; by right|]. by apply IH.
  Qed.
  Lemma owner s T L R O x j n c : dinv sz (cs_d s) T L R O -> MI s -> live (datas s) x j n -> in_rng c (nrng n) = true ->
    exists z i m, live (datas s) z i m /\ ance (cs_g s) x z /\ in_rng c (own_rng m) = true.
  Proof.
    intros D M. assert (exists k, k = length (datas s) - x) as [k Ek] by eauto. revert x j n Ek.
    induction k as [k IH] using lt_wf_ind. intros x j n -> Hn Hc. destruct (nrng_own_or_kid c n Hc) as [Ho|(side & y & Hy & Hc')].
    - exists x, j, n. split_and!; [done|by left|done].
    - destruct (dinv_live_label sz _ _ _ _ _ D _ _ _ Hn) as [l Hl]. destruct (di_link _ _ _ _ _ _ D _ _ _ _ _ _ Hn Hl Hy) as [Hlt Hly].
      destruct (dinv_linked_live sz _ _ _ _ _ D _ _ _ _ _ Hn Hy) as (jy & ny & Hny).
      edestruct (IH (length (datas s) - y)) as (z & i & m & Hz & Ha & Ho); [pose proof (live_lt _ _ _ _ Hny); lia|done|exact Hny| |].
      { rewrite (proj1 (di_geo _ _ _ _ _ _ D _ _ _ _ Hny Hly)), lrng_child, <- (proj1 (di_geo _ _ _ _ _ _ D _ _ _ _ Hn Hl)). done. }
      exists z, i, m. split_and!; [done| |done]. right. eapply below_ance; [|done]. apply below_half. eapply (m_kid _ M); [by eapply rc_get_live|].
      apply in_kids. eauto.
  Qed.
  Lemma overlap s T L R O x j n y i m c : dinv sz (cs_d s) T L R O -> MI s -> live (datas s) x j n -> in_rng c (nrng n) = true ->
    live (datas s) y i m -> in_rng c (nrng m) = true -> ance (cs_g s) x y \/ ance (cs_g s) y x.
  Proof.
    intros D M Hn Hc Hm Hc'. destruct (owner s T L R O x j n c D M Hn Hc) as (z & jz & nz & Hz & Ha & Ho).
    destruct (owner s T L R O y i m c D M Hm Hc') as (z' & jz' & nz' & Hz' & Ha' & Ho').
    assert (z = z') as <-; [|by eapply ance_linear]. destruct (decide (z = z')) as [|Hne]; [done|exfalso].
    pose proof (di_own _ _ _ _ _ _ D c) as E. assert (memcnt (cs_d s) c <= 1) by (unfold memcnt; destruct (dw_mem (cs_d s) !! c); lia).
    pose proof (hsum_insert_live (fun n => inr c (own_rng n)) _ _ _ _ None Hz) as E1. cbn [ev] in E1.
    pose proof (hsum_ge (fun n => inr c (own_rng n)) _ _ _ _ (live_insert_ne _ _ None _ _ _ Hne Hz')) as E2. cbn beta in E1, E2.
    unfold inr in E1 at 2. unfold inr in E2 at 1. rewrite Ho in E1. rewrite Ho' in E2. lia.
  Qed.

  (** ** The theorems *)
  Lemma alone_cells s D T L t x y j n i m c : WI sz s D T L -> alone s t x -> dl s x -> y ∈ rR s t -> live (datas s) x j n ->
    in_rng c (nrng n) = true -> live (datas s) y i m -> in_rng c (nrng m) = true -> False.
  Proof.
    intros W [H1 H2] Hd Hy Hn Hc Hm Hc'. pose proof (D_inv _ _ _ _ (W_D _ _ _ _ _ W)) as DV.
    destruct (overlap s _ _ _ _ _ _ _ _ _ _ _ DV (W_M _ _ _ _ _ W) Hn Hc Hm Hc') as [Ha|[->|Hb]].
    - by eapply H1.
    - apply (H1 x Hy). by left.
    - inversion Hb as [? Hp|p ? Hp Hb']; subst.
      + apply (H2 _ Hp). eexists. by eapply rc_get_live.
      + apply (H2 _ Hp). eapply live_down; [done|exact DV|apply W| |right; exact Hb']. eexists. by eapply rc_get_live.
  Qed.
  Lemma data_cells_live s x c : c ∈ data_cells s x -> exists j n, live (datas s) x j n /\ in_rng c (nrng n) = true.
  Proof.
    unfold data_cells, data_rng. destruct (rc_get (datas s) x) as [n|] eqn:E; [|by intros ?%elem_of_nil]. cbn.
    intros Hc%rng_cells_elem. apply rc_get_Some in E as [j Hj]. exists j, n. split; [done|]. by apply in_rng_spec.
  Qed.
  Lemma holding_hold s t x : holding s t x -> exists st, cs_t s !! t = Some st /\ hold st x.
  Proof. intros (r & k & <- & [H|H]); eexists; (split; [exact H|]); exists r, k; (split; [done|]); [by left|by right]. Qed.
  Lemma carried_ref (st : stack) v : v ∈ st ≫= carried -> (forall y, y ∈ hR v -> y ∈ stk fR st) /\ (forall o, o ∈ hO v -> o ∈ stk fO st).
  Proof.
    intros (f & Hx & Hf)%elem_of_list_bind. split; intros i Hi; apply stk_elem; exists f; (split; [done|]).
    - destruct f; try (by apply elem_of_nil in Hx); try (apply elem_of_list_singleton in Hx as ->; exact Hi).
      destruct v0 as [| |r|[y|]]; try (by apply elem_of_nil in Hx); apply elem_of_list_singleton in Hx as ->; exact Hi.
    - destruct f; try (by apply elem_of_nil in Hx); try (apply elem_of_list_singleton in Hx as ->; exact Hi).
      destruct v0 as [| |r|[y|]]; try (by apply elem_of_nil in Hx); apply elem_of_list_singleton in Hx as ->; exact Hi.
  Qed.
  Lemma hold_others s D T L t x c : WI sz s D T L -> HM s -> holding s t x -> c ∈ data_cells s x ->
    forall v, (forall y, y ∈ hR v -> y ∈ rR s t) -> (forall o, o ∈ hO v -> o ∈ tot hO fO s) -> c ∉ xcells s v.
  Proof.
    intros W HH Hh Hc v HR HO Hv. apply holding_hold in Hh as (st & Ht & Hh). pose proof (HH _ _ _ Ht Hh) as Ha.
    apply data_cells_live in Hc as (j & n & Hn & Hc). destruct v as [r| | |m| |]; try (by apply elem_of_nil in Hv).
    - cbn in Hv. apply data_cells_live in Hv as (i & m & Hm & Hc'). eapply (alone_cells s D T L t x (ar_data r)); try done.
      + eexists. by eapply rc_get_live.
      + apply HR. left.
    - cbn in Hv. apply rng_cells_elem, in_rng_spec in Hv. pose proof (D_inv _ _ _ _ (W_D _ _ _ _ _ W)) as DV.
      destruct (dinv_live_label sz _ _ _ _ _ DV _ _ _ Hn) as [l Hl].
      destruct (proj1 (elem_of_Permutation _ _) (HO _ (elem_of_list_here _ _))) as [O' HP].
      destruct (dinv_exclusive sz _ _ _ _ _ DV c _ O' HP Hv) as [_ H2]. specialize (H2 x l).
      rewrite <- (proj1 (di_geo _ _ _ _ _ _ DV _ _ _ _ Hn Hl)), Hc in H2. discriminate H2; [|done].
      apply elem_of_app. right. apply thr_elem. exists t, st. split; [done|]. by apply hold_ref.
  Qed.
  Theorem hold_exclusive n es s t x c : always sz calm n es -> always sz calm_get n es -> creach sz n es s ->
    holding s t x -> c ∈ data_cells s x ->
    (forall h, c ∉ ccells s h) /\ (forall t' st v, t' <> t -> cs_t s !! t' = Some st -> v ∈ st ≫= carried -> c ∉ xcells s v).
  Proof.
    intros Hc Hg Hr Hh Hcx. destruct (hold_inv sz n es s Hc Hg Hr) as (D & T & L & W & _ & HH). split.
    - intros h Hch. unfold ccells in Hch. destruct (cget s h) as [v|] eqn:Hv; [|by apply elem_of_nil in Hch].
      apply cget_slot in Hv as [k Hv]. revert Hch. eapply hold_others; try done.
      + intros y Hy. apply rR_slot, slo_elem. eauto.
      + intros o Ho. apply elem_of_app. left. apply slo_elem. eauto.
    - intros t' st v Hne Ht Hv. destruct (carried_ref _ _ Hv) as [H1 H2]. eapply hold_others; try done.
      + intros y Hy. eapply rR_thread; [done|done|by apply H1].
      + intros o Ho. apply elem_of_app. right. apply thr_elem. eauto.
  Qed.
  Theorem hold_kept n es s e s' t x c : always sz calm n es -> always sz calm_get n es -> creach sz n es s ->
    holding s t x -> c ∈ data_cells s x -> actor e <> t -> cstep sz s e = Ok s' -> citem s' c = citem s c.
  Proof.
    intros Hc Hg Hr Hh Hcx He Hs. destruct (hold_inv sz n es s Hc Hg Hr) as (D & T & L & W & _ & HH).
    apply holding_hold in Hh as (st & Ht & Hh). pose proof (HH _ _ _ Ht Hh) as Ha. apply data_cells_live in Hcx as (j & m & Hm & Hcx).
    assert (x ∈ tot hR fR s) as Hx. { apply elem_of_app. right. apply thr_elem. exists t, st. split; [done|]. by apply hold_ref. }
    destruct (KI_reach sz _ _ _ Hr) as [K _].
    destruct (item_stable s T L e s' x j m c (W_D _ _ _ _ _ W) Hx Hm Hcx) as [?|(t' & i & v & r & m' & -> & Ht' & Hm' & Hc')]; try done.
    - apply (K_block _ K). by eapply ref_cells; [apply W|..].
    - exfalso. cbn in He. apply rc_get_Some in Hm' as [j' Hm']. eapply (alone_cells s D T L t x (ar_data r)); try done.
      + eexists. by eapply rc_get_live.
      + eapply rR_thread; [done|exact Ht'|left].
  Qed.
  Theorem shared_kept n es s e s' h r c : always sz calm n es -> always sz calm_get n es -> creach sz n es s ->
    cget s h = Some (XArc r) -> c ∈ ccells s h -> cstep sz s e = Ok s' -> citem s' c = citem s c.
  Proof.
    intros Hc Hg Hr Hh Hch Hs. destruct (hold_inv sz n es s Hc Hg Hr) as (D & T & L & W & _ & HH).
    destruct (KI_reach sz _ _ _ Hr) as [K _]. unfold ccells in Hch. rewrite Hh in Hch. cbn in Hch. pose proof Hch as Hch0.
    apply data_cells_live in Hch as (j & m & Hm & Hcx). apply cget_slot in Hh as [k Hh].
    assert (ar_data r ∈ tot hR fR s) as Hx. { apply elem_of_app. left. apply slo_elem. eexists h, _, _. split; [done|left]. }
    destruct (item_stable s T L e s' (ar_data r) j m c (W_D _ _ _ _ _ W) Hx Hm Hcx) as [?|(t' & i & v & r' & m' & -> & Ht' & Hm' & Hc')]; try done.
    - apply (K_block _ K). by eapply ref_cells; [apply W|..].
    - exfalso. assert (holding s t' (ar_data r')) as Hho by (exists r', [KEnd None]; split; [done|by right]).
      assert (c ∈ data_cells s (ar_data r')) as Hc2. { unfold data_cells, data_rng. rewrite Hm'. cbn. by apply rng_cells_elem, in_rng_spec. }
      destruct (hold_exclusive n es s t' (ar_data r') c Hc Hg Hr Hho Hc2) as [H _]. apply (H h). unfold ccells.
      unfold cget, slot. by rewrite Hh.
  Qed.

  (** ** What holds of schedules that are calm *)
  Section calm.
    Context n es (Hc : always sz calm n es).
    Theorem calm_safe : exists s, creach sz n es s.
    Proof. by apply clean_safe, calm_cleanly. Qed.
    Theorem calm_covered s x c : creach sz n es s -> has s x -> c ∈ xcells s x ->
      is_Some (citem s c) /\ c ∉ cdropped s /\ (sz <> 0%N -> fst c ∉ cfreed s).
    Proof. by apply clean_covered, calm_cleanly. Qed.
    Theorem calm_range s r : creach sz n es s -> has s (XArc r) -> exists rg, data_rng s (ar_data r) = Some rg.
    Proof. by apply clean_range, calm_cleanly. Qed.
    Theorem calm_quiescent s c : creach sz n es s -> quiescent s -> c ∈ buffer_cells s -> c ∈ cdropped s <-> forall h, c ∉ ccells s h.
    Proof. by apply clean_quiescent, calm_cleanly. Qed.
    Theorem calm_gone s : creach sz n es s -> quiescent s ->
      (forall h x, cget s h = Some x -> exists (od og : option nat), x = XWeak od og) ->
      dw_mem (cs_d s) = ∅ /\ cdropped s ≡ₚ buffer_cells s /\
      Forall (fun x => x = None) (dw_datas (cs_d s)) /\ Forall (fun x => x = None) (dw_allocs (cs_d s)) /\
      (sz <> 0%N -> forall b blk, dw_blocks (cs_d s) !! b = Some blk -> b_len blk <> 0%N -> b ∈ cfreed s).
    Proof. by apply clean_gone, calm_cleanly. Qed.
    Theorem calm_mut s h m c : creach sz n es s -> cget s h = Some (XMut m) -> c ∈ ccells s h ->
      (forall h', h' <> h -> c ∉ ccells s h') /\ (forall t st x, cs_t s !! t = Some st -> x ∈ st ≫= carried -> c ∉ xcells s x).
    Proof. by apply clean_mut, calm_cleanly. Qed.
  End calm.
End item.
