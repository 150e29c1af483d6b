(** Calls that make a new data or a new buffer keep the invariant of OrderInv.v. *)
From Verif Require Import Base BaseLemmas Api SliceItemsModel Spec DataModel RcModel DataInv DataSteps DataFuns GuardInv ArcModel ArcInv ArcConc ConcInv ConcGuard ConcWorld ConcChild ConcData ConcSafe ConcSpec ConcTree SliceItemsProof ConcItem OrderModel OrderInv OrderSteps OrderFlow OrderCalls.
Local Open Scope nat_scope.
#[local] Arguments slo {A} F hs : simpl never.
#[local] Arguments thr {V A} F ts : simpl never.

Section new.
  Context {V : Type} (sz : N) (acq : bool).
  Notation stack := (list (frame V)).
  Implicit Types (s : cstate V) (o : ostate V) (e : sched (V:=V)).
  Notation datas s := (dw_datas (cs_d s)).
  Notation allocs s := (dw_allocs (cs_d s)).
  Notation mem s := (dw_mem (cs_d s)).
  Notation blocks s := (dw_blocks (cs_d s)).

  Lemma live_snoc {A} (h : heap A) x i j v : live (h ++ [x]) i j v -> live h i j v \/ (i = length h /\ x = Some (j, v)).
  Proof.
    unfold live. intros [H|[Hl H]]%lookup_app_Some; [by left|right]. destruct (i - length h) as [|q] eqn:E; [|done].
    cbn in H. injection H as ->. split; [lia|done].
  Qed.
  Lemma live_snoc_l {A} (h : heap A) x i j v : live h i j v -> live (h ++ [x]) i j v.
  Proof. unfold live. apply lookup_app_l_Some. Qed.
  Lemma live_snoc_new {A} (h : heap A) j (v : A) : live (h ++ [Some (j, v)]) (length h) j v.
  Proof. unfold live. by rewrite list_lookup_middle. Qed.
  Lemma snoc_dead {A} (h : heap A) x i j v : live h i j v -> rc_get (h ++ [x]) i = None -> False.
  Proof. intros H Hd. apply (live_snoc_l h x) in H. by rewrite (rc_get_live _ _ _ _ H) in Hd. Qed.

  (** *** [into_immut] *)
  Lemma into_immut_flow o t h m d n T L T' L' : OI sz o -> DI sz (os_s o) T L -> cs_t (os_s o) !! t = Some [] ->
    cs_h (os_s o) !! h = Some (Some (XMut m, 0)) ->
    data_new (cs_d (os_s o)) (si_ptr (ms_items m)) (si_len (ms_items m)) (ms_alloc m) = (d, n) ->
    let s' := set_thread (set_world (take (os_s o) h) d (gd_new_data (cs_g (os_s o)) None)) t [FGuard n; KSlice n; KEnd None] in
    DI sz s' T' L' -> flow sz o (annotate acq o (SStart t (CIntoImmut h)) s') (anew acq o (SStart t (CIntoImmut h)) s').
  Proof.
    intros O I Ht Hh [= <- <-] s' I'. set (s := os_s o) in *. set (e := SStart t (CIntoImmut h)). set (x := length (datas s)) in *.
    set (N0 := DNode (si_ptr (ms_items m)) (si_len (ms_items m)) (ms_alloc m) None None) in *.
    assert (datas s' = datas s ++ [Some (1, N0)]) as Ed by done.
    assert (hview o (HV h) ⊆ aview acq o e s') as Vin.
    { apply an_in; [|done]. cbn. fold s. unfold began. rewrite Ht. cbn. rewrite list_lookup_insert by by eapply lookup_lt_Some. left. }
    assert (hview o (HV h) ⊆ hview (annotate acq o e s') (HT t)) as Vme. { etrans; [exact Vin|apply (an_me acq o e s')]. }
    assert (live (datas s') x 1 N0) as Hx. { rewrite Ed. apply live_snoc_new. }
    assert (refs s' (HT t) x) as Hrx.
    { cbn. rewrite list_lookup_insert by by eapply lookup_lt_Some. eexists. split; [done|]. left. }
    assert (forall {A} (F : frame V -> list A) H w y, hold F H s w y -> hold F H s' w y \/ (w = HV h /\ y ∈ H (XMut m))) as Hk.
    { intros A F H [t'|h'] y; cbn.
      - intros (st & Hs & Hy). left. exists st. split; [|done]. destruct (decide (t' = t)) as [->|]; [|by rewrite list_lookup_insert_ne].
        rewrite Ht in Hs. injection Hs as <-. by apply elem_of_nil in Hy.
      - intros (y0 & k0 & Hs & Hy). destruct (decide (h' = h)) as [->|]; [right; by simplify_eq|left]. exists y0, k0. split; [|done].
        by rewrite list_lookup_insert_ne. }
    assert (forall w y, ments s' w y -> ments s w y \/ (w = HT t /\ y = x)) as Hbk.
    { intros [t'|h'] y; cbn.
      - destruct (decide (t' = t)) as [->|]; [|rewrite list_lookup_insert_ne by done; by left].
        rewrite list_lookup_insert by by eapply lookup_lt_Some. intros (? & [= <-] & Hy). right. cbn in Hy.
        apply elem_of_list_singleton in Hy. done.
      - intros (y0 & k0 & Hs & Hy). left. apply list_lookup_insert_Some in Hs as [(_ & [=] & _)|[_ Hs]]. eauto. }
    split; cbn [os_s annotate].
    - apply an_loc.
    - apply an_acc.
    - intros w y Hw _. left. destruct (Hk _ _ _ _ _ Hw) as [?|[_ Hy]]; [|by apply elem_of_nil in Hy]. exists w. split; [done|apply an_hv].
    - intros y j n i Hy Hd. rewrite Ed in Hd. by destruct (snoc_dead _ _ _ _ _ Hy Hd).
    - intros y j n j' n' Hy Hy'. rewrite Ed in Hy'. apply live_snoc in Hy' as [Hy'|[-> _]].
      + by destruct (live_fun _ _ _ _ _ _ Hy Hy') as [_ <-].
      + apply live_lt in Hy. unfold s in Hy; cbn in Hy. lia.
    - intros w en c Hw Hc Hmc. destruct (Hk _ _ _ _ _ Hw) as [?|[-> Hy]].
      + left. exists w, en. split_and!; [done..|apply an_hv].
      + right. cbn in Hy. apply elem_of_list_singleton in Hy as ->. exists (HT t), x, 1, N0. done.
    - intros w r a j v Hw Ha. destruct (Hk _ _ _ _ _ Hw) as [?|[-> Hy]].
      + left. exists w, r. split; [done|apply an_hv].
      + right. right. cbn in Hy. apply elem_of_list_singleton in Hy. injection Hy as -> Hy. exists (HT t), x, 1, N0. done.
    - done.
    - intros a j v Ha. left. by exists j.
    - done.
    - intros w' x' j' n' Hw Hx'. destruct (Hbk _ _ Hw) as [Hp|[-> ->]].
      + left. pose proof (O_bnd _ _ O _ _ Hp) as Hlt. fold s in Hlt. rewrite Ed in Hx'. apply live_snoc in Hx' as [Hx'|[-> _]]; [|fold x in Hlt; lia].
        exists w', x', j', n'. split_and!; [done..|apply an_mv].
      + right. intros i a Ha Hc. destruct (live_fun _ _ _ _ _ _ Hx Hx') as [_ <-]. apply Vme.
        eapply (owner_sees sz o T L (HV h) (nrng N0, ms_alloc m)); [done..| |exact Ha|done]. exists (XMut m), 0. split; [done|]. left.
    - intros i a h' e0 Ha Hwr (y0 & k0 & Hs & Hy) Hc. apply list_lookup_insert_Some in Hs as [(_ & [=] & _)|[_ Hs]].
      apply (an_mv acq o e s' (HV h')). eapply (O_write _ _ O); [done..| |done]. exists y0, k0. done.
    - intros w y Hw. rewrite Ed, app_length. cbn. destruct (Hbk _ _ Hw) as [Hp|[-> ->]]; [|unfold x; lia].
      apply (O_bnd _ _ O) in Hp. fold s in Hp. lia.
    - apply fresh_none. cbn. unfold logged. cbn. by rewrite drop_all.
  Qed.

  (** *** New buffers *)
  Lemma fill_mem s base vals d p len c : new_block (cs_d s) base vals = (d, p, len) -> is_Some (dw_mem d !! c) ->
    fst c < length (blocks s) -> is_Some (mem s !! c).
  Proof. intros E Hc Hl. rewrite (new_block_item _ _ _ _ _ _ c E Hl) in Hc. done. Qed.
  Section fill.
    Context o (t : nat) (op : cop V) s' (T T' : trees) (L L' : list label) (vals : list V) (X : list (option (nat * dnode))) (Y : list (option (nat * salloc))) (w0 : holder).
    Notation s := (os_s o).
    Notation e := (SStart t op).
    Notation o' := (annotate acq o e s').
    Notation av := (aview acq o e s').
    Notation b0 := (length (blocks s)).
    Context (O : OI sz o) (I : DI sz s T L) (I' : DI sz s' T' L').
    Context (Ed : datas s' = datas s ++ X) (Eb : length (blocks s') = S b0) (Ea : allocs s' = allocs s ++ Y).
    Context (Em : forall c, is_Some (mem s' !! c) -> fst c < b0 -> is_Some (mem s !! c)).
    Context (EX : forall j n, Some (j, n) ∈ X -> p_blk (d_ptr n) = b0) (EY : forall j v, Some (j, v) ∈ Y -> p_blk (sa_ptr v) = b0).
    Context (Hk : forall w y, refs s w y -> refs s' w y) (HkO : forall w y, owns s w y -> owns s' w y).
    Context (HM : forall w y, ments s' w y -> ments s w y \/ (w = w0 /\ y = length (datas s) /\ y < length (datas s'))).
    Context (HO1 : forall h y, owns s' (HV h) y -> owns s (HV h) y \/ (w0 = HV h /\ rg_blk (fst y) = b0)).
    Context (V0 : av ⊆ mview o' w0).
    Context (Hacc : accesses s e s' = ((.,true) <$> rng_cells (Rng b0 0 (N.of_nat (length vals))))).
    Context (Hnew : forall c, in_rng c (Rng b0 0 (N.of_nat (length vals))) = true ->
      (exists j n, refs s' w0 (length (datas s)) /\ live (datas s') (length (datas s)) j n /\ in_rng c (nrng n) = true) \/
      (exists en, owns s' w0 en /\ in_rng c (fst en) = true)).
    Lemma old_live y j n : live (datas s') y j n -> live (datas s) y j n \/ (length (datas s) <= y /\ p_blk (d_ptr n) = b0).
    Proof.
      rewrite Ed. unfold live. intros [H|[Hl H]]%lookup_app_Some; [by left|right]. split; [done|]. eapply EX. by eapply elem_of_list_lookup_2.
    Qed.
    Lemma fill_flow : flow sz o o' (anew acq o e s').
    Proof.
      pose proof (D_inv _ _ _ _ I) as J. pose proof (D_inv _ _ _ _ I') as J'.
      split; cbn [os_s annotate].
      - apply an_loc.
      - apply an_acc.
      - intros w y Hw _. left. exists w. split; [by apply Hk|apply an_hv].
      - intros y j n i Hy Hd. exfalso. assert (live (datas s') y j n) as H by (rewrite Ed; unfold live; by apply lookup_app_l_Some).
        by rewrite (rc_get_live _ _ _ _ H) in Hd.
      - intros y j n j' n' Hy Hy'. apply old_live in Hy' as [Hy'|[Hl _]].
        + by destruct (live_fun _ _ _ _ _ _ Hy Hy') as [_ <-].
        + apply live_lt in Hy. lia.
      - intros w en c Hw Hc _. left. exists w, en. split_and!; [by apply HkO|done|apply an_hv].
      - intros w r a j v Hw _. left. exists w, r. split; [by apply HkO|apply an_hv].
      - exact Em.
      - intros a j v. rewrite Ea. unfold live. intros [H|[_ H]]%lookup_app_Some; [left; by exists j|right].
        apply elem_of_list_lookup_2, EY in H. lia.
      - lia.
      - intros w' x' j' n' Hw Hx'. destruct (HM _ _ Hw) as [Hp|(-> & -> & _)].
        + left. pose proof (O_bnd _ _ O _ _ Hp) as Hlt. apply old_live in Hx' as [Hx'|[Hl _]]; [|lia].
          exists w', x', j', n'. split_and!; [done..|apply an_mv].
        + right. intros i a Ha Hc. exfalso. apply old_live in Hx' as [Hx'|[_ Hb]]; [apply live_lt in Hx'; lia|].
          apply in_rng_pos in Hc as [_ Hc]. cbn in Hc. pose proof (O_blk _ _ O _ _ Ha). lia.
      - intros i a h e0 Ha Hwr Hw Hc. destruct (HO1 _ _ Hw) as [Hp|[_ Hb]].
        + apply (an_mv acq o e s' (HV h)). by eapply (O_write _ _ O).
        + apply in_rng_pos in Hc as [_ Hc]. pose proof (O_blk _ _ O _ _ Ha). lia.
      - intros w y Hw. destruct (HM _ _ Hw) as [Hp|(_ & _ & ?)]; [|done]. apply (O_bnd _ _ O) in Hp. rewrite Ed, app_length. lia.
      - intros k a Ha. apply an_new in Ha as (c & wr & Ha & -> & Hk1 & Hk2). cbn [ac_cell ac_write ac_seen].
        rewrite Hacc in Ha. apply list_lookup_fmap_inv in Ha as (c' & [= <- ->] & Ha). apply elem_of_list_lookup_2 in Ha.
        assert (fst c = b0) as Ec by (by apply rng_cells_elem in Ha as [? _]). apply in_rng_cell, Hnew in Ha.
        split_and!.
        + lia.
        + intros _. destruct Ha as [(j & n & Hr & Hl & Hc)|(en & Hen & Hc)].
          * left. exists (length (datas s)), j, n. split_and!; [done..|]. right. exists w0. split; [done|by apply mview_hview, V0].
          * right. exists w0, en. split_and!; [done..|by apply mview_hview, V0].
        + intros Hsz al j v Hal Hb. right. destruct Ha as [(j1 & n & Hr & Hl & Hc)|(en & Hen & Hc)].
          * left. exists (length (datas s)), j1, n. split; [done|]. split; [|right; exists w0; split; [done|by apply mview_hview, V0]].
            eapply (ent_alloc sz (cs_d s')); [done|exact J'|by eapply (di_nalloc _ _ _ _ _ _ J')|done..].
          * right. exists w0, en. split; [done|]. split; [|by apply mview_hview, V0].
            eapply (ent_alloc sz (cs_d s')); [done|exact J'|by eapply (di_oalloc _ _ _ _ _ _ J'), hold_tot|done..].
        + intros _ y j n w Hy Hc Hw. destruct (HM _ _ Hw) as [Hp|(-> & _)]; [|by apply V0]. exfalso.
          apply (O_bnd _ _ O) in Hp. apply old_live in Hy as [Hy|[Hl _]]; [|lia].
          destruct (live_cells sz _ _ _ _ _ _ _ I Hy Hc) as [v Hv]. apply (dinv_mem_blk _ _ _ _ _ _ _ _ J) in Hv. lia.
        + intros _ h e0 Hw Hc. destruct (HO1 _ _ Hw) as [Hp|[E0 _]].
          * exfalso. destruct (own_cells sz _ _ _ _ _ I (hold_tot _ _ _ _ _ Hp) Hc) as [v Hv]. apply (dinv_mem_blk _ _ _ _ _ _ _ _ J) in Hv. lia.
          * apply V0 in Hk1. by rewrite E0 in Hk1.
        + intros i b Hb Ecb _. exfalso. pose proof (O_blk _ _ O _ _ Hb). rewrite Ecb in *. lia.
        + done.
    Qed.
  End fill.

  Lemma from_vec_flow o t base vals d p len d' n T L T' L' : OI sz o -> DI sz (os_s o) T L -> cs_t (os_s o) !! t = Some [] ->
    new_block (cs_d (os_s o)) base vals = (d, p, len) -> data_from_boxed_slice d p len = (d', n) ->
    let s' := set_thread (set_world (os_s o) d' (gd_new_data (cs_g (os_s o)) None)) t [FGuard n; KSlice n; KEnd None] in
    DI sz s' T' L' -> flow sz o (annotate acq o (SStart t (CFromVec base vals)) s') (anew acq o (SStart t (CFromVec base vals)) s').
  Proof.
    intros O I Ht Enb Ebx s' I'. set (s := os_s o) in *.
    assert (n = length (datas s) /\ exists al Y, datas s' = datas s ++ [Some (1, DNode p len al None None)] /\ allocs s' = allocs s ++ Y /\
      (forall j v, Some (j, v) ∈ Y -> v = SAlloc p len) /\ blocks s' = blocks s ++ [Block base (N.of_nat (length vals)) false] /\
      dw_mem d' = dw_mem d) as (-> & al & Y & E1 & E2 & E3 & E4 & E5).
    { subst s'. cbn. unfold data_from_boxed_slice, data_new, alloc_new in Ebx. injection Enb as <- <- <-. cbn in Ebx.
      destruct (_ =? 0)%N; cbn in Ebx; injection Ebx as <- <-; cbn; (split; [done|]).
      - exists None, []. rewrite app_nil_r. split_and!; try done. intros j v Hv. by apply elem_of_nil in Hv.
      - exists (Some (length (allocs s))). eexists. split_and!; try done. intros j v Hv. apply elem_of_list_singleton in Hv. by injection Hv as _ ->. }
    assert (p_blk p = length (blocks s) /\ p_idx p = 0%N /\ len = N.of_nat (length vals)) as (P1 & P2 & P3) by by injection Enb as _ <- <-.
    assert (t < length (cs_t s)) as Hlt by by eapply lookup_lt_Some.
    assert (forall {A} (F : frame V -> list A) H w y, hold F H s w y -> hold F H s' w y) as Hk.
    { intros A F H [t'|h'] y; cbn; [|done].
      intros (st & Hs & Hy). exists st. split; [|done]. destruct (decide (t' = t)) as [->|]; [|by rewrite list_lookup_insert_ne].
      rewrite Ht in Hs. injection Hs as <-. by apply elem_of_nil in Hy. }
    eapply (fill_flow o t (CFromVec base vals) s' T T' L L' vals [_] Y (HT t) O I I' E1); try done.
    - rewrite E4, app_length. cbn. fold s. lia.
    - intros c Hc Hl. eapply fill_mem; [exact Enb| |done]. cbn in Hc. by rewrite <- E5.
    - intros j v Hv. apply elem_of_list_singleton in Hv. by injection Hv as -> ->.
    - intros j v ->%E3. done.
    - intros w y. apply Hk.
    - intros w y. apply Hk.
    - intros [t'|h'] y; cbn -[length]; [|by left]. destruct (decide (t' = t)) as [->|]; [|rewrite list_lookup_insert_ne by done; by left].
      rewrite list_lookup_insert by done. intros (? & [= <-] & Hy). right. cbn in Hy. apply elem_of_list_singleton in Hy as ->.
      split_and!; [done..|]. cbn in E1. fold s. rewrite E1, app_length. cbn. lia.
    - intros h y Hw. left. exact Hw.
    - apply (an_me acq o (SStart t (CFromVec base vals)) s').
    - cbn -[rng_cells length]. cbn -[length] in E4. fold s. rewrite E4, app_length. cbn [length]. rewrite (proj2 (Nat.eqb_neq _ _)) by lia. done.
    - intros c Hc. left. exists 1, (DNode p len al None None). split_and!.
      + cbn. rewrite list_lookup_insert by done. eexists. split; [done|left].
      + fold s. rewrite E1. apply live_snoc_new.
      + unfold nrng. cbn. rewrite P1, P2, P3. done.
  Qed.
  Lemma mut_from_vec_flow o t base vals d p len d' it al T L T' L' : OI sz o -> DI sz (os_s o) T L -> cs_t (os_s o) !! t = Some [] ->
    new_block (cs_d (os_s o)) base vals = (d, p, len) -> split_alloc_from_items sz d p len = (d', it, al) ->
    let s' := finish (set_world (os_s o) d' (cs_g (os_s o))) t None (Some (XMut (MutS it al))) None in
    DI sz s' T' L' -> flow sz o (annotate acq o (SStart t (CMutFromVec base vals)) s') (anew acq o (SStart t (CMutFromVec base vals)) s').
  Proof.
    intros O I Ht Enb Ebx s' I'. set (s := os_s o) in *.
    assert (it = SliceItems p len /\ exists Y, datas s' = datas s ++ [] /\ allocs s' = allocs s ++ Y /\
      (forall j v, Some (j, v) ∈ Y -> v = SAlloc p len) /\ blocks s' = blocks s ++ [Block base (N.of_nat (length vals)) false] /\
      dw_mem d' = dw_mem d) as (-> & Y & E1 & E2 & E3 & E4 & E5).
    { subst s'. cbn. unfold split_alloc_from_items, alloc_new in Ebx. injection Enb as <- <- <-. cbn in Ebx. rewrite app_nil_r.
      destruct (_ || _); cbn in Ebx; injection Ebx as <- <- <-; cbn; (split; [done|]).
      - exists []. rewrite app_nil_r. split_and!; try done. intros j v Hv. by apply elem_of_nil in Hv.
      - eexists. split_and!; try done. intros j v Hv. apply elem_of_list_singleton in Hv. by injection Hv as _ ->. }
    assert (p_blk p = length (blocks s) /\ p_idx p = 0%N /\ len = N.of_nat (length vals)) as (P1 & P2 & P3) by by injection Enb as _ <- <-.
    assert (t < length (cs_t s)) as Hlt by by eapply lookup_lt_Some.
    assert (forall {A} (F : frame V -> list A) H w y, hold F H s w y -> hold F H s' w y) as Hk.
    { intros A F H [t'|h'] y; cbn.
      - intros (st & Hs & Hy). exists st. split; [|done]. destruct (decide (t' = t)) as [->|]; [|by rewrite list_lookup_insert_ne].
        rewrite Ht in Hs. injection Hs as <-. by apply elem_of_nil in Hy.
      - intros (y0 & k0 & Hs & Hy). exists y0, k0. split; [|done]. by apply lookup_app_l_Some. }
    eapply (fill_flow o t (CMutFromVec base vals) s' T T' L L' vals [] Y (HV (length (cs_h s))) O I I' E1); try done.
    - rewrite E4, app_length. cbn. fold s. lia.
    - intros c Hc Hl. eapply fill_mem; [exact Enb| |done]. cbn in Hc. by rewrite <- E5.
    - intros j v Hv. by apply elem_of_nil in Hv.
    - intros j v ->%E3. done.
    - intros w y. apply Hk.
    - intros w y. apply Hk.
    - intros [t'|h'] y; cbn -[length]; left.
      + destruct (decide (t' = t)) as [->|]; [|rewrite list_lookup_insert_ne in * by done; done].
        rewrite list_lookup_insert in * by done. destruct H as (? & [= <-] & Hy). by apply elem_of_nil in Hy.
      + destruct H as (y0 & k0 & Hs & Hy). apply lookup_app_Some in Hs as [Hs|[Hl Hs]]; [eauto|].
        destruct (h' - length (cs_h s)) as [|q] eqn:Eq; [|done]. cbn in Hs. injection Hs as <- <-. by apply elem_of_nil in Hy.
    - intros h y (y0 & k0 & Hs & Hy). apply lookup_app_Some in Hs as [Hs|[Hl Hs]]; [left; exists y0, k0; done|right].
      cbn in Hl, Hs. destruct (h - length (cs_h s)) as [|q] eqn:Eq; [|done]. cbn in Hs. injection Hs as <- <-. split; [f_equal; fold s; lia|].
      cbn in Hy. apply elem_of_list_singleton in Hy as ->. cbn. by rewrite P1.
    - apply (an_mout acq o (SStart t (CMutFromVec base vals)) s'). unfold var_out. apply elem_of_app. left. apply elem_of_seq.
      cbn -[length]. fold s. rewrite app_length. cbn. lia.
    - cbn -[rng_cells length]. cbn -[length] in E4. fold s. rewrite E4, app_length. cbn [length]. rewrite (proj2 (Nat.eqb_neq _ _)) by lia. done.
    - intros c Hc. right. eexists. split.
      + exists (XMut (MutS (SliceItems p len) al)), 0. split; [cbn; by rewrite list_lookup_middle|]. left.
      + cbn. rewrite P1, P2, P3. done.
  Qed.
End new.
