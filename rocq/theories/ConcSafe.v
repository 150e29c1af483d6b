(** The ownership invariant of the whole machine: as long as every step of
    [forget_items] is clean, no step fails and the invariant is kept. *)
From Verif Require Import Base BaseLemmas Api SliceItemsModel Spec SliceItemsProof DataModel RcModel DataInv DataSteps DataFuns GuardInv GuardFuns RelMut ArcModel ArcInv ArcConc ConcInv ConcGuard ConcWorld ConcChild ConcData.
Local Open Scope nat_scope.
#[local] Arguments slo {A} F hs : simpl never.
#[local] Arguments thr {V A} F ts : simpl never.

Section safe.
  Context {V : Type} (sz : N).
  Notation stack := (list (frame V)).
  Notation dworld := (dworld V).
  Notation dinv := (@dinv V sz).
  Notation ent_ok := (@ent_ok V sz).
  Implicit Types (s : cstate V) (t : nat) (d : dworld) (T : trees) (L : list label).

  Record DI s T L : Prop := {
    D_inv : dinv (cs_d s) T L (tot hR fR s) (tot hO fO s);
    D_run : forall t st, cs_t s !! t = Some st -> dok sz (cs_d s) T L st;
    D_slot : forall h x k, cs_h s !! h = Some (Some (x, k)) -> xfact sz (cs_d s) x
  }.
  Definition cclean s (e : @sched V) : Prop :=
    match e with
    | SStep t => match cs_t s !! t with Some st => clean (cs_d s) st | None => True end
    | _ => True
    end.

  Section rest.
    Context s T L t (st : stack) (I : DI s T L) (Ht : cs_t s !! t = Some st).
    Definition rR := slo hR (cs_h s) ++ thr fR (delete t (cs_t s)).
    Definition rO := slo hO (cs_h s) ++ thr fO (delete t (cs_t s)).
    Lemma rest_dinv : dinv (cs_d s) T L (stk fR st ++ rR) (stk fO st ++ rO).
    Proof.
      eapply dinv_perm; [..|exact (D_inv _ _ _ I)]; unfold tot, rR, rO.
      - rewrite (thr_perm fR _ _ _ Ht). rewrite !app_assoc. f_equiv. apply Permutation_app_comm.
      - rewrite (thr_perm fO _ _ _ Ht). rewrite !app_assoc. f_equiv. apply Permutation_app_comm.
    Qed.
    Lemma rest_dback s' T' L' st' :
      cs_t s' = <[t := st']> (cs_t s) ->
      dinv (cs_d s') T' L' (slo hR (cs_h s') ++ stk fR st' ++ thr fR (delete t (cs_t s)))
                           (slo hO (cs_h s') ++ stk fO st' ++ thr fO (delete t (cs_t s))) ->
      dext (cs_d s) (cs_d s') -> T `prefix_of` T' -> L `prefix_of` L' ->
      dok sz (cs_d s') T' L' st' ->
      (forall h x k, cs_h s' !! h = Some (Some (x, k)) -> xfact sz (cs_d s') x) ->
      DI s' T' L'.
    Proof.
      intros E1 H1 X HT HL H2 H3.
      assert (dinv (cs_d s') T' L' (tot hR fR s') (tot hO fO s')) as H1'.
      { eapply dinv_perm; [..|exact H1]; unfold tot; rewrite E1.
        - by rewrite (thr_upd fR _ _ _ _ Ht).
        - by rewrite (thr_upd fO _ _ _ _ Ht). }
      split; [done| |done].
      intros t' st1 Ht'. rewrite E1 in Ht'. destruct (decide (t = t')) as [<-|Hne].
      - rewrite list_lookup_insert in Ht' by by eapply lookup_lt_Some. by injection Ht' as <-.
      - rewrite list_lookup_insert_ne in Ht' by done.
        eapply (dok_stable sz (cs_d s) (cs_d s') T T' L L'); [done..|apply (di_lab _ _ _ _ _ _ (D_inv _ _ _ I))|exact H1'| |by eapply (D_run _ _ _ I)].
        intros e He. unfold tot. apply elem_of_app. right. apply thr_elem. exists t', st1. rewrite E1.
        rewrite list_lookup_insert_ne by done. done.
    Qed.
    (** The variables and the data stay. *)
    Lemma rest_xfact s' h x k : dext (cs_d s) (cs_d s') -> cs_h s !! h = Some (Some (x, k)) -> xfact sz (cs_d s') x.
    Proof. intros X Hx. eapply xfact_stable; [exact X|]. by eapply (D_slot _ _ _ I). Qed.
  End rest.

  Lemma DI_init n : DI (init_cstate n) [] [].
  Proof.
    assert (forall A (F : frame V -> list A), thr F (replicate n []) = []) as E.
    { intros A F. unfold thr. induction n; [done|]. cbn. done. }
    split.
    - unfold tot. cbn [init_cstate cs_t cs_h cs_d]. rewrite !E.
      split; cbn; intros; try done; try (by constructor); try (by apply elem_of_nil in H).
      all: unfold memcnt; cbn; by rewrite ?lookup_empty.
    - intros t st [-> _]%lookup_replicate. done.
    - done.
  Qed.

  Lemma DI_mstep s D T L t st o : GI s D -> CI sz s -> DI s T L -> cs_t s !! t = Some st ->
    clean (cs_d s) st -> ~ returning st ->
    exists d g st' L', mstep sz (cs_d s) (cs_g s) st = Ok (d, g, st') /\
      forall l, DI (CS d g (cs_h s) (<[t := st']> (cs_t s)) o l) T L'.
  Proof.
    intros HG HC I Ht Hcl Hnr. destruct (G_run _ _ HG _ _ Ht) as [b Hb].
    destruct (mstep_data sz (cs_d s) (cs_g s) D (cs_h s) (rG s t) (rW s t) (rL s t) T L (rR s t) (rO s t) b st
      (rest_dinv _ _ _ _ _ I Ht) (rest_inv _ _ _ _ HG Ht) (G_len _ _ HG) Hb) as (d & g & st' & Hm & Y & I' & Hd & X).
    - intros x Hx. destruct (rest_borrow _ _ t _ HG b x Hb Hx) as (H1 & H2 & H3). split_and!; [done| |done..].
      subst b. destruct (run_borrow _ _ _ Hb) as ([h|] & Ho & _); [|done]. destruct Ho as (y & k & Hh & [= <-]).
      intros i Hi. apply elem_of_app. left. apply slo_elem. eauto.
    - intros cl Hcl'. apply (ci_ok _ _ HC). apply elem_of_app. right. apply thr_elem. eauto.
    - intros x side n' Hn. destruct (ci_new _ _ HC x side n') as (_ & H); [|done]. apply thr_elem. eauto.
    - by eapply (D_run _ _ _ I).
    - done.
    - done.
    - exists d, g, st', (L ++ Y). split; [done|]. intros l. eapply (rest_dback s T L t st I Ht); try done; cbn.
      + eapply dinv_perm; [..|exact I']; unfold rR, rO; rewrite !app_assoc; f_equiv; apply Permutation_app_comm.
      + by eexists.
      + intros h x k Hh. eapply xfact_stable; [exact X|]. by eapply (D_slot _ _ _ I).
  Qed.

  Lemma DI_finish s T L t st h x o :
    DI s T L -> cs_t s !! t = Some st ->
    (forall y, x = Some y -> xfact sz (cs_d s) y) ->
    match h with None => True | Some h => exists y k, cs_h s !! h = Some (Some (y, k)) end ->
    stk fR st = match x with Some x => hR x | None => [] end -> stk fO st = match x with Some x => hO x | None => [] end ->
    DI (finish s t h x o) T L.
  Proof.
    intros I Ht Hx Hh ER EO. pose proof (rest_dinv _ _ _ _ _ I Ht) as HD. rewrite ER, EO in HD.
    assert (forall A (F : xhandle -> list A), slo F (end_borrow (cs_h s) h) = slo F (cs_h s)) as ES.
    { intros A F. unfold end_borrow. destruct h as [h|]; [|done]. destruct Hh as (y & k & Hh). rewrite Hh. by eapply slo_borrow. }
    eapply (rest_dback s T L t st I Ht); try done.
    - change (cs_h (finish s t h x o)) with (end_borrow (cs_h s) h ++ match x with Some x => [Some (x, 0)] | None => [] end).
      change (cs_d (finish s t h x o)) with (cs_d s). rewrite !slo_app, !slo_one, !ES. eapply dinv_perm; [..|exact HD]; unfold rR, rO;
        rewrite <- !app_assoc; cbn; apply Permutation_app_swap_app.
    - apply dext_refl.
    - intros h' y k Hy. unfold finish in Hy. cbn in Hy. apply lookup_app_Some in Hy as [Hy|[_ Hy]].
      + unfold end_borrow in Hy. destruct h as [h|]; [|by eapply (D_slot _ _ _ I)]. destruct Hh as (y' & k' & Hh). rewrite Hh in Hy.
        apply list_lookup_insert_Some in Hy as [(-> & [= -> _] & _)|[_ Hy]]; by eapply (D_slot _ _ _ I).
      + destruct x as [x|]; [|done]. apply list_lookup_singleton_Some in Hy as [_ [= -> _]]. by apply Hx.
  Qed.
  Lemma DI_borrow s T L t h x k st' :
    DI s T L -> cs_t s !! t = Some [] -> cs_h s !! h = Some (Some (x, k)) ->
    stk fR st' = [] -> stk fO st' = [] -> dok sz (cs_d s) T L st' ->
    DI (set_thread (borrow s h x k) t st') T L.
  Proof.
    intros I Ht Hh ER EO Hd. pose proof (rest_dinv _ _ _ _ _ I Ht) as HD.
    eapply (rest_dback s T L t [] I Ht); try done; cbn.
    - rewrite !(slo_borrow _ _ _ _ _ _ Hh), ER, EO. exact HD.
    - apply dext_refl.
    - intros h' y k' [(-> & [= -> _] & _)|[_ Hy]]%list_lookup_insert_Some; by eapply (D_slot _ _ _ I).
  Qed.
  Lemma DI_take s T L t h x st' :
    DI s T L -> cs_t s !! t = Some [] -> cs_h s !! h = Some (Some (x, 0)) ->
    stk fR st' = hR x -> stk fO st' = hO x -> (xfact sz (cs_d s) x -> dok sz (cs_d s) T L st') ->
    DI (set_thread (take s h) t st') T L.
  Proof.
    intros I Ht Hh ER EO Hd. pose proof (rest_dinv _ _ _ _ _ I Ht) as HD.
    eapply (rest_dback s T L t [] I Ht); try done; cbn.
    - eapply dinv_perm; [..|exact HD]; unfold rR, rO; cbn.
      + rewrite (slo_upd _ _ _ _ _ Hh), (slo_perm _ _ _ _ Hh), ER. cbn. rewrite !app_assoc. f_equiv. apply Permutation_app_comm.
      + rewrite (slo_upd _ _ _ _ _ Hh), (slo_perm _ _ _ _ Hh), EO. cbn. rewrite !app_assoc. f_equiv. apply Permutation_app_comm.
    - apply dext_refl.
    - apply Hd. by eapply (D_slot _ _ _ I).
    - intros h' y k' [(-> & [=] & _)|[_ Hy]]%list_lookup_insert_Some; by eapply (D_slot _ _ _ I).
  Qed.
  (** Only the contents of the memory change. *)
  Lemma DI_write s T L c v o : DI s T L -> is_Some (dw_mem (cs_d s) !! c) ->
    DI (CS (dw_set_mem (cs_d s) (<[c := v]> (dw_mem (cs_d s)))) (cs_g s) (cs_h s) (cs_t s) o (cs_log s)) T L.
  Proof.
    intros I Hc. assert (dinv (dw_set_mem (cs_d s) (<[c := v]> (dw_mem (cs_d s)))) T L (tot hR fR s) (tot hO fO s)) as I'.
    { apply dinv_write; [|done]. apply (D_inv _ _ _ I). }
    split; cbn.
    - exact I'.
    - intros t st Ht. eapply (dok_stable sz (cs_d s) _ T T L L); [by apply dext_same|done|done|apply (di_lab _ _ _ _ _ _ (D_inv _ _ _ I))|exact I'| |by eapply (D_run _ _ _ I)].
      intros e He. apply elem_of_app. right. apply thr_elem. eauto.
    - intros h x k Hh. eapply xfact_stable; [by apply (dext_same (cs_d s))|]. by eapply (D_slot _ _ _ I).
  Qed.
  Lemma DI_out s T L o : DI s T L -> DI (CS (cs_d s) (cs_g s) (cs_h s) (cs_t s) o (cs_log s)) T L.
  Proof. intros []. by split. Qed.

  (** Accesses through values. *)
  Lemma slot_ref s T L h r k : DI s T L -> cs_h s !! h = Some (Some (XArc r, k)) ->
    exists j n, live (dw_datas (cs_d s)) (ar_data r) j n.
  Proof.
    intros I Hh. destruct (dinv_ref_live sz _ _ _ _ _ (D_inv _ _ _ I) (ar_data r)) as (j & n & l & Hn & _); [|eauto].
    apply elem_of_app. left. apply slo_elem. exists h, (XArc r), k. split; [done|left].
  Qed.
  (** What a reference covers is in memory. *)
  Lemma ref_cells s T L x j n c : DI s T L -> x ∈ tot hR fR s -> live (dw_datas (cs_d s)) x j n ->
    in_rng c (nrng n) = true -> is_Some (dw_mem (cs_d s) !! c).
  Proof.
    intros I Hx Hn Hc. destruct (dinv_live_label sz _ _ _ _ _ (D_inv _ _ _ I) _ _ _ Hn) as [l Hl].
    apply (dinv_covered sz _ _ _ _ _ (D_inv _ _ _ I)). left. exists x, l. split_and!; [done..|].
    by rewrite <- (proj1 (di_geo _ _ _ _ _ _ (D_inv _ _ _ I) _ _ _ _ Hn Hl)).
  Qed.
  Lemma own_cells s T L e c : DI s T L -> e ∈ tot hO fO s -> in_rng c (fst e) = true -> is_Some (dw_mem (cs_d s) !! c).
  Proof. intros I He Hc. apply (dinv_covered sz _ _ _ _ _ (D_inv _ _ _ I)). right. eauto. Qed.
  Lemma ref_read s T L x j n : DI s T L -> x ∈ tot hR fR s -> live (dw_datas (cs_d s)) x j n ->
    exists vs, mem_read sz (cs_d s) (N.to_nat (d_len n)) (d_ptr n) = Ok vs.
  Proof.
    intros I Hx Hn. pose proof (live_ptr_ok sz _ _ _ _ _ _ _ _ (D_inv _ _ _ I) Hn) as [_ Hp]. eexists.
    apply (mem_read_ok sz _ _ _ _ _ (nrng n) (d_alloc n) (D_inv _ _ _ I)).
    - by eapply (di_nalloc _ _ _ _ _ _ (D_inv _ _ _ I)).
    - intros c. by eapply ref_cells.
    - exact Hp.
  Qed.
  Lemma own_read s T L h m k : DI s T L -> cs_h s !! h = Some (Some (XMut m, k)) ->
    exists vs, mem_read sz (cs_d s) (N.to_nat (si_len (ms_items m))) (si_ptr (ms_items m)) = Ok vs.
  Proof.
    intros I Hh. pose proof (D_slot _ _ _ I _ _ _ Hh) as [_ Hp]. 
    set (r := Rng (p_blk (si_ptr (ms_items m))) (p_idx (si_ptr (ms_items m))) (si_len (ms_items m))).
    assert ((r, ms_alloc m) ∈ tot hO fO s) as Hin.
    { apply elem_of_app. left. apply slo_elem. exists h, (XMut m), k. split; [done|left]. }
    eexists. apply (mem_read_ok sz _ _ _ _ _ r (ms_alloc m) (D_inv _ _ _ I)).
    - exact (di_oalloc _ _ _ _ _ _ (D_inv _ _ _ I) _ Hin).
    - intros c Hc. by eapply (own_cells _ _ _ (r, ms_alloc m)).
    - exact Hp.
  Qed.
  Lemma replace_ok s T L r o p i v : DI s T L -> ent_ok (cs_d s) r o -> ptr_ok sz (cs_d s) p ->
    r = Rng (p_blk p) (p_idx p) (rg_len r) -> (i < rg_len r)%N ->
    (forall c, in_rng c r = true -> is_Some (dw_mem (cs_d s) !! c)) ->
    exists old, mem_replace sz (cs_d s) (ptr_add sz p i) v =
      Ok (dw_set_mem (cs_d s) (<[(p_blk p, p_idx p + i)%N := v]> (dw_mem (cs_d s))), old) /\
      is_Some (dw_mem (cs_d s) !! (p_blk p, p_idx p + i)%N).
  Proof.
    intros I He [_ Hp] Er Hi Hm. pose proof (points_add sz _ _ _ _ i Hp) as Hp'. destruct (Hp') as (Eb & Ei & _).
    assert (in_rng (p_blk p, p_idx p + i)%N r = true) as Hin.
    { apply in_rng_spec. rewrite Er. cbn. split; [done|lia]. }
    destruct (Hm _ Hin) as [old Hold]. exists old. split; [|eauto].
    unfold mem_replace. rewrite (mem_at_ok sz _ _ _ _ _ r o (ptr_add sz p i) (D_inv _ _ _ I) He).
    - rewrite Eb, Ei, Hold. done.
    - by rewrite Eb, Ei.
    - rewrite Er. cbn [rg_blk]. by rewrite Eb, Ei.
  Qed.

  Lemma slo_single {A} (F : xhandle -> list A) x k : slo F [Some (x, k)] = F x.
  Proof. unfold slo. cbn. by rewrite app_nil_r. Qed.
  (** New buffers. *)
  Lemma new_block_dext d base vals d1 p len (mk : bool) : new_block d base vals = (d1, p, len) ->
    bshape (if mk then fst (alloc_new d1 p len) else d1) = bshape d ++ [(base, len)] ->
    dext d (if mk then fst (alloc_new d1 p len) else d1) /\ p_blk p = length (dw_blocks d) /\ p_idx p = 0%N.
  Proof.
    intros [= <- <- <-] HB. split_and!; [|done..]. split.
    - rewrite HB. by eexists.
    - intros a k v Hv Ha. exists k. destruct mk; [|done]. unfold live in *. cbn in Hv. by rewrite lookup_app_l in Hv.
  Qed.
  Lemma blocks_lt d base len d' : bshape d' = bshape d ++ [(base, len)] -> length (dw_blocks d) < length (bshape d').
  Proof. intros ->. unfold bshape. rewrite app_length, fmap_length. cbn. lia. Qed.

  Lemma DI_from_vec s T L t base vals : DI s T L -> cs_t s !! t = Some [] -> (N.of_nat (length vals) < usize_lim)%N ->
    exists s' T' L', cstart sz s t (CFromVec base vals) = Ok s' /\ DI s' T' L'.
  Proof.
    intros I Ht Hlim. unfold cstart. rewrite Ht, (proj2 (N.ltb_lt _ _) Hlim).
    destruct (new_block (cs_d s) base vals) as [[d1 p] len] eqn:E.
    pose proof (rest_dinv _ _ _ _ _ I Ht) as HD. cbn [stk app] in HD.
    destruct (new_block_ok sz _ _ _ _ _ _ _ (negb (len =? 0)%N) _ _ _ HD Hlim E) as (Hlen & D1 & Hp & _ & _ & HB & _).
    { intros _ Hne. destruct (N.eqb_spec len 0); done. }
    destruct (new_block_dext _ _ _ _ _ _ _ E HB) as (X & Ep & Ei).
    set (mk := negb (len =? 0)%N) in *. set (d2 := if mk then fst (alloc_new d1 p len) else d1) in *.
    set (o := if mk then Some (length (dw_allocs (cs_d s))) else None) in *.
    destruct (new_root_ok sz d2 T L _ _ _ o p D1 Hp) as (h & E2 & Hlh & D2).
    assert (data_from_boxed_slice d1 p len = data_new d2 p len o) as ->.
    { unfold data_from_boxed_slice, d2, o, mk. destruct (N.eqb_spec len 0); [done|]. cbn. injection E as <- _ _. done. }
    cbn [rg_len] in E2. rewrite E2. eexists _, (T ++ [_]), (L ++ [_]). split; [done|].
    eapply (rest_dback s T L t [] I Ht); try done; cbn.
    - eapply dinv_perm; [..|exact D2]; [|done]. unfold rR. cbn. by rewrite <- Permutation_middle.
    - destruct X as [X1 X2]. split; [done|]. exact X2.
    - by eexists.
    - by eexists.
    - intros h' x k Hh. eapply (xfact_stable sz (cs_d s)); [|by eapply (D_slot _ _ _ I)]. destruct X as [X1 X2]. by split.
  Qed.
  Lemma DI_mut_from_vec s T L t base vals : DI s T L -> cs_t s !! t = Some [] -> (N.of_nat (length vals) < usize_lim)%N ->
    exists s' T' L', cstart sz s t (CMutFromVec base vals) = Ok s' /\ DI s' T' L'.
  Proof.
    intros I Ht Hlim. unfold cstart. rewrite Ht, (proj2 (N.ltb_lt _ _) Hlim).
    destruct (new_block (cs_d s) base vals) as [[d1 p] len] eqn:E.
    pose proof (rest_dinv _ _ _ _ _ I Ht) as HD. cbn [stk app] in HD.
    destruct (new_block_ok sz _ _ _ _ _ _ _ (negb ((len =? 0) || (sz =? 0))%N) _ _ _ HD Hlim E) as (Hlen & D1 & Hp & _ & _ & HB & _).
    { intros ? Hne. destruct (N.eqb_spec len 0), (N.eqb_spec sz 0); done. }
    destruct (new_block_dext _ _ _ _ _ _ _ E HB) as (X & Ep & Ei).
    set (mk := negb ((len =? 0) || (sz =? 0))%N) in *. set (d2 := if mk then fst (alloc_new d1 p len) else d1) in *.
    set (o := if mk then Some (length (dw_allocs (cs_d s))) else None) in *.
    assert (split_alloc_from_items sz d1 p len = (d2, SliceItems p len, o)) as ->.
    { unfold split_alloc_from_items, d2, o, mk. destruct (_ || _)%N; [done|]. cbn. injection E as <- _ _. done. }
    eexists _, _, _. split; [done|].
    eapply (rest_dback s T L t [] I Ht); try done.
    - change (cs_h (finish _ _ _ _ _)) with (cs_h s ++ [Some (XMut (MutS (SliceItems p len) o), 0)]).
      change (cs_d (finish _ _ _ _ _)) with d2. rewrite !slo_app, !slo_single. cbn. rewrite Ep, Ei.
      eapply dinv_perm; [..|exact D1]; unfold rR, rO; cbn; rewrite ?app_nil_r; [done|].
      rewrite <- app_assoc. cbn. apply Permutation_middle.
    - intros h' x k Hh. change (cs_h (finish _ _ _ _ _)) with (cs_h s ++ [Some (XMut (MutS (SliceItems p len) o), 0)]) in Hh.
      apply lookup_app_Some in Hh as [Hh|[_ Hh]].
      + eapply (xfact_stable sz (cs_d s)); [exact X|by eapply (D_slot _ _ _ I)].
      + apply list_lookup_singleton_Some in Hh as [_ [= <- _]]. cbn. split.
        * cbn. rewrite Ep. by eapply blocks_lt.
        * cbn. by rewrite Ep, Ei.
  Qed.
  Lemma DI_into_immut s T L t h m : DI s T L -> cs_t s !! t = Some [] -> cs_h s !! h = Some (Some (XMut m, 0)) ->
    exists d n T' L', data_new (cs_d s) (si_ptr (ms_items m)) (si_len (ms_items m)) (ms_alloc m) = (d, n) /\
      forall g, DI (set_thread (set_world (take s h) d g) t [FGuard n; KSlice n; KEnd None]) T' L'.
  Proof.
    intros I Ht Hh. pose proof (rest_dinv _ _ _ _ _ I Ht) as HD. cbn [stk app] in HD.
    pose proof (D_slot _ _ _ I _ _ _ Hh) as [Hb Hp].
    set (r := Rng (p_blk (si_ptr (ms_items m))) (p_idx (si_ptr (ms_items m))) (si_len (ms_items m))).
    assert (dinv (cs_d s) T L (slo hR (<[h:=None]> (cs_h s)) ++ thr fR (delete t (cs_t s)))
      ((r, ms_alloc m) :: slo hO (<[h:=None]> (cs_h s)) ++ thr fO (delete t (cs_t s)))) as D1.
    { eapply dinv_perm; [..|exact HD]; unfold rR, rO; cbn;
        rewrite (slo_upd _ _ _ _ _ Hh), (slo_perm _ _ _ _ Hh); done. }
    destruct (new_root_ok sz (cs_d s) T L _ _ r (ms_alloc m) (si_ptr (ms_items m)) D1 Hp) as (hp & E2 & Hlh & D2).
    eexists _, _, (T ++ [_]), (L ++ [_]). split; [exact E2|]. intros g.
    eapply (rest_dback s T L t [] I Ht); try done; cbn.
    - eapply dinv_perm; [..|exact D2]; [|done]. by rewrite <- Permutation_middle.
    - by apply dext_same.
    - by eexists.
    - by eexists.
    - intros h' x k [(-> & [=] & _)|[_ Hy]]%list_lookup_insert_Some. eapply (xfact_stable sz (cs_d s)); [by apply dext_same|by eapply (D_slot _ _ _ I)].
  Qed.
  Lemma DI_mut_split s T L t h m side : DI s T L -> cs_t s !! t = Some [] -> cs_h s !! h = Some (Some (XMut m, 0)) ->
    exists d m1 m2, mut_split_off sz side (cs_d s) m = Ok (d, (m1, m2)) /\
      forall g, DI (finish (set_world (set_slots s (<[h := Some (XMut m1, 0)]> (cs_h s))) d g) t None (Some (XMut m2)) None) T L.
  Proof.
    intros I Ht Hh. pose proof (rest_dinv _ _ _ _ _ I Ht) as HD. cbn [stk app] in HD.
    pose proof (D_slot _ _ _ I _ _ _ Hh) as [Hb Hp].
    set (r := Rng (p_blk (si_ptr (ms_items m))) (p_idx (si_ptr (ms_items m))) (si_len (ms_items m))).
    assert (dinv (cs_d s) T L (slo hR (<[h:=None]> (cs_h s)) ++ thr fR (delete t (cs_t s)))
      ((r, ms_alloc m) :: slo hO (<[h:=None]> (cs_h s)) ++ thr fO (delete t (cs_t s)))) as D1.
    { eapply dinv_perm; [..|exact HD]; unfold rR, rO; cbn;
        rewrite (slo_upd _ _ _ _ _ Hh), (slo_perm _ _ _ _ Hh); done. }
    assert (rng_ok (bshape (cs_d s)) r) as Hr by (by destruct (dinv_ent sz _ _ _ _ _ _ D1)).
    set (x := if side then si_split_off_right sz (ms_items m) else si_split_off_left sz (ms_items m)).
    assert (items_rel sz (bbase (bshape (cs_d s)) (rg_blk r)) r (ms_items m)) as Hi by (by split).
    assert (items_rel sz (bbase (bshape (cs_d s)) (rg_blk r)) (half (negb side) r) (fst x) /\
            items_rel sz (bbase (bshape (cs_d s)) (rg_blk r)) (half side r) (snd x)) as [H1 H2].
    { destruct side; [by apply si_split_off_right_rel|by apply si_split_off_left_rel]. }
    unfold mut_split_off. fold x. destruct x as [self new]. cbn [fst snd] in *.
    assert (forall sd, rg_blk (half sd r) = rg_blk r) as Hblk by (by intros []).
    assert (forall c, inr c r = inr c (half (negb side) r) + inr c (half side r)) as Hc.
    { intros c. rewrite (inr_half c r). destruct side; cbn; lia. }
    assert (forall sd, rg_len (half sd r) <> 0 -> rg_len r <> 0)%N as Hlen.
    { intros sd. pose proof (half_len_sum r). destruct sd; lia. }
    pose proof (rng_ok_half _ side _ Hr) as Hra. pose proof (rng_ok_half _ (negb side) _ Hr) as Hrb.
    assert (forall it sd, items_rel sz (bbase (bshape (cs_d s)) (rg_blk r)) (half sd r) it ->
      Rng (p_blk (si_ptr it)) (p_idx (si_ptr it)) (si_len it) = half sd r /\ ptr_ok sz (cs_d s) (si_ptr it)) as Hit.
    { intros it sd [(E1 & E2 & E3) El]. rewrite El, E1, E2. split; [by destruct (half sd r)|].
      split; [by rewrite E1, Hblk|]. rewrite E1, E2, Hblk. split_and!; [by rewrite <- (Hblk sd)|done|done]. }
    destruct (Hit _ _ H1) as [Er1 Hp1]. destruct (Hit _ _ H2) as [Er2 Hp2]. destruct H2 as [H2 H2']. rewrite H2'.
    assert (forall d o g, dinv d T L (slo hR (<[h:=None]> (cs_h s)) ++ thr fR (delete t (cs_t s)))
        ((half (negb side) r, ms_alloc m) :: (half side r, o) :: slo hO (<[h:=None]> (cs_h s)) ++ thr fO (delete t (cs_t s))) ->
        dext (cs_d s) d ->
        DI (finish (set_world (set_slots s (<[h := Some (XMut (MutS self (ms_alloc m)), 0)]> (cs_h s))) d g) t None (Some (XMut (MutS new o))) None) T L) as Hfin.
    { intros d o g D2 X. eapply (rest_dback s T L t [] I Ht); try done.
      - change (cs_h (finish _ _ _ _ _)) with (<[h := Some (XMut (MutS self (ms_alloc m)), 0)]> (cs_h s) ++ [Some (XMut (MutS new o), 0)]).
        change (cs_d (finish _ _ _ _ _)) with d. rewrite !slo_app, !slo_single.
        eapply dinv_perm; [..|exact D2]; cbn [stk mbind list_bind app].
        + rewrite !(slo_upd _ _ _ _ _ Hh). cbn. by rewrite app_nil_r.
        + rewrite !(slo_upd _ _ _ _ _ Hh). cbn. rewrite Er1, Er2, <- app_assoc. cbn. f_equiv. by rewrite <- Permutation_middle.
      - intros h' y k Hy. change (cs_h (finish _ _ _ _ _)) with (<[h := Some (XMut (MutS self (ms_alloc m)), 0)]> (cs_h s) ++ [Some (XMut (MutS new o), 0)]) in Hy.
        eapply (xfact_stable sz (cs_d s)); [exact X|]. apply lookup_app_Some in Hy as [Hy|[_ Hy]].
        + apply list_lookup_insert_Some in Hy as [(-> & [= <- _] & _)|[_ Hy]]; [exact Hp1|by eapply (D_slot _ _ _ I)].
        + apply list_lookup_singleton_Some in Hy as [_ [= <- _]]. exact Hp2. }
    destruct (N.ltb_spec 0 (rg_len (half side r))) as [Hpos|Hz].
    - destruct (dinv_split_clone sz (cs_d s) T L _ _ r (ms_alloc m) (half (negb side) r) (half side r) D1 Hc) as (hp & E & D2); eauto.
      rewrite E. cbn. eexists _, _, _. split; [reflexivity|]. intros g. apply Hfin; [done|].
      split; [done|]. intros a k v Hv Ha. by eapply alloc_clone_live.
    - cbn. eexists _, _, _. split; [reflexivity|]. intros g. apply Hfin; [|apply dext_refl].
      eapply (dinv_split_keep sz _ _ _ _ _ r); eauto. lia.
  Qed.

  Lemma DI_cstart s T L t o : DI s T L -> exists s' T' L', cstart sz s t o = Ok s' /\ DI s' T' L'.
  Proof.
    intros I. assert (exists s' T' L', Ok s = Ok s' /\ DI s' T' L') as Hnil by (by exists s, T, L).
    destruct (cs_t s !! t) as [[|f st]|] eqn:Ht; [|by unfold cstart; rewrite Ht..].
    destruct o as [base vals|base vals|h|side h|h|h|h|h|h|h|h|side h|h i v];
      [destruct (N.ltb_spec (N.of_nat (length vals)) usize_lim) as [Hlim|Hlim];
        [by eapply DI_from_vec|unfold cstart; rewrite Ht; by destruct (N.ltb_spec (N.of_nat (length vals)) usize_lim); [lia|]]
      |destruct (N.ltb_spec (N.of_nat (length vals)) usize_lim) as [Hlim|Hlim];
        [by eapply DI_mut_from_vec|unfold cstart; rewrite Ht; by destruct (N.ltb_spec (N.of_nat (length vals)) usize_lim); [lia|]]
      |unfold cstart; rewrite Ht; destruct (slot s h) as [[[r|u g| |m| |] k]|] eqn:Hh; apply slot_Some in Hh || (clear Hh); try done..].
    - eexists _, _, _. split; [done|]. by apply DI_borrow.
    - eexists _, _, _. split; [done|]. by apply DI_borrow.
    - eexists _, _, _. split; [done|]. by apply DI_borrow.
    - destruct k; [|done]. eexists _, _, _. split; [done|]. by eapply DI_take.
    - destruct k; [|done]. eexists _, _, _. split; [done|]. by eapply DI_take.
    - destruct k; [|done]. destruct (DI_into_immut _ _ _ _ _ _ I Ht Hh) as (d & n & T' & L' & -> & HI). eauto.
    - eexists _, _, _. split; [done|]. by apply DI_borrow.
    - eexists _, _, _. split; [done|]. by apply DI_borrow.
    - destruct k; [|done]. eexists _, _, _. split; [done|]. by eapply DI_take.
    - destruct k; [|done]. eexists _, _, _. split; [done|]. eapply DI_take; try done.
    - destruct k; [|done]. eexists _, _, _. split; [done|]. eapply DI_take; try done.
      + cbn. by rewrite N2Nat.id.
      + intros Hx. split; [by intros _|done].
    - destruct (slot_ref _ _ _ _ _ _ I Hh) as (j & n & Hn). rewrite (rc_val_live _ _ _ _ Hn). cbn.
      destruct (ref_read s T L (ar_data r) j n I) as [vs Hvs]; [|exact Hn|].
      { apply elem_of_app. left. apply slo_elem. exists h, (XArc r), k. split; [done|left]. }
      rewrite Hvs. cbn. eexists _, _, _. split; [done|]. by apply DI_out.
    - destruct (own_read _ _ _ _ _ _ I Hh) as [vs Hvs]. rewrite Hvs. cbn. eexists _, _, _. split; [done|]. by apply DI_out.
    - destruct k; [|done]. destruct (DI_mut_split _ _ _ _ _ _ side I Ht Hh) as (d & m1 & m2 & -> & HI). cbn. eauto.
    - destruct k; [|done]. destruct (N.ltb_spec i (si_len (ms_items m))) as [Hi|]; [|done].
      assert ((Rng (p_blk (si_ptr (ms_items m))) (p_idx (si_ptr (ms_items m))) (si_len (ms_items m)), ms_alloc m) ∈ tot hO fO s) as Hin.
      { apply elem_of_app. left. apply slo_elem. exists h, (XMut m), 0. split; [done|left]. }
      destruct (replace_ok s T L (Rng (p_blk (si_ptr (ms_items m))) (p_idx (si_ptr (ms_items m))) (si_len (ms_items m))) (ms_alloc m) (si_ptr (ms_items m)) i v I) as (old & E & Hc); [|exact (D_slot _ _ _ I _ _ _ Hh)|done|done|..].
      { exact (di_oalloc _ _ _ _ _ _ (D_inv _ _ _ I) _ Hin). }
      { intros c Hc. by eapply (own_cells _ _ _ _ _ I Hin). }
      rewrite E. cbn. eexists _, _, _. split; [done|]. by apply (DI_write s).
  Qed.

  Lemma returning_dec (st : stack) : returning st \/ ~ returning st.
  Proof.
    assert (forall st, ~ returning (V:=V) st <-> ~ (st = [] \/ (exists r, st = [FHold r; KEnd None]) \/ (exists x o h, st = [FV (VFin x o); KEnd h]) \/
    (exists r, st = [FV (VHold r); KEnd None]))) as Hx by done.
    destruct st as [|f [|f' [|]]]; [by left; left|..].
    - right. intros [|[(r & ?)|[(x & o & h & ?)|(r & ?)]]]; done.
    - destruct f; try (right; intros [|[(? & ?)|[(? & ? & ? & ?)|(? & ?)]]]; done).
      + destruct f'; try (right; intros [|[(? & ?)|[(? & ? & ? & ?)|(? & ?)]]]; done).
        destruct h; [right; intros [|[(? & ?)|[(? & ? & ? & ?)|(? & ?)]]]; done|]. left. right. left. eauto.
      + destruct v; try (right; intros [|[(? & ?)|[(? & ? & ? & ?)|(? & ?)]]]; done);
        destruct f'; try (right; intros [|[(? & ?)|[(? & ? & ? & ?)|(? & ?)]]]; done).
        * destruct h; [right; intros [|[(? & ?)|[(? & ? & ? & ?)|(? & ?)]]]; done|]. left. do 3 right. eauto.
        * left. right. right. left. eauto.
    - right; intros [|[(? & ?)|[(? & ? & ? & ?)|(? & ?)]]]; done.
  Qed.
  Lemma hold_dec (st : stack) : (exists r, st = [FHold r; KEnd None]) \/
    forall {A} (f : arcslice -> A) (z : A), match st with [FHold r; KEnd None] => f r | _ => z end = z.
  Proof.
    destruct st as [|f [|f' [|]]]; try (by right); destruct f; try (by right); destruct f'; try (by right); destruct h; try (by right).
    left. eauto.
  Qed.

  Theorem DI_cstep s D T L e : GI s D -> CI sz s -> DI s T L -> cclean s e ->
    exists s' T' L', cstep sz s e = Ok s' /\ DI s' T' L'.
  Proof.
    intros HG HC I Hcl. assert (exists s' T' L', Ok s = Ok s' /\ DI s' T' L') as Hnil by (by exists s, T, L).
    destruct e as [t o|t|t i v|t]; cbn [cstep].
    - by eapply DI_cstart.
    - destruct (cs_t s !! t) as [st|] eqn:Ht; [|unfold tstep; by rewrite Ht].
      destruct (returning_dec st) as [Hr|Hr].
      + destruct Hr as [->|[(r & ->)|[(x & o & h & ->)|(r & ->)]]]; unfold tstep; rewrite Ht; [done|done|..].
        * eexists _, _, _. split; [done|]. destruct (D_run _ _ _ I _ _ Ht) as [Hx _].
          eapply DI_finish; try done.
          -- intros y ->. exact Hx.
          -- destruct h as [h|]; [|done]. destruct (G_run _ _ HG _ _ Ht) as [b Hb]. apply run_val_inv in Hb as (q & [Hq _] & Ha).
             inversion Ha as [? ? Ho| | | | | | |]; subst. destruct Ho as (y & k & Hk & _). eauto.
          -- cbn. destruct x; by rewrite ?app_nil_r.
          -- cbn. destruct x; by rewrite ?app_nil_r.
        * eexists _, _, _. split; [done|]. eapply (rest_dback s T L t _ I Ht); try done; [|apply dext_refl|apply (D_slot _ _ _ I)].
          pose proof (rest_dinv _ _ _ _ _ I Ht) as HD. eapply dinv_perm; [..|exact HD]; unfold rR, rO; cbn; [|done].
          apply Permutation_middle.
      + destruct (tstep_cases sz s t st Ht) as [(-> & _)|[(r & -> & _)|[(x & o & h & -> & _)|[(r & -> & _)|Hc]]]];
          [exfalso; apply Hr; unfold returning; eauto 8..|].
        unfold cclean in Hcl. rewrite Ht in Hcl.
        destruct (DI_mstep s D T L t st (cs_out s) HG HC I Ht Hcl Hr) as (d & g & st' & L' & Hm & HI).
        rewrite Hc, Hm. cbn. eauto.
    - unfold hold_write. destruct (cs_t s !! t) as [st|] eqn:Ht; [|done].
      destruct (hold_dec st) as [(r & ->)|Hno]; [|by rewrite Hno].
      assert (ar_data r ∈ tot hR fR s) as Hin.
      { apply elem_of_app. right. apply thr_elem. exists t, [FHold r; KEnd None]. split; [done|left]. }
      destruct (dinv_ref_live sz _ _ _ _ _ (D_inv _ _ _ I) (ar_data r) Hin) as (j & n & l & Hn & _).
      rewrite (rc_val_live _ _ _ _ Hn). cbn. destruct (N.ltb_spec i (d_len n)) as [Hi|]; [|done].
      destruct (replace_ok s T L (nrng n) (d_alloc n) (d_ptr n) i v I) as (old & E & Hc); [..|done|done| |].
      { by eapply (di_nalloc _ _ _ _ _ _ (D_inv _ _ _ I)). }
      { by eapply (live_ptr_ok sz _ _ _ _ _ _ _ _ (D_inv _ _ _ I)). }
      { intros c. by eapply ref_cells. }
      rewrite E. cbn. eexists _, _, _. split; [done|]. by apply (DI_write s).
    - unfold hold_end. destruct (cs_t s !! t) as [st|] eqn:Ht; [|done].
      destruct (hold_dec st) as [(r & ->)|Hno]; [|by rewrite Hno].
      eexists _, _, _. split; [done|]. eapply DI_finish; try done. by intros y [= <-].
  Qed.
End safe.
