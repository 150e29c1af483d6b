(** Nothing is leaked; which items a drop drops; when calls panic. *)
From Verif Require Import Base Api BaseLemmas SliceItemsModel BinPartsModel DataModel RcModel Spec SliceItemsProof
  DataInv DataSteps GuardInv RelInv Refine Observe Facts SpecTheory Frame Views RcTheory ShareTheory Conserve ConserveTheory IterTheory.

Section leak.
  Context {V : Type} (cf : cfg V).
  Notation sz := (c_sz cf).
  Notation rel := (rel (c_sz cf)).
  Notation sstep := (spec_step (c_sz cf) (c_clone cf)).
  Notation srun := (spec_run (c_sz cf) (c_clone cf)).
  Implicit Types (w : world V) (a : astate V) (o : op V) (h : nat) (ops : list (op V)).

  Lemma dead_imgs (w : gworld) nT LI LG RG : ginv w nT LI LG [] RG -> forall i n, rc_get (gw_imgs w) i <> Some n.
  Proof.
    intros G. assert (forall m i n, length (gw_imgs w) - i <= m -> rc_get (gw_imgs w) i <> Some n) as H; [|intros i n; by eapply H].
    intros m. induction m as [|m IH]; intros i n Hm Hi; pose proof (rc_get_lt _ _ _ Hi) as Hlt; [lia|].
    pose proof (rc_get_count _ _ _ Hi) as Hl. pose proof (gi_icnt _ _ _ _ _ _ G i) as E. rewrite cnt_nil in E.
    assert (rc_count (gw_imgs w) i <> 0). { intros E0. rewrite E0 in Hl. by eapply (gi_ipos _ _ _ _ _ _ G). }
    destruct (hsum_pos (fun n => cnt i (i_pars n)) (gw_imgs w)) as (j & s & nj & Hj & Hc); [lia|].
    apply cnt_pos in Hc. unfold i_pars in Hc. destruct (i_parent nj) as [p|] eqn:Hp; [|by apply elem_of_nil in Hc].
    apply elem_of_list_singleton in Hc as ->.
    assert (rc_get (gw_imgs w) j = Some nj) as Hgj by (by eapply rc_get_live).
    destruct (lookup_lt_is_Some_2 LI j) as [l Hlj]. { rewrite (gi_leni _ _ _ _ _ _ G). by eapply rc_get_lt. }
    pose proof (gs_ipar _ _ _ _ _ (gi_str _ _ _ _ _ _ G) _ _ _ Hgj Hlj) as Hpar. rewrite Hp in Hpar. destruct Hpar as [Hlt' _].
    eapply (IH j); [|exact Hgj]. pose proof (rc_get_lt _ _ _ Hgj). lia.
  Qed.
  Lemma dead_gmgs (w : gworld) nT LI LG : ginv w nT LI LG [] [] -> forall g n, rc_get (gw_gmgs w) g <> Some n.
  Proof.
    intros G. pose proof (dead_imgs _ _ _ _ _ G) as Hd.
    assert (forall m g n, length (gw_gmgs w) - g <= m -> rc_get (gw_gmgs w) g <> Some n) as H; [|intros i n; by eapply H].
    intros m. induction m as [|m IH]; intros i n Hm Hi; pose proof (rc_get_lt _ _ _ Hi) as Hlt; [lia|].
    pose proof (rc_get_count _ _ _ Hi) as Hl. pose proof (gi_gcnt _ _ _ _ _ _ G i) as E. rewrite cnt_nil in E.
    rewrite (hsum_zero (fun n => cnt i [i_gmg n]) (gw_imgs w)) in E.
    2:{ intros j s v Hj. exfalso. apply (Hd j v). by eapply rc_get_live. }
    assert (rc_count (gw_gmgs w) i <> 0). { intros E0. rewrite E0 in Hl. by eapply (gi_gpos _ _ _ _ _ _ G). }
    destruct (hsum_pos (fun n => cnt i (g_pars n)) (gw_gmgs w)) as (j & s & nj & Hj & Hc); [lia|].
    apply cnt_pos in Hc. unfold g_pars in Hc. destruct (g_parentage nj) as [[p side]|] eqn:Hp; [|by apply elem_of_nil in Hc].
    apply elem_of_list_singleton in Hc as ->.
    assert (rc_get (gw_gmgs w) j = Some nj) as Hgj by (by eapply rc_get_live).
    destruct (lookup_lt_is_Some_2 LG j) as [ol Hlj]. { rewrite (gi_leng _ _ _ _ _ _ G). by eapply rc_get_lt. }
    destruct ol as [l|].
    - pose proof (gs_gpar _ _ _ _ _ (gi_str _ _ _ _ _ _ G) _ _ _ Hgj Hlj) as Hpar. rewrite Hp in Hpar. cbn in Hpar. destruct Hpar as [Hlt' _].
      eapply (IH j); [|exact Hgj]. pose proof (rc_get_lt _ _ _ Hgj). cbn in *. lia.
    - pose proof (gs_gnone _ _ _ _ _ (gi_str _ _ _ _ _ _ G) _ _ Hgj Hlj). congruence.
  Qed.
  Lemma dead_datas (w : dworld V) T L O : dinv sz w T L [] O -> forall d s n, ~ live (dw_datas w) d s n.
  Proof.
    intros D d s n Hd. destruct (lookup_lt_is_Some_2 L d) as [l Hl]. { rewrite (di_len _ _ _ _ _ _ D). by eapply live_lt. }
    destruct (dinv_live_root _ _ _ _ _ _ D _ _ _ _ Hd Hl) as (x & lx & Hx & _). by apply elem_of_nil in Hx.
  Qed.
  Lemma dead_allocs (w : dworld V) T L : dinv sz w T L [] [] -> forall x s v, ~ live (dw_allocs w) x s v.
  Proof.
    intros D x s v Hx. pose proof (di_acnt _ _ _ _ _ _ D x) as E. rewrite (rc_count_live _ _ _ _ Hx) in E.
    rewrite hsum_zero in E by (intros ? ? ? H; by apply (dead_datas _ _ _ _ D) in H). unfold alloc_refs in E. cbn in E. rewrite cnt_nil in E. subst.
    by eapply (di_apos _ _ _ _ _ _ D).
  Qed.
  Lemma all_dead {A} (H : heap A) : (forall i s v, ~ live H i s v) -> Forall (fun x => x = None) H.
  Proof.
    intros Hd. apply Forall_lookup_2. intros i [[s v]|] Hi; [|done]. by apply Hd in Hi.
  Qed.
  Lemma all_dead_get {A} (H : heap A) : (forall i v, rc_get H i <> Some v) -> Forall (fun x => x = None) H.
  Proof. intros Hd. apply all_dead. intros i s v Hv. apply (Hd i v). by eapply rc_get_live. Qed.

  Lemma rel_pairs w a : rel w a -> exists X, cinv sz (w_d w, w_g w) (as_trees a) X /\
    forall p, p ∈ X -> exists h, get_h w h = Some (hp_c p).
  Proof.
    intros (P & Hh & _ & C & _). exists (omap id P). split; [done|].
    intros p Hp. apply elem_of_list_omap in Hp as (o & Ho & E). cbn in E. subst. apply elem_of_list_lookup in Ho as [h Ho]. exists h.
    unfold get_h. rewrite Hh. unfold hcs. by rewrite list_lookup_fmap, Ho.
  Qed.
  (** No strong handle: everything but what weak handles need is gone. *)
  Lemma no_leak_strong ops w : reach cf ops w -> (forall h x, get_h w h = Some x -> is_weak w h) ->
    Forall (fun x => x = None) (dw_datas (w_d w)) /\ Forall (fun x => x = None) (dw_allocs (w_d w)) /\
    Forall (fun x => x = None) (gw_imgs (w_g w)) /\ dw_mem (w_d w) = ∅ /\
    (sz <> 0%N -> forall b blk, dw_blocks (w_d w) !! b = Some blk -> b_len blk <> 0%N -> b ∈ freed w).
  Proof.
    intros R Hw. pose proof R as [outs Er]. pose proof (reach_rel cf _ _ R) as Rl.
    destruct (rel_pairs _ _ Rl) as (X & (L & LI & LG & D & G & F) & HX).
    assert (forall p, p ∈ X -> exists d g, hp_c p = HWeak d g) as Hk.
    { intros p Hp. destruct (HX p Hp) as [h Hh]. destruct (Hw h _ Hh) as (d & g & Hg). rewrite Hh in Hg. injection Hg as ->. eauto. }
    assert (XS X = []) as ES.
    { apply elem_of_nil_inv. intros r (p & Hr & Hp)%elem_of_list_bind. destruct (Hk p Hp) as (d & g & E). rewrite E in Hr. by apply elem_of_nil in Hr. }
    assert (XO X = []) as EO.
    { apply elem_of_nil_inv. intros r (p & Hr & Hp)%elem_of_list_bind. destruct (Hk p Hp) as (d & g & E). rewrite Forall_forall in F. specialize (F p Hp). unfold hrel in F. rewrite E in F. destruct (hp_a p); try done. destruct F as [F _]. rewrite F in Hr. by apply elem_of_nil in Hr. }
    rewrite ES, EO in D. rewrite ES in G. cbn [fmap list_fmap] in D, G.
    split_and!.
    - apply all_dead. by eapply dead_datas.
    - apply all_dead. by eapply dead_allocs.
    - apply all_dead_get. by eapply dead_imgs.
    - apply map_empty. intros c. destruct (dw_mem (w_d w) !! c) as [v|] eqn:E; [|done]. exfalso.
      pose proof (di_own _ _ _ _ _ _ D c) as Ho. cbn in Ho. unfold memcnt in Ho. cbn in Ho. rewrite E in Ho.
      rewrite hsum_zero in Ho by (intros ? ? ? H; by apply (dead_datas _ _ _ _ D) in H). done.
    - intros Hsz b blk Hb Hl. destruct (conserved cf ops w outs Er) as (_ & _ & Hf & _). apply Hf. exists blk. split; [done|].
      destruct (b_freed blk) eqn:E; [done|]. exfalso. destruct (di_freed _ _ _ _ _ _ D Hsz b blk Hb E Hl) as (x & s & v & Hx & _).
      by eapply dead_allocs.
  Qed.
  (** C27 *)
  Lemma no_leak ops w : reach cf ops w -> (forall h, get_h w h = None) ->
    Forall (fun x => x = None) (dw_datas (w_d w)) /\ Forall (fun x => x = None) (dw_allocs (w_d w)) /\
    Forall (fun x => x = None) (gw_imgs (w_g w)) /\ Forall (fun x => x = None) (gw_gmgs (w_g w)) /\
    (sz <> 0%N -> forall b blk, dw_blocks (w_d w) !! b = Some blk -> b_len blk <> 0%N -> b ∈ freed w).
  Proof.
    intros R Hw. destruct (no_leak_strong _ _ R) as (H1 & H2 & H3 & H4 & H5). { intros h x Hx. by rewrite Hw in Hx. }
    split_and!; try done.
    pose proof (reach_rel cf _ _ R) as Rl. destruct (rel_pairs _ _ Rl) as (X & (L & LI & LG & D & G & F) & HX).
    assert (X = []) as ->. { apply elem_of_nil_inv. intros p Hp. destruct (HX p Hp) as [h Hh]. by rewrite Hw in Hh. }
    apply all_dead_get. by eapply dead_gmgs.
  Qed.
  
  (** C24 *)
  Lemma split_panics ops w h n : reach cf ops w -> is_rc w h \/ is_mut w h -> (n < usize_lim)%N -> (forall k, n <> 2 ^ k)%N ->
    exists w', rstep cf w (OSplitIntoParts h n) = Ok (w', RPanic) /\ rstep cf w (ODrop h) = Ok (w', RUnit).
  Proof.
    intros R Hk Hlt Hn. apply reach_rel in R. generalize dependent (hist cf ops). intros a R. clear ops.
    destruct (rstep_spec cf _ _ (OSplitIntoParts h n) R) as (w' & E & _). exists w'.
    assert (log2_exact n = None) as Hlog. { unfold log2_exact. case_match eqn:Eq; [|done]. apply N.eqb_eq in Eq. by apply Hn in Eq. }
    assert (snd (sstep a (OSplitIntoParts h n)) = RPanic) as Hout.
    { cbn [spec_step]. rewrite (proj2 (N.ltb_lt _ _) Hlt). cbn [negb]. rewrite Hlog. destruct Hk as [Hk|Hk].
      - destruct (proj1 (kind_rc cf w a h R) Hk) as [l ->]. done.
      - destruct (proj1 (kind_mut cf w a h R) Hk) as [l ->]. done. }
    rewrite Hout in E. split; [done|]. unfold rstep in *. cbn [step] in *. rewrite (proj2 (N.ltb_lt _ _) Hlt) in E. cbn [negb] in E.
    destruct Hk as [[r Hr]|[m Hm]].
    - rewrite Hr in *. cbn [handle_drop]. destruct (bpi_new _ _ _ _) as [it| | |]; try done.
      destruct (rcs_drop sz (w_d w, w_g w) r) as [s'| | |]; try done. cbn [mbind res_bind] in *. unfold ret in *. by injection E as <-.
    - rewrite Hm in *. cbn [handle_drop]. destruct (mut_split_into_parts _ _) as [it| | |]; try done. cbn [fst] in *.
      destruct (mut_drop sz (w_d w) m) as [s'| | |]; try done. cbn [mbind res_bind] in *. unfold ret in *. by injection E as <-.
  Qed.
  Lemma split_succeeds ops w h k : reach cf ops w -> is_rc w h \/ is_mut w h -> (2 ^ k < usize_lim)%N ->
    exists w', rstep cf w (OSplitIntoParts h (2 ^ k)%N) = Ok (w', RHandle (length (w_h w))).
  Proof.
    intros R Hk Hlt. destruct (deref_total cf ops w h R) as (ad & its & Hv & _). { destruct Hk; [by left|right; right; by left]. }
    rewrite <- (N2Nat.id k) in *. destruct (parts_run cf ops w h _ _ R Hk Hv Hlt) as (w1 & E & _). eauto.
  Qed.

  (** *** Which items a call drops *)
  Lemma step_drops ops w o w' r : reach cf ops w -> rstep cf w o = Ok (w', r) -> put cf w o r = [] -> got r = [] ->
    exists nd : list ((nat * N) * V), dropped_cells w' = dropped_cells w ++ nd.*1 /\ dropped w' = dropped w ++ nd.*2 /\
      NoDup nd.*1 /\ (forall c v, (c, v) ∈ nd <-> item w c = Some v /\ item w' c = None) /\
      (forall c v, item w' c = Some v -> item w c = Some v).
  Proof.
    intros Hr E Hp Hg. apply (step_cons cf _ _ _ _ _ (reach_rel _ _ _ Hr)) in E as (nb & ins & outs & mid & taken & (nd & T & M & B & F & D & N & L) & Ev & Eg & Ei & Eo).
    rewrite Hp in Ev. rewrite Hg in Eg. apply fmap_nil_inv in Ev, Eg. subst. rewrite !app_nil_r in M.
    exists (drops nd). unfold dropped, dropped_cells. rewrite T, !omap_snoc, <- drops_cells, <- drops_vals.
    assert (NoDup ((map_to_list (dw_mem (w_d w'))).*1 ++ (drops nd).*1)) as Hn.
    { rewrite <- fmap_app, <- M. apply NoDup_fst_map_to_list. }
    apply NoDup_app in Hn as (_ & Hn1 & Hn2). split_and!; try done.
    { by rewrite drops_cells. }
    - intros c v. unfold item. split.
      + intros Hc. assert ((c, v) ∈ map_to_list (dw_mem (w_d w))) as H1 by (rewrite M; apply elem_of_app; by right).
        apply elem_of_map_to_list in H1. split; [done|]. destruct (dw_mem (w_d w') !! c) as [v'|] eqn:E'; [|done]. exfalso.
        apply (Hn1 c); apply elem_of_list_fmap; [exists (c, v'); split; [done|by apply elem_of_map_to_list]|by exists (c, v)].
      + intros [H1 H2]. apply elem_of_map_to_list in H1. rewrite M in H1. apply elem_of_app in H1 as [H1|H1]; [|done].
        apply elem_of_map_to_list in H1. congruence.
    - intros c v H1. unfold item in *. apply elem_of_map_to_list. rewrite M. apply elem_of_app. left. by apply elem_of_map_to_list.
  Qed.
  (** Dropping any variable: exactly the items nobody else covers. *)
  Lemma drop_exact ops w h w' r : reach cf ops w -> rstep cf w (ODrop h) = Ok (w', r) ->
    exists nd : list ((nat * N) * V), dropped_cells w' = dropped_cells w ++ nd.*1 /\ dropped w' = dropped w ++ nd.*2 /\ NoDup nd.*1 /\
      forall c v, (c, v) ∈ nd <-> item w c = Some v /\ c ∈ h_cells cf w h /\ (forall h', h' <> h -> c ∉ h_cells cf w h').
  Proof.
    intros R E. destruct (step_drops _ _ _ _ _ R E eq_refl) as (nd & H1 & H2 & H3 & H4 & _).
    { destruct (step_rel cf _ _ _ _ _ (reach_rel _ _ _ R) E) as [-> _]. cbn. by destruct (a_get _ h). }
    exists nd. split_and!; try done. intros c v. rewrite H4. split.
    - intros [Hc Hn]. split; [done|].
      assert (forall h', h' <> h -> c ∉ h_cells cf w h') as Hh.
      { intros h' Hne Hc'. assert (h' < length (w_h w)) as Hlt.
        { destruct (decide (h' < length (w_h w))); [done|]. unfold h_cells, h_slice, get_h in Hc'. rewrite lookup_ge_None_2 in Hc' by lia. by apply elem_of_nil in Hc'. }
        destruct (step_rel cf _ _ _ _ _ (reach_rel _ _ _ R) E) as [_ R'].
        rewrite <- (cells_frame cf _ _ _ _ _ (reach_rel _ _ _ R) R') in Hc' by (cbn; congruence || done).
        destruct (proj2 (alive_iff_covered cf _ _ c (reach_step _ _ _ _ _ _ R E)) (ex_intro (fun x => c ∈ h_cells cf _ x) _ Hc')) as [? ?]. congruence. }
      split; [|done]. destruct (proj1 (alive_iff_covered cf _ _ c R) (ex_intro (fun x => item w c = Some x) _ Hc)) as [h' Hc'].
      destruct (decide (h' = h)) as [->|Hne]; [done|]. by apply Hh in Hc'.
    - intros (Hc & _ & Hh). split; [done|]. destruct (item w' c) as [v'|] eqn:Ev; [|done]. exfalso.
      destruct (proj1 (alive_iff_covered cf _ _ c (reach_step _ _ _ _ _ _ R E)) (ex_intro (fun x => item w' c = Some x) _ Ev)) as [h' Hc'].
      destruct (step_rel cf _ _ _ _ _ (reach_rel _ _ _ R) E) as [_ R'].
      assert (get_h w' h = None \/ h_cells cf w h = [] ) as Hd.
      { left. pose proof (rel_kind _ _ _ R' h) as K. cbn [spec_step] in K. destruct (a_get (hist cf ops) h) as [x|] eqn:Ex.
        - cbn [fst] in K. rewrite get_tget in K. cbn in K. rewrite get_upd in K by (by eapply a_get_lt). by destruct (get_h w' h).
        - cbn [fst] in K. rewrite Ex in K. by destruct (get_h w' h). }
      assert (h' <> h) as Hne.
      { intros ->. destruct Hd as [Hd|Hd].
        - unfold h_cells, h_slice in Hc'. rewrite Hd in Hc'. by apply elem_of_nil in Hc'.
        - destruct (derived_cells cf _ _ (ODrop h) h _ _ R eq_refl ltac:(by intros []) E) as [(l1 & l2 & Hi) _]. rewrite Hd in Hi. symmetry in Hi. apply app_eq_nil in Hi as [_ Hi]. apply app_eq_nil in Hi as [Hi _]. rewrite Hi in Hc'. by apply elem_of_nil in Hc'. }
      apply (Hh h' Hne). assert (h' < length (w_h w)) as Hlt.
      { pose proof (rel_len cf _ _ R') as Hl'. assert (h' < length (w_h w')) as Hl2.
        { destruct (decide (h' < length (w_h w'))); [done|]. unfold h_cells, h_slice, get_h in Hc'. rewrite lookup_ge_None_2 in Hc' by lia. by apply elem_of_nil in Hc'. }
        pose proof (rel_len cf _ _ (reach_rel _ _ _ R)). cbn [spec_step] in Hl'. destruct (a_get (hist cf ops) h); cbn in Hl'; rewrite ?insert_length in Hl'; lia. }
      by rewrite <- (cells_frame cf _ _ _ _ _ (reach_rel _ _ _ R) R') by (cbn; congruence || done).
  Qed.
  (** Dropping a handle that owns its items: all of them, in order. *)
  Lemma alloc_release_trace (d : dworld V) (o : option nat) d' : alloc_release sz d o = Ok d' -> exists nd, dw_trace d' = dw_trace d ++ nd /\ drops nd = [].
  Proof.
    unfold alloc_release. destruct o as [x|]; [|intros [= <-]; exists []; by rewrite app_nil_r].
    destruct (rc_dec _ _) as [[hh [v|]]| | |]; cbn [mbind res_bind]; try done; [|intros [= <-]; exists []; by rewrite app_nil_r].
    unfold salloc_drop. repeat case_match; try done; intros [= <-]; cbn; [exists []; by rewrite app_nil_r|]. eexists. split; [done|]. done.
  Qed.
  Lemma items_drop_order (d : dworld V) p len al d' : items_alloc_drop sz d p len al = Ok d' ->
    exists nd, dw_trace d' = dw_trace d ++ nd /\ (drops nd).*1 = rng_cells (Rng (p_blk p) (p_idx p) len) /\
      Forall (fun x => dw_mem d !! fst x = Some (snd x)) (drops nd).
  Proof.
    unfold items_alloc_drop. destruct (drop_in_place _ _ _ _) as [d1| | |] eqn:E1; cbn [mbind res_bind]; try done. intros E2.
    destruct (drop_in_place_trace _ _ _ _ _ E1) as (n1 & T1 & C1 & _ & F1). destruct (alloc_release_trace _ _ _ E2) as (n2 & T2 & D2).
    exists (n1 ++ n2). rewrite T2, T1, drops_app, D2, app_nil_r. rewrite N2Nat.id in C1. split_and!; [by rewrite app_assoc|done|done].
  Qed.
  Lemma drop_order ops w h w' r adr l : reach cf ops w -> is_unique w h -> view cf w h = Some (adr, l) -> rstep cf w (ODrop h) = Ok (w', r) ->
    dropped_cells w' = dropped_cells w ++ h_cells cf w h /\ dropped w' = dropped w ++ l.
  Proof.
    intros R Hu Hv E. 
    assert (exists p len al d', h_slice cf w h = Some (p, len) /\ items_alloc_drop sz (w_d w) p len al = Ok d' /\ w_d w' = d') as (p & len & al & d' & Hs & Ed & Hd).
    { unfold rstep in E. cbn [step] in E. unfold h_slice. destruct Hu as [[m Hm]|[[m Hm]|[m Hm]]]; rewrite Hm in *; cbn [handle_drop fst] in E.
      - destruct (mut_drop _ _ _) as [d'| | |] eqn:Ed; cbn [mbind res_bind] in E; try done. injection E as <- <-. unfold mut_drop in Ed. eauto 10.
      - destruct (iter_drop _ _ _) as [d'| | |] eqn:Ed; cbn [mbind res_bind] in E; try done. injection E as <- <-. unfold iter_drop in Ed.
        destruct (sit_as_slice _ _) as [[p len]| | |]; try done. cbn [mbind res_bind res_opt] in *. eauto 10.
      - destruct (mparts_drop _ _ _) as [d'| | |] eqn:Ed; cbn [mbind res_bind] in E; try done. injection E as <- <-. unfold mparts_drop in Ed.
        destruct (sip_as_slice _ _) as [[p len]| | |]; try done. cbn [mbind res_bind res_opt] in *. eauto 10. }
    destruct (items_drop_order _ _ _ _ _ Ed) as (nd & T & C & F).
    unfold dropped_cells, dropped. rewrite Hd, T, !omap_snoc, (drops_cells nd), (drops_vals nd), C. unfold h_cells. rewrite Hs. split; [done|]. f_equal.
    destruct (deref_total cf ops w h R) as (ad & its & Hv' & Hits); [by right; right|]. rewrite Hv in Hv'. injection Hv' as <- <-.
    unfold h_cells in Hits. rewrite Hs, <- C in Hits. clear -F Hits. revert l Hits. induction F as [|[c v] nd' Hc _ IH]; intros [|x l]; try done.
    cbn. intros [= Hx Hl]. cbn in Hc. unfold item in Hx. rewrite Hc in Hx. injection Hx as ->. f_equal. by apply IH.
  Qed.
  (** Conversions drop nothing. *)
  Lemma convert_drops_nothing ops w h o w' n : reach cf ops w -> o = OIntoMut h \/ o = OIntoImmut h \/ o = OIntoIter h ->
    rstep cf w o = Ok (w', RHandle n) -> dropped_cells w' = dropped_cells w /\ dropped w' = dropped w.
  Proof.
    intros R Ho E. destruct (convert_keeps cf _ _ _ _ _ _ R Ho E) as (_ & _ & _ & _ & _ & Hi).
    destruct (step_drops _ _ _ _ _ R E) as (nd & H1 & H2 & H3 & H4 & _); [by destruct Ho as [->|[->| ->]]|done|].
    assert (nd = []) as ->. { apply elem_of_nil_inv. intros [c v] [Hc Hn]%H4. rewrite Hi in Hn. congruence. }
    rewrite H1, H2. by rewrite !app_nil_r.
  Qed.

  (** C32: when calls panic *)
  Lemma panic_only ops w o w' : reach cf ops w -> rstep cf w o = Ok (w', RPanic) ->
    match o with
    | OSplitIntoParts h n => (forall k, n <> 2 ^ k)%N
    | OReplace h i _ | OGetMutReplace h i _ => exists v, view cf w h = Some v /\ (N.of_nat (length (snd v)) <= i)%N
    | OSplitAt _ h i => exists v, view cf w h = Some v /\ (N.of_nat (length (snd v)) < i)%N
    | _ => False
    end.
  Proof.
    intros R E. apply reach_rel in R. generalize dependent (hist cf ops). intros a R. clear ops.
    destruct (step_rel cf _ _ _ _ _ R E) as [Ho _]. symmetry in Ho.
    assert (forall x r i v, a_get a x = Some r -> ~ a_weak r -> snd (a_replace a (hcells (as_trees a) r) i v) = RPanic -> exists v, view cf w x = Some v /\ (N.of_nat (length (snd v)) <= i)%N) as Hrep.
    { intros x y i v Hx Hw. destruct (handle_rng cf _ _ _ _ R Hx Hw) as (r & Hc & Hcov & Hv). rewrite Hc. unfold a_replace.
      destruct (rng_cells r !! N.to_nat i) as [c|] eqn:Ec; [by destruct (as_mem a !! c)|]. intros _. eexists. split; [done|].
      apply lookup_ge_None_1 in Ec. rewrite rview_len by done. rewrite rng_cells_length in Ec. lia. }
    destruct o as [base vals|base vals| |h|h base|side h|side h|h n|h|h i v|h|h|h|h|h|h|h i v|h|b h|to h i|h]; cbn [spec_step] in Ho.
    all: try (repeat case_match; try done; subst; cbn in Ho; try done; by simplify_eq).
    - intros k ->. destruct (negb _); [done|]. destruct (a_get a h) as [[]|]; try done; rewrite <- (N2Nat.id k), log2_exact_pow in Ho; done.
    - destruct (a_get a h) as [[l|l|qq|r0|r0|rs]|] eqn:Hx; try done. destruct (_ && _); [|done]. by apply (Hrep _ _ _ _ Hx ltac:(by intros []) Ho).
    - destruct (a_get a h) as [[l|l|qq|r0|r0|rs]|] eqn:Hx; try done; by apply (Hrep _ _ _ _ Hx ltac:(by intros []) Ho).
    - destruct (a_get a h) as [[l|l|qq|r0|r0|rs]|] eqn:Hx; try done. destruct (N.ltb_spec (rg_len r0) i); [|by destruct to].
      destruct (view_cov cf _ _ _ _ r0 R Hx ltac:(by intros []) eq_refl) as [Hcov Hv]. eexists. split; [done|]. rewrite rview_len by done. lia.
  Qed.
End leak.
