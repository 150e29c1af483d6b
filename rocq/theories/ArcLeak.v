(** What the thread-safe API leaves behind when used by one thread (C42). *)
From Verif Require Import Base Api BaseLemmas SliceItemsModel BinPartsModel DataModel RcModel Spec SliceItemsProof
  DataInv DataSteps GuardInv Observe Conserve LeakTheory
  ArcModel ArcInv ArcRelInv ArcSpec ArcRefine ArcObserve ArcFacts ArcTheory ArcConserve.

Section leak.
  Context {V : Type} (cf : cfg V).
  Notation sz := (c_sz cf).
  Notation rel := (ArcRefine.rel (c_sz cf)).
  Implicit Types (w : aworld V) (o : op V) (h : nat) (ops : list (op V)).

  Lemma dead_guards (w : gdworld) L LI RW : ainv w L LI [] RW -> forall i n, rc_get (gd_guards w) i <> Some n.
  Proof.
    intros G. assert (forall m i n, length (gd_guards w) - i <= m -> rc_get (gd_guards w) i <> Some n) as H; [|intros i n; by eapply H].
    intros m. induction m as [|m IH]; intros i n Hm Hi; pose proof (rc_get_lt _ _ _ Hi) as Hlt; [lia|].
    pose proof (rc_get_count _ _ _ Hi) as Hl. pose proof (ai_cnt _ _ _ _ _ G i) as E. rewrite cnt_nil in E.
    assert (rc_count (gd_guards w) i <> 0). { intros E0. rewrite E0 in Hl. by eapply (ai_pos _ _ _ _ _ G). }
    destruct (hsum_pos (fun n => cnt i (a_pars n)) (gd_guards w)) as (j & s & nj & Hj & Hc); [lia|].
    apply cnt_pos in Hc. unfold a_pars in Hc. destruct (a_parent nj) as [p|] eqn:Hp; [|by apply elem_of_nil in Hc].
    apply elem_of_list_singleton in Hc as ->.
    assert (rc_get (gd_guards w) j = Some nj) as Hgj by (by eapply rc_get_live).
    destruct (lookup_lt_is_Some_2 LI j) as [l Hlj]. { rewrite (ai_len _ _ _ _ _ G). by eapply rc_get_lt. }
    pose proof (ai_par _ _ _ _ _ G _ _ _ Hgj Hlj) as Hpar. rewrite Hp in Hpar. destruct Hpar as [Hlt' _].
    eapply (IH j); [|exact Hgj]. pose proof (rc_get_lt _ _ _ Hgj). lia.
  Qed.
  Lemma arc_rel_pairs w sk : rel w sk -> exists X LI, xinv sz LI (aw_d w, aw_g w) (as_trees (fst sk)) X /\
    forall p, p ∈ X -> exists h, xget w h = Some (xp_c p).
  Proof.
    intros (P & LI & (Hh & _ & C & _) & _). exists (omap id P), LI. split; [done|].
    intros p Hp. apply elem_of_list_omap in Hp as (o & Ho & E). cbn in E. subst. apply elem_of_list_lookup in Ho as [h Ho]. exists h.
    unfold xget. rewrite Hh. unfold xcs. by rewrite list_lookup_fmap, Ho.
  Qed.
  (** No strong handle: no data, guard, allocation token, item or buffer is left. *)
  Lemma arc_no_leak ops w : xreach cf ops w -> (forall h x, xget w h = Some x -> is_aweak w h) ->
    Forall (fun x => x = None) (dw_datas (aw_d w)) /\ Forall (fun x => x = None) (dw_allocs (aw_d w)) /\
    Forall (fun x => x = None) (gd_guards (aw_g w)) /\ dw_mem (aw_d w) = ∅ /\
    (sz <> 0%N -> forall b blk, dw_blocks (aw_d w) !! b = Some blk -> b_len blk <> 0%N -> b ∈ xfreed w).
  Proof.
    intros R Hw. pose proof R as [outs Er]. pose proof (xreach_rel cf _ _ R) as Rl.
    destruct (arc_rel_pairs _ _ Rl) as (X & LI & (L & D & G & F) & HX).
    assert (forall p, p ∈ X -> exists d g, xp_c p = XWeak d g) as Hk.
    { intros p Hp. destruct (HX p Hp) as [h Hh]. destruct (Hw h _ Hh) as (d & g & Hg). rewrite Hh in Hg. injection Hg as ->. eauto. }
    assert (YS X = []) as ES.
    { apply elem_of_nil_inv. intros r (p & Hr & Hp)%elem_of_list_bind. destruct (Hk p Hp) as (d & g & E). rewrite E in Hr. by apply elem_of_nil in Hr. }
    assert (YO X = []) as EO.
    { apply elem_of_nil_inv. intros r (p & Hr & Hp)%elem_of_list_bind. destruct (Hk p Hp) as (d & g & E). rewrite Forall_forall in F. specialize (F p Hp). unfold xrel in F. rewrite E in F. destruct (xp_a p); try done. destruct F as [F _]. rewrite F in Hr. by apply elem_of_nil in Hr. }
    rewrite ES, EO in D. rewrite ES in G. cbn [fmap list_fmap] in D, G.
    split_and!.
    - apply all_dead. by eapply (dead_datas cf).
    - apply all_dead. by eapply (dead_allocs cf).
    - apply all_dead_get. by eapply dead_guards.
    - apply map_empty. intros c. destruct (dw_mem (aw_d w) !! c) as [v|] eqn:E; [|done]. exfalso.
      pose proof (di_own _ _ _ _ _ _ D c) as Ho. cbn in Ho. unfold memcnt in Ho. cbn in Ho. rewrite E in Ho.
      rewrite hsum_zero in Ho by (intros ? ? ? H; by apply (dead_datas cf _ _ _ _ D) in H). done.
    - intros Hsz b blk Hb Hl. destruct (arc_conserved cf ops w outs Er) as (_ & _ & Hf & _). apply Hf. exists blk. split; [done|].
      destruct (b_freed blk) eqn:E; [done|]. exfalso. destruct (di_freed _ _ _ _ _ _ D Hsz b blk Hb E Hl) as (x & s & v & Hx & _).
      by eapply (dead_allocs cf).
  Qed.
  (** What is leaked, exactly: one box per data and one per guard ever made, and
      the memory of every guard, to which its box still holds a weak reference. *)
  Lemma arc_leak_exact ops w : xreach cf ops w ->
    boxes_made w = length (dw_datas (aw_d w)) + length (gd_guards (aw_g w)) /\ boxes_freed w = 0 /\
    length (gd_weak (aw_g w)) = length (gd_guards (aw_g w)) /\
    (forall i c, gd_weak (aw_g w) !! i = Some c -> 1 <= c) /\
    ((forall h, ~ is_aweak w h) -> forall i c, gd_weak (aw_g w) !! i = Some c -> c = 1).
  Proof.
    intros R. destruct (arc_rel_pairs _ _ (xreach_rel cf _ _ R)) as (X & LI & (L & D & G & F) & HX). cbn [fst snd] in *. split_and!.
    - unfold boxes_made. rewrite (ai_leak _ _ _ _ _ G), (ai_lenm _ _ _ _ _ G), (di_len _ _ _ _ _ _ D). done.
    - unfold boxes_freed. destruct (filter _ _) as [|x l] eqn:E; [done|]. exfalso.
      assert (x ∈ filter (fun o : option (option nat) => o = None) (gd_boxes (aw_g w))) as Hx by (rewrite E; left).
      apply elem_of_list_filter in Hx as [-> Hx]. apply elem_of_list_lookup in Hx as [b Hb]. by apply (ai_nofree _ _ _ _ _ G b).
    - apply (ai_lenw _ _ _ _ _ G).
    - intros i c Hc. rewrite (ai_wcnt _ _ _ _ _ G _ _ Hc). lia.
    - intros Hn i c Hc. rewrite (ai_wcnt _ _ _ _ _ G _ _ Hc). f_equal.
      assert (YW X = []) as ->; [|by rewrite cnt_nil]. apply elem_of_nil_inv. intros r (p & Hr & Hp)%elem_of_list_bind.
      destruct (HX p Hp) as [h Hh]. destruct (xp_c p) as [|d g| | | |] eqn:E; cbn in Hr; try (by apply elem_of_nil in Hr). apply (Hn h). by exists d, g.
  Qed.
End leak.

Lemma arc_freed_ok (V : Type) (cf : cfg V) ops w : xreach cf ops w ->
  NoDup (xfreed w) /\
  (forall b addr cap, EFree b addr cap ∈ dw_trace (aw_d w) -> exists blk, dw_blocks (aw_d w) !! b = Some blk /\ b_base blk = addr /\ b_len blk = cap) /\
  (c_sz cf <> 0%N -> forall h c, c ∈ x_cells cf w h -> fst c ∉ xfreed w).
Proof.
  intros R. split_and!.
  - by eapply arc_freed_once.
  - intros b addr cap. by eapply arc_freed_layout.
  - intros Hs h c. by eapply arc_not_freed_early.
Qed.
