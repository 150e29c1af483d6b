(** Nothing still alive reaches the item whose destructor runs. *)
From Verif Require Import Base BaseLemmas Api SliceItemsModel Spec SliceItemsProof DataModel RcModel DataInv DataSteps GuardInv GuardFuns ArcModel ArcInv ArcConc ConcInv ConcGuard ConcWorld ConcChild ConcData ConcSafe ConcSpec ConcTheory ConcConserve ConcShare ConcTree ConcCov ConcCalm ConcHold ConcItem ReentSpec ReentTheory.
Local Open Scope nat_scope.
#[local] Arguments slo {A} F hs : simpl never.
#[local] Arguments thr {V A} F ts : simpl never.

Section item.
  Context {V : Type} (sz : N).
  Implicit Types (s : cstate V) (t : nat) (es : list (sched (V:=V))).
  Notation datas s := (dw_datas (cs_d s)).

  Lemma drop_step s t s' b i v : cstep sz s (SStep t) = Ok s' -> dw_trace (cs_d s') = dw_trace (cs_d s) ++ [EDrop b i v] ->
    citem s (b, i) = Some v /\ exists m p a k, cs_t s !! t = Some (FItems (S m) p a :: k) /\ b = p_blk p /\ i = p_idx p.
  Proof.
    intros Hs Ht. destruct (runs_items sz s t) as (m & p & a & k & Hst); [by exists s', b, i, v|].
    cbn in Hs. destruct (tstep_cases sz s t _ Hst) as [(? & _)|[(r & ? & _)|[(x & o & h & ? & _)|[(r & ? & _)|Hc]]]]; try done.
    rewrite Hc in Hs. apply bind_inv in Hs as ([[d g] st1] & Hm & [= <-]). cbn in Hm, Ht. apply bind_inv in Hm as ([d1 v1] & Hv & [= <- _ _]).
    unfold mem_take in Hv. apply bind_inv in Hv as (v2 & Hv & [= <- <-]). cbn in Ht. apply app_inj_tail in Ht as [_ [= <- <- <-]].
    split; [|by eexists _, _, _, _].
    unfold mem_at in Hv. unfold citem. repeat (case_match; try done). by injection Hv as ->.
  Qed.
  Lemma owned_gone s T L e O' c : DI sz s T L -> tot hO fO s ≡ₚ e :: O' -> in_rng c (fst e) = true -> forall x, c ∉ data_cells s x.
  Proof.
    intros D EO Hc x Hx. apply data_cells_live in Hx as (j & n & Hx & Hn). pose proof (D_inv _ _ _ _ D) as J.
    destruct (dinv_live_label sz _ _ _ _ _ J _ _ _ Hx) as [ly Hly].
    destruct (dinv_live_root sz _ _ _ _ _ J _ _ _ _ Hx Hly) as (z & lz & Hz & Hlz & Han).
    rewrite (proj1 (di_geo _ _ _ _ _ _ J _ _ _ _ Hx Hly)) in Hn. apply (in_rng_anc _ _ _ _ Han) in Hn.
    destruct (dinv_exclusive sz _ _ _ _ _ J _ _ _ EO Hc) as [_ H]. rewrite (H _ _ Hz Hlz) in Hn. done.
  Qed.
  Lemma items_gone s T L t m p a k c : DI sz s T L -> cs_t s !! t = Some (FItems (S m) p a :: k) -> c = (p_blk p, p_idx p) ->
    (forall x, c ∉ data_cells s x) /\ (forall x, has s x -> c ∉ xcells s x).
  Proof.
    intros D Ht ->. set (c := (p_blk p, p_idx p)). set (e := (Rng (p_blk p) (p_idx p) (N.of_nat (S m)), a)).
    assert (in_rng c (fst e) = true) as Hc by (apply in_rng_spec; cbn; lia).
    assert (tot hO fO s ≡ₚ e :: slo hO (cs_h s) ++ stk fO k ++ thr fO (delete t (cs_t s))) as HP.
    { unfold tot. rewrite (thr_perm fO _ _ _ Ht). cbn [stk mbind list_bind fO app]. symmetry. apply Permutation_middle. }
    assert (forall x, c ∉ data_cells s x) as HD by (by eapply owned_gone).
    split; [exact HD|]. intros x Hx Hcx. destruct x as [r| | |mu| |]; try (by apply elem_of_nil in Hcx); [by apply (HD (ar_data r))|].
    cbn in Hcx. apply rng_cells_elem, in_rng_spec in Hcx.
    destruct (dinv_exclusive sz _ _ _ _ _ (D_inv _ _ _ _ D) c e _ HP Hc) as [H _].
    specialize (H (Rng (p_blk (si_ptr (ms_items mu))) (p_idx (si_ptr (ms_items mu))) (si_len (ms_items mu)), ms_alloc mu)). cbn [fst] in H.
    rewrite H in Hcx; [done|].
    destruct Hx as [[h Hh]|(t' & st & Ht' & Hin)].
    - apply cget_slot in Hh as [j Hh]. apply elem_of_app. left. apply slo_elem. exists h, (XMut mu), j. split; [done|left].
    - apply elem_of_app. right. apply elem_of_app. destruct (decide (t' = t)) as [->|Hne].
      + rewrite Ht in Ht'. injection Ht' as <-. left. cbn in Hin. by apply (proj2 (carried_ref k _ Hin)); left.
      + right. apply thr_delete_elem. exists t', st. split_and!; [done|done|]. by apply (proj2 (carried_ref st _ Hin)); left.
  Qed.
  Theorem reent_gone n es s t s' b i v : always sz calm n es -> creach sz n es s ->
    cstep sz s (SStep t) = Ok s' -> dw_trace (cs_d s') = dw_trace (cs_d s) ++ [EDrop b i v] ->
    citem s (b, i) = Some v /\ (b, i) ∉ cdropped s /\ citem s' (b, i) = None /\
    (forall x, (b, i) ∉ data_cells s x) /\ (forall x, has s x -> (b, i) ∉ xcells s x).
  Proof.
    intros Hc Hr Hs Ht. destruct (calm_inv sz n es Hc) as (s1 & D & T & L & Hr1 & W & Him). unfold creach in Hr, Hr1. rewrite Hr in Hr1. injection Hr1 as <-.
    destruct (drop_step _ _ _ _ _ _ Hs Ht) as (Hv & m & p & a & k & Hst & -> & ->).
    destruct (KI_reach sz _ _ _ Hr) as [K _]. destruct (KI_cstep sz _ _ _ K Hs) as [K' _].
    split; [done|]. split; [by apply K_not_dropped|]. split.
    - destruct (citem s' (p_blk p, p_idx p)) as [v'|] eqn:E; [exfalso|done]. apply (K_not_dropped s' _ K' (mk_is_Some _ _ E)).
      unfold cdropped. rewrite Ht, omap_app. apply elem_of_app. right. left.
    - by eapply items_gone; [apply W|..].
  Qed.
  Theorem reent_gone_plain n es s t s' b i v : no_into_mut es \/ no_upgrade es -> creach sz n es s ->
    cstep sz s (SStep t) = Ok s' -> dw_trace (cs_d s') = dw_trace (cs_d s) ++ [EDrop b i v] ->
    citem s (b, i) = Some v /\ (b, i) ∉ cdropped s /\ citem s' (b, i) = None /\
    (forall x, (b, i) ∉ data_cells s x) /\ (forall x, has s x -> (b, i) ∉ xcells s x).
  Proof. intros Hn. apply reent_gone. destruct Hn; [by apply no_into_mut_calm|by apply no_upgrade_calm]. Qed.
End item.
