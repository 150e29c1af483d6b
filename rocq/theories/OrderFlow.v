(** A step of a thread in a call keeps the invariant of OrderInv.v. *)
From Verif Require Import Base BaseLemmas Api SliceItemsModel Spec DataModel RcModel DataInv DataSteps GuardInv ArcModel ArcInv ArcConc ConcInv ConcGuard ConcWorld ConcChild ConcData ConcSafe ConcSpec ConcTree SliceItemsProof OrderModel OrderInv OrderSteps.
Local Open Scope nat_scope.
#[local] Arguments slo {A} F hs : simpl never.
#[local] Arguments thr {V A} F ts : simpl never.

(** ** What [annotate] does to views *)
Section views.
  Context {V : Type} (acq : bool).
  Implicit Types (s : cstate V) (o : ostate V) (e : sched (V:=V)).
  Context o e s'.
  Notation t := (actor e).
  Notation o' := (annotate acq o e s').
  Definition aview : view :=
    os_thr o t ∪ gather (os_var o) (vars_in (os_s o) e s') ∪ gather (os_bor o) (bor_in (os_s o) e s') ∪ gather (os_loc o) (syncs acq (os_s o) e).1 ∪
    set_seq (length (os_acc o)) (length (accesses (os_s o) e s')).
  Lemma an_hv w : hview o w ⊆ hview o' w.
  Proof. destruct w; cbn; [apply spread_mono|]. apply union_mono; apply spread_mono. Qed.
  Lemma an_mv w : mview o w ⊆ mview o' w.
  Proof. destruct w; cbn; apply spread_mono. Qed.
  Lemma an_loc l : os_loc o l ⊆ os_loc o' l.
  Proof. apply spread_mono. Qed.
  Lemma an_thr : hview o (HT t) ⊆ aview.
  Proof. unfold aview. cbn. set_solver. Qed.
  Lemma an_min h : h ∈ vars_in (os_s o) e s' -> os_var o h ⊆ aview.
  Proof. intros H i Hi. unfold aview. rewrite !elem_of_union. left. left. left. right. apply elem_of_gather. eauto. Qed.
  Lemma an_in h : h ∈ vars_in (os_s o) e s' -> shares e = false -> hview o (HV h) ⊆ aview.
  Proof.
    intros H Hs i Hi. cbn in Hi. apply elem_of_union in Hi as [Hi|Hi]; [by apply (an_min h)|].
    unfold aview. rewrite !elem_of_union. left. left. right. apply elem_of_gather. exists h. split; [|done]. unfold bor_in. by rewrite Hs.
  Qed.
  Lemma an_acq l : l ∈ (syncs acq (os_s o) e).1 -> os_loc o l ⊆ aview.
  Proof. intros H i Hi. unfold aview. rewrite !elem_of_union. left. right. apply elem_of_gather. eauto. Qed.
  Lemma an_rel l : l ∈ (syncs acq (os_s o) e).2 -> hview o (HT t) ⊆ os_loc o' l.
  Proof. intros H. cbn. by apply spread_in. Qed.
  Lemma an_me : aview ⊆ hview o' (HT t).
  Proof. cbn. apply spread_in. left. Qed.
  Lemma an_mout h : h ∈ var_out (os_s o) e s' -> aview ⊆ mview o' (HV h).
  Proof. intros H. cbn. by apply spread_in. Qed.
  Lemma an_out h : h ∈ var_out (os_s o) e s' \/ h ∈ bor_out (os_s o) e s' -> aview ⊆ hview o' (HV h).
  Proof. intros [H|H]; [etrans; [by apply an_mout|apply mview_hview]|]. cbn. etrans; [|apply union_subseteq_r]. by apply spread_in. Qed.
  Definition anew : list access := (fun a => Access t a.1 a.2 aview) <$> accesses (os_s o) e s'.
  Lemma an_acc : os_acc o' = os_acc o ++ anew.
  Proof. done. Qed.
  Lemma an_new k a : anew !! k = Some a -> exists c w, accesses (os_s o) e s' !! k = Some (c, w) /\ a = Access t c w aview /\
    length (os_acc o) + k ∈ aview /\ forall i, i < k -> length (os_acc o) + i ∈ aview.
  Proof.
    unfold anew. rewrite list_lookup_fmap. intros ([c w] & <- & H)%fmap_Some_1 || intros ([c w] & H & ->)%fmap_Some_1.
    exists c, w. split; [done|]. split; [done|]. apply lookup_lt_Some in H. unfold aview. split; [|intros i Hi]; apply elem_of_union; right; apply elem_of_set_seq; lia.
  Qed.
End views.

Section flow.
  Context {V : Type} (sz : N) (acq : bool).
  Notation stack := (list (frame V)).
  Implicit Types (s : cstate V) (o : ostate V).
  Notation datas s := (dw_datas (cs_d s)).
  Notation mem s := (dw_mem (cs_d s)).
  Notation blocks s := (dw_blocks (cs_d s)).

  (** What a live data covers is in memory, and its buffer not freed. *)
  Lemma live_cells s T L x j n c : DI sz s T L -> live (datas s) x j n -> in_rng c (nrng n) = true -> is_Some (mem s !! c).
  Proof.
    intros D Hx Hc. pose proof (D_inv _ _ _ _ D) as I. destruct (dinv_live_label sz _ _ _ _ _ I _ _ _ Hx) as [l Hl].
    destruct (dinv_live_root sz _ _ _ _ _ I _ _ _ _ Hx Hl) as (y & ly & Hy & Hly & Han).
    apply (dinv_covered sz _ _ _ _ _ I). left. exists y, ly. split_and!; [done..|]. eapply in_rng_anc; [done|].
    by rewrite <- (proj1 (di_geo _ _ _ _ _ _ I _ _ _ _ Hx Hl)).
  Qed.
  Lemma in_rng_pos c r : in_rng c r = true -> rg_len r <> 0%N /\ rg_blk r = fst c.
  Proof. unfold in_rng. destruct c as [b i]. cbn. intros H. rewrite !andb_true_iff, Nat.eqb_eq, N.leb_le, N.ltb_lt in H. split; [lia|]. destruct H as [[? ?] ?]. lia. Qed.
  Lemma cell_alloc s T L c : sz <> 0%N -> DI sz s T L -> is_Some (mem s !! c) ->
    exists a j v, live (dw_allocs (cs_d s)) a j v /\ p_blk (sa_ptr v) = fst c.
  Proof.
    intros Hsz D Hc. pose proof (D_inv _ _ _ _ D) as I.
    apply (dinv_covered sz _ _ _ _ _ I) in Hc as [(x & l & Hx & Hl & Hc)|(e & He & Hc)].
    - destruct (dinv_ref_live sz _ _ _ _ _ I x Hx) as (j & n & l' & Hn & Hl'). rewrite Hl in Hl'. injection Hl' as <-.
      rewrite <- (proj1 (di_geo _ _ _ _ _ _ I _ _ _ _ Hn Hl)) in Hc. apply in_rng_pos in Hc as [H1 H2].
      destruct (di_nalloc _ _ _ _ _ _ I _ _ _ Hn) as [_ H]. destruct (H Hsz H1) as (a & j' & v & _ & Ha & Hb). exists a, j', v. split; [done|congruence].
    - apply in_rng_pos in Hc as [H1 H2]. destruct (di_oalloc _ _ _ _ _ _ I _ He) as [_ H]. destruct (H Hsz H1) as (a & j' & v & _ & Ha & Hb). exists a, j', v. split; [done|congruence].
  Qed.

  (** *** Nodes stay where they are *)
  Inductive same_nodes s s' : Prop :=
  | S_keep : hkeep (datas s) (datas s') -> same_nodes s s'
  | S_half x side k' n' (j : nat) n : live (datas s) x j n -> 
      datas s' = <[x := Some (j, d_set_child side (Some (length (datas s))) n)]> (datas s ++ [Some (k', n')]) -> same_nodes s s'.
  Lemma set_child_same side c n : nrng (d_set_child side c n) = nrng n /\ d_alloc (d_set_child side c n) = d_alloc n.
  Proof. by destruct side, n. Qed.
  Lemma nodes_back s s' x j' n' : same_nodes s s' -> x < length (datas s) -> live (datas s') x j' n' ->
    exists j n, live (datas s) x j n /\ nrng n' = nrng n /\ d_alloc n' = d_alloc n.
  Proof.
    intros [[_ K]|y side k0 n0 j n Hy E] Hlt Hx.
    - apply rc_get_live in Hx. apply K, rc_get_Some in Hx as [j Hj]. eauto.
    - rewrite E in Hx. apply live_insert in Hx as [(-> & [= <- <-] & _)|[Hne Hx]].
      + destruct (set_child_same side (Some (length (datas s))) n). eauto.
      + unfold live in Hx. rewrite lookup_app_l in Hx by done. eauto.
  Qed.
  Lemma nodes_cover s s' T' L' y j' n' c : same_nodes s s' -> DI sz s' T' L' -> live (datas s') y j' n' -> in_rng c (nrng n') = true ->
    exists x j n, live (datas s) x j n /\ in_rng c (nrng n) = true.
  Proof.
    intros S D Hy Hc. destruct (decide (y < length (datas s))) as [Hlt|Hge].
    { destruct (nodes_back _ _ _ _ _ S Hlt Hy) as (j & n & Hn & E & _). rewrite E in Hc. eauto. }
    destruct S as [[El _]|x side k0 n0 j n Hx E]; [apply live_lt in Hy; lia|]. exists x, j, n. split; [done|].
    assert (live (datas s') x j (d_set_child side (Some (length (datas s))) n)) as Hx'.
    { rewrite E. unfold live. apply list_lookup_insert. rewrite app_length. apply live_lt in Hx. lia. }
    assert (y = length (datas s)) as ->. { apply live_lt in Hy. rewrite E, insert_length, app_length in Hy. cbn in Hy. lia. }
    pose proof (D_inv _ _ _ _ D) as I. destruct (dinv_live_label sz _ _ _ _ _ I _ _ _ Hx') as [l Hl].
    destruct (di_link _ _ _ _ _ _ I _ _ _ _ side (length (datas s)) Hx' Hl) as [_ Hlc]; [by destruct side|].
    destruct (di_geo _ _ _ _ _ _ I _ _ _ _ Hx' Hl) as [E1 _]. destruct (di_geo _ _ _ _ _ _ I _ _ _ _ Hy Hlc) as [E2 _].
    rewrite E2, lrng_child, <- E1, (proj1 (set_child_same side _ n)) in Hc. by apply in_rng_half in Hc.
  Qed.
  Lemma mstep_same s t st d g st' out l : mstep sz (cs_d s) (cs_g s) st = Ok (d, g, st') ->
    same_nodes s (CS d g (cs_h s) (<[t := st']> (cs_t s)) out l).
  Proof.
    intros Hm. destruct (ConcChild.mstep_nodes _ _ _ _ _ _ _ Hm) as [Hk|(x1 & side1 & k1 & n1 & k2 & j & n & E1 & Hn & Hc & Ed & E2)]; [by apply S_keep|].
    by eapply S_half.
  Qed.
  (** *** The step *)
  Section mstep.
    Context o (D : list nat) (T : trees) (L : list label) (T' : trees) (L' : list label) (t : nat) (st : stack) (d : dworld V) (g : gdworld) (st' : stack) (out : list (nat * Api.out V)) (l : list (nat * bool * nat)).
    Notation s := (os_s o).
    Notation s' := (CS d g (cs_h s) (<[t := st']> (cs_t s)) out l).
    Notation o' := (annotate acq o (SStep t) s').
    Context (O : OI sz o) (G : GI s D) (I : DI sz s T L) (I' : DI sz s' T' L').
    Context (Ht : cs_t s !! t = Some st) (Hcl : clean (cs_d s) st) (Hm : mstep sz (cs_d s) (cs_g s) st = Ok (d, g, st')).
    Lemma hold_upd {A} (F : frame V -> list A) H w x : hold F H s' w x <-> (w = HT t /\ x ∈ stk F st') \/ (w <> HT t /\ hold F H s w x).
    Proof.
      destruct w as [t'|h]; cbn.
      - destruct (decide (t' = t)) as [->|Hne].
        + rewrite list_lookup_insert by by eapply lookup_lt_Some. split.
          * intros (st0 & [= <-] & Hx). by left.
          * intros [[_ Hx]|[? _]]; [eauto|done].
        + rewrite list_lookup_insert_ne by done. split; [intros Hx; right; split; [congruence|done]|intros [[[= ->] _]|[_ Hx]]; done].
      - split; [intros Hx; right; done|intros [[[=] _]|[_ Hx]]; done].
    Qed.
    Lemma hold_me {A} (F : frame V -> list A) H x : hold F H s (HT t) x <-> x ∈ stk F st.
    Proof. cbn. rewrite Ht. split; [intros (? & [= <-] & ?); done|eauto]. Qed.
    Lemma me_view : hview o (HT t) ⊆ hview o' (HT t).
    Proof. apply an_hv. Qed.
    Lemma syncs_eq : syncs acq s (SStep t) = sync acq (cs_d s) (cs_g s) st.
    Proof. unfold syncs. by rewrite Ht. Qed.
    Lemma f_own_mstep w e c : owns s w e -> in_rng c (fst e) = true -> is_Some (mem s' !! c) ->
      exists w' e', owns s' w' e' /\ in_rng c (fst e') = true /\ hview o w ⊆ hview o' w'.
    Proof.
      intros Hw Hc Hmc. destruct (decide (w = HT t)) as [->|Hne].
      2:{ exists w, e. split; [apply hold_upd; by right|]. split; [done|]. apply an_hv. }
      pose proof (D_inv _ _ _ _ I) as J. pose proof (D_inv _ _ _ _ I') as J'.
      apply (dinv_covered sz _ _ _ _ _ J') in Hmc as [(x & lx & Hx & Hl & Hcx)|(e' & He' & Hce)].
      - exfalso. destruct (dinv_ref_live sz _ _ _ _ _ J' x Hx) as (j & n & l' & Hn & Hl'). rewrite Hl in Hl'. injection Hl' as <-.
        rewrite <- (proj1 (di_geo _ _ _ _ _ _ J' _ _ _ _ Hn Hl)) in Hcx.
        destruct (nodes_cover s s' T' L' _ _ _ c (mstep_same _ _ _ _ _ _ _ _ Hm) I' Hn Hcx) as (y & jy & ny & Hy & Hcy).
        destruct (dinv_live_label sz _ _ _ _ _ J _ _ _ Hy) as [ly Hly].
        destruct (dinv_live_root sz _ _ _ _ _ J _ _ _ _ Hy Hly) as (z & lz & Hz & Hlz & Han).
        rewrite (proj1 (di_geo _ _ _ _ _ _ J _ _ _ _ Hy Hly)) in Hcy. apply (in_rng_anc _ _ _ _ Han) in Hcy.
        apply hold_tot in Hw. apply elem_of_Permutation in Hw as [O' EO].
        destruct (dinv_exclusive sz _ _ _ _ _ J _ _ _ EO Hc) as [_ H]. rewrite (H _ _ Hz Hlz) in Hcy. done.
      - apply tot_hold in He' as [w' Hw']. destruct (decide (w' = HT t)) as [->|Hne].
        + exists (HT t), e'. split; [done|]. split; [done|]. apply me_view.
        + exfalso. apply hold_upd in Hw' as [[? _]|[_ Hw']]; [done|].
          destruct (hold_two _ _ _ _ _ _ _ Hw Hw' (not_eq_sym Hne)) as [l2 El].
          destruct (dinv_exclusive sz _ _ _ _ _ J _ _ _ El Hc) as [H _]. rewrite (H e') in Hce; [done|left].
    Qed.
    Lemma f_ment_mstep w' x' j' n' : ments s' w' x' -> live (datas s') x' j' n' ->
      exists w x j n, ments s w x /\ live (datas s) x j n /\
        (forall c, in_rng c (nrng n') = true -> in_rng c (nrng n) = true) /\ mview o w ⊆ mview o' w'.
    Proof.
      intros Hw Hx. pose proof (D_inv _ _ _ _ I') as J'. pose proof (mstep_same s t st d g st' out l Hm) as S.
      assert (forall w, ments s w x' -> mview o w ⊆ mview o' w' -> exists w x j n, ments s w x /\ live (datas s) x j n /\
        (forall c, in_rng c (nrng n') = true -> in_rng c (nrng n) = true) /\ mview o w ⊆ mview o' w') as Hold.
      { intros w Hm1 Hv. destruct (nodes_back _ _ _ _ _ S (O_bnd _ _ O _ _ Hm1) Hx) as (j & n & Hn & E & _).
        exists w, x', j, n. split; [done|]. split; [done|]. split; [|done]. by rewrite E. }
      apply hold_upd in Hw as [[-> Hw]|[Hne Hw]]; [|apply (Hold w'); [done|apply an_mv]].
      destruct (mstep_ments sz _ _ _ _ _ _ _ Hm Hw) as [Hy|(x & j & n & j1 & n1 & Hy & Hn & Hn1 & Hk)].
      - apply (Hold (HT t)); [by apply hold_me|apply an_mv].
      - exists (HT t), x, j, n. split; [by apply hold_me|]. split; [done|]. split; [|apply an_mv]. intros c Hc.
        destruct (nodes_back s s' x j1 n1 S (live_lt _ _ _ _ Hn) Hn1) as (j2 & n2 & Hn2 & E & _).
        destruct (live_fun _ _ _ _ _ _ Hn Hn2) as [_ <-]. rewrite <- E.
        apply in_kids in Hk as [side Hk].
        destruct (dinv_live_label sz _ _ _ _ _ J' _ _ _ Hn1) as [lx Hl].
        destruct (di_link _ _ _ _ _ _ J' _ _ _ _ _ _ Hn1 Hl Hk) as [_ Hlc].
        destruct (di_geo _ _ _ _ _ _ J' _ _ _ _ Hn1 Hl) as [E1 _]. destruct (di_geo _ _ _ _ _ _ J' _ _ _ _ Hx Hlc) as [E2 _].
        rewrite E2, lrng_child, <- E1 in Hc. by apply in_rng_half in Hc.
    Qed.
    Lemma flow_mstep : flow sz o o' (anew acq o (SStep t) s').
    Proof.
      pose proof (D_inv _ _ _ _ I) as J. pose proof (D_inv _ _ _ _ I') as J'. pose proof (mstep_same s t st d g st' out l Hm) as SN.
      pose proof (mstep_meff sz acq _ _ _ _ _ _ Hm) as M.
      split.
      - apply an_loc.
      - apply an_acc.
      - intros w x Hw Hx. destruct (decide (w = HT t)) as [->|Hne].
        + apply hold_me in Hw. destruct (mstep_refs sz acq _ _ _ _ _ _ _ Hm Hw Hx) as [Hr|Hr].
          * left. exists (HT t). split; [apply hold_upd; by left|apply an_hv].
          * right. apply (an_rel acq o (SStep t) s'). by rewrite syncs_eq.
        + left. exists w. split; [apply hold_upd; by right|apply an_hv].
      - intros x j n i Hx Hd Hi. 
        destruct (mstep_dead sz acq _ _ _ _ _ _ _ _ _ Hm Hcl (live_ptr_ok sz _ _ _ _ _ _ _ _ J Hx) Hx Hd) as (Hr & -> & Hq & Ho & Hk).
        exists (HT t). split; [|split; [apply hold_upd; by left|intros c Hc; apply hold_upd; left; auto]].
        assert (refs s (HT t) x) as Hw by by apply hold_me.
        destruct (unique_sees sz o T L _ _ _ _ I Hw Hx Hi) as [H|H]; [by apply an_hv|].
        apply (an_me acq o (SStep t) s'). eapply an_acq; [|exact H]. by rewrite syncs_eq.
      - intros x j n j' n' Hx Hx'. destruct (nodes_back _ _ _ _ _ SN (live_lt _ _ _ _ Hx) Hx') as (j0 & n0 & Hn & E1 & E2).
        by destruct (live_fun _ _ _ _ _ _ Hx Hn) as [_ <-].
      - intros w e c Hw Hc Hmc. left. by eapply f_own_mstep.
      - intros w r a j v Hw Ha. destruct (decide (w = HT t)) as [->|Hne].
        + apply hold_me in Hw. destruct (mstep_allocs sz acq _ _ _ _ _ _ _ _ Hm Hw) as [[r' Hr]|[Hr|(x & j1 & n & Hx & Hn & Hq)]].
          * left. exists (HT t), r'. split; [apply hold_upd; by left|apply an_hv].
          * right. left. apply (an_rel acq o (SStep t) s'). by rewrite syncs_eq.
          * right. right. exists (HT t), x, j1, n. split; [apply hold_upd; by left|]. split; [done|]. split; [done|]. apply an_hv.
        + left. exists w, r. split; [apply hold_upd; by right|apply an_hv].
      - intros c Hc _. destruct M as [E _ _ _|n p a k v _ _ _ E _ _ _|r a v blk _ _ _ _ _ E _ _ _]; cbn in Hc; rewrite E in Hc; try done.
        destruct Hc as [q Hc]. apply lookup_delete_Some in Hc as [_ Hc]. eauto.
      - intros a j v Ha. left. destruct M as [_ _ _ E|n p a0 k v0 _ _ _ _ _ E _|r a0 v0 blk _ _ _ E _ _ _ _ _]; cbn in Ha; [by eapply E|rewrite E in Ha; eauto|].
        rewrite E in Ha. apply live_insert in Ha as [(-> & [=] & _)|[_ Ha]]. eauto.
      - destruct M as [_ E _ _|n p a0 k v0 _ _ _ _ E _ _|r a0 v0 blk _ _ _ _ _ _ _ E _]; cbn; rewrite E, ?insert_length; done.
      - intros w' x' j' n' Hw Hx. left. by eapply f_ment_mstep.
      - intros i a h e Ha Hwr Hw Hc. apply (an_mv acq o (SStep t) s' (HV h)). eapply (O_write _ _ O); eauto.
      - intros w x Hw. apply hold_upd in Hw as [[-> Hw]|[Hne Hw]].
        + destruct (mstep_ments sz _ _ _ _ _ _ _ Hm Hw) as [Hy|(y & j & n & j1 & n1 & Hy & Hn & Hn1 & Hk)].
          * apply (hold_me fM hM) in Hy. apply (O_bnd _ _ O) in Hy. cbn in *. 
            destruct SN as [[El _]|y side k0 n0 j n Hy' E]; cbn in *; [lia|]. rewrite E, insert_length, app_length. lia.
          * apply in_kids in Hk as [side Hk]. destruct (dinv_linked_live sz _ _ _ _ _ J' _ _ _ _ _ Hn1 Hk) as (j2 & n2 & H2). by eapply live_lt.
        + apply (O_bnd _ _ O) in Hw. destruct SN as [[El _]|y side k0 n0 j n Hy' E]; cbn in *; [lia|]. rewrite E, insert_length, app_length. lia.
      - intros k a Ha. apply an_new in Ha as (c & wr & Ha & -> & Hk1 & Hk2). cbn [ac_cell ac_write ac_seen].
        cbn [accesses] in Ha. apply list_lookup_fmap_inv in Ha as (c' & [= <- ->] & Ha). unfold logged in Ha. cbn [cs_d] in Ha.
        destruct M as [_ _ E _|n p a0 k0 v0 Est Est' Eb Em Ebl Eal E|r a0 v0 blk Hr Hq Hv Eal Hsz Em Eb Ebl E].
        + exfalso. rewrite E, drop_all in Ha. done.
        + rewrite E, drop_app in Ha. cbn in Ha. destruct k as [|k]; [|done]. injection Ha as <-.
          assert (owns s (HT t) (Rng (p_blk p) (p_idx p) (N.of_nat (S n)), a0)) as Hw by (apply hold_me; rewrite Est; left).
          assert (in_rng (p_blk p, p_idx p) (Rng (p_blk p) (p_idx p) (N.of_nat (S n))) = true) as Hin.
          { unfold in_rng. cbn. rewrite !andb_true_iff, Nat.eqb_eq, N.leb_le, N.ltb_lt. lia. }
          split_and!.
          * cbn. rewrite Ebl. destruct Eb as [b Eb]. by eapply lookup_lt_Some.
          * cbn. rewrite Em. intros [q Hq]. by rewrite lookup_delete in Hq.
          * intros Hsz al j v Hal Hb. right. right. exists (HT t). eexists. split; [apply hold_upd; left; split; [done|rewrite Est'; left]|].
            split; [|by apply (an_me acq o (SStep t) s')]. cbn [snd].
            destruct (di_oalloc _ _ _ _ _ _ J _ (hold_tot _ _ _ _ _ Hw)) as [_ H]. cbn [fst snd rg_len rg_blk] in H.
            destruct (H Hsz ltac:(lia)) as (a1 & j1 & v1 & -> & H1 & H2). cbn in Hal. rewrite Eal in Hal. f_equal.
            eapply (di_auniq _ _ _ _ _ _ J); [done..|]. cbn in Hb. congruence.
          * intros _ x j nx w Hx Hc _. exfalso. pose proof (live_cells s' T' L' _ _ _ _ I' Hx Hc) as [q Hq]. cbn in Hq. rewrite Em in Hq. by rewrite lookup_delete in Hq.
          * intros _ h e0 He Hc. exfalso. destruct (own_cells sz _ _ _ _ _ I' (hold_tot _ _ _ _ _ He) Hc) as [q Hq]. cbn in Hq. rewrite Em in Hq. by rewrite lookup_delete in Hq.
          * intros i b Hb Ec _. apply (an_thr acq o (SStep t) s'). eapply (owner_sees sz o T L (HT t) _ i b O I Hw Hb). by rewrite Ec.
          * intros i Hi. lia.
        + rewrite E, drop_app in Ha. cbn in Ha. rewrite app_nil_r in Ha. apply elem_of_list_lookup_2 in Ha.
          assert (fst c = p_blk (sa_ptr v0)) as Ec. { by apply rng_cells_elem in Ha as [? _]. }
          assert (forall al j v, live (dw_allocs d) al j v -> p_blk (sa_ptr v) <> fst c) as Hno.
          { intros al j v Hal Hb. rewrite Eal in Hal. apply live_insert in Hal as [(-> & [=] & _)|[Hne Hal]].
            apply Hne. eapply (di_auniq _ _ _ _ _ _ J); [done..|congruence]. }
          split_and!.
          * cbn. rewrite Ebl, insert_length, Ec. by eapply lookup_lt_Some.
          * intros Hmc. exfalso. destruct (cell_alloc s' T' L' c Hsz I' Hmc) as (al & j & v & Hal & Hb). by eapply Hno.
          * intros _ al j v Hal Hb. exfalso. by eapply Hno.
          * intros _ x j nx w Hx Hc _. exfalso. pose proof (live_cells s' T' L' _ _ _ _ I' Hx Hc) as Hmc.
            destruct (cell_alloc s' T' L' c Hsz I' Hmc) as (al & j0 & v & Hal & Hb). by eapply Hno.
          * intros _ h e0 He Hc. exfalso. pose proof (own_cells sz _ _ _ _ _ I' (hold_tot _ _ _ _ _ He) Hc) as Hmc.
            destruct (cell_alloc s' T' L' c Hsz I' Hmc) as (al & j0 & v & Hal & Hb). by eapply Hno.
          * intros i b Hb Hcb _. apply (hold_me fO hO) in Hr.
            destruct (unique_alloc sz o T L (HT t) r a0 v0 i b Hsz O I Hr Hv Hb) as [H|H]; [congruence|by apply (an_thr acq o (SStep t) s')|].
            eapply an_acq; [|exact H]. by rewrite syncs_eq.
          * done.
    Qed.
  End mstep.
End flow.
