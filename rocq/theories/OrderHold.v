(** [get_mut] on a slice that was never split waits for the last use of the
    items, so writing through what it returned is no data race. *)
From Verif Require Import Base BaseLemmas Api SliceItemsModel Spec DataModel RcModel DataInv DataSteps DataFuns GuardInv ArcModel ArcInv ArcConc ConcInv ConcGuard ConcWorld ConcChild ConcData ConcSafe ConcSpec ConcTree ConcShare ConcCov ConcCalm ConcHold ConcItem ConcConserve ConcTheory SliceItemsProof OrderModel OrderInv OrderSteps OrderFlow OrderCalls OrderNew OrderTheory.
Local Open Scope nat_scope.
#[local] Arguments slo {A} F hs : simpl never.
#[local] Arguments thr {V A} F ts : simpl never.

Section hold.
  Context {V : Type} (sz : N).
  Notation stack := (list (frame V)).
  Implicit Types (s : cstate V) (o : ostate V) (e : sched (V:=V)).
  Notation datas s := (dw_datas (cs_d s)).
  Notation mem s := (dw_mem (cs_d s)).
  Notation chold := (ConcHold.hold (V:=V)).

  Definition intact s : Prop := uncut s /\ unwatched s.

  (** ** Who mentions a data *)
  Lemma fgs_ment (r : arcslice) (k : stack) : fgs r k -> stk fM k = [].
  Proof. induction 1; [done|]. by rewrite stk_cons. Qed.
  Lemma acc_ment E b q (k : stack) x : acc E b q k -> x ∈ stk fM k -> x ∈ stk fR k.
  Proof.
    induction 1; intros Hx; rewrite ?stk_cons in *; cbn in *; try (by apply elem_of_nil in Hx); try done.
    - by apply IHacc.
    - right. by apply IHacc.
  Qed.
  Lemma ment_src E b (st : stack) x : run E b st -> x ∈ stk fM st ->
    x ∈ stk fR st \/ (exists w, XWeak (Some x) w ∈ st ≫= carried) \/
    exists v, b = Some v /\ (x ∈ hM v \/ exists r side, v = XArc r /\ (ar_data r, side, x) ∈ stk fC st).
  Proof.
    induction 1; intros Hx; rewrite ?stk_cons in *; cbn in *.
    all: try (by apply elem_of_nil in Hx).
    all: try (by left).
    - destruct (IHrun Hx) as [?|?]; [left; by right|by right].
    - by apply IHrun.
    - by apply IHrun.
    - apply elem_of_app in Hx as [Hx|Hx]; [|left; apply elem_of_app; right; by eapply acc_ment].
      destruct v as [| | |[v|]]; try (left; apply elem_of_app; left; done). cbn in *.
      match goal with H : _ /\ (forall y, Some _ = Some y -> _) |- _ => destruct H as [_ Hv]; specialize (Hv v eq_refl) end.
      destruct v as [r|[d|] [w|]| | | |]; try done; try (by apply elem_of_nil in Hx); [left; apply elem_of_app; by left|].
      right. left. apply elem_of_list_singleton in Hx as ->. exists (Some w). left.
    - right. right. apply elem_of_list_singleton in Hx as ->. eexists. split; [done|]. left. left.
    - right. right. apply elem_of_list_singleton in Hx as ->. eexists. split; [done|]. left. left.
    - right. right. eexists. split; [done|]. destruct f; cbn in *; try done; subst; rewrite ?app_nil_r in *; set_unfold; naive_solver.
    - destruct f; cbn in *; try done; left; by eapply acc_ment.
    - right. right. eexists. split; [done|]. left. destruct H as [-> | ->]; exact Hx.
    - right. right. eexists. split; [done|]. left. rewrite ?app_nil_r in Hx; exact Hx.
    - right. right. eexists. split; [done|]. left. rewrite ?app_nil_r in Hx; exact Hx.
    - right. right. eexists. split; [done|]. left. rewrite ?app_nil_r in Hx; exact Hx.
    - destruct H as [-> | ->]; by left.
    - destruct H as [-> | ->]; by left.
    - destruct H as [-> | ->]; by left.
    - by rewrite (fgs_ment _ _ H0) in Hx; apply elem_of_nil in Hx.
  Qed.
  Lemma below_first g x y : below g x y -> exists c, data_parent g c = Some x.
  Proof. induction 1; eauto. Qed.
  Lemma sole_data s D T L t (st : stack) x y j n i m c : WI sz s D T L -> HM s -> intact s -> cs_t s !! t = Some st -> chold st x ->
    live (datas s) x j n -> in_rng c (nrng n) = true -> live (datas s) y i m -> in_rng c (nrng m) = true -> x = y.
  Proof.
    intros W HH HI Ht Hh Hn Hc Hm Hc'. pose proof (W_D _ _ _ _ _ W) as I. pose proof (D_inv _ _ _ _ I) as DV.
    destruct (HH _ _ _ Ht Hh) as [H1 H2]. pose proof (proj1 HI t x (hold_holding _ _ _ _ Ht Hh)) as H3.
    assert (forall p, below (cs_g s) p x -> dl s p -> False) as Hup.
    { intros p Hb Hp. inversion Hb as [? Hq|q ? Hq Hb']; subst; [by apply (H2 _ Hq)|].
      apply (H2 _ Hq). eapply live_down; [done|exact DV|apply W|exact Hp|by right]. }
    destruct (overlap sz s _ _ _ _ _ _ _ _ _ _ _ DV (W_M _ _ _ _ _ W) Hn Hc Hm Hc') as [[?|Hb]|[?|Hb]]; [done| |done|].
    - apply below_first in Hb as [q Hq]. by apply H3 in Hq.
    - exfalso. apply (Hup _ Hb). eexists. by eapply rc_get_live.
  Qed.
  Lemma sole_ref s t (st : stack) x w : HM s -> cs_t s !! t = Some st -> chold st x -> refs s w x -> w = HT t.
  Proof.
    intros HH Ht Hh Hw. destruct (HH _ _ _ Ht Hh) as [H1 _]. destruct (decide (w = HT t)) as [|Hne]; [done|exfalso].
    apply (H1 x); [|by left]. destruct w as [t'|h].
    - destruct Hw as (st' & Ht' & Hx). eapply rR_thread; [|done..]. congruence.
    - destruct Hw as (v & k & Hv & Hx). apply rR_slot, slo_elem. eauto.
  Qed.
  Lemma sole s D T L t (st : stack) x w y j n i m c : WI sz s D T L -> HM s -> intact s -> cs_t s !! t = Some st -> chold st x ->
    live (datas s) x j n -> in_rng c (nrng n) = true -> live (datas s) y i m -> in_rng c (nrng m) = true -> ments s w y -> w = HT t.
  Proof.
    intros W HH HI Ht Hh Hn Hc Hm Hc' Hw. pose proof (W_D _ _ _ _ _ W) as I. pose proof (D_inv _ _ _ _ I) as DV.
    assert (x = y) as <- by by eapply sole_data.
    destruct (HH _ _ _ Ht Hh) as [H1 H2]. pose proof (proj2 HI t x (hold_holding _ _ _ _ Ht Hh)) as H4.
    assert (x ∉ rR s t) as Hno. { intros Hx. apply (H1 _ Hx). by left. }
    assert (forall h v k, cs_h s !! h = Some (Some (v, k)) -> x ∈ hM v -> False) as Hv.
    { intros h v k Hv Hx. destruct v as [r|[d|] g| | | |]; cbn in Hx; try (by apply elem_of_nil in Hx); apply elem_of_list_singleton in Hx as ->.
      - apply Hno, rR_slot, slo_elem. eexists h, _, _. split; [exact Hv|left].
      - apply (H4 g). left. exists h. unfold cget, slot. by rewrite Hv. }
    destruct w as [t'|h]; [|destruct Hw as (v & k & Hh' & Hx); exfalso; by eapply Hv].
    destruct (decide (t' = t)) as [->|Hne]; [done|exfalso]. destruct Hw as (st' & Ht' & Hx).
    destruct (G_run _ _ (W_G _ _ _ _ _ W) _ _ Ht') as [b Hr]. pose proof (run_bor _ _ _ Hr) as Eb.
    assert (forall v, b = Some v -> exists h k, cs_h s !! h = Some (Some (v, k))) as Hb.
    { intros v ->. unfold bor in Eb. cbn in Eb. destruct (stk fB st') as [|h l]; [done|].
      destruct (cs_h s !! h) as [[[v' k]|]|] eqn:E; try done. injection Eb as <-. eauto. }
    destruct (ment_src _ _ _ _ Hr Hx) as [HR|[(g & Hg)|(v & Ev & [Hm1|(r & side & -> & Hcl)])]].
    - by eapply Hno, rR_thread.
    - apply (H4 g). right. eauto.
    - destruct (Hb _ Ev) as (h & k & Hk). by eapply Hv.
    - destruct (Hb _ Ev) as (h & k & Hk).
      assert (ar_data r ∈ tot hR fR s) as HR. { apply elem_of_app. left. apply slo_elem. eexists h, _, _. split; [exact Hk|left]. }
      destruct (dinv_ref_live sz _ _ _ _ _ DV _ HR) as (j' & n' & _ & Hl & _). pose proof (rc_get_live _ _ _ _ Hl) as Hg.
      assert ((ar_data r, side, x) ∈ claims s) as Hclm. { apply elem_of_app. right. apply thr_elem. eauto. }
      pose proof (ci_ok _ _ (W_C _ _ _ _ _ W) _ Hclm _ Hg) as Hok. destruct (small side n').
      + subst x. eapply Hv; [exact Hk|left].
      + apply (H2 (ar_data r)); [|by eexists]. eapply (m_kid _ (W_M _ _ _ _ _ W)); [exact Hg|]. apply in_kids. eauto.
  Qed.

  (** ** What the holder knows *)
  Definition LH o : Prop := forall t (st : stack) x, cs_t (os_s o) !! t = Some st -> chold st x -> os_loc o (LData x) ⊆ os_thr o t.
  Lemma sync_rel s e x acq : LData x ∈ (syncs acq s e).2 -> exists t k, e = SStep t /\ cs_t s !! t = Some (FRel x :: k).
  Proof.
    destruct e as [| t | |]; try (by intros ?%elem_of_nil). cbn. destruct (cs_t s !! t) as [st|] eqn:Ht; [|by intros ?%elem_of_nil].
    intros Hx. exists t. destruct st as [|f k]; [by apply elem_of_nil in Hx|]. destruct f; cbn in Hx; unfold when, sync_alloc in Hx; repeat (case_match; cbn in Hx); set_unfold; naive_solver.
  Qed.
  Lemma LH_step o D T L e s' : WI sz (os_s o) D T L -> HM (os_s o) -> LH o -> cclean (os_s o) e ->
    cstep sz (os_s o) e = Ok s' -> LH (annotate true o e s').
  Proof.
    intros W HH Hl Hcl Hs t st' x Ht' Hh. cbn in Ht'. set (s := os_s o) in *.
    assert (forall st, cs_t s !! t = Some st -> chold st x -> os_loc (annotate true o e s') (LData x) ⊆ os_thr (annotate true o e s') t) as Hsame.
    { intros st Ht Hst. pose proof (Hl _ _ _ Ht Hst) as Hsub.
      assert (os_loc (annotate true o e s') (LData x) = os_loc o (LData x)) as ->.
      { cbn. apply spread_out. intros (t2 & k & -> & Ht2)%sync_rel. destruct (decide (t2 = t)) as [->|Hne].
        - fold s in Ht2. rewrite Ht in Ht2. injection Ht2 as ->. destruct Hst as (r & k' & _ & [?|?]); done.
        - apply (proj1 (HH _ _ _ Ht Hst) x); [|by left]. eapply rR_thread; [exact Hne|exact Ht2|left]. }
      etrans; [exact Hsub|]. apply (an_hv true o e s' (HT t)). }
    apply cstep_qstep in Hs as [Q|(t0 & st0 & d & g & st1 & -> & Ht0 & Hs & ->)].
    - destruct (q_t _ _ Q) as [[Et _]|(t0 & st0 & st1 & Ht0 & Et & _ & Hf)]; rewrite Et in Ht'; [by eapply Hsame|].
      destruct (decide (t = t0)) as [->|]; [|rewrite list_lookup_insert_ne in Ht' by done; by eapply Hsame].
      rewrite list_lookup_insert in Ht' by by eapply lookup_lt_Some. injection Ht' as <-.
      destruct (fresh_tail _ _ _ _ Hf) as [_ Hhd]. destruct Hh as (r & k & <- & [-> | ->]); [by destruct (Hhd _ _ eq_refl)|].
      specialize (Hhd _ _ eq_refl). cbn in Hhd. subst st0. eapply Hsame; [done|]. exists r, [KEnd None]. split; [done|by left].
    - cbn in Ht', Hcl. destruct (decide (t = t0)) as [->|]; [|rewrite list_lookup_insert_ne in Ht' by done; by eapply Hsame].
      rewrite list_lookup_insert in Ht' by by eapply lookup_lt_Some. injection Ht' as ->. rewrite Ht0 in Hcl.
      destruct (G_run _ _ (W_G _ _ _ _ _ W) t0 _ Ht0) as [b Hr].
      destruct (mstep_head sz _ _ _ _ _ _ _ _ Hr Hs Hcl (W_T _ _ _ _ _ W _ _ Ht0)) as [_ Hhd].
      destruct Hh as (r & k & <- & [-> | ->]); destruct (Hhd _ _ eq_refl) as [Hp|Hp]; try done.
      destruct Hp as [(k0 & -> & _)|(y & down & k0 & ->)].
      + assert (syncs true s (SStep t0) = ([LData (ar_data r)], [])) as Esy by (cbn; by rewrite Ht0).
        match goal with |- os_loc (annotate _ _ _ ?s1) _ ⊆ _ => set (s' := s1) in * end.
        etrans; [|apply (an_me true o (SStep t0) s')]. fold s in Esy.
        assert (os_loc (annotate true o (SStep t0) s') (LData (ar_data r)) = os_loc o (LData (ar_data r))) as ->.
        { cbn -[syncs]. fold s. rewrite Esy. apply spread_out, not_elem_of_nil. }
        apply an_acq. fold s. rewrite Esy. left.
      + eapply Hsame; [done|]. exists r, (FOpen y down :: k0). split; [done|by left].
  Qed.

  (** ** Writing *)
  Lemma write_flow o t i v s' D T L T' L' : OI sz o -> WI sz (os_s o) D T L -> DI sz s' T' L' -> HM (os_s o) -> intact (os_s o) -> LH o ->
    hold_write sz (os_s o) t i v = Ok s' -> flow sz o (annotate true o (SWrite t i v) s') (anew true o (SWrite t i v) s').
  Proof.
    intros O W I' HH HI Hl Hs. pose proof (W_D _ _ _ _ _ W) as I. pose proof (D_inv _ _ _ _ I) as J.
    assert (forall s1, Ok (os_s o) = Ok s1 -> DI sz s1 T' L' -> flow sz o (annotate true o (SWrite t i v) s1) (anew true o (SWrite t i v) s1)) as Hsame.
    { intros s1 [= <-] I1. by eapply same_flow. }
    unfold hold_write in Hs. destruct (cs_t (os_s o) !! t) as [st|] eqn:Ht; [|by apply Hsame].
    assert ((exists r, st = [FHold r; KEnd None]) \/ Ok (os_s o) = Ok s') as [[r ->]|]; [|clear Hsame|by apply Hsame].
    { repeat (case_match; try (by right)). simplify_eq. eauto. }
    apply bind_inv in Hs as (n & Hn & Hs). destruct (N.ltb_spec i (d_len n)) as [Hi|]; [|injection Hs as <-; by eapply same_flow].
    apply bind_inv in Hs as ([d old] & Hm & [= <-]). unfold mem_replace in Hm. apply bind_inv in Hm as (q & Hq & [= <- <-]).
    apply rc_val_inv in Hn as [j Hn]. set (x := ar_data r) in *.
    assert (chold [FHold r; KEnd None] x) as Hh by (exists r, [KEnd None]; split; [done|by right]).
    set (c1 := (p_blk (ptr_add sz (d_ptr n) i), p_idx (ptr_add sz (d_ptr n) i))) in *. set (s' := put_out _ _ _) in *.
    assert (in_rng c1 (nrng n) = true) as Hc1. { apply in_rng_spec. unfold c1. cbn. lia. }
    assert (accesses (os_s o) (SWrite t i v) s' = [(c1, true)]) as Eacc.
    { cbn. rewrite Ht. fold x. rewrite (rc_get_live _ _ _ _ Hn). unfold responded, when.
      replace (length (cs_out s') =? length (cs_out (os_s o))) with false; [done|]. symmetry. apply Nat.eqb_neq. cbn. rewrite app_length. cbn. lia. }
    assert (refs (os_s o) (HT t) x) as Hr. { eexists. split; [exact Ht|left]. }
    assert (is_Some (mem (os_s o) !! c1)) as [v1 Hv1] by by eapply live_cells.
    eapply move_flow; [exact O|exact I|exact I'|done|done| |by eauto|by left|by left|by left|by left|by left|].
    - intros c. cbn. destruct (decide (c = c1)) as [->|]; [|by rewrite lookup_insert_ne]. rewrite lookup_insert, Hv1. by split; eauto.
    - intros k a Ha. apply an_new in Ha as (c & wr & Ha & -> & Hk1 & Hk2). cbn [ac_cell ac_write ac_seen].
      rewrite Eacc in Ha. apply list_lookup_singleton_Some in Ha as [-> [= <- <-]].
      pose proof (an_me true o (SWrite t i v) s') as Vme. cbn [actor] in Vme.
      assert (refs s' (HT t) x) as Hr' by exact Hr. assert (live (datas s') x j n) as Hn' by exact Hn.
      split_and!.
      + exact (dinv_mem_blk sz _ _ _ _ _ _ _ J Hv1).
      + intros _. left. exists x, j, n. split_and!; [done..|]. right. exists (HT t). split; [done|by apply Vme].
      + intros Hsz al j1 v2 Hal Hb. right. left. exists x, j, n. split; [done|]. split.
        { eapply (ent_alloc sz (cs_d (os_s o))); [done|exact J|by eapply (di_nalloc _ _ _ _ _ _ J)|done..]. }
        right. exists (HT t). split; [done|by apply Vme].
      + intros _ y j' m w Hy Hcy Hw. assert (w = HT t) as -> by by eapply (sole (os_s o) D T L t _ x). by apply Vme.
      + intros _ h e Hw Hc. exfalso. change (owns (os_s o) (HV h) e) in Hw. exact (owned_not_live sz _ _ _ _ _ _ _ _ _ I Hw Hc Hn Hc1).
      + intros i0 b Hb Ec _. apply (an_thr true o (SWrite t i v) s'). cbn [actor].
        assert (is_Some (mem (os_s o) !! ac_cell b)) as Hmb by (rewrite Ec; eauto).
        destruct (O_item _ _ O _ _ Hb Hmb) as [(y & jy & m & Hy & Hcy & Hsee)|(w & e & Hw & He & _)].
        2:{ exfalso. rewrite Ec in He. exact (owned_not_live sz _ _ _ _ _ _ _ _ _ I Hw He Hn Hc1). }
        rewrite Ec in Hcy. assert (x = y) as <- by by eapply (sole_data (os_s o)).
        destruct Hsee as [Hin|(w & Hw & Hin)]; [by eapply Hl|]. by rewrite (sole_ref _ _ _ _ _ HH Ht Hh Hw) in Hin.
      + done.
  Qed.

  (** ** The theorem *)
  Theorem hold_order n es o : oreach sz true n es o -> always sz calm n es -> always sz calm_get n es -> always sz intact n es -> OI sz o /\ LH o.
  Proof.
    revert o. induction es as [|e es IH] using rev_ind; intros o Hr Hc Hg Hin.
    - injection Hr as <-. split; [apply OI_init|]. intros t st x Ht Hh. cbn in Ht. apply lookup_replicate in Ht as [-> _].
      destruct Hh as (r & k & _ & [[=]|[=]]).
    - unfold oreach in Hr. rewrite orun_app in Hr. apply bind_inv in Hr as (o1 & H1 & Hr). cbn in Hr.
      apply bind_inv in Hr as (o2 & H2 & [= <-]). unfold ostep in H2. apply bind_inv in H2 as (s' & Hs & [= <-]).
      assert (always sz calm n es) as Hc1 by by eapply always_app. assert (always sz calm_get n es) as Hg1 by by eapply always_app.
      assert (always sz intact n es) as Hi1 by by eapply always_app.
      destruct (IH _ H1 Hc1 Hg1 Hi1) as [O Hl].
      assert (creach sz n es (os_s o1)) as Hreach by (apply orun_crun in H1; exact H1).
      destruct (hold_inv sz n es _ Hc1 Hg1 Hreach) as (D & T & L & W & _ & HH).
      assert (cclean (os_s o1) e) as Hcl. { eapply (calm_cleanly sz _ _ Hc es e []); done. }
      destruct (WI_step sz _ D T L e W Hcl) as (s2 & X & T' & L' & Hs2 & W').
      rewrite Hs in Hs2. injection Hs2 as <-. pose proof (W_D _ _ _ _ _ W) as I. pose proof (W_D _ _ _ _ _ W') as I'.
      split; [|by eapply LH_step].
      eapply (flow_inv sz o1 _ (anew true o1 e s')); [exact O|exact I|exact I'|].
      destruct e as [t op|t|t i v|t].
      + by eapply cstart_flow.
      + by eapply tstep_flow.
      + eapply write_flow; try done. by eapply always_last.
      + by eapply hend_flow.
  Qed.
  Theorem hold_before n es o : oreach sz true n es o -> always sz calm n es -> always sz calm_get n es -> always sz uncut n es -> always sz unwatched n es ->
    forall i j a b, os_acc o !! i = Some a -> os_acc o !! j = Some b -> i < j -> ac_cell a = ac_cell b ->
      ac_write a = true \/ ac_write b = true -> before o i j.
  Proof.
    intros Hr Hc Hg Hn Hw i j a b Ha Hb Hlt Ec Hwr. exists b. split; [done|]. destruct (decide (i ∈ ac_seen b)) as [|Hni]; [done|].
    exfalso. destruct (hold_order _ _ _ Hr Hc Hg) as [O _]; [split; [by eapply Hn|by eapply Hw]|]. apply (O_free _ _ O i j). exists a, b. done.
  Qed.

  (** ** Programs that only clone *)
  Definition nw (f : frame V) : Prop :=
    match f with
    | FDown _ | FCloneW _ _ | FV (VFin (Some (XWeak _ _)) _) => False
    | FChild _ _ | FChildInc _ _ _ | FChildAlloc _ _ | FChildCas _ _ _ _ | FChildLost _ _ _ _ _ | FChildUndo _ _ _ _ _ | FChildUnwrap _ _ _ _ _ => False
    | _ => True
    end.
  Definition NW s : Prop :=
    (forall t st, cs_t s !! t = Some st -> Forall nw st) /\ (forall h d g k, cs_h s !! h <> Some (Some (XWeak d g, k))) /\
    forall x, data_parent (cs_g s) x = None.
  Lemma mstep_nw d g (st : stack) d' g' st' : mstep sz d g st = Ok (d', g', st') -> Forall nw st -> Forall nw st'.
  Proof.
    intros H HF. destruct st as [|f k]; [done|]. pose proof (Forall_inv HF) as Hf. pose proof (Forall_inv_tail HF) as Hk. clear HF.
    destruct f; try done; cbn [mstep] in H.
    all: repeat (first
      [ match type of H with mbind _ _ = Ok _ => let x := fresh "x" in let Hx := fresh "Hx" in apply bind_inv in H as (x & Hx & H) end
      | match type of H with Ok _ = Ok _ => fail 1 | _ => idtac end; case_match; try done ]).
    all: subst; try (injection H as <- <- <-); try done.
    all: repeat match goal with H : Forall _ (_ :: _) |- _ => apply Forall_cons in H as [? ?] end.
    all: repeat (first [apply Forall_app; split | apply Forall_rel; done | apply Forall_relg; done | apply Forall_cons; split | done]).
  Qed.
  Lemma mstep_np d g (st : stack) d' g' st' : mstep sz d g st = Ok (d', g', st') -> Forall nw st ->
    (forall x, data_parent g x = None) -> forall x, data_parent g' x = None.
  Proof.
    intros Hm HF Hp x. destruct (mstep_g sz _ _ _ _ _ _ Hm) as [[Em _]|[(y & side & k' & n' & k & -> & _)|(y & b & pg & k & -> & Eg & E)]].
    - unfold data_parent. rewrite Em. apply (Hp x).
    - by apply Forall_inv in HF.
    - destruct (new_guard_metas _ _ _ _ _ _ Eg) as (_ & E2 & _). by rewrite E2.
  Qed.
  Lemma cstart_nw s t op s' : (forall side h, op <> CCloneHalf side h) -> (forall h, op <> CDowngrade h) -> NW s -> cstart sz s t op = Ok s' ->
    (cs_t s' = cs_t s \/ exists st', cs_t s' = <[t := st']> (cs_t s) /\ Forall nw st') /\
    (forall h d g k, cs_h s' !! h <> Some (Some (XWeak d g, k))).
  Proof.
    intros H1 H2 (_ & Hh & _) Hs. unfold cstart in Hs. destruct (cs_t s !! t) as [[|f st]|] eqn:Ht; [|injection Hs as <-; split; [by left|done]..].
    assert (forall h k d g, slot s h <> Some (XWeak d g, k)) as Hw. { intros h k d g Hk. unfold slot in Hk. destruct (cs_h s !! h) eqn:E; [|done]. subst. by apply Hh in E. }
    assert (forall h v, (forall d g k, v <> Some (XWeak d g, k)) -> forall h' d g k, <[h := v]> (cs_h s) !! h' <> Some (Some (XWeak d g, k))) as Hi.
    { intros h v Hv h' d g k [(-> & E & _)|[_ E]]%list_lookup_insert_Some; [by eapply Hv|by eapply Hh]. }
    assert (forall (l : list (option (xhandle * nat))) v, (forall h d g k, l !! h <> Some (Some (XWeak d g, k))) -> (forall d g k, v <> (XWeak d g, k)) -> forall h' d g k, (l ++ [Some v]) !! h' <> Some (Some (XWeak d g, k))) as Hsn.
    { intros l v Hl Hv h' d g k E. apply lookup_app_Some in E as [E|[_ [_ E]%list_lookup_singleton_Some]]; [by eapply Hl|]. injection E as ->. by eapply Hv. }
    destruct op; try (by destruct (H2 h)); try (by destruct (H1 side h)); repeat (first
      [ match type of Hs with mbind _ _ = Ok _ => let x := fresh "x" in let Hx := fresh "Hx" in apply bind_inv in Hs as (x & Hx & Hs) end
      | match type of Hs with Ok _ = Ok _ => fail 1 | _ => idtac end; case_match; try done ]); subst; injection Hs as <-;
      try (by exfalso; eapply Hw); (split; [try (by left); right; eexists; (split; [reflexivity|by repeat constructor])|try done]).
    all: cbn; try (by apply Hi); try (by apply Hsn).
    apply Hsn; [by apply Hi|done].
  Qed.
  Lemma NW_cstep s e s' : (forall t side h, e <> SStart t (CCloneHalf side h)) -> (forall t h, e <> SStart t (CDowngrade h)) ->
    cstep sz s e = Ok s' -> NW s -> NW s'.
  Proof.
    intros H1 H2 Hs N. pose proof N as (Nt & Nh & Np).
    assert (forall t st', Forall nw st' -> forall t' st, <[t := st']> (cs_t s) !! t' = Some st -> Forall nw st) as Hins.
    { intros t st' Hst t' st [(_ & -> & _)|[_ H]]%list_lookup_insert_Some; [done|by eapply Nt]. }
    assert (forall x, data_parent (cs_g s') x = None) as Np'.
    { destruct (cstep_qstep _ _ _ _ Hs) as [Q|(t & st & d & g & st' & -> & Ht & Hm & ->)].
      - destruct (q_d _ _ Q) as [[_ E]|(k & n & _ & _ & _ & E)]; intros x; rewrite E; [done|]. rewrite new_data_parent. by case_decide.
      - cbn. eapply mstep_np; [exact Hm|by eapply Nt|done]. }
    assert (forall t h0 x r, (forall d g, x <> Some (XWeak d g)) -> forall h d g k, cs_h (finish s t h0 x r) !! h <> Some (Some (XWeak d g, k))) as Hfin.
    { intros t h0 x r Hx h d g k E. cbn in E.
      assert (forall h k, end_borrow (cs_h s) h0 !! h <> Some (Some (XWeak d g, k))) as Hb.
      { clear E. intros h' k' E'. unfold end_borrow in E'. destruct h0 as [h0|]; [|by eapply Nh]. repeat (case_match; try by eapply Nh).
        subst. apply list_lookup_insert_Some in E' as [(-> & E' & _)|[_ E']]; [|by eapply Nh]. simplify_eq. by eapply Nh. }
      destruct x as [x|]; [|rewrite app_nil_r in E; by eapply Hb]. apply lookup_app_Some in E as [E|[_ [_ E]%list_lookup_singleton_Some]]; [by eapply Hb|].
      injection E as -> _. by eapply Hx. }
    destruct e as [t op|t|t i v|t]; cbn [cstep] in Hs.
    - destruct (cstart_nw s t op s') as [Ht Hh]; [intros ? ? ->; by eapply H1|intros ? ->; by eapply H2|done|done|].
      split; [|done]. destruct Ht as [Et|(st' & Et & Hst)]; intros t' st; rewrite Et; [apply Nt|by apply Hins].
    - destruct (cs_t s !! t) as [st|] eqn:Ht; [|unfold tstep in Hs; rewrite Ht in Hs; by injection Hs as <-].
      destruct (tstep_cases sz s t st Ht) as [(-> & Hc)|[(r & -> & Hc)|[(x & o & h & -> & Hc)|[(r & -> & Hc)|Hc]]]]; rewrite Hc in Hs; clear Hc.
      + by injection Hs as <-.
      + by injection Hs as <-.
      + injection Hs as <-. split; [by eapply Hins|]. split; [|done]. apply Hfin. apply Nt, Forall_inv in Ht. intros d g ->. done.
      + injection Hs as <-. split; [|done]. apply Hins. by repeat constructor.
      + apply bind_inv in Hs as ([[d g] st'] & Hm & [= <-]). split; [|done]. apply Hins. eapply mstep_nw; [done|by eapply Nt].
    - unfold hold_write in Hs. repeat (first
      [ match type of Hs with mbind _ _ = Ok _ => let x := fresh "x" in let Hx := fresh "Hx" in apply bind_inv in Hs as (x & Hx & Hs) end
      | match type of Hs with Ok _ = Ok _ => fail 1 | _ => idtac end; case_match; try done ]); injection Hs as <-; done.
    - unfold hold_end in Hs. repeat (case_match; try (injection Hs as <-; done)). injection Hs as <-. split; [by eapply Hins|]. split; [|done]. by apply Hfin.
  Qed.
  Lemma NW_reach n es s : no_halves es -> no_downgrade es -> creach sz n es s -> NW s.
  Proof.
    revert s. induction es as [|e es IH] using rev_ind; intros s H1 H2 Hr.
    - injection Hr as <-. split; [|done]. intros t st Ht. cbn in Ht. apply lookup_replicate in Ht as [-> _]. constructor.
    - apply Forall_app in H1 as [H1 He1%Forall_inv]. apply Forall_app in H2 as [H2 He2%Forall_inv].
      apply crun_app in Hr as (s1 & Hr & Hs). cbn in Hs. apply bind_inv in Hs as (s2 & Hs & [= <-]).
      eapply NW_cstep; [exact He1|exact He2|exact Hs|by apply IH].
  Qed.
  Theorem clones_intact n (es : list (sched (V:=V))) : no_halves es -> no_downgrade es -> always sz calm n es /\ always sz calm_get n es /\ always sz uncut n es /\ always sz unwatched n es.
  Proof.
    intros H1 H2. assert (forall es1 es2 s, es = es1 ++ es2 -> creach sz n es1 s -> NW s) as HN.
    { intros es1 es2 s -> Hr. apply Forall_app in H1 as [H1 _]. apply Forall_app in H2 as [H2 _]. by eapply NW_reach. }
    assert (forall s, NW s -> forall h d g, cget s h <> Some (XWeak d g)) as Hg.
    { intros s (_ & Nh & _) h d g (k & E)%cget_slot. by eapply Nh. }
    split_and!; intros es1 es2 s Ees Hr; pose proof (HN _ _ _ Ees Hr) as N.
    - intros t x t' u _ (st & h & w & f & _ & _ & _ & _ & E). by apply Hg in E.
    - intros t x t' u (st & h & w & f & _ & _ & _ & _ & E). by apply Hg in E.
    - intros t x _ c. by rewrite (proj2 (proj2 N)).
    - intros t x _ w [[h Hh]|(t' & st & Ht & Hx)]; [by apply Hg in Hh|].
      apply elem_of_list_bind in Hx as (f & Hx & Hf). apply (proj1 N), Forall_forall with (x:=f) in Ht; [|done].
      destruct f; cbn in Hx; try (by apply elem_of_nil in Hx); try (by apply elem_of_list_singleton in Hx).
      destruct v as [| |r|[v|]]; try (by apply elem_of_nil in Hx); apply elem_of_list_singleton in Hx; [done|]. by subst v.
  Qed.
  Theorem clones_before n (es : list (sched (V:=V))) o : no_halves es -> no_downgrade es -> oreach sz true n es o ->
    forall i j a b, os_acc o !! i = Some a -> os_acc o !! j = Some b -> i < j -> ac_cell a = ac_cell b ->
      ac_write a = true \/ ac_write b = true -> before o i j.
  Proof. intros H1 H2 Hr. destruct (clones_intact n es H1 H2) as (H3 & H4 & H5 & H6). exact (hold_before n es o Hr H3 H4 H5 H6). Qed.
End hold.
