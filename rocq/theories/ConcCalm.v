(** Schedules in which no [upgrade] of a part of a slice overlaps with the second half of an [into_mut] on it. *)
From Verif Require Import Base BaseLemmas Api SliceItemsModel Spec DataModel RcModel DataInv DataSteps GuardInv ArcModel ArcInv ArcConc ConcInv ConcGuard ConcWorld ConcChild ConcData ConcSafe ConcSpec ConcShare ConcTree ConcCov.
Local Open Scope nat_scope.
#[local] Arguments slo {A} F hs : simpl never.
#[local] Arguments thr {V A} F ts : simpl never.

Section calm.
  Context {V : Type} (sz : N).
  Notation stack := (list (frame V)).
  Implicit Types (s : cstate V) (t : nat).
  Notation datas s := (dw_datas (cs_d s)).

  (** ** What [forget_items] has taken apart *)
  Definition nf s (n : dnode) (p : nat) : Prop :=
    p < length (datas s) /\ ~ dl s p /\ forall c, c ∈ kids n -> data_parent (cs_g s) c = Some p.
  Inductive fgc s : nat -> stack -> Prop :=
  | FC_base r : fgc s (ar_data r) [FOpen (ar_guard r) false; KImG r; KEnd None]
  | FC_cons side n0 a0 k p p0 : d_child side n0 = Some p -> nf s n0 p0 -> fgc s p0 k -> fgc s p (KFg side n0 a0 :: k).
  Definition fok s (st : stack) : Prop :=
    (exists n a k p, st = FFg n a :: k /\ nf s n p /\ fgc s p k) \/ Forall nofg st.
  Definition FOK s : Prop := forall t st, cs_t s !! t = Some st -> fok s st.

  Section stable.
    Context s s' D (G : GI s D) (F : eff s s').
    Lemma parent_stable x p : data_parent (cs_g s) x = Some p -> data_parent (cs_g s') x = Some p.
    Proof. intros H. destruct (eff_mext _ _ F) as [E _]. rewrite E; [done|by eapply data_parent_lt]. Qed.
    Lemma nf_stable n p : nf s n p -> nf s' n p.
    Proof.
      intros (H1 & H2 & H3). pose proof (eff_len _ _ F). split_and!; [lia|by eapply (eff_dead s)|].
      intros c Hc. by apply parent_stable, H3.
    Qed.
    Lemma fgc_stable p k : fgc s p k -> fgc s' p k.
    Proof. induction 1; econstructor; [done|by eapply nf_stable|done]. Qed.
    Lemma fok_stable (st : stack) : fok s st -> fok s' st.
    Proof.
      intros [(n & a & k & p & -> & H1 & H2)|H]; [left|by right]. exists n, a, k, p.
      split_and!; [done|by eapply nf_stable|by apply fgc_stable].
    Qed.
  End stable.

  Lemma kids_unset side c (n : dnode) : c ∈ kids (d_set_child side None n) -> c ∈ kids n.
  Proof. rewrite !in_kids. intros [sd H]. exists sd. by destruct sd, side. Qed.
  Lemma fgc_nofg s p k v : fgc s p k -> (forall side n a k', k <> KFg side n a :: k') -> Forall nofg (FV v :: k).
  Proof.
    intros H Hk. destruct H as [r|]; [|by destruct (Hk side n0 a0 k)]. repeat (apply Forall_cons; split; [done|]). by apply Forall_nil.
  Qed.

  Lemma fim3_dec (st : stack) : (exists r k, st = FIm3 r :: k) \/ forall r k, st <> FIm3 r :: k.
  Proof. destruct st as [|[] k]; try (by right); left; eauto. Qed.
  Lemma fok_mstep s D t (st : stack) d g (st' : stack) o l :
    let s' := CS d g (cs_h s) (<[t := st']> (cs_t s)) o l in
    GI s D -> MI s -> eff s s' -> cs_t s !! t = Some st -> mstep sz (cs_d s) (cs_g s) st = Ok (d, g, st') -> clean (cs_d s) st ->
    fok s st -> fok s' st'.
  Proof.
    intros s' G M F Ht Hs Hcl [(n & a & k & p & -> & Hn & Hk)|Hst].
    - assert (forall c n' h, live (datas s) c 1 n' -> datas s' = h -> h !! c = Some None -> nf s' n' c) as Hnf.
      { intros c n' h Hc E Hh. split_and!.
        - rewrite E. by eapply lookup_lt_Some.
        - intros [m Hm]. rewrite E in Hm. unfold rc_get in Hm. by rewrite Hh in Hm.
        - intros c' Hc'. eapply (parent_stable s); [done|]. eapply m_kid; [done|by eapply rc_get_live|done]. }
      assert (fgc s' p k) as Hk' by (by eapply (fgc_stable s)). assert (nf s' n p) as Hn' by (by eapply (nf_stable s)).
      cbn in Hs, Hcl. destruct (node_kids n) as [|c ks] eqn:Ek.
      + assert (forall v, Ok (cs_d s, cs_g s, FV v :: k) = Ok (d, g, st') -> (forall side n a k', k <> KFg side n a :: k') -> fok s' st') as Hv.
        { intros v [= _ _ <-] Hk2. right. by eapply fgc_nofg. }
        destruct k as [|f0 k]; [by eapply Hv|]. destruct f0; try by (eapply Hv; [done|]). clear Hv.
        apply bind_inv in Hs as (d1 & Hd & Hs). injection Hs as _ _ <-. left. inversion Hk' as [|? ? ? ? ? p0 Hp0 Hn0 Hk0]; subst.
        do 4 eexists. split_and!; [done| |done]. destruct Hn0 as (H1 & H2 & H3). split_and!; [done..|].
        intros c Hc. apply H3. by eapply kids_unset.
      + apply bind_inv in Hs as ([h o1] & Hd & Hs).
        apply rc_unwrap_inv in Hd as [(j & v & Hv & -> & ->)|(v & Hv & -> & ->)].
        { apply rc_count_live in Hv. rewrite Hcl in Hv. lia. }
        injection Hs as Es1 Es2 <-. left. do 4 eexists. split_and!; [done| |].
        * eapply (Hnf c); [done|done|]. cbn. rewrite <- Es1. cbn. apply list_lookup_insert. by eapply live_lt.
        * eapply FC_cons; [|done..]. unfold node_kids in Ek. destruct (d_left n) as [c0|] eqn:El; cbn in *; [congruence|].
          destruct (d_right n); cbn in *; congruence.
    - destruct (fim3_dec st) as [(r & k & ->)|Hno].
      + destruct (G_run _ _ G t _ Ht) as [b Hr].
        inversion Hr as [| | | | | | | |? ? ? Hf0|? ? ? ? Hf0| ? ? ? Hf0| | | | |? ? Hf0|? ? Hf0| |? r' Hf0| |]; subst; try done;
          try (by destruct Hf0). destruct Hf0 as [|Hf0]; [done|]. injection Hf0 as ->.
        cbn in Hs. apply bind_inv in Hs as ([h o1] & Hd & Hs).
        apply rc_unwrap_inv in Hd as [(? & ? & _ & -> & ->)|(v & Hv & -> & ->)]; injection Hs as Es1 Es2 <-.
        * right. repeat (apply Forall_cons; split; [done|]). by apply Forall_nil.
        * left. do 4 eexists. split_and!; [done| |apply FC_base]. split_and!.
          { cbn. rewrite <- Es1. cbn. rewrite insert_length. by eapply live_lt. }
          { intros [m Hm]. cbn in Hm. rewrite <- Es1 in Hm. cbn in Hm. unfold rc_get in Hm.
            by rewrite list_lookup_insert in Hm by by eapply live_lt. }
          intros c' Hc'. eapply (parent_stable s); [done|]. eapply m_kid; [done|by eapply rc_get_live|done].
      + right. apply Forall_forall. intros f Hf. rewrite Forall_forall in Hst.
        destruct (mstep_frames _ _ _ _ _ _ _ Hs f Hf) as [Hf'|(_ & _ & [Hf'|[(r & k & ->)|(n & a & k & ->)]])]; [by apply Hst|done|..].
        * by destruct (Hno r k).
        * destruct (Hst (FFg n a)). left.
  Qed.
  Lemma fgc_down s D p k r : GI s D -> fgc s p k -> ~ dl s p -> KImG r ∈ k -> ~ dl s (ar_data r) /\ ance (cs_g s) (ar_data r) p.
  Proof.
    intros G. induction 1 as [r'|side n0 a0 k p p0 Hp Hn Hk IH]; intros Hd Hr.
    - assert (r = r') as ->. { repeat (apply elem_of_cons in Hr as [Hr|Hr]; [by simplify_eq|]). by apply elem_of_nil in Hr. }
      split; [done|by left].
    - apply elem_of_cons in Hr as [|Hr]; [done|]. destruct Hn as (_ & Hd0 & Hn). destruct (IH Hd0 Hr) as [H1 H2]. split; [done|].
      right. eapply ance_child; [done|]. apply Hn, in_kids. eauto.
  Qed.
  Lemma fgc_refs s D p k y : GI s D -> fgc s p k -> y ∈ stk fR k -> exists p0, data_parent (cs_g s) y = Some p0 /\ p0 < p.
  Proof.
    intros G. induction 1 as [r'|side n0 a0 k p p0 Hp Hn Hk IH]; [intros H; by apply elem_of_nil in H|].
    rewrite stk_cons. destruct Hn as (_ & Hd0 & Hn).
    assert (p0 < p) as Hlt. { eapply parent_lt; [done|]. apply Hn, in_kids. eauto. }
    intros [Hy|Hy]%elem_of_app.
    - exists p0. split; [|done]. by eapply Hn, kids_unset.
    - destruct (IH Hy) as (p1 & H1 & H2). exists p1. split; [done|lia].
  Qed.
  Lemma kids_once T L (n : dnode) c ks : lab T L n -> kids n = c :: ks -> cnt c (kids n) = 1.
  Proof.
    intros (l & _ & _ & Hl) E. pose proof (Hl false) as Hl0. pose proof (Hl true) as Hl1. unfold kids in *. cbn in Hl0, Hl1.
    destruct (d_left n) as [a|], (d_right n) as [a'|]; cbn in *; simplify_eq; rewrite ?cnt_cons, ?cnt_nil; rewrite decide_True by done; [|done..].
    rewrite decide_False; [done|]. intros ->. specialize (Hl0 _ eq_refl). specialize (Hl1 _ eq_refl). rewrite Hl0 in Hl1. by simplify_eq.
  Qed.
  (** The next child is not shared if no other reference is below the data. *)
  Lemma clean_own s D T L t n a (k : stack) r : GI s D -> DI sz s T L -> MI s -> FOK s -> cs_t s !! t = Some (FFg n a :: k) -> KImG r ∈ k ->
    (forall y, y ∈ rR s t -> ~ below (cs_g s) (ar_data r) y) -> clean (cs_d s) (FFg n a :: k).
  Proof.
    intros G I M HF Ht Hr Hy. destruct (HF _ _ Ht) as [(n0 & a0 & k0 & p & [= <- <- <-] & Hn & Hk)|H].
    2:{ rewrite Forall_forall in H. destruct (H (FFg n a)). left. }
    cbn. destruct (node_kids n) as [|c ks] eqn:Ek; [done|]. change (node_kids n) with (kids n) in Ek.
    pose proof (rest_dinv sz s T L t _ I Ht) as DV. rewrite (di_cnt _ _ _ _ _ _ DV). destruct Hn as (Hp1 & Hp2 & Hp3).
    assert (data_parent (cs_g s) c = Some p) as Hc. { apply Hp3. rewrite Ek. left. }
    destruct (fgc_down s D p k r G Hk Hp2 Hr) as [_ Ha].
    destruct (D_run _ _ _ _ I t _ Ht) as [(Hl & _) _]. rewrite stk_cons, !cnt_app.
    assert (cnt c (stk fR k) = 0) as ->.
    { apply cnt_zero. intros Hi. destruct (fgc_refs s D p k c G Hk Hi) as (p0 & Hp0 & Hlt). assert (p0 = p) by congruence. lia. }
    assert (cnt c (rR s t) = 0) as ->. { apply cnt_zero. intros Hi. destruct (Hy c Hi). by eapply ance_child. }
    rewrite hsum_zero.
    2:{ intros q j m Hq. apply cnt_zero. intros Hi. apply rc_get_live in Hq. pose proof (m_kid _ M q m c Hq Hi).
        assert (q = p) as -> by congruence. destruct Hp2. by exists m. }
    cbn [fR]. rewrite (kids_once _ _ _ _ _ Hl Ek). done.
  Qed.

  (** ** Isolation *)
  Definition noup s (x : nat) : Prop := forall t u, upgrading s t u -> ~ below (cs_g s) x u.
  Definition iso s t (x : nat) : Prop :=
    (forall y, y ∈ rR s t -> ~ below (cs_g s) x y) /\
    (dl s x -> forall t2 (st : stack) f, t2 <> t -> cs_t s !! t2 = Some st -> f ∈ st -> chframe f x -> exists y k, st = FWait y false :: k).

  Lemma acc_last E x q (k : stack) : acc E (Some x) q k -> exists h, last k = Some (KEnd h) /\ okend E (Some x) h.
  Proof.
    remember (Some x) as b. induction 1; try done; try (subst; by exists h).
    destruct (IHacc Heqb) as (h & H2 & H3). exists h. split; [|done]. destruct k; [done|exact H2].
  Qed.
  Lemma run_last E x (st : stack) : run E (Some x) st -> exists h, last st = Some (KEnd h) /\ okend E (Some x) h.
  Proof.
    remember (Some x) as b. induction 1; try done; try (subst; eexists; split; [done|by subst]);
      try (destruct (IHrun Heqb) as (h & H2 & H3); exists h; split; [|done]; destruct k; [done|exact H2]).
    - subst. destruct (acc_last _ _ _ _ H0) as (h & H2 & H3). exists h. split; [|done]. destruct k; [done|exact H2].
    - subst. destruct (acc_last _ _ _ _ H0) as (h & H2 & H3). exists h. split; [|done]. destruct k; [done|exact H2].
  Qed.
  Lemma bor_slot s D t (st : stack) x : GI s D -> cs_t s !! t = Some st -> bor (cs_h s) st = Some x ->
    exists h k, cs_h s !! h = Some (Some (x, k)) /\ last st = Some (KEnd (Some h)).
  Proof.
    intros G Ht Hb. destruct (G_run _ _ G t st Ht) as [b Hr]. pose proof (run_bor _ _ _ Hr) as E. cbn in E. rewrite <- E in Hb. subst b.
    destruct (run_last _ _ _ Hr) as (h & H1 & H2). destruct h as [h|]; [|done]. destruct H2 as (y & k & H2 & [= <-]). eauto.
  Qed.
  Lemma xmt_upgrading s D t (st : stack) u w : GI s D -> cs_t s !! t = Some st -> bor (cs_h s) st = Some (XWeak (Some u) w) ->
    Exists upk st -> upgrading s t u.
  Proof.
    intros G Ht Hb He. destruct (bor_slot s D t st _ G Ht Hb) as (h & k & Hh & Hl). apply Exists_exists in He as (f & Hf & Hu).
    exists st, h, w, f. split_and!; [done..|]. unfold cget, slot. by rewrite Hh.
  Qed.
  Lemma bor_ref s D t (st : stack) r : GI s D -> cs_t s !! t = Some st -> bor (cs_h s) st = Some (XArc r) ->
    ar_data r ∈ slo hR (cs_h s) /\ ar_guard r ∈ slo hG (cs_h s) /\ D !! ar_guard r = Some (ar_data r).
  Proof.
    intros G Ht Hb. destruct (bor_slot s D t st _ G Ht Hb) as (h & k & Hh & _). split_and!.
    - apply slo_elem. exists h, (XArc r), k. split; [done|left].
    - apply slo_elem. exists h, (XArc r), k. split; [done|left].
    - by apply (G_slot _ _ G _ _ _ Hh).
  Qed.
  Lemma run_ch E b (st : stack) f x : run E b st -> f ∈ st -> chframe f x -> exists r, b = Some (XArc r) /\ ar_data r = x.
  Proof.
    intros H Hf Hx.
    assert (forall q k b, acc E b q k -> f ∉ k) as Hacc.
    { clear -Hx. intros q k b. induction 1; intros Hf; repeat (apply elem_of_cons in Hf as [Hf|Hf]; [by subst|]); try (by apply elem_of_nil in Hf); done. }
    assert (forall r k, fgs r k -> f ∉ k) as Hfg.
    { clear -Hx. intros r k. induction 1; intros Hf; repeat (apply elem_of_cons in Hf as [Hf|Hf]; [by subst|]); try (by apply elem_of_nil in Hf); done. }
    induction H; try (by apply elem_of_nil in Hf);
      try (apply elem_of_cons in Hf as [->|Hf]; [done|]; first [by apply IHrun|by eapply Hacc in Hf|by eapply Hfg in Hf|idtac]).
    all: repeat (apply elem_of_cons in Hf as [Hf|Hf]; [subst|]); try (by apply elem_of_nil in Hf); try done; try (cbn in Hx; by subst; eauto).
    - exists r. split; [done|]. by destruct f0; cbn in *; subst.
    - match goal with H : gframe _ ?g _ |- _ => by destruct g end.
    - by eapply Hacc in Hf.
    - match goal with H : _ \/ _ |- _ => by destruct H; subst end.
    - match goal with H : _ \/ _ |- _ => by destruct H; subst end.
    - match goal with H : _ \/ _ |- _ => by destruct H; subst end.
    - match goal with H : _ \/ _ |- _ => by destruct H; subst end.
  Qed.
  Lemma run_wait E b y (k : stack) : run E b (FWait y false :: k) -> exists r, b = Some (XArc r) /\ y = ar_guard r.
  Proof.
    intros H. inversion H as [| | | | | | | |? ? ? Hf0|? ? ? ? Hf0| ? ? ? Hf0| | | | |? ? Hf0|? ? Hf0| |? ? Hf0| |]; subst; try done;
      try (by destruct Hf0). eauto.
  Qed.
  Lemma rG_slot s t i : i ∈ slo hG (cs_h s) -> i ∈ rG s t.
  Proof. intros H. apply elem_of_app. by left. Qed.
  Lemma rG_thread s t t2 (st : stack) i : t2 <> t -> cs_t s !! t2 = Some st -> i ∈ stk fG st -> i ∈ rG s t.
  Proof. intros H1 H2 H3. apply elem_of_app. right. apply thr_delete_elem. eauto. Qed.
  Lemma rR_slot s t i : i ∈ slo hR (cs_h s) -> i ∈ rR s t.
  Proof. intros H. apply elem_of_app. by left. Qed.
  Lemma rR_thread s t t2 (st : stack) i : t2 <> t -> cs_t s !! t2 = Some st -> i ∈ stk fR st -> i ∈ rR s t.
  Proof. intros H1 H2 H3. apply elem_of_app. right. apply thr_delete_elem. eauto. Qed.
  Lemma rR_inv s t y : y ∈ rR s t -> y ∈ slo hR (cs_h s) \/ exists t2 st, t2 <> t /\ cs_t s !! t2 = Some st /\ y ∈ stk fR st.
  Proof. intros [H|H]%elem_of_app; [by left|right; by apply thr_delete_elem in H]. Qed.
  Lemma stk_suffix {A} (F : frame V -> list A) (st0 st : stack) i : i ∈ stk F st -> i ∈ stk F (st0 ++ st).
  Proof. rewrite stk_app. intros H. apply elem_of_app. by right. Qed.
  Lemma rR_live s T L t y : DI sz s T L -> (exists st, cs_t s !! t = Some st) -> y ∈ rR s t -> dl s y.
  Proof.
    intros I [st Ht] Hy. destruct (dinv_ref_live _ _ _ _ _ _ (rest_dinv sz s T L t st I Ht) y) as (j & n & ? & Hl & _).
    { apply elem_of_app. by right. }
    exists n. by eapply rc_get_live.
  Qed.
  Lemma stk_live s T L t (st : stack) y : DI sz s T L -> cs_t s !! t = Some st -> y ∈ stk fR st -> dl s y.
  Proof.
    intros I Ht Hy. destruct (dinv_ref_live _ _ _ _ _ _ (rest_dinv sz s T L t st I Ht) y) as (j & n & ? & Hl & _).
    { apply elem_of_app. by left. }
    exists n. by eapply rc_get_live.
  Qed.

  (** The sole reference to the guard of a live data: nobody else is below it. *)
  Lemma iso_start s D T L t (st : stack) i x : GI s D -> MI s -> GP s D -> DI sz s T L -> COV s D ->
    cs_t s !! t = Some st -> i ∈ stk fG st -> D !! i = Some x -> dl s x -> rc_count (gd_guards (cs_g s)) i = 1 ->
    noup s x -> iso s t x.
  Proof.
    intros G M P I Cv Ht Hi Hx Hd Hc Hn.
    assert (forall j z, j ∈ rG s t -> D !! j = Some z -> ~ ance (cs_g s) x z) as Hs.
    { intros j z. by apply (sole_guard sz s D T L _ _ G M P (D_inv _ _ _ _ I) t st i). }
    split.
    - intros y Hy Hb. apply rR_inv in Hy as [(h & x0 & k & Hh & Hy)%slo_elem|(t2 & st2 & Hne & Ht2 & Hy)].
      + destruct x0 as [r| | | | |]; try by apply elem_of_nil in Hy. apply elem_of_list_singleton in Hy as ->.
        apply (Hs (ar_guard r) (ar_data r)); [|by apply (G_slot _ _ G _ _ _ Hh)|by right].
        apply rG_slot, slo_elem. exists h, (XArc r), k. split; [done|left].
      + destruct (pok_elem _ _ _ (Cv t2 st2 Ht2) Hy) as (st0 & st1 & -> & [Hcov|(u & w & Eb & Ha & He)]).
        * destruct (Hcov x Hd Hb) as (j & z & Hj & Hz & Ha). apply (Hs j z); [|done..].
          apply elem_of_app in Hj as [Hj|Hj]; [eapply rG_thread; [done..|by apply stk_suffix]|].
          destruct (bor (cs_h s) (st0 ++ st1)) as [x1|] eqn:Eb; [|by apply elem_of_nil in Hj]. cbn in Hj.
          destruct (bor_slot s D t2 _ _ G Ht2 Eb) as (h & k & Hh & _). apply rG_slot, slo_elem. eauto.
        * apply (Hn t2 u); [|by eapply below_ance]. eapply (xmt_upgrading s D t2); [done..|]. apply Exists_app. by right.
    - intros _ t2 st2 f Hne Ht2 Hf Hch. exfalso. destruct (G_run _ _ G t2 st2 Ht2) as [b Hr].
      destruct (run_ch _ _ _ _ _ Hr Hf Hch) as (r & -> & <-). pose proof (run_bor _ _ _ Hr) as Eb.
      destruct (bor_ref s D t2 st2 r G Ht2 (eq_sym Eb)) as (_ & Hg & HD). apply (Hs (ar_guard r) (ar_data r)); [by apply rG_slot|done|by left].
  Qed.

  Lemma below_back s s' D T L t x y : GI s D -> eff s s' -> DI sz s T L -> (exists st, cs_t s !! t = Some st) -> y ∈ rR s t ->
    below (cs_g s') x y -> below (cs_g s) x y.
  Proof.
    intros G F I Ht Hy Hb. eapply below_mext_inv; [by eapply eff_mext|intros ? ?; by apply (parent_lt _ _ _ _ G)| |done].
    rewrite (G_len _ _ G). by eapply dl_lt, rR_live.
  Qed.
  (** The thread's own steps. *)
  Lemma iso_own s s' D T L t (st st' : stack) x : GI s D -> DI sz s T L -> eff s s' ->
    cs_h s' = cs_h s -> cs_t s !! t = Some st -> cs_t s' = <[t := st']> (cs_t s) -> x < length (datas s) -> iso s t x -> iso s' t x.
  Proof.
    intros G I F Eh Ht Et Hx [H1 H2]. split.
    - intros y Hy Hb. assert (y ∈ rR s t) as Hy'.
      { unfold rR in *. rewrite Eh, Et in Hy. apply elem_of_app in Hy as [Hy|Hy]; apply elem_of_app; [by left|right].
        apply thr_delete_elem in Hy as (t2 & st2 & Hne & Ht2 & Hy). rewrite list_lookup_insert_ne in Ht2 by done. apply thr_delete_elem. eauto. }
      apply (H1 y Hy'). eapply below_back; eauto.
    - intros Hd t2 st2 f Hne. rewrite Et, list_lookup_insert_ne by done. apply H2; [|done]. by eapply (eff_live s).
  Qed.
  (** Where the references of the other threads come from. *)
  Inductive came s s' (D : list nat) t (y : nat) : Prop :=
  | Ca_old : y ∈ rR s t -> came s s' D t y
  | Ca_root : y = length (datas s) -> data_parent (cs_g s') y = None -> came s s' D t y
  | Ca_orphan p : p ∈ rR s t -> ~ dl s' p -> data_parent (cs_g s') y = Some p -> came s s' D t y
  | Ca_half t0 (st0 : stack) f r : t0 <> t -> cs_t s !! t0 = Some (f :: st0) -> ar_data r ∈ rR s t -> chframe f (ar_data r) ->
      ar_guard r ∈ rG s t -> D !! ar_guard r = Some (ar_data r) ->
      data_parent (cs_g s') y = Some (ar_data r) -> came s s' D t y
  | Ca_parent z : z ∈ rR s t -> data_parent (cs_g s') z = Some y -> came s s' D t y
  | Ca_upgrade t0 : t0 <> t -> upgrading s' t0 y -> came s s' D t y.
  Lemma came_from s s' D X T L T' L' e t (st : stack) y :
    GI s D -> CI sz s -> DI sz s T L -> MI s -> COV s D -> cclean s e -> cstep sz s e = Ok s' ->
    GI s' (D ++ X) -> MI s' -> DI sz s' T' L' -> cs_t s !! t = Some st ->
    cs_t s' !! t <> Some [] -> y ∈ rR s' t -> came s s' D t y.
  Proof.
    intros G C I M Cv Hcl Hs G' M' I' Ht Hne Hy. pose proof (cstep_eff _ _ _ _ _ G C Hs) as F.
    apply cstep_qstep in Hs as [Q|(t0 & st0 & d & g & st' & -> & Ht0 & Hs & ->)].
    - destruct (q_t _ _ Q) as [[Et Hsl]|(t0 & st0 & st' & Ht0 & Et & Hsl & Hf)].
      + apply Ca_old. apply rR_inv in Hy as [Hy|(t2 & st2 & Hn2 & Ht2 & Hy)]; [by apply rR_slot, Hsl|]. rewrite Et in Ht2. by eapply rR_thread.
      + destruct (decide (t0 = t)) as [->|Hn0].
        { apply Ca_old. rewrite Et in Hne. rewrite list_lookup_insert in Hne by by eapply lookup_lt_Some.
          apply rR_inv in Hy as [Hy|(t2 & st2 & Hn2 & Ht2 & Hy)].
          - destruct (Hsl y Hy) as [H|[_ ->]]; [by apply rR_slot|done].
          - rewrite Et, list_lookup_insert_ne in Ht2 by done. by eapply rR_thread. }
        apply rR_inv in Hy as [Hy|(t2 & st2 & Hn2 & Ht2 & Hy)].
        * apply Ca_old. destruct (Hsl y Hy) as [H|[H _]]; [by apply rR_slot|by eapply rR_thread].
        * rewrite Et in Ht2. destruct (decide (t2 = t0)) as [->|].
          -- rewrite list_lookup_insert in Ht2 by by eapply lookup_lt_Some. injection Ht2 as <-.
             pose proof (fresh_org s s' D X st0 st' None G (G_run _ _ G t0 st0 Ht0) Hf) as Ho.
             destruct (pok_elem _ _ _ Ho Hy) as (? & ? & _ & [[H|[H|[H1 H2]]] _]).
             ++ by apply Ca_old, rR_slot.
             ++ apply Ca_old. by eapply rR_thread.
             ++ by apply Ca_root.
          -- rewrite list_lookup_insert_ne in Ht2 by done. apply Ca_old. by eapply (rR_thread _ _ t2).
    - cbn in Hcl. rewrite Ht0 in Hcl. cbn [cs_h cs_t] in *.
      apply rR_inv in Hy as [Hy|(t2 & st2 & Hn2 & Ht2 & Hy)]; [by apply Ca_old, rR_slot|]. cbn [cs_t] in Ht2.
      destruct (decide (t2 = t0)) as [->|]; [|rewrite list_lookup_insert_ne in Ht2 by done; apply Ca_old; by eapply rR_thread].
      rewrite list_lookup_insert in Ht2 by by eapply lookup_lt_Some. injection Ht2 as <-.
      pose proof (mstep_cov sz s D X T L T' L' t0 st0 d g st' _ _ G C I M F M' I' Ht0 Hs Hcl (Cv t0 st0 Ht0)) as Ho.
      set (s' := CS d g (cs_h s) (<[t0 := st']> (cs_t s)) (cs_out s) (cs_log s ++ step_log st0 st')) in *.
      destruct (pok_elem _ _ _ Ho Hy) as (? & ? & _ & [H _]). clear Ho.
      destruct H as [H|[(r & Eb & ->)|[(p & H1 & H2 & H3)|[(r & f & k & Eb & -> & Hf & Hp)|[(z & Hz & Hp)|(u & w & Eb & -> & He)]]]]].
      + apply Ca_old. by eapply rR_thread.
      + apply Ca_old, rR_slot. by eapply (bor_ref s D t0).
      + eapply Ca_orphan; [by eapply rR_thread|done..].
      + destruct (bor_ref s D t0 _ r G Ht0 Eb) as (H1 & H2 & H3).
        eapply Ca_half; [done|done| |done| |done|done]; [by apply rR_slot|by apply rG_slot].
      + eapply Ca_parent; [by eapply rR_thread|done].
      + eapply (Ca_upgrade _ _ _ _ _ t0); [done|]. destruct (GI_mstep sz s D t0 st0 d g st' (cs_out s) (cs_log s ++ step_log st0 st') G Ht0 Hs) as (_ & _ & _ & EB).
        eapply (xmt_upgrading s' (D ++ X) t0 st'); [done| | |done].
        * cbn. apply list_lookup_insert. by eapply lookup_lt_Some.
        * cbn. rewrite <- Eb. unfold bor. by rewrite EB.
  Qed.
  Lemma fresh_ch s s' (st st' : stack) f x : fresh s s' st st' -> f ∈ st' -> chframe f x -> exists y k, st' = FWait y false :: k.
  Proof.
    assert (forall l : stack, Forall (fun f => forall x, ~ chframe f x) l -> f ∈ l -> chframe f x -> False) as Hno.
    { intros l H Hf Hx. rewrite Forall_forall in H. by apply (H f Hf x). }
    intros [st1 _ _ [Hc|Hc]|n _ _|h r st1 _ Hst|r _] Hf Hx.
    - done.
    - by destruct (Hc f x).
    - exfalso. eapply Hno; [|done..]. repeat (apply Forall_cons; split; [intros ? H; exact H|]). by apply Forall_nil.
    - exfalso. destruct Hst as [->|[->|[o ->]]]; (eapply Hno; [|done..]; repeat (apply Forall_cons; split; [intros ? H; exact H|]); by apply Forall_nil).
    - exfalso. eapply Hno; [|done..]. repeat (apply Forall_cons; split; [intros ? H; exact H|]). by apply Forall_nil.
  Qed.

  Lemma iso_other s s' D X T L T' L' e t (st st' : stack) i x :
    GI s D -> CI sz s -> DI sz s T L -> MI s -> COV s D -> cclean s e -> cstep sz s e = Ok s' ->
    GI s' (D ++ X) -> MI s' -> DI sz s' T' L' -> cs_t s !! t = Some st -> cs_t s' !! t = Some st' -> st' <> [] ->
    (i, false) ∈ stk fL st -> D !! i = Some x -> dl s' x \/ ~ dl s x -> noup s' x -> iso s t x -> iso s' t x.
  Proof.
    intros G C I M Cv Hcl Hs G' M' I' Ht Ht' Hst Hl Hx Hd Hn [H1 H2]. pose proof (cstep_eff _ _ _ _ _ G C Hs) as F.
    assert (exists st, cs_t s !! t = Some st) as Hex by eauto.
    assert (x < length (datas s)) as Hlt. { rewrite <- (G_len _ _ G). by eapply (gi_dom _ _ _ _ _ (G_inv _ _ G)). }
    split.
    - intros y Hy Hb. assert (cs_t s' !! t <> Some []) as Hne by (rewrite Ht'; congruence).
      assert (forall z, z ∈ rR s t -> ~ below (cs_g s') x z) as H1'.
      { intros z Hz Hb'. apply (H1 z Hz). by eapply (below_back s). }
      destruct (came_from s s' D X T L T' L' e t st y G C I M Cv Hcl Hs G' M' I' Ht Hne Hy)
        as [H|E H|p Hp Hdp Hpy|t0 st0 f r Hn0 Ht0 Hr Hf Hg HD Hpy|z Hz Hp|t0 Hn0 Hu].
      + by apply (H1' y).
      + by eapply below_root.
      + destruct (below_parent _ _ _ _ Hb Hpy) as [<-|Hb']; [|by apply (H1' p)].
        destruct Hd as [Hd|Hd]; [done|]. apply Hd. by eapply rR_live.
      + destruct (below_parent _ _ _ _ Hb Hpy) as [Ex|Hb']; [|by apply (H1' (ar_data r))]. rewrite <- Ex in *.
        destruct (H2 (rR_live _ _ _ _ _ I Hex Hr) t0 (f :: st0) f Hn0 Ht0) as (y0 & k & [= -> ->]); [left|done|]. done.
      + apply (H1' z Hz). by eapply below_more.
      + by apply (Hn t0 y).
    - intros Hdx t2 st2 f Hn2 Ht2 Hf Hch. assert (dl s x) as Hds by by eapply (eff_live s).
      apply cstep_qstep in Hs as [Q|(t0 & st0 & d & g & st0' & -> & Ht0 & Hs & ->)].
      + destruct (q_t _ _ Q) as [[Et _]|(t0 & st0 & st0' & Ht0 & Et & _ & Hfr)]; rewrite Et in Ht2.
        * by eapply H2.
        * destruct (decide (t2 = t0)) as [->|]; [|rewrite list_lookup_insert_ne in Ht2 by done; by eapply H2].
          rewrite list_lookup_insert in Ht2 by by eapply lookup_lt_Some. injection Ht2 as <-. by eapply fresh_ch.
      + cbn [cs_t] in Ht2. destruct (decide (t2 = t0)) as [->|]; [|rewrite list_lookup_insert_ne in Ht2 by done; by eapply H2].
        rewrite list_lookup_insert in Ht2 by by eapply lookup_lt_Some. injection Ht2 as <-.
        assert (exists f1, f1 ∈ st0 /\ chframe f1 x) as (f1 & Hf1 & Hch1).
        { destruct (mstep_frames _ _ _ _ _ _ _ Hs f Hf) as [?|(Hnf & _)]; [eauto|]. destruct (Hnf x Hch) as (f0 & k & -> & ?).
          exists f0. split; [left|done]. }
        destruct (H2 Hds t0 st0 f1 Hn2 Ht0 Hf1 Hch1) as (y & k & ->). destruct (G_run _ _ G t0 _ Ht0) as [b Hr].
        destruct (run_ch _ _ _ _ _ Hr Hf1 Hch1) as (r & -> & Er). destruct (run_wait _ _ _ _ Hr) as (r' & Er2 & ->). injection Er2 as <-.
        pose proof (run_bor _ _ _ Hr) as Eb. destruct (bor_ref s D t0 _ r G Ht0 (eq_sym Eb)) as (_ & _ & HD).
        cbn in Hs. apply bind_inv in Hs as (n & (j & Hn0)%rc_val_inv & Hs).
        destruct (ginv_latch _ _ _ _ _ (G_inv _ _ G) i false) as (j' & n' & Hn' & Hgate). { apply thr_elem. eauto. }
        assert (ar_guard r = i) as Ei.
        { rewrite Er in HD. eapply (ginv_unique _ _ _ _ _ (G_inv _ _ G)); [by eapply rc_get_live|by eapply rc_get_live|exact HD|exact Hx]. }
        rewrite Ei in *. destruct (live_fun _ _ _ _ _ _ Hn0 Hn') as [_ En]. rewrite <- En in Hgate. cbn in Hgate. rewrite Hgate in Hs. injection Hs as _ _ <-. eauto.
  Qed.
  (** ** Only the first frame of a thread is in the middle of [get_mut] or [into_mut] *)
  Definition plain (f : frame V) : Prop :=
    match f with
    | FGm1 _ | FGm2 _ | FGm3 _ | FGm4 _ | FGm5 _ | FIm1 _ | FIm2 _ | FIm3 _ | FHold _ | FFg _ _ | FV (VHold _) => False
    | _ => True
    end.
  Definition trans (d : dworld V) (g : gdworld) (st : stack) (d' : dworld V) (g' : gdworld) (f : frame V) (k' : stack) : Prop :=
    match f with
    | FIm3 r => exists k, st = FIm2 r :: k /\ rc_count (gd_guards g) (ar_guard r) = 1 /\ d' = d /\ g' = g
    | FGm5 r => exists k, st = FGm4 r :: k /\ rc_count (gd_guards g) (ar_guard r) = 1 /\ d' = d /\ g' = g
    | FV (VHold r) => (exists k, st = FGm5 r :: k /\ rc_count (dw_datas d) (ar_data r) = 1 /\ d' = d /\ g' = g) \/
        exists y down k, st = FV (VHold r) :: FOpen y down :: k
    | FFg _ _ => (exists r k, st = FIm3 r :: k /\ forall r', KImG r' ∈ k' -> r' = r \/ KImG r' ∈ k) \/
        exists n a k, st = FFg n a :: k /\ forall r', KImG r' ∈ k' -> KImG r' ∈ k
    | FHold _ => False
    | _ => True
    end.
  Lemma tail_cons (P : frame V -> Prop) f (k : stack) : Forall P (tail (f :: k)) <-> Forall P k.
  Proof. done. Qed.
  Ltac plains := repeat (apply Forall_cons; split; [exact Logic.I|]); done.
  Lemma mstep_head E0 b0 (d : dworld V) g (st : stack) d' g' st' : run E0 b0 st -> mstep sz d g st = Ok (d', g', st') -> clean d st -> Forall plain (tail st) ->
    Forall plain (tail st') /\ forall f k', st' = f :: k' -> plain f \/ trans d g st d' g' f k'.
  Proof.
    intros Hr0 Hs Hcl Hp. unfold mstep in Hs. destruct st as [|f k]; [done|]. cbn in Hp.
    assert (forall l, Forall plain l -> Forall plain (tail l)) as Htl. { intros l H. destruct H; [constructor|done]. }
    assert (forall l : stack, Forall plain l -> Forall plain (tail l) /\ forall f0 k', l = f0 :: k' -> plain f0 \/ trans d g (f :: k) d' g' f0 k') as Hpl.
    { intros l H. split; [by apply Htl|]. intros f0 k' ->. left. by inversion H. }
    destruct f; try done.
    - apply bind_inv in Hs as ([h r] & Hd & Hs). destruct r as [n|].
      + destruct (node_own sz n) as [p len]. injection Hs as <- <- <-. apply Hpl. apply Forall_app. split; [|plains].
        apply Forall_fmap, Forall_forall. by intros c _.
      + injection Hs as <- <- <-. by apply Hpl.
    - destruct k0 as [|j].
      + apply bind_inv in Hs as (d1 & Hd & [= <- <- <-]). by apply Hpl.
      + apply bind_inv in Hs as ([d1 v] & Hd & [= <- <- <-]). apply Hpl. plains.
    - apply bind_inv in Hs as ([h r] & Hd & Hs). destruct r as [n|]; injection Hs as <- <- <-; [|by apply Hpl]. apply Hpl.
      destruct (a_parent n); [plains|done].
    - apply bind_inv in Hs as (g1 & Hd & [= <- <- <-]). by apply Hpl.
    - apply bind_inv in Hs as (n & Hd & Hs). destruct (a_gate down n); injection Hs as <- <- <-; apply Hpl; plains.
    - apply bind_inv in Hs as (n & Hn & Hs). destruct (_ <=? _)%N.
      + apply bind_inv in Hs as (h & Hd & [= <- <- <-]). apply Hpl; plains.
      + destruct (d_child side n) as [c|]; injection Hs as <- <- <-; apply Hpl; plains.
    - apply bind_inv in Hs as (h & Hd & [= <- <- <-]). apply Hpl; plains.
    - apply bind_inv in Hs as (n & Hn & Hs). destruct (node_sub sz side n) as [p len].
      apply bind_inv in Hs as (d1 & Hd & [= <- <- <-]). apply Hpl; plains.
    - apply bind_inv in Hs as (m & (s & Hm)%rc_val_inv & Hs). destruct (d_child side m) as [c|] eqn:Ec.
      + injection Hs as <- <- <-. apply Hpl; plains.
      + apply bind_inv in Hs as (h1 & Hi & [= <- <- <-]). apply Hpl; plains.
    - apply bind_inv in Hs as (h & Hd & [= <- <- <-]). apply Hpl; plains.
    - destruct k0 as [|[|j]]; try done. injection Hs as <- <- <-. apply Hpl; plains.
    - destruct (_ =? 1); [|done]. injection Hs as <- <- <-. apply Hpl; plains.
    - apply bind_inv in Hs as (n & _ & Hs). destruct (gd_metas g !! d0) as [m|]; [|done]. injection Hs as <- <- <-. apply Hpl; plains.
    - destruct (gd_boxes g !! b) as [[wk|]|]; try done. destruct (rc_upgrade _ _) as [gs [y|]] eqn:E; injection Hs as <- <- <-; apply Hpl; plains.
    - destruct (gd_metas g !! d0); [|done]. destruct (rc_upgrade _ _) as [h [p|]] eqn:E; injection Hs as <- <- <-; apply Hpl; plains.
    - apply bind_inv in Hs as (n & _ & Hs). destruct (gd_metas g !! d0) as [m|]; [|done]. destruct (_ =? _).
      + apply bind_inv in Hs as ([g1 y] & Hg & [= <- <- <-]). apply Hpl; plains.
      + injection Hs as <- <- <-. apply Hpl; plains.
    - destruct (gd_boxes g !! b) as [[wk|]|]; try done. destruct (rc_upgrade _ _) as [gs [y|]] eqn:E; injection Hs as <- <- <-;
        destruct pg as [i|]; cbn [rel_opt app]; apply Hpl; plains.
    - apply bind_inv in Hs as (h & Hd & [= <- <- <-]). apply Hpl; plains.
    - apply bind_inv in Hs as (h & Hd & [= <- <- <-]). apply Hpl; plains.
    - apply bind_inv in Hs as (h & Hd & [= <- <- <-]). apply Hpl; plains.
    - apply bind_inv in Hs as (n & _ & Hs). apply bind_inv in Hs as (h & Hd & [= <- <- <-]). apply Hpl; plains.
    - destruct (rc_upgrade _ _) as [h [p|]] eqn:E; injection Hs as <- <- <-; apply Hpl; plains.
    - apply bind_inv in Hs as ([g1 ok] & Hc & Hs). destruct ok; injection Hs as <- <- <-; [|apply Hpl; plains].
      split; [plains|]. intros f0 k' [= <- <-]. by right.
    - destruct (_ =? 1); injection Hs as <- <- <-; [|apply Hpl; plains]. split; [plains|]. intros f0 k' [= <- <-]. by right.
    - apply bind_inv in Hs as ([g1 ok] & Hc & Hs). destruct ok; injection Hs as <- <- <-; [|apply Hpl; plains].
      split; [plains|]. intros f0 k' [= <- <-]. by right.
    - destruct (Nat.eqb_spec (rc_count (gd_guards g) (ar_guard r)) 1); injection Hs as <- <- <-; [|apply Hpl; plains].
      split; [plains|]. intros f0 k' [= <- <-]. right. cbn. eauto 10.
    - destruct (Nat.eqb_spec (rc_count (dw_datas d) (ar_data r)) 1); injection Hs as <- <- <-; [|apply Hpl; plains].
      split; [plains|]. intros f0 k' [= <- <-]. right. cbn. eauto 10.
    - apply bind_inv in Hs as ([g1 ok] & Hc & Hs). destruct ok; injection Hs as <- <- <-; [|apply Hpl; plains].
      split; [plains|]. intros f0 k' [= <- <-]. by right.
    - destruct (Nat.eqb_spec (rc_count (gd_guards g) (ar_guard r)) 1); injection Hs as <- <- <-; [|apply Hpl; plains].
      split; [plains|]. intros f0 k' [= <- <-]. right. cbn. eauto 10.
    - destruct k as [|[] k]; try done. apply bind_inv in Hs as ([h o] & Hd & Hs). inversion Hp; subst.
      destruct o; injection Hs as <- <- <-; [|apply Hpl; plains].
      split; [plains|]. intros f0 k' [= <- <-]. right. cbn. left. eexists _, _. split; [done|]. intros r' Hr'.
      apply elem_of_cons in Hr' as [|Hr']; [done|]. apply elem_of_cons in Hr' as [[= ->]|Hr']; [by left|]. right. by right.
    - destruct (node_kids n) as [|c ks] eqn:Ek.
      + assert (Ok (d, g, FV (VFin (Some (XMut (MutS (SliceItems (d_ptr n) (d_len n)) a))) None) :: k) = Ok (d', g', st') ->
          Forall plain (tail st') /\ forall f k', st' = f :: k' -> plain f \/ trans d g (FFg n a :: k) d' g' f k') as Hd.
        { intros [= <- <- <-]. apply Hpl; plains. }
        destruct k as [|[] k]; try by apply Hd. clear Hd. inversion Hp; subst.
        apply bind_inv in Hs as (d1 & Hd & [= <- <- <-]).
        split; [plains|]. intros f0 k' [= <- <-]. right. cbn. right. eexists _, _, _. split; [done|]. intros r' Hr'. by right.
      + apply bind_inv in Hs as ([h o] & Hd & Hs). cbn in Hcl. rewrite Ek in Hcl.
        apply rc_unwrap_inv in Hd as [(j & v & Hv & -> & ->)|(v & Hv & -> & ->)].
        { apply rc_count_live in Hv. rewrite Hcl in Hv. lia. }
        injection Hs as <- <- <-. split; [plains|]. intros f0 k' [= <- <-]. right. cbn. right. eexists _, _, _. split; [done|].
        intros r' Hr'. apply elem_of_cons in Hr' as [|Hr']; [done|]. done.
    - destruct v; (destruct k as [|[] k]; try done; inversion Hp; subst;
        (lazymatch type of Hs with Ok _ = _ => injection Hs as <- <- <-
         | _ => apply bind_inv in Hs as (? & Ho & Hs); injection Hs as <- <- <- end)).
      all: try (apply Hpl; plains).
      + exfalso. apply run_val_inv in Hr0 as (q & [-> _] & Ha). by inversion Ha.
      + split; [plains|]. intros f0 k' [= <- <-]. right; cbn; eauto 10.
  Qed.
  Definition TI s : Prop := forall t st, cs_t s !! t = Some st -> Forall plain (tail st).
  Lemma plain_none (f : frame V) : fR f = [] -> nofg f -> plain f.
  Proof. destruct f; try done. by destruct v as [| | |]. Qed.
  Lemma fresh_tail s s' (st st' : stack) : fresh s s' st st' -> Forall plain (tail st') /\
    forall f k, st' = f :: k -> match f with FIm3 _ | FGm5 _ | FFg _ _ | FV (VHold _) => False | FHold r => st = [FV (VHold r); KEnd None] | _ => True end.
  Proof.
    intros [st1 ER HF _|n _ _|h r st1 _ Hst|r ->].
    - assert (Forall plain st1) as Hp.
      { apply Forall_forall. intros f Hf. rewrite Forall_forall in HF. apply plain_none; [|by apply HF].
        apply elem_of_nil_inv. intros y Hy. assert (y ∈ stk fR st1) as H by (apply stk_elem; eauto). rewrite ER in H. by apply elem_of_nil in H. }
      split; [destruct Hp; [constructor|done]|]. intros f k ->. inversion Hp; subst. by destruct f as [| | | | | | | | | | | | | | | | | | | | | | | | | | | | | | | | | | | | |[]| |].
    - split; [plains|]. by intros f k [= <- <-].
    - destruct Hst as [->|[->|[o ->]]]; (split; [plains|]; by intros f k [= <- <-]).
    - split; [plains|]. by intros f k [= <- <-].
  Qed.

  (** ** All invariants *)
  Record WI s (D : list nat) T L : Prop := {
    W_G : GI s D; W_C : CI sz s; W_D : DI sz s T L; W_M : MI s; W_P : GP s D; W_V : COV s D; W_F : FOK s; W_T : TI s
  }.
  Lemma WI_init n : WI (init_cstate n) [] [] [].
  Proof.
    split; [apply GI_init|apply CI_init|apply DI_init|apply MI_init|apply GP_init|apply COV_init|..];
      intros t st Ht; cbn in Ht; apply lookup_replicate in Ht as [-> _]; [by right|by constructor].
  Qed.
  Lemma WI_step s D T L e : WI s D T L -> cclean s e -> exists s' X T' L', cstep sz s e = Ok s' /\ WI s' (D ++ X) T' L'.
  Proof.
    intros [G C I M P Cv F Ti] Hcl. destruct (DI_cstep sz s D T L e G C I Hcl) as (s' & T' & L' & Hs & I').
    destruct (GI_cstep sz s D e s' G Hs) as [X G']. pose proof (cstep_eff _ _ _ _ _ G C Hs) as Ef.
    pose proof (MI_eff sz s s' D G C Ef M) as M'.
    exists s', X, T', L'. split; [done|]. split; [done| |done|done| | | |].
    - by eapply CI_cstep.
    - by eapply (GP_cstep sz s).
    - by eapply (COV_cstep sz s).
    - intros t st Ht. apply cstep_qstep in Hs as [Q|(t0 & st0 & d & g & st' & -> & Ht0 & Hs & ->)].
      + destruct (q_t _ _ Q) as [[Et _]|(t0 & st0 & st' & Ht0 & Et & _ & Hf)]; rewrite Et in Ht.
        * eapply (fok_stable s); [done..|]. by eapply F.
        * destruct (decide (t = t0)) as [->|]; [|rewrite list_lookup_insert_ne in Ht by done; eapply (fok_stable s); [done..|]; by eapply F].
          rewrite list_lookup_insert in Ht by by eapply lookup_lt_Some. injection Ht as <-. right.
          destruct Hf as [st1 ER HF _|n _ _|h r st1 _ Hst|r ->]; [done|plains| |plains].
          destruct Hst as [->|[->|[o ->]]]; plains.
      + cbn in Ht, Hcl. rewrite Ht0 in Hcl. destruct (decide (t = t0)) as [->|]; [|rewrite list_lookup_insert_ne in Ht by done; eapply (fok_stable s); [done..|]; by eapply F].
        rewrite list_lookup_insert in Ht by by eapply lookup_lt_Some. injection Ht as <-. eapply (fok_mstep s D); try done. by eapply F.
    - intros t st Ht. apply cstep_qstep in Hs as [Q|(t0 & st0 & d & g & st' & -> & Ht0 & Hs & ->)].
      + destruct (q_t _ _ Q) as [[Et _]|(t0 & st0 & st' & Ht0 & Et & _ & Hf)]; rewrite Et in Ht; [by eapply Ti|].
        destruct (decide (t = t0)) as [->|]; [|rewrite list_lookup_insert_ne in Ht by done; by eapply Ti].
        rewrite list_lookup_insert in Ht by by eapply lookup_lt_Some. injection Ht as <-. by eapply fresh_tail.
      + cbn in Ht, Hcl. rewrite Ht0 in Hcl. destruct (decide (t = t0)) as [->|]; [|rewrite list_lookup_insert_ne in Ht by done; by eapply Ti].
        rewrite list_lookup_insert in Ht by by eapply lookup_lt_Some. injection Ht as <-. destruct (G_run _ _ G t0 _ Ht0) as [b Hr].
        eapply mstep_head; [done..|]. by eapply Ti.
  Qed.
  (** ** The second halves of [into_mut] and [get_mut] *)
  Definition crit (im : bool) (st : stack) (x : nat) : Prop :=
    exists r, ar_data r = x /\
      if im then (exists k, st = FIm3 r :: k) \/ (exists n a k, st = FFg n a :: k /\ KImG r ∈ k) else exists k, st = FGm5 r :: k.
  Lemma crit_latch E b im (st : stack) x : run E b st -> crit im st x ->
    exists i, (i, false) ∈ stk fL st /\ i ∈ stk fG st /\ ge_D E !! i = Some x.
  Proof.
    intros Hr (r & <- & H). exists (ar_guard r).
    assert (forall f k, st = f :: k -> f = FIm3 r \/ f = FGm5 r ->
      (ar_guard r, false) ∈ stk fL st /\ ar_guard r ∈ stk fG st /\ ge_D E !! ar_guard r = Some (ar_data r)) as Hd.
    { intros f k -> Hf.
      inversion Hr as [| | | | | | | |? ? ? Hf0|? ? ? ? Hf0| ? ? ? Hf0| | | | |? ? Hf0|? ? Hf0| |? ? Hf0| |]; subst; destruct Hf; subst; try done; try (by destruct Hf0).
      - destruct Hf0 as [|Hf0]; [done|]. injection Hf0 as ->. split_and!; [left|left|done].
      - destruct Hf0 as [|Hf0]; [done|]. injection Hf0 as ->. split_and!; [left|left|done]. }
    destruct im; [destruct H as [[k ->]|(n & a & k & -> & Hk)]|destruct H as [k ->]].
    - eapply Hd; [done|by left].
    - clear Hd. inversion Hr as [| | | | | | | |? ? ? Hf0|? ? ? ? Hf0| ? ? ? Hf0| | | | |? ? Hf0|? ? Hf0| |? ? Hf0|? ? r' ? Ho Hg|]; subst; try done; try (by destruct Hf0).
      assert (r' = r) as -> .
      { clear -Hg Hk. induction Hg as [|]; [|apply elem_of_cons in Hk as [|]; [done|auto]].
        repeat (apply elem_of_cons in Hk as [Hk|Hk]; [by simplify_eq|]). by apply elem_of_nil in Hk. }
      split_and!; [| |done].
      + clear -Hg. rewrite stk_cons. cbn. induction Hg; [left|done].
      + clear -Hg. rewrite stk_cons. cbn. induction Hg; [left|done].
    - eapply Hd; [done|by right].
  Qed.
  Lemma crit_live s s' D T' L' t im (st : stack) x : GI s D -> FOK s -> DI sz s' T' L' -> cs_t s !! t = Some st -> cs_t s' !! t = Some st ->
    crit im st x -> dl s' x \/ ~ dl s x.
  Proof.
    intros G F I' Ht Ht' (r & <- & H). destruct im; [destruct H as [[k ->]|(n & a & k & -> & Hk)]|destruct H as [k ->]].
    - left. eapply stk_live; [done..|]. left.
    - right. destruct (F _ _ Ht) as [(n0 & a0 & k0 & p & [= <- <- <-] & (_ & Hn & _) & Hf)|H].
      + by eapply (fgc_down s D).
      + inversion H; subst; done.
    - left. eapply stk_live; [done..|]. left.
  Qed.
  Lemma crit_back E b im d g (st : stack) d' g' st' x : run E b st -> mstep sz d g st = Ok (d', g', st') -> clean d st -> Forall plain (tail st) -> crit im st' x ->
    crit im st x \/ (d' = d /\ g' = g /\ exists r, ar_data r = x /\ ar_guard r ∈ stk fG st' /\ ar_data r ∈ stk fR st' /\
      rc_count (gd_guards g) (ar_guard r) = 1 /\ rok (ge_D E) r).
  Proof.
    intros Hr Hs Hcl Hp (r & Ex & H). destruct (mstep_head _ _ _ _ _ _ _ _ Hr Hs Hcl Hp) as [_ Hh].
    destruct im; [destruct H as [[k ->]|(n & a & k & -> & Hk)]|destruct H as [k ->]]; destruct (Hh _ _ eq_refl) as [H|H]; try done; cbn in H.
    - right. destruct H as (k0 & -> & Hc & -> & ->). split_and!; [done..|]. exists r. split_and!; [done|left|left|done|]. by eapply run_rframe.
    - left. destruct H as [(r0 & k0 & -> & H)|(n0 & a0 & k0 & -> & H)]; exists r; (split; [done|]).
      + assert (r = r0) as <-; [|left; eauto]. destruct (H r Hk) as [->|Hk']; [done|]. exfalso.
        inversion Hr as [| | | | | | | |? ? ? Hf0|? ? ? ? Hf0| ? ? ? Hf0| | | | |? ? Hf0|? ? Hf0| |? ? Hf0| |]; subst; try done; try (by destruct Hf0).
        repeat (apply elem_of_cons in Hk' as [Hk'|Hk']; [by simplify_eq|]). by apply elem_of_nil in Hk'.
      + right. eauto 10.
    - right. destruct H as (k0 & -> & Hc & -> & ->). split_and!; [done..|]. exists r. split_and!; [done|left|left|done|]. by eapply run_rframe.
  Qed.
  Lemma iso_step im s D T L e s' X T' L' t (st' : stack) x : WI s D T L -> cclean s e -> cstep sz s e = Ok s' -> WI s' (D ++ X) T' L' ->
    (forall st, cs_t s !! t = Some st -> crit im st x -> iso s t x) ->
    cs_t s' !! t = Some st' -> crit im st' x -> noup s' x -> iso s' t x.
  Proof.
    intros W Hcl Hs W' HI Ht' Hc Hn. destruct W as [G C I M P Cv F Ti], W' as [G' C' I' M' P' Cv' F' Ti'].
    pose proof (cstep_eff _ _ _ _ _ G C Hs) as Ef.
    assert (st' <> []) as Hne. { intros ->. destruct Hc as (r & _ & H). destruct im; [destruct H as [[k [=]]|(n & a & k & [=] & _)]|by destruct H]. }
    assert (cs_t s !! t = Some st' -> iso s' t x) as Hsame.
    { intros Ht. destruct (G_run _ _ G t _ Ht) as [b Hr]. destruct (crit_latch _ _ _ _ _ Hr Hc) as (i & Hi & _ & Hx). cbn in Hx.
      eapply (iso_other s); try done; [by eapply (crit_live s)|by eapply HI]. }
    pose proof Hs as Hs0.
    apply cstep_qstep in Hs as [Q|(t0 & st0 & d & g & st1 & -> & Ht0 & Hs & ->)].
    - destruct (q_t _ _ Q) as [[Et _]|(t0 & st0 & st1 & Ht0 & Et & _ & Hf)]; rewrite Et in Ht'; [by apply Hsame|].
      destruct (decide (t = t0)) as [->|]; [|rewrite list_lookup_insert_ne in Ht' by done; by apply Hsame].
      rewrite list_lookup_insert in Ht' by by eapply lookup_lt_Some. injection Ht' as <-. exfalso.
      destruct (fresh_tail _ _ _ _ Hf) as [_ Hh]. destruct Hc as (r & _ & H).
      destruct im; [destruct H as [[k ->]|(n & a & k & -> & Hk)]|destruct H as [k ->]]; by apply (Hh _ _ eq_refl).
    - cbn in Ht', Hcl. destruct (decide (t = t0)) as [->|]; [|rewrite list_lookup_insert_ne in Ht' by done; by apply Hsame].
      rewrite list_lookup_insert in Ht' by by eapply lookup_lt_Some. injection Ht' as ->. rewrite Ht0 in Hcl.
      destruct (G_run _ _ G t0 _ Ht0) as [b Hr].
      destruct (crit_back _ _ _ _ _ _ _ _ _ _ Hr Hs Hcl (Ti _ _ Ht0) Hc) as [Hc0|(-> & -> & r & Ex & Hg & HR & Hcnt & Ho)].
      + eapply (iso_own s); try done; [|by eapply HI]. destruct (crit_latch _ _ _ _ _ Hr Hc0) as (i & _ & _ & Hx).
        rewrite <- (G_len _ _ G). by eapply (gi_dom _ _ _ _ _ (G_inv _ _ G)).
      + eapply (iso_start _ _ _ _ t0 st' (ar_guard r)); try done.
        * cbn. apply list_lookup_insert. by eapply lookup_lt_Some.
        * apply lookup_app_l_Some. rewrite <- Ex. exact Ho.
        * rewrite <- Ex. eapply (stk_live _ _ _ t0 st'); [done| |done]. cbn. apply list_lookup_insert. by eapply lookup_lt_Some.
  Qed.
End calm.
