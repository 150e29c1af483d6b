(** Calm schedules: nothing goes wrong in [into_mut], and what [get_mut] returned is exclusive. *)
From Verif Require Import Base BaseLemmas Api SliceItemsModel Spec DataModel RcModel DataInv DataSteps GuardInv ArcModel ArcInv ArcConc ConcInv ConcGuard ConcWorld ConcChild ConcData ConcSafe ConcSpec ConcTheory ConcConserve ConcShare ConcTree ConcCov ConcCalm.
Local Open Scope nat_scope.
#[local] Arguments slo {A} F hs : simpl never.
#[local] Arguments thr {V A} F ts : simpl never.

Section hold.
  Context {V : Type} (sz : N).
  Notation stack := (list (frame V)).
  Implicit Types (s : cstate V) (t : nat) (es : list (sched (V:=V))).
  Notation datas s := (dw_datas (cs_d s)).

  Lemma always_app (P : cstate V -> Prop) n es es' : always sz P n (es ++ es') -> always sz P n es.
  Proof. intros H es1 es2 s -> Hr. eapply (H es1 (es2 ++ es')); [|done]. by rewrite app_assoc. Qed.
  Lemma always_last (P : cstate V -> Prop) n es s : always sz P n es -> creach sz n es s -> P s.
  Proof. intros H Hr. eapply (H es []); [|done]. by rewrite app_nil_r. Qed.

  Lemma crit_conv s t (st : stack) x : cs_t s !! t = Some st -> crit true st x -> converting s t x.
  Proof.
    intros Ht (r & <- & [[k ->]|(n & a & k & -> & Hk)]); exists r; (split; [done|]); [left; eauto|right; eauto 10].
  Qed.
  Lemma calm_noup s t (st : stack) x : calm s -> cs_t s !! t = Some st -> crit true st x -> noup s x.
  Proof. intros H Ht Hc t' u Hu. eapply H; [by eapply crit_conv|done]. Qed.

  Definition IM s : Prop := forall t st x, cs_t s !! t = Some st -> crit true st x -> iso s t x.
  Lemma IM_clean s D T L e : WI sz s D T L -> IM s -> cclean s e.
  Proof.
    intros W H. destruct e as [|t| |]; try done. cbn. destruct (cs_t s !! t) as [st|] eqn:Ht; [|done].
    destruct (G_run _ _ (W_G _ _ _ _ _ W) t _ Ht) as [b Hr].
    destruct st as [|f k]; [done|]. destruct f as [| | | | | | | | | | | | | | | | | | | | | | | | | | | | | | | | |n a| | | | | |]; try done.
    assert (exists r, KImG r ∈ k) as [r Hk].
    { inversion Hr as [| | | | | | | |? ? ? Hf0|? ? ? ? Hf0| ? ? ? Hf0| | | | |? ? Hf0|? ? Hf0| |? ? Hf0|? ? r' ? Ho Hg|]; subst; try done; try (by destruct Hf0).
      exists r'. clear -Hg. induction Hg; [set_solver|set_solver]. }
    eapply (clean_own sz s D T L); [apply W..|done|done|]. apply (H t _ (ar_data r) Ht). exists r. split; [done|]. right. eauto 10.
  Qed.
  Theorem calm_inv n es : always sz calm n es -> exists s D T L, creach sz n es s /\ WI sz s D T L /\ IM s.
  Proof.
    induction es as [|e es IH] using rev_ind; intros Hc.
    - exists (init_cstate n), [], [], []. split; [done|]. split; [apply WI_init|]. intros t st x Ht Hx.
      cbn in Ht. apply lookup_replicate in Ht as [-> _]. destruct Hx as (r & _ & [[k [=]]|(m & a & k & [=] & _)]).
    - destruct IH as (s & D & T & L & Hr & W & H); [by eapply always_app|].
      pose proof (IM_clean s D T L e W H) as Hcl. destruct (WI_step sz s D T L e W Hcl) as (s' & X & T' & L' & Hs & W').
      assert (creach sz n (es ++ [e]) s') as Hr' by by eapply creach_snoc.
      exists s', (D ++ X), T', L'. split; [done|]. split; [done|]. intros t st x Ht Hx.
      eapply (iso_step sz true s); try done; [by intros; eapply H|]. eapply calm_noup; [|done|done]. by eapply always_last.
  Qed.
  Theorem calm_cleanly n es : always sz calm n es -> cleanly sz n es.
  Proof.
    intros Hc es1 e es2 s -> Hr. destruct (calm_inv n es1) as (s1 & D & T & L & Hr1 & W & H); [by eapply always_app|].
    unfold creach in *. rewrite Hr in Hr1. injection Hr1 as <-. by eapply IM_clean.
  Qed.

  (** ** Schedules without [upgrade] or without [into_mut] *)
  Definition nu (f : frame V) : Prop := match f with FUpgrade _ => False | _ => True end.
  Lemma mstep_nu d g (st : stack) d' g' st' : mstep sz d g st = Ok (d', g', st') -> Forall nu st -> Forall nu st'.
  Proof.
    intros H HF. destruct st as [|f k]; [done|]. pose proof (Forall_inv HF) as Hf. pose proof (Forall_inv_tail HF) as Hk. clear HF.
    destruct f; try done; cbn [mstep] in H.
    all: repeat (first
      [ match type of H with mbind _ _ = Ok _ => let x := fresh "x" in let Hx := fresh "Hx" in apply bind_inv in H as (x & Hx & H) end
      | match type of H with Ok _ = Ok _ => fail 1 | _ => idtac end; case_match; try done ]).
    all: subst; try (injection H as <- <- <-); try done.
    all: repeat match goal with H : Forall _ (_ :: _) |- _ => apply Forall_cons in H as [? ?] end.
    all: repeat (first [apply Forall_app; split | apply Forall_rel; done | apply Forall_relg; done | apply Forall_cons; split | done]).
  Qed.
  Definition NU s : Prop := forall t st, cs_t s !! t = Some st ->
    Forall nu st /\ (Exists upk st -> forall u w, bor (cs_h s) st <> Some (XWeak u w)).
  Lemma NU_new s t (st : stack) : Forall nu st -> Forall (fun f => ~ upk f) st -> Forall nu st /\ (Exists upk st -> forall u w, bor (cs_h s) st <> Some (XWeak u w)).
  Proof. intros H1 H2. split; [done|]. intros He. exfalso. rewrite Exists_exists in He. rewrite Forall_forall in H2. destruct He as (f & Hf & Hu). by eapply H2. Qed.
  Lemma cstart_nu s t o s' : (forall h, o <> CUpgrade h) -> cstart sz s t o = Ok s' -> cs_t s' = cs_t s \/
    exists st', cs_t s' = <[t := st']> (cs_t s) /\ Forall nu st' /\ (Exists upk st' -> forall u w, bor (cs_h s') st' <> Some (XWeak u w)).
  Proof.
    intros Ho Hs. unfold cstart in Hs. destruct (cs_t s !! t) as [[|f st]|] eqn:Ht; [|injection Hs as <-; by left..].
    destruct o; try (by destruct (Ho h)); repeat (first
      [ match type of Hs with mbind _ _ = Ok _ => let x := fresh "x" in let Hx := fresh "Hx" in apply bind_inv in Hs as (x & Hx & Hs) end
      | match type of Hs with Ok _ = Ok _ => fail 1 | _ => idtac end; case_match; try done ]); subst; injection Hs as <-; try (by left); right;
      eexists; (split; [reflexivity|]).
    all: try (by apply (NU_new _ 0); repeat constructor; intros []).
    all: split; [by repeat constructor|]; intros _ u w; cbn; try done.
    unfold bor; cbn. match goal with H : slot _ _ = Some _ |- _ => rename H into Hh end. unfold slot in Hh. destruct (cs_h s !! h) as [[]|] eqn:E; [|done..].
    rewrite list_lookup_insert by by eapply lookup_lt_Some. done.
  Qed.
  Lemma NU_cstep s D e s' : GI s D -> (forall t h, e <> SStart t (CUpgrade h)) -> cstep sz s e = Ok s' -> NU s -> NU s'.
  Proof.
    intros G He Hs H. pose proof Hs as Hs0.
    assert (forall t st, cs_t s !! t = Some st -> bor (cs_h s') st = bor (cs_h s) st -> Forall nu st /\ (Exists upk st -> forall u w, bor (cs_h s') st <> Some (XWeak u w))) as Hoth.
    { intros t st Ht E. rewrite E. by apply (H t). }
    apply cstep_qstep in Hs as [Q|(t & st & d & g & st' & -> & Ht & Hs & ->)].
    - assert (forall t st, cs_t s !! t = Some st -> bor (cs_h s') st = bor (cs_h s) st) as Hb.
      { intros t st Ht. eapply bor_keep; [done..|]. apply (q_h _ _ Q). }
      assert (cs_t s' = cs_t s \/ exists t st', cs_t s' = <[t := st']> (cs_t s) /\ is_Some (cs_t s !! t) /\ Forall nu st' /\ (Exists upk st' -> forall u w, bor (cs_h s') st' <> Some (XWeak u w))) as Hc.
      { destruct e as [t o|t|t i v|t]; cbn [cstep] in Hs0.
        - destruct (cstart_nu s t o s') as [?|(st' & H1 & H2)]; [intros h ->; by eapply He|done|by left|].
          destruct (cs_t s !! t) as [st|] eqn:Ht; [right; exists t, st'; by rewrite Ht|left].
          rewrite H1, list_insert_ge; [done|]. by apply lookup_ge_None.
        - destruct (cs_t s !! t) as [st|] eqn:Ht; [|unfold tstep in Hs0; rewrite Ht in Hs0; injection Hs0 as <-; by left].
          destruct (tstep_cases sz s t st Ht) as [(-> & Hc)|[(r & -> & Hc)|[(x & o & h & -> & Hc)|[(r & -> & Hc)|Hc]]]]; rewrite Hc in Hs0; clear Hc.
          + injection Hs0 as <-. by left.
          + injection Hs0 as <-. by left.
          + injection Hs0 as <-. right. exists t, []. split; [done|]. split; [by rewrite Ht|]. by apply (NU_new _ 0).
          + injection Hs0 as <-. right. exists t, [FHold r; KEnd None]. split; [done|]. split; [by rewrite Ht|]. apply (NU_new _ 0); repeat constructor; intros [].
          + apply bind_inv in Hs0 as ([[d g] st'] & Hm & [= <-]). right. exists t, st'. split; [done|]. split; [by rewrite Ht|].
            destruct (GI_mstep sz s D t st d g st' (cs_out s) (cs_log s ++ step_log st st') G Ht Hm) as (_ & _ & _ & EB). cbn [cs_h].
            assert (bor (cs_h s) st' = bor (cs_h s) st) as -> by (unfold bor; by rewrite EB). destruct (H t st Ht) as [H1 H2].
            split; [by eapply mstep_nu|]. intros (f & Hf & Hu)%Exists_exists. apply H2.
            destruct (mstep_frames sz _ _ _ _ _ _ Hm f Hf) as [Hf'|(_ & Hn & _)]; [apply Exists_exists; eauto|].
            destruct (Hn Hu) as [?|(o & k & ->)]; [done|]. by apply Forall_inv in H1.
        - left. unfold hold_write in Hs0. destruct (cs_t s !! t) as [st|] eqn:Ht; [|by injection Hs0 as <-].
          repeat (case_match; try (by injection Hs0 as <-)). subst. apply bind_inv in Hs0 as (n & _ & Hs0).
          destruct (_ <? _)%N; [|by injection Hs0 as <-]. apply bind_inv in Hs0 as ([d old] & Hd & [= <-]). done.
        - unfold hold_end in Hs0. destruct (cs_t s !! t) as [st|] eqn:Ht; [|left; by injection Hs0 as <-].
          repeat (case_match; try (by left; injection Hs0 as <-)). subst. injection Hs0 as <-. right. exists t, []. split; [done|]. split; [by rewrite Ht|].
          by apply (NU_new _ 0). }
      intros t st. destruct Hc as [->|(t0 & st' & -> & Hl & Hc)]; intros Ht; [by eapply Hoth, Hb|].
      destruct (decide (t = t0)) as [->|]; [|rewrite list_lookup_insert_ne in Ht by done; by eapply Hoth, Hb].
      rewrite list_lookup_insert in Ht by by apply lookup_lt_is_Some. by injection Ht as <-.
    - intros t1 st1 Ht1. cbn [cs_t cs_h] in *. destruct (decide (t1 = t)) as [->|]; [|rewrite list_lookup_insert_ne in Ht1 by done; by eapply Hoth].
      rewrite list_lookup_insert in Ht1 by by eapply lookup_lt_Some. injection Ht1 as <-.
      destruct (GI_mstep sz s D t st d g st' (cs_out s) (cs_log s ++ step_log st st') G Ht Hs) as (_ & _ & _ & EB). cbn [cs_h].
      assert (bor (cs_h s) st' = bor (cs_h s) st) as -> by (unfold bor; by rewrite EB). destruct (H t st Ht) as [H1 H2].
      split; [by eapply mstep_nu|]. intros (f & Hf & Hu)%Exists_exists. apply H2.
      destruct (mstep_frames sz _ _ _ _ _ _ Hs f Hf) as [Hf'|(_ & Hn & _)]; [apply Exists_exists; eauto|].
      destruct (Hn Hu) as [?|(o & k & ->)]; [done|]. by apply Forall_inv in H1.
  Qed.
  Lemma NU_reach n es s : no_upgrade es -> creach sz n es s -> NU s.
  Proof.
    revert s. induction es as [|e es IH] using rev_ind; intros s Hn Hr.
    - injection Hr as <-. intros t st Ht. cbn in Ht. apply lookup_replicate in Ht as [-> _]. by apply (NU_new _ 0).
    - apply Forall_app in Hn as [Hn He]. apply Forall_inv in He. apply crun_app in Hr as (s1 & Hr & Hs). cbn in Hs.
      apply bind_inv in Hs as (s2 & Hs & [= <-]). destruct (GI_reach _ _ _ _ Hr) as [D G]. eapply (NU_cstep s1 D e); try done. by apply IH.
  Qed.
  Lemma NU_upgrading s D t u : GI s D -> NU s -> ~ upgrading s t u.
  Proof.
    intros G H (st & h & w & f & Ht & Hf & Hu & Hl & Hh). destruct (H t st Ht) as [_ Hn]. destruct (G_run _ _ G t st Ht) as [b Hr].
    pose proof (run_bor _ _ _ Hr) as Eb. destruct (run_borrow _ _ _ Hr) as (h' & Ho & EB).
    assert (h ∈ stk fB st) as Hin. { apply stk_elem. exists (KEnd (Some h)). split; [rewrite last_lookup in Hl; by eapply elem_of_list_lookup_2|left]. }
    rewrite EB in Hin. destruct h' as [h'|]; [|by apply elem_of_nil in Hin]. apply elem_of_list_singleton in Hin as ->.
    destruct Ho as (x & k & Ho & Eb'). cbn in Ho, Eb. unfold cget, slot in Hh. rewrite Ho in Hh. cbn in Hh. injection Hh as ->.
    eapply Hn; [|by rewrite <- Eb, Eb']. apply Exists_exists. eauto.
  Qed.
  Theorem no_upgrade_calm n es : no_upgrade es -> always sz calm n es /\ always sz calm_get n es.
  Proof.
    intros H. split; intros es1 es2 s -> Hr; apply Forall_app in H as [H _]; pose proof (NU_reach _ _ _ H Hr) as HN; destruct (GI_reach _ _ _ _ Hr) as [D G].
    - intros t x t' u _ Hu. by apply (NU_upgrading _ _ _ _ G HN) in Hu.
    - intros t x t' u Hu. by apply (NU_upgrading _ _ _ _ G HN) in Hu.
  Qed.
  Theorem no_into_mut_calm n es : no_into_mut es -> always sz calm n es.
  Proof.
    intros H es1 es2 s -> Hr t x t' u Hc. apply Forall_app in H as [H _]. pose proof (noim_run _ _ _ _ H Hr) as Hf. rewrite Forall_lookup in Hf.
    exfalso. destruct Hc as (r & _ & [[k Ht]|(m & a & k & Ht & _)]); specialize (Hf _ _ Ht); by apply Forall_inv in Hf.
  Qed.

  (** ** The use of what [get_mut] returned *)
  Definition hold (st : stack) (x : nat) : Prop := exists r k, ar_data r = x /\ (st = FV (VHold r) :: k \/ st = FHold r :: k).
  Definition alone s t (x : nat) : Prop :=
    (forall y, y ∈ rR s t -> ~ ance (cs_g s) x y) /\ (forall p, data_parent (cs_g s) x = Some p -> ~ dl s p).
  Lemma hold_holding s t (st : stack) x : cs_t s !! t = Some st -> hold st x -> holding s t x.
  Proof. intros Ht (r & k & <- & [-> | ->]); exists r, k; (split; [done|]); [by left|by right]. Qed.
  Lemma hold_ref (st : stack) x : hold st x -> x ∈ stk fR st.
  Proof. intros (r & k & <- & [-> | ->]); left. Qed.

  Lemma alone_step s D T L e s' X T' L' t (st : stack) x : WI sz s D T L -> cclean s e -> cstep sz s e = Ok s' -> WI sz s' (D ++ X) T' L' ->
    cs_t s !! t = Some st -> cs_t s' !! t <> Some [] -> dl s x ->
    (forall t' u, upgrading s' t' u -> u <> x /\ ~ below (cs_g s') x u) -> alone s t x -> alone s' t x.
  Proof.
    intros W Hcl Hs W' Ht Hne Hd Hup [H1 H2]. destruct W as [G C I M P Cv F Ti], W' as [G' C' I' M' P' Cv' F' Ti'].
    pose proof (cstep_eff _ _ _ _ _ G C Hs) as Ef. pose proof (eff_mext _ _ Ef) as [Em _].
    assert (forall p, data_parent (cs_g s') x = Some p -> data_parent (cs_g s) x = Some p) as Hpar.
    { intros p. rewrite Em; [done|]. rewrite (G_len _ _ G). by eapply dl_lt. }
    split.
    - intros y Hy Ha. pose proof (came_from sz s s' D X T L T' L' e t st y G C I M Cv Hcl Hs G' M' I' Ht Hne Hy) as Hc.
      assert (forall z, z ∈ rR s t -> ~ ance (cs_g s') x z) as H1'.
      { intros z Hz [->|Hb]; [apply (H1 z); [done|by left]|]. apply (H1 z); [done|]. right. eapply (below_back sz s); eauto. }
      assert (forall z, z ∈ rR s t -> data_parent (cs_g s') y = Some z -> False) as Hkid.
      { intros z Hz Hp. destruct Ha as [->|Hb].
        - apply (H2 z); [by apply Hpar|]. eapply (rR_live sz s); eauto.
        - apply (H1' z Hz). by eapply below_parent. }
      destruct Hc as [Ho|Hy0 Hr|p Hp Hnd Hpy|t0 st0 f r Hn0 Ht0 Hr Hf _ _ Hpy|z Hz Hp|t0 Hn0 Hu].
      + by eapply H1'.
      + destruct Ha as [->|Hb]; [|by eapply below_root]. apply dl_lt in Hd. lia.
      + by eapply Hkid.
      + by eapply Hkid.
      + apply (H1' z Hz). right. by eapply ance_child.
      + destruct (Hup _ _ Hu) as [Hne' Hnb]. destruct Ha as [->|Hb]; done.
    - intros p Hp. eapply (eff_dead s); try done; [|by apply H2, Hpar]. pose proof (parent_lt _ _ _ _ G (Hpar _ Hp)). apply dl_lt in Hd. lia.
  Qed.
  Lemma alone_start s D T L t (st : stack) x : WI sz s D T L -> cs_t s !! t = Some st -> x ∈ stk fR st -> rc_count (datas s) x = 1 ->
    (forall y, y ∈ rR s t -> ~ below (cs_g s) x y) -> alone s t x.
  Proof.
    intros W Ht Hx Hc Hb. pose proof (rest_dinv sz s T L t st (W_D _ _ _ _ _ W) Ht) as DV.
    pose proof (di_cnt _ _ _ _ _ _ DV x) as E. rewrite Hc, cnt_app in E. apply cnt_pos in Hx. split.
    - intros y Hy [->|Ha]; [|by eapply Hb]. apply cnt_pos in Hy. lia.
    - intros p Hp [n Hn]. pose proof (m_par _ (W_M _ _ _ _ _ W) _ _ _ Hp Hn) as Hk. apply cnt_pos in Hk.
      destruct (rc_get_Some _ _ _ Hn) as [j Hj]. pose proof (hsum_ge (fun n => cnt x (kids n)) _ _ _ _ Hj). lia.
  Qed.
  Definition GM s : Prop := forall t st x, cs_t s !! t = Some st -> crit false st x -> iso s t x.
  Definition HM s : Prop := forall t st x, cs_t s !! t = Some st -> hold st x -> alone s t x.
  Lemma GM_step s D T L e s' X T' L' : WI sz s D T L -> cclean s e -> cstep sz s e = Ok s' -> WI sz s' (D ++ X) T' L' ->
    calm_get s' -> GM s -> GM s'.
  Proof.
    intros W Hcl Hs W' Hg H t st x Ht Hc. eapply (iso_step sz false s); try done; [by intros; eapply H|].
    intros t' u Hu. apply (proj1 (Hg t x t' u Hu)). destruct Hc as (r & <- & k & ->). exists r, k. done.
  Qed.
  Lemma HM_step s D T L e s' X T' L' : WI sz s D T L -> cclean s e -> cstep sz s e = Ok s' -> WI sz s' (D ++ X) T' L' ->
    calm_get s' -> GM s -> HM s -> HM s'.
  Proof.
    intros W Hcl Hs W' Hg HG HH t st' x Ht' Hh.
    assert (exists st, cs_t s !! t = Some st /\ alone s t x /\ dl s x) as (st & Ht & Ha & Hd).
    { assert (forall st, cs_t s !! t = Some st -> hold st x -> exists st, cs_t s !! t = Some st /\ alone s t x /\ dl s x) as Hsame.
      { intros st Ht Hh'. exists st. split; [done|]. split; [by eapply HH|]. eapply (stk_live sz s); [by apply W|done|by apply hold_ref]. }
      apply cstep_qstep in Hs as [Q|(t0 & st0 & d & g & st1 & -> & Ht0 & Hs & ->)].
      - destruct (q_t _ _ Q) as [[Et _]|(t0 & st0 & st1 & Ht0 & Et & _ & Hf)]; rewrite Et in Ht'; [by eapply Hsame|].
        destruct (decide (t = t0)) as [->|]; [|rewrite list_lookup_insert_ne in Ht' by done; by eapply Hsame].
        rewrite list_lookup_insert in Ht' by by eapply lookup_lt_Some. injection Ht' as <-.
        destruct (fresh_tail _ _ _ _ Hf) as [_ Hhd]. destruct Hh as (r & k & <- & [-> | ->]); [by destruct (Hhd _ _ eq_refl)|].
        specialize (Hhd _ _ eq_refl). cbn in Hhd. subst st0. eapply Hsame; [done|]. exists r, [KEnd None]. split; [done|by left].
      - cbn in Ht', Hcl. destruct (decide (t = t0)) as [->|]; [|rewrite list_lookup_insert_ne in Ht' by done; by eapply Hsame].
        rewrite list_lookup_insert in Ht' by by eapply lookup_lt_Some. injection Ht' as ->. rewrite Ht0 in Hcl.
        destruct (G_run _ _ (W_G _ _ _ _ _ W) t0 _ Ht0) as [b Hr].
        destruct (mstep_head sz _ _ _ _ _ _ _ _ Hr Hs Hcl (W_T _ _ _ _ _ W _ _ Ht0)) as [_ Hhd].
        destruct Hh as (r & k & <- & [-> | ->]); destruct (Hhd _ _ eq_refl) as [Hp|Hp]; try done.
        destruct Hp as [(k0 & -> & Hc & -> & ->)|(y & down & k0 & ->)].
        + exists (FGm5 r :: k0). split; [done|]. split.
          * eapply alone_start; [done|done|left|done|]. eapply (HG t0 _ _ Ht0). exists r. eauto.
          * eapply (stk_live sz s); [by apply W|done|left].
        + eapply Hsame; [done|]. exists r, (FOpen y down :: k0). split; [done|by left]. }
    eapply (alone_step s); try done.
    - rewrite Ht'. intros [= ->]. destruct Hh as (r & k & _ & [? | ?]); done.
    - intros t' u Hu. apply (proj2 (Hg t x t' u Hu)). by eapply hold_holding.
  Qed.
  Theorem hold_inv n es s : always sz calm n es -> always sz calm_get n es -> creach sz n es s ->
    exists D T L, WI sz s D T L /\ GM s /\ HM s.
  Proof.
    revert s. induction es as [|e es IH] using rev_ind; intros s Hc Hg Hr.
    - injection Hr as <-. exists [], [], []. split; [apply WI_init|].
      split; intros t st x Ht Hx; cbn in Ht; apply lookup_replicate in Ht as [-> _].
      + destruct Hx as (r & _ & k & [=]).
      + destruct Hx as (r & k & _ & [[=]|[=]]).
    - pose proof Hr as Hr0. apply crun_app in Hr as (s1 & Hr & Hs). cbn in Hs. apply bind_inv in Hs as (s2 & Hs & [= <-]).
      destruct (IH s1) as (D & T & L & W & HG & HH); [by eapply always_app|by eapply always_app|done|].
      assert (cclean s1 e) as Hcl. { eapply (calm_cleanly _ _ Hc es e []); done. }
      destruct (WI_step sz s1 D T L e W Hcl) as (s' & X & T' & L' & Hs' & W'). rewrite Hs in Hs'. injection Hs' as <-.
      assert (calm_get s2) as Hgs by by eapply always_last.
      exists (D ++ X), T', L'. split; [done|]. split; [by eapply (GM_step s1)|by eapply (HM_step s1)].
  Qed.
End hold.
