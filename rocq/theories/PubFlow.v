(** Every event does what PubInv.v asks of it. *)
From Verif Require Import Base BaseLemmas Api SliceItemsModel BinPartsModel DataModel RcModel Spec DataInv DataSteps GuardInv ArcModel ArcInv ArcConc ConcInv ConcGuard ConcWorld ConcData ConcSafe ConcSpec OrderModel OrderInv OrderSteps PubModel PubCount PubEvents PubInv PubSteps.
Local Open Scope nat_scope.
#[local] Arguments slo {A} F hs : simpl never.
#[local] Arguments thr {V A} F ts : simpl never.

Section flow.
  Context {V : Type} (sz : N) (acq : bool).
  Notation stack := (list (frame V)).
  Implicit Types (s : cstate V) (e : sched (V:=V)) (w : holder).
  Notation datas s := (dw_datas (cs_d s)).
  Notation guards s := (gd_guards (cs_g s)).
  Notation metas s := (gd_metas (cs_g s)).
  Notation boxes s := (gd_boxes (cs_g s)).
  Notation hasP := (hold fP hM).
  Notation hasQ := (hold fQ hQ).
  Notation hasX := (hold fX no_box).
  Notation refs := (hold fR hR).
  Notation grefs := (hold fG hG).
  Notation evt := (evt sz acq).
  Notation eff := (eff acq).

  (** ** The counts of datas *)
  Definition NI s : Prop := ncnt (datas s) (tot hR fR s) /\ Forall (Forall casok) (cs_t s).
  Lemma NI_init n : NI (init_cstate n).
  Proof.
    split.
    - assert (thr fR (replicate n ([] : stack)) = []) as E by (induction n; [done|exact IHn]).
      unfold tot, init_cstate. cbn [cs_h cs_t cs_d]. rewrite E. intros x. done.
    - cbn. apply Forall_replicate. constructor.
  Qed.
  Lemma slo_same {A} (H : xhandle -> list A) hs hs' : (forall x, ~ shared x -> H x = []) ->
    (forall h x k, shared x -> hs' !! h = Some (Some (x, k)) <-> hs !! h = Some (Some (x, k))) -> slo H hs' = slo H hs.
  Proof.
    intros HH. assert (forall x, shared x \/ ~ shared x) as Hd by (intros []; cbn; tauto). revert hs'.
    assert (forall hs', (forall h x k, shared x -> hs' !! h <> Some (Some (x, k))) -> slo H hs' = []) as Hnil.
    { induction hs' as [|[[x k]|] hs' IH]; intros Hs; [done| |].
      - change (slo H (Some (x, k) :: hs')) with (H x ++ slo H hs'). destruct (Hd x) as [Hx|Hx]; [by destruct (Hs 0 x k Hx)|].
        rewrite (HH _ Hx). apply IH. intros h y j Hy. apply (Hs (S h) y j Hy).
      - change (slo H (None :: hs')) with (slo H hs'). apply IH. intros h y j Hy. apply (Hs (S h) y j Hy). }
    induction hs as [|o hs IH]; intros hs' Hs.
    { change (slo H []) with (@nil A). apply Hnil. intros h x k Hx E. by apply (Hs h x k Hx) in E. }
    destruct hs' as [|o' hs'].
    { symmetry. change (slo H []) with (@nil A). apply Hnil. intros h x k Hx E. by apply (Hs h x k Hx) in E. }
    change (match o' with Some (x, _) => H x | None => [] end ++ slo H hs' = match o with Some (x, _) => H x | None => [] end ++ slo H hs).
    f_equal; [|apply IH; intros h; apply (Hs (S h))].
    destruct o' as [[x' k']|], o as [[x k]|].
    - destruct (Hd x') as [Hx|Hx].
      + destruct (Hs 0 x' k' Hx) as [E _]. specialize (E eq_refl). by injection E as -> ->.
      + destruct (Hd x) as [Hx'|Hx']; [|by rewrite (HH _ Hx), (HH _ Hx')]. destruct (Hs 0 x k Hx') as [_ E]. specialize (E eq_refl). by injection E as -> ->.
    - destruct (Hd x') as [Hx|Hx]; [|by rewrite (HH _ Hx)]. destruct (Hs 0 x' k' Hx) as [E _]. by specialize (E eq_refl).
    - destruct (Hd x) as [Hx|Hx]; [|by rewrite (HH _ Hx)]. destruct (Hs 0 x k Hx) as [_ E]. by specialize (E eq_refl).
    - done.
  Qed.
  Lemma slo_end {A} (H : xhandle -> list A) hs h : slo H (end_borrow hs h) = slo H hs.
  Proof. unfold end_borrow. destruct h as [h|]; [|done]. destruct (hs !! h) as [[[x k]|]|] eqn:E; try done. by eapply slo_borrow. Qed.
  Lemma hR_shared x : ~ shared x -> hR x = []. Proof. by destruct x. Qed.
  Lemma NI_evt s e s' : NI s -> evt s e s' -> NI s'.
  Proof.
    intros [N C] E. assert (forall t st st', cs_t s !! t = Some st -> cs_t s' = <[t := st']> (cs_t s) -> (Forall casok st -> Forall casok st') -> Forall (Forall casok) (cs_t s')) as HC.
    { intros t st st' Ht -> Hc. apply Forall_insert; [done|]. apply Hc. by eapply Forall_lookup_1. }
    assert (forall t st st', cs_t s !! t = Some st -> cs_t s' = <[t := st']> (cs_t s) ->
      slo hR (cs_h s') ++ stk fR st' ≡ₚ slo hR (cs_h s) ++ stk fR st -> tot hR fR s' ≡ₚ tot hR fR s) as HT.
    { intros t st st' Ht Et Hp. unfold tot. rewrite Et, (thr_upd _ _ _ _ st' Ht), (thr_perm _ _ _ _ Ht), !app_assoc. by rewrite Hp. }
    destruct E as [Et Ed Eg Hv _ _|h r k n Et Ed Eg Eh _ _ _ _ _ _|h x k st' Ht Et Ed Eg Eh Eh' _ _ _ ER _ _ _ Hc _ _|h x st' Ht Et Ed Eg Eh Eh' _ _ _ _ ER _ _ _ Hc _ _
      |n nd Ht Et -> Ed Hk Eg Hv _ _|st d g st' Ht _ Hm Et Ed Eg Eh _ _|st h x Ht Et Ed Eg Eh ER _ _ _ _ _ _ _|r Ht Et Ed Eg Eh _ _].
    - split; [|by rewrite Et]. rewrite Ed. unfold tot. by rewrite Et, (slo_same hR _ _ hR_shared Hv).
    - split; [|by rewrite Et]. rewrite Ed. unfold tot. by rewrite Et, Eh.
    - split; [|by eapply HC]. rewrite Ed. eapply ncnt_perm; [symmetry; eapply HT; try done|done]. by rewrite Eh', ER, (slo_borrow _ _ _ _ _ _ Eh).
    - split; [|by eapply HC]. rewrite Ed. eapply ncnt_perm; [symmetry; eapply HT; try done|done].
      rewrite Eh', ER, (slo_upd _ _ _ _ _ Eh), (slo_perm _ _ _ _ Eh). cbn. rewrite app_nil_r. apply Permutation_app_comm.
    - split; [|eapply HC; [done..|by repeat constructor]]. rewrite Ed. eapply ncnt_perm; [|apply ncnt_new; [done|lia|exact N]].
      unfold tot. rewrite Et, (thr_upd _ _ _ _ _ Ht), (thr_perm _ _ _ _ Ht), (slo_same hR _ _ hR_shared Hv). cbn. apply Permutation_middle.
    - split; [|eapply HC; [done..|by apply (mstep_casok sz _ _ _ _ _ _ Hm)]]. rewrite Ed.
      assert (tot hR fR s' ≡ₚ stk fR st' ++ slo hR (cs_h s) ++ thr fR (delete (actor e) (cs_t s))) as E1.
      { unfold tot. rewrite Et, (thr_upd _ _ _ _ _ Ht), Eh, !app_assoc. by rewrite (Permutation_app_comm (slo _ _)). }
      eapply ncnt_perm; [symmetry; exact E1|]. eapply (mstep_ncnt sz); [exact Hm|by eapply Forall_lookup_1|]. eapply ncnt_perm; [|exact N].
      unfold tot. rewrite (thr_perm _ _ _ _ Ht), !app_assoc. by rewrite (Permutation_app_comm (slo _ _)).
    - split; [|eapply HC; [done..|by constructor]]. rewrite Ed. eapply ncnt_perm; [symmetry; eapply HT; try done|done].
      rewrite Eh, slo_app, slo_end, slo_one, ER. cbn. by rewrite app_nil_r.
    - split; [|eapply HC; [done..|by repeat constructor]]. rewrite Ed. eapply ncnt_perm; [symmetry; eapply HT; try done|done]. by rewrite Eh.
  Qed.

  (** ** Only one reference *)
  Lemma ref_alive s D w o : GI s D -> NI s -> refd s w o -> alive s o.
  Proof.
    intros G [N _]. destruct o as [x|y|b]; cbn; intros Hr; [| |done].
    - apply hold_tot in Hr. apply cnt_pos in Hr. specialize (N x). destruct (rc_count_pos (datas s) x) as (k & n & Hl & _); [lia|].
      rewrite (rc_get_live _ _ _ _ Hl). eauto.
    - apply hold_tot in Hr. destruct (ginv_ref _ _ _ _ _ (G_inv _ _ G) _ Hr) as (k & n & x & Hl & _). rewrite (rc_get_live _ _ _ _ Hl). eauto.
  Qed.
  Lemma pend_ref s t o : pendo s t o -> exists h, refd s (HV h) o.
  Proof. destruct o as [x|y|b]; cbn; [..|done]; intros (st & h & z & k & _ & _ & Hh & Hx); exists h, z, k; done. Qed.
  Lemma solo_state s D : GI s D -> NI s -> solo s.
  Proof.
    intros G [N _] t o Hr Hc. assert (forall w, refd s w o -> w = HT t) as Hw.
    { intros w Hr'. destruct (decide (w = HT t)) as [|Hne]; [done|]. destruct o as [x|y|b]; [| |done]; cbn [refd count] in *.
      - destruct (hold_two _ _ _ _ _ _ _ Hr' Hr Hne) as [l Hp]. specialize (N x). rewrite (cnt_perm _ _ _ Hp), !cnt_cons, decide_True in N by done. lia.
      - destruct (hold_two _ _ _ _ _ _ _ Hr' Hr Hne) as [l Hp]. pose proof (gi_cnt _ _ _ _ _ (G_inv _ _ G) y) as E.
        rewrite (cnt_perm _ _ _ Hp), !cnt_cons, decide_True in E by done. lia. }
    split; [done|]. split.
    - intros t' Hp. destruct (pend_ref _ _ _ Hp) as [h Hh]. by apply Hw in Hh.
    - intros z (n & y & Hz & Hy & ->). cbn [refd count] in *. pose proof (gi_cnt _ _ _ _ _ (G_inv _ _ G) y) as E. apply hold_tot in Hr. apply cnt_pos in Hr.
      apply rc_get_Some in Hz as [k Hz]. pose proof (hsum_ge (fun n => cnt y (a_pars n)) _ _ _ _ Hz) as E'. cbn in E'.
      assert (a_pars n = [y]) as Ea by (unfold a_pars; by rewrite Hy). rewrite Ea, cnt_cons, decide_True in E' by done. lia.
  Qed.

  (** ** Calls that begin or end *)
  Lemma hold_self {A} (F : frame V -> list A) H s t st x : cs_t s !! t = Some st -> hold F H s (HT t) x <-> x ∈ stk F st.
  Proof. intros Ht. cbn. rewrite Ht. split; [intros (? & [= <-] & ?)|]; eauto. Qed.
  Lemma hold_new {A} (F : frame V -> list A) H s s' t st st' x : cs_t s !! t = Some st -> cs_t s' = <[t := st']> (cs_t s) ->
    hold F H s' (HT t) x <-> x ∈ stk F st'.
  Proof. intros Ht Et. apply hold_self. rewrite Et, list_lookup_insert; [done|by eapply lookup_lt_Some]. Qed.
  Lemma hold_other {A} (F : frame V -> list A) H s s' t st' t' x : cs_t s' = <[t := st']> (cs_t s) -> t' <> t ->
    hold F H s' (HT t') x <-> hold F H s (HT t') x.
  Proof. intros Et Hn. cbn. by rewrite Et, list_lookup_insert_ne. Qed.
  Lemma pend_other s s' t st' t' H x : cs_t s' = <[t := st']> (cs_t s) -> t' <> t ->
    (forall h y k, h ∈ thr fB (cs_t s) -> cs_h s !! h = Some (Some (y, k)) -> exists k', cs_h s' !! h = Some (Some (y, k'))) ->
    pend H s t' x -> pend H s' t' x.
  Proof.
    intros Et Hn Hh (st & h & y & k & Ht & Hb & Hy & Hx). destruct (Hh h y k) as [k' Hk]; [by apply thr_elem; eauto|done|].
    exists st, h, y, k'. rewrite Et, list_lookup_insert_ne by done. done.
  Qed.
  Section still.
    Context s e s'.
    Notation t := (actor e).
    Definition comes {A} (F : frame V -> list A) H : Prop := forall w' x, hold F H s' w' x -> exists w, src s e s' w w' /\ hold F H s w x.
    Definition gives {A} (F : frame V -> list A) H : Prop := forall w x, hold F H s w x -> exists w', rsrc s e s' w w' /\ hold F H s' w' x.
    Definition stays F H : Prop := forall t0 x, pend H s t0 x -> pend H s' t0 x \/ exists w', rsrc s e s' (HT t0) w' /\ hold F H s' w' x.
    Lemma eff_still : datas s' = datas s -> cs_g s' = cs_g s -> comes fP hM -> comes fQ hQ -> (forall w b, hasX s' w b -> hasX s w b) ->
      gives fR hR -> gives fG hG -> stays fR hR -> stays fG hG ->
      (forall o h, (o, h) ∈ touches s e s' -> h = Use /\ ment s e s' o /\ alive s o /\ exists h, (h ∈ var_out s e s' \/ h ∈ bor_out s e s') /\ refd s' (HV h) o) -> eff s e s'.
    Proof.
      intros Ed Eg HP HQ HX HR HG HBR HBG Ht. split; rewrite ?Ed, ?Eg; intros; try (by left; eauto).
      - left. unfold gpar in *. by rewrite Eg in H.
      - by eapply Ht.
      - by destruct (Ht _ _ H) as [? _].
      - apply elem_of_list_lookup_2 in H. by destruct (Ht _ _ H) as [? _].
      - destruct o; cbn in *; by rewrite ?Ed, ?Eg.
      - destruct o; cbn in *; by rewrite ?Ed, ?Eg.
      - destruct (Ht _ _ H) as (_ & _ & Ha & Hh). split; [done|]. right; right; right; left. done.
      - by destruct (Ht _ _ H) as [? _].
      - left. destruct o; [apply HR in H|apply HG in H|done]; done.
      - destruct o; [by apply HBR|by apply HBG|done].
      - left. unfold gpar in *. by rewrite Eg.
    Qed.
    Lemma src_refl w : src s e s' w w. Proof. by left. Qed.
    Lemma rsrc_refl w : rsrc s e s' w w. Proof. by left. Qed.
    (** Nothing changes in threads *)
    Lemma comes_vars {A} (F : frame V -> list A) H : (forall x, ~ shared x -> H x = []) -> cs_t s' = cs_t s -> same_vars s s' -> comes F H.
    Proof.
      intros HH Et Hv [t0|h] x; cbn.
      - rewrite Et. intros Hx. exists (HT t0). split; [apply src_refl|done].
      - intros (y & k & Hy & Hx). exists (HV h). split; [apply src_refl|]. exists y, k. split; [|done].
        apply (Hv h y k); [|done]. assert (shared y \/ ~ shared y) as [|Hn] by (destruct y; cbn; tauto); [done|]. rewrite (HH _ Hn) in Hx. by apply elem_of_nil in Hx.
    Qed.
    Lemma gives_vars {A} (F : frame V -> list A) H : (forall x, ~ shared x -> H x = []) -> cs_t s' = cs_t s -> same_vars s s' -> gives F H.
    Proof.
      intros HH Et Hv [t0|h] x; cbn.
      - rewrite <- Et. intros Hx. exists (HT t0). split; [apply rsrc_refl|done].
      - intros (y & k & Hy & Hx). exists (HV h). split; [apply rsrc_refl|]. exists y, k. split; [|done].
        apply (Hv h y k); [|done]. assert (shared y \/ ~ shared y) as [|Hn] by (destruct y; cbn; tauto); [done|]. rewrite (HH _ Hn) in Hx. by apply elem_of_nil in Hx.
    Qed.
    Lemma stays_vars F H : (forall x, ~ shared x -> H x = []) -> cs_t s' = cs_t s -> same_vars s s' -> stays F H.
    Proof.
      intros HH Et Hv t0 x (st & h & y & k & Ht & Hb & Hy & Hx). left. exists st, h, y, k. rewrite Et. split_and!; try done.
      apply (Hv h y k); [|done]. assert (shared y \/ ~ shared y) as [|Hn] by (destruct y; cbn; tauto); [done|]. rewrite (HH _ Hn) in Hx. by apply elem_of_nil in Hx.
    Qed.
    Lemma sh_P x : ~ shared x -> hM x = []. Proof. by destruct x. Qed.
    Lemma sh_Q x : ~ shared x -> hQ x = []. Proof. by destruct x. Qed.
    Lemma sh_G x : ~ shared x -> hG x = []. Proof. by destruct x. Qed.
    Lemma eff_vars : cs_t s' = cs_t s -> datas s' = datas s -> cs_g s' = cs_g s -> same_vars s s' ->
      (forall o h, (o, h) ∈ touches s e s' -> h = Use /\ ment s e s' o /\ alive s o /\ exists h, (h ∈ var_out s e s' \/ h ∈ bor_out s e s') /\ refd s' (HV h) o) -> eff s e s'.
    Proof.
      intros Et Ed Eg Hv Ht. apply eff_still; try done.
      - apply comes_vars; [apply sh_P|done..].
      - apply comes_vars; [apply sh_Q|done..].
      - intros [t0|h] b; cbn; [by rewrite Et|]. by intros (? & ? & _ & ?%elem_of_nil).
      - apply gives_vars; [apply hR_shared|done..].
      - apply gives_vars; [apply sh_G|done..].
      - apply stays_vars; [apply hR_shared|done..].
      - apply stays_vars; [apply sh_G|done..].
    Qed.
    (** A call begins. *)
    Lemma eff_borrow h x k st' : cs_t s !! t = Some [] -> cs_t s' = <[t := st']> (cs_t s) -> datas s' = datas s -> cs_g s' = cs_g s ->
      cs_h s !! h = Some (Some (x, k)) -> cs_h s' = <[h := Some (x, S k)]> (cs_h s) -> touches s e s' = [] -> h ∈ vars_in s e s' ->
      stk fX st' = [] -> (forall y, y ∈ stk fP st' -> y ∈ hM x) -> (forall y, y ∈ stk fQ st' -> y ∈ hQ x) -> eff s e s'.
    Proof.
      intros Ht Et Ed Eg Eh Eh' Eo Hin EX HP HQ.
      assert (forall h' y j, cs_h s' !! h' = Some (Some (y, j)) -> exists j', cs_h s !! h' = Some (Some (y, j'))) as Hback.
      { intros h' y j Hy. rewrite Eh' in Hy. destruct (decide (h' = h)) as [->|N]; [|rewrite list_lookup_insert_ne in Hy by done; eauto].
        rewrite list_lookup_insert in Hy by (by eapply lookup_lt_Some). injection Hy as <- <-. eauto. }
      assert (forall h' y j, cs_h s !! h' = Some (Some (y, j)) -> exists j', cs_h s' !! h' = Some (Some (y, j'))) as Hforth.
      { intros h' y j Hy. rewrite Eh'. destruct (decide (h' = h)) as [->|N]; [|rewrite list_lookup_insert_ne by done; eauto].
        rewrite list_lookup_insert by (by eapply lookup_lt_Some). rewrite Eh in Hy. injection Hy as <- <-. eauto. }
      assert (forall A (F : frame V -> list A) H, (forall y, y ∈ stk F st' -> y ∈ H x) -> comes F H) as Hc.
      { intros A F H HF [t0|h'] y Hy.
        - destruct (decide (t0 = t)) as [->|N]; [|exists (HT t0); split; [apply src_refl|by rewrite hold_other in Hy]].
          rewrite (hold_new _ _ _ _ _ _ _ _ Ht Et) in Hy. exists (HV h). split; [right; right; eauto|]. exists x, k. auto.
        - exists (HV h'). split; [apply src_refl|]. destruct Hy as (z & j & Hz & Hy). destruct (Hback _ _ _ Hz) as [j' Hj]. exists z, j'. done. }
      assert (forall A (F : frame V -> list A) H, gives F H) as Hg.
      { intros A F H [t0|h'] y Hy.
        - destruct (decide (t0 = t)) as [->|N]; [by rewrite (hold_self _ _ _ _ _ _ Ht) in Hy; apply elem_of_nil in Hy|].
          exists (HT t0). split; [apply rsrc_refl|by rewrite hold_other].
        - exists (HV h'). split; [apply rsrc_refl|]. destruct Hy as (z & j & Hz & Hy). destruct (Hforth _ _ _ Hz) as [j' Hj]. exists z, j'. done. }
      assert (forall F H, stays F H) as Hs.
      { intros F H t0 y Hp. left. destruct (decide (t0 = t)) as [->|N].
        - destruct Hp as (st & h' & z & j & Ht' & Hb & _). rewrite Ht in Ht'. injection Ht' as <-. by apply elem_of_nil in Hb.
        - eapply pend_other; [done..| |exact Hp]. intros; by eapply Hforth. }
      apply eff_still; auto.
      - intros [t0|h'] b Hb; [|by destruct Hb as (? & ? & _ & ?%elem_of_nil)].
        destruct (decide (t0 = t)) as [->|N]; [|by rewrite hold_other in Hb].
        rewrite (hold_new _ _ _ _ _ _ _ _ Ht Et), EX in Hb. by apply elem_of_nil in Hb.
      - intros o h' Ho. rewrite Eo in Ho. by apply elem_of_nil in Ho.
    Qed.
    Lemma eff_take D h x st' : GI s D -> cs_t s !! t = Some [] -> cs_t s' = <[t := st']> (cs_t s) -> datas s' = datas s -> cs_g s' = cs_g s ->
      cs_h s !! h = Some (Some (x, 0)) -> cs_h s' = <[h := None]> (cs_h s) -> touches s e s' = [] -> h ∈ vars_in s e s' -> shares e = false ->
      stk fR st' = hR x -> stk fG st' = hG x -> stk fX st' = [] ->
      (forall y, y ∈ stk fP st' -> y ∈ hM x) -> (forall y, y ∈ stk fQ st' -> y ∈ hQ x) -> eff s e s'.
    Proof.
      intros G Ht Et Ed Eg Eh Eh' Eo Hin Hsh ER EG EX HP HQ.
      assert (forall h' y j, cs_h s' !! h' = Some (Some (y, j)) -> cs_h s !! h' = Some (Some (y, j))) as Hback.
      { intros h' y j Hy. rewrite Eh' in Hy. destruct (decide (h' = h)) as [->|N]; [|by rewrite list_lookup_insert_ne in Hy].
        by rewrite list_lookup_insert in Hy by (by eapply lookup_lt_Some). }
      assert (forall h' y j, h' <> h -> cs_h s !! h' = Some (Some (y, j)) -> cs_h s' !! h' = Some (Some (y, j))) as Hforth.
      { intros h' y j N Hy. by rewrite Eh', list_lookup_insert_ne. }
      assert (h ∉ thr fB (cs_t s)) as Hnb. { apply cnt_zero. rewrite (G_bor _ _ G h). unfold kof. by rewrite Eh. }
      assert (forall A (F : frame V -> list A) H, (forall y, y ∈ stk F st' -> y ∈ H x) -> comes F H) as Hc.
      { intros A F H HF [t0|h'] y Hy.
        - destruct (decide (t0 = t)) as [->|N]; [|exists (HT t0); split; [apply src_refl|by rewrite hold_other in Hy]].
          rewrite (hold_new _ _ _ _ _ _ _ _ Ht Et) in Hy. exists (HV h). split; [right; right; eauto|]. exists x, 0. auto.
        - exists (HV h'). split; [apply src_refl|]. destruct Hy as (z & j & Hz & Hy). exists z, j. auto. }
      assert (forall A (F : frame V -> list A) H, stk F st' = H x -> gives F H) as Hg.
      { intros A F H EF [t0|h'] y Hy.
        - destruct (decide (t0 = t)) as [->|N]; [by rewrite (hold_self _ _ _ _ _ _ Ht) in Hy; apply elem_of_nil in Hy|].
          exists (HT t0). split; [apply rsrc_refl|by rewrite hold_other].
        - destruct Hy as (z & j & Hz & Hy). destruct (decide (h' = h)) as [->|N].
          + exists (HT t). split; [right; right; eauto 6|]. rewrite (hold_new _ _ _ _ _ _ _ _ Ht Et), EF. rewrite Eh in Hz. by injection Hz as <- <-.
          + exists (HV h'). split; [apply rsrc_refl|]. exists z, j. auto. }
      assert (forall F H, stays F H) as Hs.
      { intros F H t0 y Hp. left. destruct (decide (t0 = t)) as [->|N].
        - destruct Hp as (st & h' & z & j & Ht' & Hb & _). rewrite Ht in Ht'. injection Ht' as <-. by apply elem_of_nil in Hb.
        - eapply pend_other; [done..| |exact Hp]. intros h' z j Hb Hz. exists j. apply Hforth; [|done]. by intros ->. }
      apply eff_still; auto.
      - intros [t0|h'] b Hb; [|by destruct Hb as (? & ? & _ & ?%elem_of_nil)].
        destruct (decide (t0 = t)) as [->|N]; [|by rewrite hold_other in Hb].
        rewrite (hold_new _ _ _ _ _ _ _ _ Ht Et), EX in Hb. by apply elem_of_nil in Hb.
      - intros o h' Ho. rewrite Eo in Ho. by apply elem_of_nil in Ho.
    Qed.
    (** A call ends. *)
    Lemma end_borrow_slot hs h h' y j : hs !! h' = Some (Some (y, j)) -> exists j', end_borrow hs h !! h' = Some (Some (y, j')).
    Proof.
      intros Hy. unfold end_borrow. destruct h as [h|]; [|eauto]. destruct (decide (h' = h)) as [->|N].
      - rewrite Hy, list_lookup_insert by (by eapply lookup_lt_Some). eauto.
      - destruct (hs !! h) as [[[? ?]|]|]; [|eauto..]. rewrite list_lookup_insert_ne by done. eauto.
    Qed.
    Lemma end_borrow_back hs h h' y j : end_borrow hs h !! h' = Some (Some (y, j)) -> exists j', hs !! h' = Some (Some (y, j')).
    Proof.
      unfold end_borrow. destruct h as [h|]; [|eauto]. destruct (hs !! h) as [[[x k]|]|] eqn:E; [|eauto..]. intros Hy. destruct (decide (h' = h)) as [->|N].
      - rewrite list_lookup_insert in Hy by (by eapply lookup_lt_Some). injection Hy as <- <-. eauto.
      - rewrite list_lookup_insert_ne in Hy by done. eauto.
    Qed.
    Lemma eff_fin (st : stack) h x : cs_t s !! t = Some st -> cs_t s' = <[t := []]> (cs_t s) -> datas s' = datas s -> cs_g s' = cs_g s ->
      cs_h s' = end_borrow (cs_h s) h ++ match x with Some x => [Some (x, 0)] | None => [] end ->
      stk fR st = match x with Some x => hR x | None => [] end -> stk fG st = match x with Some x => hG x | None => [] end ->
      stk fB st = option_list h -> (forall y, x = Some y -> hM y = stk fP st /\ hQ y = stk fQ st) -> touches s e s' = [] ->
      (forall h', h = Some h' -> h' ∈ bor_out s e s') -> (forall y, x = Some y -> length (cs_h s) ∈ var_out s e s') -> eff s e s'.
    Proof.
      intros Ht Et Ed Eg Eh ER EG EB EM Eo Ho Hn.
      assert (forall h' y j, cs_h s !! h' = Some (Some (y, j)) -> exists j', cs_h s' !! h' = Some (Some (y, j'))) as Hforth.
      { intros h' y j Hy. destruct (end_borrow_slot _ h _ _ _ Hy) as [j' Hj]. exists j'. rewrite Eh. by apply lookup_app_l_Some. }
      assert (forall h' y j, cs_h s' !! h' = Some (Some (y, j)) -> (exists j', cs_h s !! h' = Some (Some (y, j'))) \/ (h' = length (cs_h s) /\ x = Some y)) as Hback.
      { intros h' y j Hy. rewrite Eh in Hy. apply lookup_app_Some in Hy as [Hy|[Hl Hy]]; [left; by eapply end_borrow_back|right].
        rewrite end_borrow_len in Hl, Hy. destruct x as [x|]; [|done]. destruct (h' - length (cs_h s)) eqn:E; [|done]. cbn in Hy. injection Hy as <- <-. split; [lia|done]. }
      assert (forall y, x = Some y -> cs_h s' !! length (cs_h s) = Some (Some (y, 0))) as Hnew.
      { intros y ->. rewrite Eh, lookup_app_r by (by rewrite end_borrow_len). by rewrite end_borrow_len, Nat.sub_diag. }
      assert (forall A (F : frame V -> list A) H, (forall y, x = Some y -> H y = stk F st) -> comes F H) as Hc.
      { intros A F H HF [t0|h'] y Hy.
        - destruct (decide (t0 = t)) as [->|N]; [|exists (HT t0); split; [apply src_refl|by rewrite hold_other in Hy]].
          rewrite (hold_new _ _ _ _ _ _ _ _ Ht Et) in Hy. by apply elem_of_nil in Hy.
        - destruct Hy as (z & j & Hz & Hy). destruct (Hback _ _ _ Hz) as [[j' Hj]|[-> ->]].
          + exists (HV h'). split; [apply src_refl|]. exists z, j'. done.
          + exists (HT t). split; [right; left; eauto 6|]. rewrite (hold_self _ _ _ _ _ _ Ht). by rewrite <- (HF z eq_refl). }
      assert (forall A (F : frame V -> list A) H, stk F st = match x with Some x => H x | None => [] end -> gives F H) as Hg.
      { intros A F H EF [t0|h'] y Hy.
        - destruct (decide (t0 = t)) as [->|N]; [|exists (HT t0); split; [apply rsrc_refl|by rewrite hold_other]].
          rewrite (hold_self _ _ _ _ _ _ Ht), EF in Hy. destruct x as [x|]; [|by apply elem_of_nil in Hy].
          exists (HV (length (cs_h s))). split; [right; left; eauto 8|]. exists x, 0. auto.
        - exists (HV h'). split; [apply rsrc_refl|]. destruct Hy as (z & j & Hz & Hy). destruct (Hforth _ _ _ Hz) as [j' Hj]. exists z, j'. done. }
      assert (forall F H, stays F H) as Hs.
      { intros F H t0 y Hp. destruct (decide (t0 = t)) as [->|N].
        - right. destruct Hp as (st0 & h' & z & j & Ht' & Hb & Hz & Hy). rewrite Ht in Ht'. injection Ht' as <-. rewrite EB in Hb.
          destruct h as [h|]; [|by apply elem_of_nil in Hb]. apply elem_of_list_singleton in Hb as ->.
          exists (HV h). split; [right; left; eauto 8|]. destruct (Hforth _ _ _ Hz) as [j' Hj]. exists z, j'. done.
        - left. eapply pend_other; [done..| |exact Hp]. intros; by eapply Hforth. }
      apply eff_still; auto.
      - apply Hc. intros y Hy. by apply EM.
      - apply Hc. intros y Hy. by apply EM.
      - intros [t0|h'] b Hb; [|by destruct Hb as (? & ? & _ & ?%elem_of_nil)].
        destruct (decide (t0 = t)) as [->|N]; [|by rewrite hold_other in Hb].
        rewrite (hold_new _ _ _ _ _ _ _ _ Ht Et) in Hb. by apply elem_of_nil in Hb.
      - intros o h' Ho'. rewrite Eo in Ho'. by apply elem_of_nil in Ho'.
    Qed.
    Lemma eff_hold r : cs_t s !! t = Some [FV (VHold r); KEnd None] -> cs_t s' = <[t := [FHold r; KEnd None]]> (cs_t s) ->
      datas s' = datas s -> cs_g s' = cs_g s -> cs_h s' = cs_h s -> touches s e s' = [] -> eff s e s'.
    Proof.
      intros Ht Et Ed Eg Eh Eo.
      assert (forall A (F : frame V -> list A) H w y, stk F [FHold r; KEnd None] = stk F [FV (VHold r); KEnd None] -> hold F H s' w y <-> hold F H s w y) as Hi.
      { intros A F H [t0|h] y E; [|cbn; by rewrite Eh]. destruct (decide (t0 = t)) as [->|N]; [|by apply (hold_other _ _ _ _ t [FHold r; KEnd None])].
        by rewrite (hold_new _ _ _ _ _ _ _ _ Ht Et), (hold_self _ _ _ _ _ _ Ht), E. }
      assert (forall A (F : frame V -> list A) H, stk F [FHold r; KEnd None] = stk F [FV (VHold r); KEnd None] -> comes F H) as Hc.
      { intros A F H E w y Hy. exists w. split; [apply src_refl|]. by rewrite <- Hi. }
      assert (forall A (F : frame V -> list A) H, stk F [FHold r; KEnd None] = stk F [FV (VHold r); KEnd None] -> gives F H) as Hg.
      { intros A F H E w y Hy. exists w. split; [apply rsrc_refl|]. by rewrite Hi. }
      assert (forall F H, stays F H) as Hs.
      { intros F H t0 y Hp. left. destruct (decide (t0 = t)) as [->|N].
        - destruct Hp as (st & h' & z & j & Ht' & Hb & _). rewrite Ht in Ht'. injection Ht' as <-. by apply elem_of_nil in Hb.
        - eapply pend_other; [done..| |exact Hp]. intros h' z j Hb Hz. rewrite Eh. eauto. }
      apply eff_still; auto.
      - intros w b. by rewrite Hi.
      - intros o h' Ho. rewrite Eo in Ho. by apply elem_of_nil in Ho.
    Qed.
  End still.

  (** A new data *)
  Lemma eff_new s e s' D n nd : GI s D -> cs_t s !! actor e = Some [] -> cs_t s' = <[actor e := [FGuard n; KSlice n; KEnd None]]> (cs_t s) ->
    n = length (datas s) -> datas s' = datas s ++ [Some (1, nd)] -> kids nd = [] -> cs_g s' = gd_new_data (cs_g s) None ->
    same_vars s s' -> touches s e s' = [(BBox (length (boxes s)), Init); (BNode n, Init)] -> eff s e s'.
  Proof.
    intros G Ht Et -> Ed Hk Eg Hv Eo. pose proof (G_len _ _ G) as Hlen.
    assert (forall x n', rc_get (datas s') x = Some n' -> x <> length (datas s) -> rc_get (datas s) x = Some n') as Hd.
    { intros x n'. rewrite Ed, rc_get_snoc. by case_decide. }
    assert (forall x, x ∈ stk (V:=V) fP [FGuard (length (datas s)); KSlice (length (datas s)); KEnd None] -> x = length (datas s)) as HP.
    { intros x. cbn. set_solver. }
    assert (forall A (F : frame V -> list A) H w x, (forall x, ~ shared x -> H x = []) -> hold F H s w x -> hold F H s' w x) as Hf.
    { intros A F H [t0|h] x Hsh Hx.
      - destruct (decide (t0 = actor e)) as [->|N]; [|by rewrite hold_other].
        rewrite (hold_self _ _ _ _ _ _ Ht) in Hx. by apply elem_of_nil in Hx.
      - destruct Hx as (y & k & Hy & Hx). exists y, k. split; [|done]. apply (Hv h y k); [|done].
        assert (shared y \/ ~ shared y) as [|Hn] by (destruct y; cbn; tauto); [done|]. rewrite (Hsh _ Hn) in Hx. by apply elem_of_nil in Hx. }
    assert (forall A (F : frame V -> list A) H w x, (forall x, ~ shared x -> H x = []) -> hold F H s' w x -> hold F H s w x \/
      (w = HT (actor e) /\ x ∈ stk F [FGuard (length (datas s)); KSlice (length (datas s)); KEnd None])) as Hb.
    { intros A F H [t0|h] x Hsh Hx.
      - destruct (decide (t0 = actor e)) as [->|N]; [|left; by rewrite hold_other in Hx].
        right. by rewrite (hold_new _ _ _ _ _ _ _ _ Ht Et) in Hx.
      - left. destruct Hx as (y & k & Hy & Hx). exists y, k. split; [|done]. apply (Hv h y k); [|done].
        assert (shared y \/ ~ shared y) as [|Hn] by (destruct y; cbn; tauto); [done|]. rewrite (Hsh _ Hn) in Hx. by apply elem_of_nil in Hx. }
    assert (forall H t0 x, (forall x, ~ shared x -> H x = []) -> pend H s t0 x -> pend H s' t0 x) as Hp.
    { intros H t0 x Hsh (st & h & y & k & Ht' & Hbb & Hy & Hx). destruct (decide (t0 = actor e)) as [->|N].
      { rewrite Ht in Ht'. injection Ht' as <-. by apply elem_of_nil in Hbb. }
      exists st, h, y, k. rewrite Et, list_lookup_insert_ne by done. split_and!; try done. apply (Hv h y k); [|done].
      assert (shared y \/ ~ shared y) as [|Hn] by (destruct y; cbn; tauto); [done|]. rewrite (Hsh _ Hn) in Hx. by apply elem_of_nil in Hx. }
    split.
    - intros w' x Hx. destruct (Hb _ _ _ _ _ sh_P Hx) as [|[-> Hin]]; [left; eexists; split; [apply src_refl|done]|].
      right. split; [done|]. right; right. rewrite Eo, (HP _ Hin). right; left.
    - intros w' y Hy. destruct (Hb _ _ _ _ _ sh_Q Hy) as [|[-> Hin]]; [left; eexists; split; [apply src_refl|done]|]. by apply elem_of_nil in Hin.
    - intros w' b Hx. destruct (Hb _ _ _ _ _ (fun _ _ => eq_refl) Hx) as [|[-> Hin]]; [by left|]. by apply elem_of_nil in Hin.
    - intros x side n' c Hn Hc. destruct (decide (x = length (datas s))) as [->|N]; [|left; eauto].
      rewrite Ed, rc_get_snoc, decide_True in Hn by done. injection Hn as <-. apply child_kid in Hc. rewrite Hk in Hc. by apply elem_of_nil in Hc.
    - intros x m' Hm. rewrite Eg in Hm. cbn in Hm. apply lookup_app_Some in Hm as [Hm|[Hl Hm]]; [left; eauto|right].
      destruct (x - length (metas s)) eqn:E; [|done]. injection Hm as <-. rewrite Eo. cbn. split; [left|]. right.
      assert (x = length (datas s)) as -> by lia. right; left.
    - intros x m' y Hm Hy. rewrite Eg in Hm. cbn in Hm. apply lookup_app_Some in Hm as [Hm|[Hl Hm]]; [left; eauto|].
      destruct (x - length (metas s)) eqn:E; [|done]. by injection Hm as <-.
    - intros b y Hy. rewrite Eg in Hy. cbn in Hy. apply lookup_app_Some in Hy as [Hy|[Hl Hy]]; [by left|]. by destruct (b - length (boxes s)).
    - intros z y Hz. left. unfold gpar in *. by rewrite Eg in Hz.
    - intros o h Ho Hh. rewrite Eo in Ho. set_solver.
    - intros o Ho. rewrite Eo in Ho. apply elem_of_cons in Ho as [[= ->]|[= ->]%elem_of_list_singleton]; cbn; rewrite ?Ed, ?Eg; cbn; rewrite app_length; cbn; lia.
    - intros o i j Hi Hj. rewrite Eo in Hi, Hj. destruct i as [|[|]], j as [|[|]]; cbn in *; try discriminate; congruence.
    - intros [x|y|b]; cbn; rewrite ?Ed, ?Eg; cbn; rewrite ?app_length; lia.
    - intros [x|y|b]; cbn; rewrite ?Ed, ?Eg; cbn; try done. intros Hlt Hn. rewrite rc_get_snoc, decide_False by lia. done.
    - intros o Ho. rewrite Eo in Ho. set_solver.
    - intros o Ho. rewrite Eo in Ho. set_solver.
    - intros w o Hr _. left. exists w. split; [apply rsrc_refl|]. destruct o; [apply (Hf _ _ _ _ _ hR_shared Hr)|apply (Hf _ _ _ _ _ sh_G Hr)|done].
    - intros t0 o Hr _. left. destruct o; [apply (Hp _ _ _ hR_shared Hr)|apply (Hp _ _ _ sh_G Hr)|done].
    - intros z o Hz. left. unfold gpar in *. by rewrite Eg.
  Qed.

  (** A step of a thread *)
  Lemma eff_step s e s' D st d g st' : GI s D -> NI s -> cs_t s !! actor e = Some st -> mstep sz (cs_d s) (cs_g s) st = Ok (d, g, st') ->
    cs_t s' = <[actor e := st']> (cs_t s) -> cs_d s' = d -> cs_g s' = g -> cs_h s' = cs_h s ->
    touches s e s' = touch (cs_d s) (cs_g s) st -> syncs acq s e = sync acq (cs_d s) (cs_g s) st -> eff s e s'.
  Proof.
    intros G N Ht Hm Et Ed Eg Eh Eo Es. pose proof (G_len _ _ G) as Hlen. pose proof (mstep_mw sz _ _ _ _ _ _ Hm) as W.
    destruct (GI_mstep sz s D (actor e) st d g st' (cs_out s) (cs_log s) G Ht Hm) as (X & _ & _ & EB).
    destruct (G_run _ _ G _ _ Ht) as [b Hr].
    assert (Forall casok st) as Hcas by (destruct N as [_ C]; by eapply Forall_lookup_1).
    assert (forall A (F : frame V -> list A) H w x, w <> HT (actor e) -> hold F H s' w x <-> hold F H s w x) as Hoth.
    { intros A F H [t0|h] x Hn; [|cbn; by rewrite Eh]. apply (hold_other _ _ _ _ (actor e) st'); [done|congruence]. }
    assert (forall A (F : frame V -> list A) H x, hold F H s (HT (actor e)) x <-> x ∈ stk F st) as Hself by (intros; by apply hold_self).
    assert (forall A (F : frame V -> list A) H x, hold F H s' (HT (actor e)) x <-> x ∈ stk F st') as Hnew by (intros; by eapply hold_new).
    assert (forall H x, borr b H x -> exists h y k, h ∈ stk fB st /\ cs_h s !! h = Some (Some (y, k)) /\ x ∈ H y) as Hbor.
    { intros H x (y & -> & Hx). destruct (run_borrow _ _ _ Hr) as (h & Ho & Eb). destruct (okend_slot _ _ _ Ho) as (h' & k & -> & Hh).
      exists h', y, k. split_and!; [rewrite Eb; left|done|done]. }
    assert (forall H x, borr b H x -> pend H s' (actor e) x) as Hpend.
    { intros H x Hx. destruct (Hbor _ _ Hx) as (h & y & k & Hh & Hy & Hin). exists st', h, y, k.
      rewrite Et, list_lookup_insert by (by eapply lookup_lt_Some). rewrite EB, Eh. done. }
    assert (forall side m n', st = m -> forall x k k0, m = FChildCas x side k n' :: k0 -> kids n' = []) as Hkid.
    { intros side m n' <- x k k0 ->. by apply Forall_cons in Hcas as [[_ ?] _]. }
    subst d g. split; rewrite ?Eo, ?Es.
    - intros w' x Hx. destruct (decide (w' = HT (actor e))) as [->|Hn]; [|left; exists w'; split; [apply src_refl|by apply Hoth]].
      rewrite Hnew in Hx. destruct (mP sz acq _ _ _ _ _ _ _ Hm Hx) as [Hx'|[Hf|[(x0 & m & H0 & Hm0 & Hp)|Hi]]].
      + left. exists (HT (actor e)). split; [apply src_refl|by apply Hself].
      + right. split; [done|]. by left.
      + right. split; [done|]. right; left. exists x0, m. split; [by apply Hself|done].
      + right. split; [done|]. by right; right.
    - intros w' x Hx. destruct (decide (w' = HT (actor e))) as [->|Hn]; [|left; exists w'; split; [apply src_refl|by apply Hoth]].
      rewrite Hnew in Hx. destruct (mQ sz _ _ _ _ _ _ _ Hm Hx) as [Hx'|[(b0 & H0 & Hm0)|[(z & n & Hz & Hn & Hp)|Hi]]].
      + left. exists (HT (actor e)). split; [apply src_refl|by apply Hself].
      + right. split; [done|]. left. exists b0. split; [by apply Hself|done].
      + right. split; [done|]. right; left. exists z. split; [by apply Hself|]. exists n, x. done.
      + right. split; [done|]. by right; right.
    - intros w' x Hx. destruct (decide (w' = HT (actor e))) as [->|Hn]; [|left; by apply Hoth].
      rewrite Hnew in Hx. destruct (mX sz acq _ _ _ _ _ _ _ Hm Hx) as [Hx'|(x0 & m & H0 & Hm0)]; [left; by apply Hself|].
      right. split; [done|]. exists x0, m. split; [by apply Hself|done].
    - intros x side n' c Hn Hc. destruct W as [_ _ _ [_ Hd] _|x0 side0 k n0 k0 c0 v E Hv Hc0 Ed' Eg'|x0 b0 pg k m E Hm0 Eb0 Ed' Egg Ebb Emm].
      + left. destruct (Hd _ _ Hn) as (n & Hn' & <-). eauto.
      + pose proof (live_lt _ _ _ _ Hv) as Hlt. rewrite Ed', rc_get_insert in Hn by (rewrite app_length; lia). case_decide as Ex.
        * subst x0. cbn in Hn. injection Hn as <-. destruct (decide (side = side0)) as [->|Hs].
          -- right. assert (c = length (datas s)) as -> by (destruct side0; cbn in Hc; congruence). rewrite E. cbn [touch sync].
             rewrite (rc_get_live _ _ _ _ Hv), Hc0. split; [right; right; left|left].
          -- left. exists v. rewrite (rc_get_live _ _ _ _ Hv). split; [done|]. by destruct side, side0.
        * rewrite rc_get_snoc in Hn. case_decide as Ex'; [|left; eauto]. cbn in Hn. injection Hn as <-.
          apply child_kid in Hc. rewrite (Hkid side0 st n0 eq_refl _ _ _ E) in Hc. by apply elem_of_nil in Hc.
      + left. rewrite Ed' in Hn. eauto.
    - intros x m' Hm'. destruct W as [Em _ _ _ _|x0 side0 k n0 k0 c0 v E Hv Hc0 Ed' Eg'|x0 b0 pg k m E Hm0 Eb0 Ed' Egg Ebb Emm].
      + left. rewrite Em in Hm'. eauto.
      + rewrite Eg' in Hm'. cbn in Hm'. apply lookup_app_Some in Hm' as [Hm'|[Hl Hm']]; [left; eauto|right].
        destruct (x - length (metas s)) eqn:E1; [|done]. injection Hm' as <-. cbn. rewrite E. cbn [touch sync].
        rewrite (rc_get_live _ _ _ _ Hv), Hc0. split; [right; left|right]. assert (x = length (datas s)) as -> by lia. right; right; left.
      + rewrite Emm in Hm'. destruct (decide (x = x0)) as [->|Hne]; [|rewrite list_lookup_insert_ne in Hm' by done; left; eauto].
        rewrite list_lookup_insert in Hm' by (by eapply lookup_lt_Some). injection Hm' as <-. cbn [am_box]. right. rewrite E. cbn [touch sync].
        rewrite Hm0, Eb0, Nat.eqb_refl. cbn [when]. split; [right; right; left|left; left].
    - intros x m' y Hm' Hy. destruct W as [Em _ _ _ _|x0 side0 k n0 k0 c0 v E Hv Hc0 Ed' Eg'|x0 b0 pg k m E Hm0 Eb0 Ed' Egg Ebb Emm].
      + left. rewrite Em in Hm'. eauto.
      + rewrite Eg' in Hm'. cbn in Hm'. apply lookup_app_Some in Hm' as [Hm'|[Hl Hm']]; [left; eauto|right].
        destruct (x - length (metas s)) eqn:E1; [|done]. injection Hm' as <-. cbn in Hy. injection Hy as <-. rewrite Hself, E. cbn [touch sync].
        rewrite (rc_get_live _ _ _ _ Hv), Hc0. assert (x = length (datas s)) as -> by lia. split; [right; right; left|]. rewrite stk_cons. left.
      + rewrite Emm in Hm'. destruct (decide (x = x0)) as [->|Hne]; [|rewrite list_lookup_insert_ne in Hm' by done; left; eauto].
        rewrite list_lookup_insert in Hm' by (by eapply lookup_lt_Some). injection Hm' as <-. cbn in Hy. left. eauto.
    - intros b1 y Hy. destruct W as [_ Eb _ _ _|x0 side0 k n0 k0 c0 v E Hv Hc0 Ed' Eg'|x0 b0 pg k m E Hm0 Eb0 Ed' Egg Ebb Emm].
      + left. by rewrite Eb in Hy.
      + left. rewrite Eg' in Hy. cbn in Hy. apply lookup_app_Some in Hy as [Hy|[Hl Hy]]; [done|]. by destruct (b1 - length (boxes s)).
      + rewrite Ebb in Hy. apply lookup_app_Some in Hy as [Hy|[Hl Hy]]; [by left|right]. destruct (b1 - length (boxes s)) eqn:E1; [|done].
        cbn in Hy. injection Hy as <-. assert (b1 = length (boxes s)) as -> by lia. rewrite E. cbn [touch]. rewrite Hm0, Eb0, Nat.eqb_refl. cbn [when].
        split; [right; right; left|right; left].
    - intros z y (n & y' & Hz & Hp & [= <-]). destruct W as [_ _ [_ Hg] _ _|x0 side0 k n0 k0 c0 v E Hv Hc0 Ed' Eg'|x0 b0 pg k m E Hm0 Eb0 Ed' Egg Ebb Emm].
      + left. destruct (Hg _ _ Hz) as (n' & Hn' & Hsp). exists n', y. unfold same_par in Hsp. split_and!; [done|congruence|done].
      + left. rewrite Eg' in Hz. exists n, y. done.
      + rewrite Egg, rc_get_snoc in Hz. case_decide as Ez; [|left; exists n, y; done]. cbn in Hz. injection Hz as <-. cbn in Hp. subst pg z.
        right. rewrite Hself, E. cbn [touch]. rewrite Hm0, Eb0, Nat.eqb_refl. cbn [when]. split; [right; left|]. rewrite stk_cons. cbn. left.
    - intros o h Ho Hh. pose proof (touch_ment _ _ _ _ _ Ho Hh) as Hmt. destruct o as [x|y|b0]; cbn.
      + destruct Hmt as [Hx|(x0 & m & Hx & Hm0)]; [left; exists (HT (actor e)); split; [apply src_refl|by apply Hself]|].
        right. exists x0, m. split; [by apply Hself|done].
      + destruct Hmt as [Hx|(b0 & Hx & Hm0)]; [left; exists (HT (actor e)); split; [apply src_refl|by apply Hself]|].
        right. exists b0. split; [by apply Hself|done].
      + by apply (Hself _ fX no_box).
    - intros o Ho. destruct W as [_ _ _ _ Hno|x0 side0 k n0 k0 c0 v E Hv Hc0 Ed' Eg'|x0 b0 pg k m E Hm0 Eb0 Ed' Egg Ebb Emm].
      + by destruct (Hno o).
      + rewrite E in Ho. cbn [touch] in Ho. rewrite (rc_get_live _ _ _ _ Hv), Hc0 in Ho.
        apply elem_of_cons in Ho as [?|Ho]; [done|]. apply elem_of_cons in Ho as [[= ->]|[= ->]%elem_of_list_singleton]; cbn; (split; [lia|]).
        * rewrite Eg'. cbn. rewrite app_length. cbn. lia.
        * rewrite Ed', insert_length, app_length. cbn. lia.
      + rewrite E in Ho. cbn [touch] in Ho. rewrite Hm0, Eb0, Nat.eqb_refl in Ho. cbn [when] in Ho.
        apply elem_of_cons in Ho as [?|Ho]; [done|]. apply elem_of_cons in Ho as [[= ->]|[= ->]%elem_of_list_singleton]; cbn; (split; [lia|]).
        * rewrite Egg, app_length. cbn. lia.
        * rewrite Ebb, app_length. cbn. lia.
    - intros o i j Hi Hj. destruct W as [_ _ _ _ Hno|x0 side0 k n0 k0 c0 v E Hv Hc0 Ed' Eg'|x0 b0 pg k m E Hm0 Eb0 Ed' Egg Ebb Emm].
      + apply elem_of_list_lookup_2 in Hi. by destruct (Hno o).
      + rewrite E in Hi, Hj. cbn [touch] in Hi, Hj. rewrite (rc_get_live _ _ _ _ Hv), Hc0 in Hi, Hj. destruct i as [|[|[|]]], j as [|[|[|]]]; cbn in *; try discriminate; congruence.
      + rewrite E in Hi, Hj. cbn [touch] in Hi, Hj. rewrite Hm0, Eb0, Nat.eqb_refl in Hi, Hj. destruct i as [|[|[|]]], j as [|[|[|]]]; cbn in *; try discriminate; congruence.
    - destruct W as [Em Eb [Lg _] [Ld _] _|x0 side0 k n0 k0 c0 v E Hv Hc0 Ed' Eg'|x0 b0 pg k m E Hm0 Eb0 Ed' Egg Ebb Emm]; intros [x|y|b1]; cbn.
      + by rewrite Ld.
      + by rewrite Lg.
      + by rewrite Eb.
      + rewrite Ed', insert_length, app_length. lia.
      + by rewrite Eg'.
      + rewrite Eg'. cbn. rewrite app_length. lia.
      + by rewrite Ed'.
      + rewrite Egg, app_length. lia.
      + rewrite Ebb, app_length. lia.
    - destruct W as [Em Eb [Lg Hg] [Ld Hd] _|x0 side0 k n0 k0 c0 v E Hv Hc0 Ed' Eg'|x0 b0 pg k m E Hm0 Eb0 Ed' Egg Ebb Emm]; intros [x|y|b1]; cbn; intros Hlt Hn; try done.
      + intros [n Hx]. apply Hn. destruct (Hd _ _ Hx) as (n1 & ? & _). eauto.
      + intros [n Hx]. apply Hn. destruct (Hg _ _ Hx) as (n1 & ? & _). eauto.
      + pose proof (live_lt _ _ _ _ Hv) as Hlt'. rewrite Ed', rc_get_insert by (rewrite app_length; lia). case_decide as Ex.
        * subst. exfalso. apply Hn. rewrite (rc_get_live _ _ _ _ Hv). eauto.
        * by rewrite rc_get_snoc, decide_False by lia.
      + by rewrite Eg'.
      + by rewrite Ed'.
      + by rewrite Egg, rc_get_snoc, decide_False by lia.
    - intros o Ho. pose proof (touch_use sz acq _ _ _ _ _ _ _ _ _ Hr Hm Ho) as Hu. destruct o as [x|y|b0].
      + destruct Hu as [Ha Hu]. split.
        { destruct Ha as [?|Hx]; [done|]. eapply (ref_alive s D (HT (actor e)) (BNode x)); [done..|]. by apply Hself. }
        destruct Hu as [Hu|[Hu|Hu]]; [left; by apply Hnew|right; left; eexists; done|right; right; left; by apply Hpend].
      + destruct Hu as [Ha Hu]. split.
        { destruct Ha as [?|[Hx|Hx]]; [done|eapply (ref_alive s D (HT (actor e)) (BGuard y)); [done..|]; by apply Hself|].
          destruct (Hbor _ _ Hx) as (h & z & k & _ & Hz & Hin). eapply (ref_alive s D (HV h) (BGuard y)); [done..|]. exists z, k. done. }
        destruct Hu as [Hu|[Hu|Hu]]; [left; by apply Hnew|right; left; eexists; done|right; right; left; by apply Hpend].
      + split; [done|]. by right; right; right; right.
    - intros o Ho. destruct (touch_end sz acq _ _ _ _ _ _ _ Hm Ho) as [E Hend]. split; [done|]. destruct o as [x|y|b0]; [| |done].
      + destruct Hend as (H1 & H2 & H3 & H4). split; [by apply Hself|]. split; [done|]. split; [by eexists|]. cbn. rewrite H4. by intros [? [=]].
      + destruct Hend as (H1 & H2 & H3 & H4). split; [by apply Hself|]. split; [done|]. split; [by eexists|]. cbn. rewrite H4. by intros [? [=]].
    - intros w o Ho Ha. destruct (decide (w = HT (actor e))) as [->|Hn].
      2:{ left. exists w. split; [apply rsrc_refl|]. destruct o; [by apply Hoth|by apply Hoth|done]. }
      destruct o as [x|y|b0]; [| |done].
      + apply (Hself _ fR hR) in Ho. destruct (mstep_refs sz acq _ _ _ _ _ _ _ Hm Ho Ha) as [Hx|Hx].
        * left. exists (HT (actor e)). split; [apply rsrc_refl|by apply Hnew].
        * right. split; [done|]. left. by eexists.
      + apply (Hself _ fG hG) in Ho. destruct (mgref sz acq _ _ _ _ _ _ _ Hm Ho Ha) as [Hx|[Hx|(z & n & Hz & Hn & Hp)]].
        * left. exists (HT (actor e)). split; [apply rsrc_refl|by apply Hnew].
        * right. split; [done|]. left. by eexists.
        * right. split; [done|]. right. exists z. split; [done|]. exists n, y. done.
    - intros t0 o Ho _. left. assert (forall H x, pend H s t0 x -> pend H s' t0 x) as Hp.
      { intros H x (st0 & h & y & k & Ht' & Hb & Hy & Hx). destruct (decide (t0 = actor e)) as [->|Hne].
        - rewrite Ht in Ht'. injection Ht' as <-. exists st', h, y, k. rewrite Et, list_lookup_insert by (by eapply lookup_lt_Some). rewrite EB, Eh. done.
        - exists st0, h, y, k. rewrite Et, list_lookup_insert_ne by done. by rewrite Eh. }
      destruct o; [by apply Hp|by apply Hp|done].
    - intros z o (n & y & Hz & Hp & ->). destruct (mgkid sz _ _ _ _ _ _ _ _ _ Hm Hz Hp) as [(n' & Hn' & Hp')|[H1 H2]].
      + left. exists n', y. done.
      + right. split; [by apply Hself|by apply (Hnew _ fG hG)].
  Qed.
  Theorem eff_evt s e s' D : GI s D -> NI s -> evt s e s' -> eff s e s'.
  Proof.
    intros G N E. destruct E as [Et Ed Eg Hv Eo _|h r k n Et Ed Eg Eh Hh Hn Eo _ Hi Ho|h x k st' Ht Et Ed Eg Eh Eh' Eo _ Hi _ _ _ EX _ HP HQ|h x st' Ht Et Ed Eg Eh Eh' Eo _ Hi Hsh ER EG _ EX _ HP HQ
      |n nd Ht Et En Ed Hk Eg Hv Eo _|st d g st' Ht _ Hm Et Ed Eg Eh Eo Es|st h x Ht Et Ed Eg Eh ER EG EB EM Eo _ Ho Hn|r Ht Et Ed Eg Eh Eo _].
    - apply eff_vars; try done. intros o h Ho. rewrite Eo in Ho. by apply elem_of_nil in Ho.
    - apply eff_vars; try done; [by apply same_vars_refl|]. intros o h' Hin. rewrite Eo in Hin. apply elem_of_list_singleton in Hin as [= -> ->].
      split; [done|]. split; [|split; [by eexists|]].
      + left. exists (HV h). split; [right; right; eauto|]. exists (XArc r), k. split; [done|]. left.
      + exists h. split; [by right|]. exists (XArc r), k. rewrite Eh. split; [done|]. left.
    - by eapply eff_borrow.
    - by eapply eff_take.
    - by eapply eff_new.
    - by eapply eff_step.
    - by eapply eff_fin.
    - by eapply eff_hold.
  Qed.
End flow.
