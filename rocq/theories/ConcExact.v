(** When nobody is inside a call: which slices keep [into_mut], [get_mut] and
    [upgrade] from succeeding. *)
From Verif Require Import Base BaseLemmas Api SliceItemsModel BinPartsModel Spec DataModel RcModel DataInv DataSteps GuardInv ArcModel ArcInv ArcConc ConcInv ConcGuard ConcWorld ConcChild ConcData ConcSafe ConcSpec ConcTheory ConcConserve ConcShare ConcTree ConcCov ConcCalm ConcHold ConcQuiet SoloFuel ConcSolo ConcCall ConcAlone.
Local Open Scope nat_scope.
#[local] Arguments slo {A} F hs : simpl never.
#[local] Arguments thr {V A} F ts : simpl never.

Section exact.
  Context {V : Type} (sz : N).
  Notation stack := (list (frame V)).
  Implicit Types (s : cstate V) (t : nat) (es : list (sched (V:=V))).
  Notation datas s := (dw_datas (cs_d s)).
  Notation guards s := (gd_guards (cs_g s)).

  Lemma below_lt s D x y : GI s D -> below (cs_g s) x y -> x < y.
  Proof.
    intros G Hb. assert (forall c p, data_parent (cs_g s) c = Some p -> p < c) as Hp.
    { intros c p. unfold data_parent. destruct (gd_metas (cs_g s) !! c) as [m|] eqn:Em; [|done]. cbn. intros Hm.
      by eapply (gi_meta _ _ _ _ _ (G_inv _ _ G)). }
    induction Hb as [y Hy|q y Hy Hb IH]; apply Hp in Hy; lia.
  Qed.
  Lemma below_up g x p c : data_parent g c = Some p -> x = p \/ below g x p -> below g x c.
  Proof. intros Hp [->|Hb]; [by constructor|by eapply below_more]. Qed.
  Lemma below_down g x c : below g x c -> exists p, data_parent g c = Some p /\ (x = p \/ below g x p).
  Proof. intros Hb. inversion Hb; subst; eauto. Qed.

  Section quiet.
    Context s D T L (W : WI sz s D T L) (Q : quiescent s).
    Let G : GI s D := W_G _ _ _ _ _ W.
    Let I : DI sz s T L := W_D _ _ _ _ _ W.
    Let M : MI s := W_M _ _ _ _ _ W.
    Let P : GP s D := W_P _ _ _ _ _ W.
    Lemma q_ginv : ginv (cs_g s) D (slo hG (cs_h s)) (slo hW (cs_h s)) [].
    Proof.
      pose proof (G_inv _ _ G) as H. rewrite !quiescent_tot in H by done. replace (thr fL (cs_t s)) with (@nil (nat * bool)) in H; [done|].
      symmetry. apply elem_of_nil_inv. intros x (t & st & Ht & Hx)%thr_elem. rewrite (Q _ _ Ht) in Hx. by apply elem_of_nil in Hx.
    Qed.
    Lemma q_dinv : dinv sz (cs_d s) T L (slo hR (cs_h s)) (slo hO (cs_h s)).
    Proof. pose proof (D_inv _ _ _ _ I) as H. by rewrite !quiescent_tot in H by done. Qed.
    Lemma q_get h r : cget s h = Some (XArc r) <-> exists k, cs_h s !! h = Some (Some (XArc r, k)).
    Proof.
      unfold cget, slot. destruct (cs_h s !! h) as [[[x k]|]|]; cbn; split; try (by intros [? ?]); try done.
      - intros [= ->]. eauto.
      - intros [? [= -> _]]. done.
    Qed.
    Lemma q_ref h r : cget s h = Some (XArc r) -> dl s (ar_data r).
    Proof. intros [k Hh]%q_get. destruct (slot_ref sz _ _ _ _ _ _ I Hh) as (j & n & Hn). exists n. by eapply rc_get_live. Qed.
    Lemma q_kid p n c : rc_get (datas s) p = Some n -> c ∈ kids n -> dl s c.
    Proof.
      intros Hp Hc. destruct (rc_get_Some _ _ _ Hp) as [j Hl]. destruct (count_get (datas s) c) as [m Hm]; [|by exists m].
      rewrite (di_cnt _ _ _ _ _ _ q_dinv). pose proof (hsum_ge (fun n => cnt c (kids n)) _ _ _ _ Hl). apply cnt_pos in Hc. lia.
    Qed.
    Lemma q_down x y : dl s x -> below (cs_g s) x y -> dl s y.
    Proof.
      intros [n Hn] Hb. induction Hb as [y Hy|q y Hy Hb IH].
      - eapply q_kid; [exact Hn|]. by eapply (m_par _ M).
      - destruct IH as [m Hm]. eapply q_kid; [exact Hm|]. by eapply (m_par _ M).
    Qed.
    (** Data is alive as long as somebody has a slice of it or of one it is part of. *)
    Lemma q_alive x : dl s x <-> exists h r, cget s h = Some (XArc r) /\ (ar_data r = x \/ below (cs_g s) (ar_data r) x).
    Proof.
      split.
      - induction x as [x IH] using lt_wf_ind. intros [n Hn]. destruct (rc_get_Some _ _ _ Hn) as [[|j] Hl]; [by destruct (di_pos _ _ _ _ _ _ q_dinv _ _ Hl)|].
        pose proof (di_cnt _ _ _ _ _ _ q_dinv x) as E. rewrite (rc_count_live _ _ _ _ Hl) in E.
        destruct (decide (x ∈ slo hR (cs_h s))) as [Hin|Hni].
        + apply slo_elem in Hin as (h & v & k & Hh & Hv). destruct v as [r| | | | |]; try by apply elem_of_nil in Hv.
          apply elem_of_list_singleton in Hv as ->. exists h, r. split; [apply q_get; eauto|by left].
        + apply cnt_zero in Hni. destruct (hsum_pos (fun n => cnt x (kids n)) (datas s)) as (p & c' & m & Hp & Hc); [lia|].
          apply cnt_pos in Hc. pose proof (rc_get_live _ _ _ _ Hp) as Hm. pose proof (m_kid _ M _ _ _ Hm Hc) as Hpar.
          assert (p < x) as Hlt by (eapply (below_lt s D); [exact G|by constructor]).
          destruct (IH p Hlt) as (h & r & Hh & Hr); [by exists m|]. exists h, r. split; [done|]. right. by eapply below_up.
      - intros (h & r & Hh & [<-|Hb]); [by eapply q_ref|]. eapply q_down; [by eapply q_ref|done].
    Qed.

    (** ** Counts *)
    Definition same_or_below (x h : nat) : Prop := exists h' r', h' <> h /\ cget s h' = Some (XArc r') /\ (ar_data r' = x \/ below (cs_g s) x (ar_data r')).
    Definition same_or_above (x h : nat) : Prop := exists h' r', h' <> h /\ cget s h' = Some (XArc r') /\ (ar_data r' = x \/ below (cs_g s) (ar_data r') x).
    Lemma q_guard h r : cget s h = Some (XArc r) -> D !! ar_guard r = Some (ar_data r) /\ exists n, rc_get (guards s) (ar_guard r) = Some n.
    Proof.
      intros [k Hh]%q_get. split; [exact (G_slot _ _ G _ _ _ Hh)|]. apply count_get. rewrite (gi_cnt _ _ _ _ _ q_ginv).
      assert (ar_guard r ∈ slo hG (cs_h s)) as Hin by (apply slo_elem; exists h, (XArc r), k; split; [done|left]). apply cnt_pos in Hin. lia.
    Qed.
    Lemma q_uniq y y' n n' x : rc_get (guards s) y = Some n -> rc_get (guards s) y' = Some n' -> D !! y = Some x -> D !! y' = Some x -> y = y'.
    Proof.
      intros Hy Hy' Hx Hx'. destruct (lookup_lt_is_Some_2 (gd_metas (cs_g s)) x) as [m Hm]; [by eapply (gi_dom _ _ _ _ _ q_ginv)|].
      destruct (gi_box _ _ _ _ _ q_ginv x m Hm) as (o & _ & _ & H). pose proof (H y n Hy Hx). pose proof (H y' n' Hy' Hx'). congruence.
    Qed.
    Lemma q_chain x x' : below (cs_g s) x x' -> forall y n, dl s x -> rc_get (guards s) y = Some n -> D !! y = Some x' ->
      exists q m, rc_get (guards s) q = Some m /\ exists p, a_parent m = Some p /\ D !! p = Some x /\ is_Some (rc_get (guards s) p).
    Proof.
      intros Hb. assert (forall y n c p, dl s p -> rc_get (guards s) y = Some n -> D !! y = Some c -> data_parent (cs_g s) c = Some p ->
        exists q, a_parent n = Some q /\ D !! q = Some p /\ is_Some (rc_get (guards s) q)) as Hone.
      { intros y n c p Hp Hy Hc Hcp. destruct (a_parent n) as [q|] eqn:Eq; [|by destruct (P y n c p Hy Eq Hc Hcp)].
        destruct (gi_par _ _ _ _ _ q_ginv _ _ _ _ Hy Eq Hc) as (_ & m & z & Hm & Hz & HD). exists q. split; [done|].
        unfold data_parent in Hcp. rewrite Hm in Hcp. cbn in Hcp. assert (z = p) as -> by congruence. split; [done|].
        destruct (rc_get_Some _ _ _ Hy) as [j Hl].
        destruct (count_get (guards s) q) as [v Hv]; [|by exists v]. rewrite (gi_cnt _ _ _ _ _ q_ginv).
        pose proof (hsum_ge (fun n => cnt q (a_pars n)) _ _ _ _ Hl) as Hge. unfold a_pars in Hge at 1. rewrite Eq in Hge. cbn in Hge. rewrite cnt_cons, decide_True in Hge by done. lia. }
      induction Hb as [x' Hx'|p x' Hp Hb IH]; intros y n Hl Hy HD.
      - destruct (Hone y n x' x Hl Hy HD Hx') as (q & H1 & H2 & H3). eauto 10.
      - assert (dl s p) as Hlp by by eapply q_down. destruct (Hone y n x' p Hlp Hy HD Hp) as (q & H1 & H2 & [m H3]). by eapply IH.
    Qed.
    Lemma slo_other {A} `{EqDecision A} (F : xhandle -> list nat) h x k i : cs_h s !! h = Some (Some (x, k)) ->
      cnt i (slo F (cs_h s)) = cnt i (F x) + cnt i (slo F (delete h (cs_h s))) /\
      (0 < cnt i (slo F (delete h (cs_h s))) <-> exists h' y j, h' <> h /\ cs_h s !! h' = Some (Some (y, j)) /\ i ∈ F y).
    Proof.
      intros Hh. split.
      - rewrite (cnt_perm _ _ _ (slo_perm F _ _ _ Hh)). apply cnt_app.
      - rewrite cnt_pos. unfold slo. rewrite elem_of_list_bind. split.
        + intros ([[y j]|] & Hx & (h' & Hne & E)%delete_elem); [eauto 10|by apply elem_of_nil in Hx].
        + intros (h' & y & j & Hne & E & Hx). exists (Some (y, j)). split; [done|]. apply delete_elem. eauto.
    Qed.
    Lemma guard_count h r : cget s h = Some (XArc r) -> (rc_count (guards s) (ar_guard r) = 1 -> ~ same_or_below (ar_data r) h) /\ (rc_count (guards s) (ar_guard r) = 1 \/ same_or_below (ar_data r) h).
    Proof.
      intros Hg. destruct (q_guard h r Hg) as [HD [n Hn]]. pose proof Hg as Hg'. apply q_get in Hg' as [k Hh].
      pose proof (gi_cnt _ _ _ _ _ q_ginv (ar_guard r)) as E. destruct (slo_other (A:=nat) hG h _ _ (ar_guard r) Hh) as [E1 E2].
      rewrite E1 in E. cbn [hG] in E. rewrite cnt_cons, decide_True in E by done. rewrite cnt_nil in E. rewrite E. clear E E1. split.
      - intros E (h' & r' & Hne & Hh' & Hr). destruct (q_guard h' r' Hh') as [HD' [n' Hn']]. destruct Hr as [Hr|Hb].
        + assert (ar_guard r = ar_guard r') as Eg by (eapply q_uniq; [exact Hn|exact Hn'|exact HD|congruence]).
          apply q_get in Hh' as [k' Hh']. assert (0 < cnt (ar_guard r) (slo hG (delete h (cs_h s)))) as Hp; [|lia].
          apply E2. exists h', (XArc r'), k'. split; [done|]. split; [done|]. rewrite Eg. left.
        + destruct (q_chain _ _ Hb (ar_guard r') n' (q_ref _ _ Hg) Hn' HD') as (q & m & Hm & p & Hp & HDp & [np Hnp]).
          assert (p = ar_guard r) as -> by (eapply q_uniq; [exact Hnp|exact Hn|done..]).
          destruct (rc_get_Some _ _ _ Hm) as [j Hl]. pose proof (hsum_ge (fun n => cnt (ar_guard r) (a_pars n)) _ _ _ _ Hl) as Hge.
          unfold a_pars in Hge at 1. rewrite Hp in Hge. cbn in Hge. rewrite cnt_cons, decide_True in Hge by done. lia.
      - destruct (cnt (ar_guard r) (slo hG (delete h (cs_h s)))) as [|c] eqn:E3.
        2: { right.
          destruct (proj1 E2 ltac:(lia)) as (h' & v & j & Hne & Hh' & Hv). destruct v as [r'| | | | |]; try by apply elem_of_nil in Hv.
          apply elem_of_list_singleton in Hv. exists h', r'. split; [done|]. split; [apply q_get; eauto|]. left.
          pose proof (G_slot _ _ G _ _ _ Hh') as Hr'. cbn in Hr'. unfold rok in Hr'. congruence. }
        destruct (hsum (fun n => cnt (ar_guard r) (a_pars n)) (guards s)) as [|c] eqn:Ec; [left; lia|]. right.
        destruct (hsum_pos (fun n => cnt (ar_guard r) (a_pars n)) (guards s)) as (j & c' & m & Hj & Hp); [lia|].
        apply cnt_pos in Hp. unfold a_pars in Hp. destruct (a_parent m) as [p|] eqn:Ep; [|by apply elem_of_nil in Hp].
        apply elem_of_list_singleton in Hp as <-. pose proof (rc_get_live _ _ _ _ Hj) as Hm.
        destruct (lookup_lt_is_Some_2 D j) as [x' Hx']; [rewrite (gi_len _ _ _ _ _ q_ginv); by eapply live_lt|].
        destruct (gi_par _ _ _ _ _ q_ginv _ _ _ _ Hm Ep Hx') as (Hlt' & mt & z & Hmt & Hz & HDp). assert (z = ar_data r) as -> by congruence.
        destruct (guard_slice s D G Q _ j m x' (le_n _) Hm Hx') as (h' & r' & Hh' & Hr').
        assert (below (cs_g s) (ar_data r) (ar_data r')) as Hb.
        { eapply below_trans_half; [|destruct Hr' as [Hr'|Hr']; [by left|right; exact Hr']]. unfold data_parent. by rewrite Hmt. }
        exists h', r'. split; [|by eauto]. intros ->. assert (r' = r) as -> by congruence. pose proof (below_lt s D _ _ G Hb). lia.
    Qed.
    Lemma data_count h r : cget s h = Some (XArc r) -> (rc_count (datas s) (ar_data r) = 1 -> ~ same_or_above (ar_data r) h) /\ (rc_count (datas s) (ar_data r) = 1 \/ same_or_above (ar_data r) h).
    Proof.
      intros Hg. pose proof Hg as Hg'. apply q_get in Hg' as [k Hh].
      pose proof (di_cnt _ _ _ _ _ _ q_dinv (ar_data r)) as E. destruct (slo_other (A:=nat) hR h _ _ (ar_data r) Hh) as [E1 E2].
      rewrite E1 in E. cbn [hR] in E. rewrite cnt_cons, decide_True in E by done. rewrite cnt_nil in E. rewrite E. clear E E1. split.
      - intros E (h' & r' & Hne & Hh' & Hr). destruct Hr as [Hr|Hb].
        + apply q_get in Hh' as [k' Hh']. assert (0 < cnt (ar_data r) (slo hR (delete h (cs_h s)))) as Hp; [|lia].
          apply E2. exists h', (XArc r'), k'. split; [done|]. split; [done|]. rewrite <- Hr. left.
        + destruct (below_down _ _ _ Hb) as (p & Hp & Hup). assert (dl s p) as [n Hn].
          { destruct Hup as [<-|Hup]; [by eapply q_ref|]. eapply q_down; [by eapply q_ref|done]. }
          pose proof (m_par _ M _ _ _ Hp Hn) as Hk. destruct (rc_get_Some _ _ _ Hn) as [j Hl].
          pose proof (hsum_ge (fun n => cnt (ar_data r) (kids n)) _ _ _ _ Hl) as Hge. apply cnt_pos in Hk. lia.
      - destruct (cnt (ar_data r) (slo hR (delete h (cs_h s)))) as [|c] eqn:E3.
        2: { right.
          destruct (proj1 E2 ltac:(lia)) as (h' & v & j & Hne & Hh' & Hv). destruct v as [r'| | | | |]; try by apply elem_of_nil in Hv.
          apply elem_of_list_singleton in Hv. exists h', r'. split; [done|]. split; [apply q_get; eauto|]. by left. }
        destruct (hsum (fun n => cnt (ar_data r) (kids n)) (datas s)) as [|c] eqn:Ec; [left; lia|]. right.
        destruct (hsum_pos (fun n => cnt (ar_data r) (kids n)) (datas s)) as (p & c' & m & Hp & Hk); [lia|].
        apply cnt_pos in Hk. pose proof (rc_get_live _ _ _ _ Hp) as Hm. pose proof (m_kid _ M _ _ _ Hm Hk) as Hpar.
        destruct (proj1 (q_alive p)) as (h' & r' & Hh' & Hr'); [by exists m|]. assert (below (cs_g s) (ar_data r') (ar_data r)) as Hb by by eapply below_up.
        exists h', r'. split; [|by eauto]. intros ->. assert (r' = r) as -> by congruence. pose proof (below_lt s D _ _ G Hb). lia.
    Qed.
    Lemma weak_count h r : cget s h = Some (XArc r) ->
      (gd_weak_count (cs_g s) (ar_guard r) = 1 -> ~ watched s r) /\ (gd_weak_count (cs_g s) (ar_guard r) = 1 \/ watched s r).
    Proof.
      intros Hg. destruct (q_guard h r Hg) as [HD [n Hn]]. unfold gd_weak_count.
      destruct (lookup_lt_is_Some_2 (gd_weak (cs_g s)) (ar_guard r)) as [c Hc]; [rewrite (gi_lenw _ _ _ _ _ q_ginv); by eapply rc_get_lt|].
      rewrite Hc, (gi_wcnt _ _ _ _ _ q_ginv _ _ Hc). split.
      - intros E (h' & od & Hh'). assert (ar_guard r ∈ slo hW (cs_h s)) as Hin; [|apply cnt_pos in Hin; lia].
        apply slo_elem. unfold cget, slot in Hh'. destruct (cs_h s !! h') as [[[v k]|]|] eqn:Eh; try done. cbn in Hh'. injection Hh' as ->.
        exists h', (XWeak od (Some (ar_guard r))), k. split; [done|]. left.
      - destruct (cnt (ar_guard r) (slo hW (cs_h s))) as [|c'] eqn:Ec; [by left|]. right.
        assert (ar_guard r ∈ slo hW (cs_h s)) as (h' & v & k & Hh' & Hv)%slo_elem by (apply cnt_pos; lia).
        destruct v as [|od [y|]| | | |]; try by apply elem_of_nil in Hv. apply elem_of_list_singleton in Hv as <-. exists h', od. unfold cget, slot. by rewrite Hh'.
    Qed.
    Lemma gates_open h r down n : cget s h = Some (XArc r) -> rc_get (guards s) (ar_guard r) = Some n -> a_gate down n = false.
    Proof. intros Hg Hn. pose proof (gi_gate _ _ _ _ _ q_ginv (ar_guard r) down) as E. rewrite Hn in E. cbn in E. by destruct (a_gate down n). Qed.
  End quiet.

  (** ** Single calls *)
  Lemma close_inv g y down g' ok : gate_try_close g y down = Ok (g', ok) -> rc_count (gd_guards g') y = rc_count (gd_guards g) y /\
    gd_weak g' = gd_weak g /\ exists n, rc_get (gd_guards g) y = Some n /\ ok = negb (a_gate down n) /\ rc_get (gd_guards g') y = Some (a_set_gate down true n).
  Proof.
    unfold gate_try_close, rc_val, rc_set, rc_get. destruct (gd_guards g !! y) as [[[j n]|]|] eqn:E; cbn; try done. intros [= <- <-]. cbn.
    unfold rc_count. rewrite E, list_lookup_insert by by eapply lookup_lt_Some. eauto 10.
  Qed.
  Lemma release_alloc_mem d (o : option nat) d' : alloc_release (V:=V) sz d o = Ok d' -> dw_mem d' = dw_mem d.
  Proof.
    unfold alloc_release. destruct o as [a|]; [|by intros [= <-]]. intros H. apply bind_inv in H as ([h [v|]] & _ & H); [|by injection H as <-].
    unfold salloc_drop in H. repeat (case_match; try done); injection H as <-; done.
  Qed.
  Lemma forget_mem fuel : forall d n d' n', data_forget_items (V:=V) sz fuel d n = Ok (d', n') -> dw_mem d' = dw_mem d.
  Proof.
    induction fuel as [|fuel IH]; [done|]. intros d n d' n'. rewrite forget_items_eq. intros H.
    assert (forall (d : dworld V) o d', forget_child sz fuel d o = Ok d' -> dw_mem d' = dw_mem d) as Hf.
    { intros d0 [c|] d1; cbn [forget_child]; [|by intros [= <-]]. intros E. apply bind_inv in E as ([h o] & Hu & E). destruct o as [m|].
      - apply bind_inv in E as ([d2 m'] & Hi & E). apply IH in Hi. apply release_alloc_mem in E. rewrite E, Hi. done.
      - cbn [data_release] in E. apply bind_inv in E as ([h' r] & Hd & E). unfold rc_try_unwrap in Hu. cbn [dw_set_datas dw_datas] in Hd. unfold rc_dec in Hd.
        destruct (dw_datas d0 !! c) as [[[[|[|j]] v]|]|] eqn:Ec; try done. injection Hu as <-. rewrite Ec in Hd. injection Hd as <- <-. by injection E as <-. }
    apply bind_inv in H as (d1 & H1 & H). apply bind_inv in H as (d2 & H2 & [= <- <-]). apply Hf in H1, H2. congruence.
  Qed.
  Lemma into_mem d n d' x : data_into_mut (V:=V) sz d n = Ok (d', x) -> dw_mem d' = dw_mem d.
  Proof.
    unfold data_into_mut. intros H. apply bind_inv in H as ([d1 n1] & H1 & H). apply bind_inv in H as (d2 & H2 & [= <- <-]).
    apply forget_mem in H1. apply release_alloc_mem in H2. congruence.
  Qed.
  Lemma into_iff d g r x (o : mutslice + arcslice) n : rc_get (gd_guards g) (ar_guard r) = Some n -> a_gate false n = false ->
    arc_into_mut sz (V:=V) (d, g) r = Ok (x, o) -> dw_mem (fst x) = dw_mem d /\
    match o with
    | inl m => rc_count (gd_guards g) (ar_guard r) = 1 /\ rc_count (dw_datas d) (ar_data r) = 1 /\
        exists c, rc_get (dw_datas d) (ar_data r) = Some c /\ si_ptr (ms_items m) = d_ptr c /\ si_len (ms_items m) = d_len c
    | Datatypes.inr r' => r' = r /\ ~ (rc_count (gd_guards g) (ar_guard r) = 1 /\ rc_count (dw_datas d) (ar_data r) = 1)
    end.
  Proof.
    intros Hn Hg. unfold arc_into_mut. cbn [fst snd]. intros H. apply bind_inv in H as ([w ok] & Hc & H).
    apply close_inv in Hc as (Ec & _ & n' & Hn' & -> & _). assert (n' = n) as -> by congruence. rewrite Hg in H. cbn [negb] in H. rewrite Ec in H.
    destruct (Nat.eqb_spec (rc_count (gd_guards g) (ar_guard r)) 1) as [E1|E1].
    - apply bind_inv in H as ([h o1] & Hu & H). unfold rc_try_unwrap in Hu. assert (rc_count (dw_datas d) (ar_data r) = match dw_datas d !! ar_data r with Some (Some (k, _)) => k | _ => 0 end) as -> by done. unfold rc_get at 1.
      destruct (dw_datas d !! ar_data r) as [[[[|[|j]] c]|]|] eqn:Ed; try done; injection Hu as <- <-.
      2: apply bind_inv in H as (w1 & _ & [= <- <-]); split; [done|]; split; [done|]; by intros [_ [=]].
      apply bind_inv in H as ([d1 [it al]] & Hd & H). apply bind_inv in H as (w1 & _ & H). apply bind_inv in H as (w2 & _ & [= <- <-]). cbn [fst snd ms_items ms_alloc default].
      split; [by apply into_mem in Hd|]. split; [done|]. split; [done|]. unfold data_into_mut in Hd. apply bind_inv in Hd as ([d2 self] & Hf & Hd').
      apply bind_inv in Hd' as (d3 & _ & [= <- <- <-]). eauto.
    - apply bind_inv in H as (w1 & _ & [= <- <-]). split; [done|]. split; [done|]. by intros [? _].
  Qed.
  Lemma get_iff d g r x o n : rc_get (gd_guards g) (ar_guard r) = Some n -> a_gate false n = false -> a_gate true n = false -> is_Some (rc_get (dw_datas d) (ar_data r)) ->
    arc_get_mut (V:=V) (d, g) r = Ok (x, o) ->
    is_Some o <-> gd_weak_count g (ar_guard r) = 1 /\ rc_count (gd_guards g) (ar_guard r) = 1 /\ rc_count (dw_datas d) (ar_data r) = 1.
  Proof.
    intros Hn Hg0 Hg1 [c Hc]. unfold arc_get_mut. cbn [fst snd]. intros H. apply bind_inv in H as ([w ok] & Hcl & H).
    apply close_inv in Hcl as (Ec & Ew & n' & Hn' & -> & Hn1). assert (n' = n) as -> by congruence. rewrite Hg1 in H. cbn [negb] in H.
    apply bind_inv in H as ([w1 o1] & H1 & H). apply bind_inv in H as (w2 & _ & [= <- <-]).
    replace (gd_weak_count g (ar_guard r)) with (gd_weak_count w (ar_guard r)) by (unfold gd_weak_count; by rewrite Ew).
    destruct (Nat.eqb_spec (gd_weak_count w (ar_guard r)) 1) as [E1|E1].
    2: { injection H1 as <- <-. split; [by intros []|by intros [? _]]. }
    apply bind_inv in H1 as ([w3 ok] & Hcl & H1). apply close_inv in Hcl as (Ec' & _ & n2 & Hn2 & -> & _). assert (n2 = a_set_gate true true n) as -> by congruence.
    cbn [a_gate a_set_gate a_clone negb] in H1. change (a_clone n) with (a_gate false n) in H1. rewrite Hg0 in H1. cbn [negb] in H1. rewrite Ec', Ec in H1.
    apply bind_inv in H1 as (o2 & H2 & H1). apply bind_inv in H1 as (w4 & _ & [= <- <-]).
    destruct (Nat.eqb_spec (rc_count (gd_guards g) (ar_guard r)) 1) as [E2|E2].
    2: { injection H2 as <-. split; [by intros []|by intros (_ & ? & _)]. }
    apply bind_inv in H2 as (c' & _ & H2). destruct (Nat.eqb_spec (rc_count (dw_datas d) (ar_data r)) 1) as [E3|E3]; injection H2 as <-.
    - split; [done|]. eauto.
    - split; [by intros []|by intros (_ & _ & ?)].
  Qed.
  Lemma upgrade_iff d g u x o : aweak_upgrade sz (V:=V) (d, g) u = Ok (x, o) ->
    match o with
    | Some r => u = Some (ar_data r) /\ is_Some (rc_get (dw_datas d) (ar_data r))
    | None => forall y, u = Some y -> rc_get (dw_datas d) y = None
    end.
  Proof.
    unfold aweak_upgrade. cbn [fst snd]. destruct (rc_upgrade (dw_datas d) u) as [h o1] eqn:E. unfold rc_upgrade in E. destruct u as [y|].
    2: { injection E as <- <-. by intros [= <- <-]. }
    unfold rc_get. destruct (dw_datas d !! y) as [[[j c]|]|] eqn:Ed; injection E as <- <-.
    - intros H. apply bind_inv in H as ([x1 r] & H & [= <- <-]). unfold arc_from_data in H. apply bind_inv in H as ([x2 y'] & _ & [= <- <-]). cbn. rewrite Ed. eauto.
    - intros [= <- <-]. intros y' [= <-]. by rewrite Ed.
    - intros [= <- <-]. intros y' [= <-]. by rewrite Ed.
  Qed.

  Context n es s t (Hc : always sz calm n es) (Hr : creach sz n es s) (Q : quiescent s) (Hi : idle s t).
  Lemma quiet_inv : exists D T L, WI sz s D T L.
  Proof. destruct (calm_inv sz n es Hc) as (s' & D & T & L & Hr' & W & _). unfold creach in *. rewrite Hr in Hr'. injection Hr' as <-. eauto. Qed.
  Lemma quiet_calm o : forall m, always sz calm n (es ++ solo t o m).
  Proof.
    eapply uncontended_calm; [done..|]. intros t' u _. split.
    - intros (st & h & w & f & Hst & Hf & _). rewrite (Q _ _ Hst) in Hf. by apply elem_of_nil in Hf.
    - intros (r & _ & [[k Hst]|(c & a & k & Hst & _)]); by apply Q in Hst.
  Qed.
  Lemma quiet_slot h x : cget s h = Some x -> slot s h = Some (x, 0).
  Proof.
    destruct quiet_inv as (D & T & L & W). pose proof (G_bor _ _ (W_G _ _ _ _ _ W) h) as E.
    replace (thr fB (cs_t s)) with (@nil nat) in E.
    2: { symmetry. apply elem_of_nil_inv. intros y (t' & st & Hst & Hx)%thr_elem. rewrite (Q _ _ Hst) in Hx. by apply elem_of_nil in Hx. }
    unfold cget, slot. unfold kof, slot in E. destruct (cs_h s !! h) as [[[y k]|]|]; cbn; try done. intros [= ->]. rewrite cnt_nil in E. by rewrite <- E.
  Qed.
  Lemma quiet_take o : may_take s o.
  Proof. intros h x k _ Hh. pose proof (quiet_slot h x) as H. unfold cget in H. rewrite Hh in H. specialize (H eq_refl). congruence. Qed.
  Lemma quiet_after s' : idle s' t -> others_kept s s' t -> quiescent s'.
  Proof. intros Hi' [Ho _] t' st Hst. destruct (decide (t' = t)) as [->|Hne]; [unfold idle in Hi'; congruence|]. rewrite Ho in Hst by done. by eapply Q. Qed.
  Lemma world_cget (s' : cstate V) h : cget s' h = xget (world s') h.
  Proof. unfold cget, slot, xget, world. cbn. rewrite list_lookup_fmap. by destruct (cs_h s' !! h) as [[[]|]|]. Qed.
  Lemma quiet_open y down : ~ gate_closed s y down.
  Proof.
    destruct quiet_inv as (D & T & L & W). intros (c & Hn & E). pose proof (gi_gate _ _ _ _ _ (q_ginv s D T L W Q) y down) as H.
    rewrite Hn in H. cbn in H. by rewrite E in H.
  Qed.
  Lemma quiet_calls o : ~ spins sz s t o.
  Proof. intros (y & down & s1 & H & _). by eapply quiet_open. Qed.
  Lemma other_get (s' : cstate V) d g h hs x : h < length (cs_h s) -> world s' = AW d g (<[h := x]> ((fun o : option (xhandle * nat) => fst <$> o) <$> cs_h s) ++ hs) ->
    cget s' h = x /\ forall h', h' <> h -> h' < length (cs_h s) -> cget s' h' = cget s h'.
  Proof.
    intros Hlt E. split.
    - rewrite world_cget, E. unfold xget. cbn [aw_h]. rewrite lookup_app_l by (rewrite insert_length, fmap_length; exact Hlt). rewrite list_lookup_insert; [by destruct x|by rewrite fmap_length].
    - intros h' Hne Hlt'. rewrite !world_cget, E. unfold xget. cbn [aw_h world]. rewrite lookup_app_l by (rewrite insert_length, fmap_length; exact Hlt'). by rewrite list_lookup_insert_ne.
  Qed.
  Lemma new_get (s' : cstate V) d g hs x : length hs = length (cs_h s) -> world s' = AW d g (hs ++ [x]) -> cget s' (length (cs_h s)) = x.
  Proof. intros El E. rewrite world_cget, E. unfold xget. cbn [aw_h]. rewrite <- El, lookup_app_r, Nat.sub_diag by done. by destruct x. Qed.
  Lemma get_lt h x : cget s h = Some x -> h < length (cs_h s).
  Proof. unfold cget, slot. destruct (cs_h s !! h) eqn:E; [|done]. intros _. by eapply lookup_lt_Some. Qed.
  Lemma shared_iff D T L h r : WI sz s D T L -> cget s h = Some (XArc r) -> let P := rc_count (guards s) (ar_guard r) = 1 /\ rc_count (datas s) (ar_data r) = 1 in
    (P -> ~ shared s h r) /\ (P \/ shared s h r).
  Proof.
    intros W Hh. destruct (guard_count s D T L W Q h r Hh) as [A1 A2]. destruct (data_count s D T L W Q h r Hh) as [B1 B2]. cbn. split.
    - intros [H1%A1 H2%B1] (h' & r' & ? & ? & [?|[?|?]]); [apply H1|apply H1|apply H2]; exists h', r'; eauto 10.
    - destruct A2 as [A2|(h' & r' & ? & ? & [?|?])]; [|right; exists h', r'; eauto 10..].
      destruct B2 as [B2|(h' & r' & ? & ? & [?|?])]; [by left|right; exists h', r'; eauto 10..].
  Qed.

  Lemma into_mut_when h r : cget s h = Some (XArc r) ->
    exists m s', crun sz s (solo t (CIntoMut h) m) = Ok s' /\ quiescent s' /\ cget s' h = None /\
      (forall h', h' <> h -> h' < length (cs_h s) -> cget s' h' = cget s h') /\ (forall c, citem s' c = citem s c) /\
      ((~ shared s h r /\ cs_out s' = cs_out s ++ [(t, RHandle (length (cs_h s)))] /\
          (exists q, cget s' (length (cs_h s)) = Some (XMut q)) /\ ccells s' (length (cs_h s)) = ccells s h) \/
       (shared s h r /\ cs_out s' = cs_out s ++ [(t, RErr)] /\ cget s' (length (cs_h s)) = Some (XArc r))).
  Proof.
    intros Hh. destruct quiet_inv as (D & T & L & W). destruct (q_guard s D T L W Q h r Hh) as [_ [gn Hgn]].
    pose proof (gates_open s D T L W Q h r false gn Hh Hgn) as Hgo. pose proof (shared_iff D T L h r W Hh) as Hsh. pose proof (get_lt _ _ Hh) as Hlt.
    pose proof (used_call sz (fun v => v) (fun x => x) (fun x => x) true n es s t (CIntoMut h) (quiet_calm _) Hr Hi (quiet_take _)
      ltac:(done) ltac:(done)) as H.
    cbn [same_op] in H. cbn [astep] in H. pose proof Hh as Hx. rewrite world_cget in Hx. rewrite Hx in H. cbn [world aw_d aw_g] in H.
    destruct (arc_into_mut sz (cs_d s, cs_g s) r) as [[[d g] o]| | |] eqn:Ea; cbn [mbind res_bind outcome] in H; [|done|done|].
    2: { exfalso. by eapply quiet_calls. }
    apply (into_iff _ _ _ _ _ gn) in Ea as [Em Ea]; [|done..]. destruct o as [q|r1]; cbn [xret_new xret outcome fst snd] in H.
    - destruct H as (m & s' & Hrun & Hid & Hout & Hk & Hw). destruct Ea as (E1 & E2 & c & Ec & Ep & El).
      rewrite insert_length in Hout. cbn [world aw_h] in Hout. rewrite fmap_length in Hout.
      destruct (other_get s' _ _ _ _ _ Hlt Hw) as [Hn Ho]. assert (Hq := fun El => new_get s' _ _ _ _ El Hw). cbn [world aw_h] in Hq. rewrite insert_length, fmap_length in Hq. specialize (Hq eq_refl).
      exists m, s'. split; [done|]. split; [by apply quiet_after|]. split; [done|]. split; [done|]. split; [intros c0; unfold citem; apply (f_equal aw_d) in Hw; cbn in Hw; by rewrite Hw, <- Em|].
      left. split_and!; [by apply Hsh|done|eauto|]. unfold ccells. rewrite Hq, Hh. cbn [xcells]. unfold data_cells, data_rng, slice_cells. by rewrite Ec, Ep, El.
    - destruct H as (h' & Eh & m & s' & Hrun & Hid & Hout & Hk & Hw). injection Eh as <-. destruct Ea as [-> Hne].
      unfold moved in Hw. cbn [aw_d aw_g aw_h world] in Hw. rewrite list_insert_insert, list_lookup_insert in Hw by by rewrite fmap_length. cbn [mjoin option_join] in Hw.
      destruct (other_get s' _ _ _ _ _ Hlt Hw) as [Hn Ho]. assert (Hq := fun El => new_get s' _ _ _ _ El Hw). cbn [world aw_h] in Hq. rewrite insert_length, fmap_length in Hq. specialize (Hq eq_refl).
      exists m, s'. split; [done|]. split; [by apply quiet_after|]. split; [done|]. split; [done|]. split; [intros c0; unfold citem; apply (f_equal aw_d) in Hw; cbn in Hw; by rewrite Hw, <- Em|].
      right. split_and!; [|done..]. by destruct Hsh as [_ [?|?]].
  Qed.
  Lemma arc_data_live h r : cget s h = Some (XArc r) -> is_Some (rc_get (datas s) (ar_data r)).
  Proof. intros Hh. destruct quiet_inv as (D & T & L & W). by eapply (q_ref s D T L W). Qed.
  Lemma arc_get_mem d g r x o : arc_get_mut (V:=V) (d, g) r = Ok (x, o) -> fst x = d.
  Proof.
    unfold arc_get_mut. cbn [fst snd]. intros H. apply bind_inv in H as ([w ok] & _ & H). destruct ok; [|by injection H as <- <-].
    apply bind_inv in H as ([w1 o1] & _ & H). by apply bind_inv in H as (w2 & _ & [= <- <-]).
  Qed.
  Lemma get_mut_when h r : cget s h = Some (XArc r) ->
    exists m s', crun sz s (solo t (CGetMut h) m) = Ok s' /\
      (forall h', h' <> h -> h' < length (cs_h s) -> cget s' h' = cget s h') /\ cs_d s' = cs_d s /\ cget s' h = None /\
      ((~ shared s h r /\ ~ watched s r /\ holds_mut s' t r /\ cs_out s' = cs_out s) \/
       ((shared s h r \/ watched s r) /\ quiescent s' /\ cs_out s' = cs_out s ++ [(t, RNone)] /\ cget s' (length (cs_h s)) = Some (XArc r))).
  Proof.
    intros Hh. destruct quiet_inv as (D & T & L & W). destruct (q_guard s D T L W Q h r Hh) as [_ [gn Hgn]].
    pose proof (fun down => gates_open s D T L W Q h r down gn Hh Hgn) as Hgo. pose proof (shared_iff D T L h r W Hh) as Hsh. pose proof (get_lt _ _ Hh) as Hlt.
    destruct (weak_count s D T L W Q h r Hh) as [Hw1 Hw2].
    pose proof (get_call sz (fun v => v) (fun x => x) (fun x => x) true n es s t h (quiet_calm _) Hr Hi (quiet_take _)) as H.
    cbn [astep] in H. pose proof Hh as Hx. rewrite world_cget in Hx. rewrite Hx in H. cbn [world aw_d aw_g] in H.
    destruct (arc_get_mut (cs_d s, cs_g s) r) as [[[d g] o]| | |] eqn:Ea; cbn [mbind res_bind mut_outcome] in H; try done.
    pose proof (arc_get_mem _ _ _ _ _ Ea) as Ed. cbn in Ed. subst d.
    apply (get_iff _ _ _ _ _ gn) in Ea; [|done|apply Hgo|apply Hgo|by eapply arc_data_live].
    destruct o as [[p len]|].
    - unfold xret_slice in H. cbn [fst snd] in H. destruct (mem_read sz (cs_d s) (N.to_nat len) p) as [vs| | |]; cbn [mbind res_bind mut_outcome] in H; try done.
      destruct H as (r' & m & s' & s'' & Hh' & Hrun & Hm & Hout & Hk & Hw & _). assert (r' = r) as -> by congruence.
      destruct (proj1 Ea ltac:(eauto)) as (C1 & C2).
      cbn [aw_d aw_g aw_h world] in Hw. rewrite <- (app_nil_r (<[h := None]> _)) in Hw.
      destruct (other_get s' _ _ _ _ _ Hlt Hw) as [Hn Ho]. exists m, s'. split; [done|]. split; [done|]. split; [by apply (f_equal aw_d) in Hw|]. split; [done|].
      left. split_and!; [by apply Hsh|by apply Hw1|done..].
    - cbn [xret mut_outcome] in H. destruct H as (m & s' & Hrun & Hid & Hout & Hk & Hw).
      unfold moved in Hw. cbn [aw_d aw_g aw_h world] in Hw. rewrite list_lookup_fmap in Hw.
      assert (cs_h s !! h = Some (Some (XArc r, 0))) as Hs by by apply slot_Some, quiet_slot. rewrite Hs in Hw. cbn [fmap option_fmap option_map fst mjoin option_join] in Hw.
      destruct (other_get s' _ _ _ _ _ Hlt Hw) as [Hn Ho].
      assert (Hq := fun El => new_get s' _ _ _ _ El Hw). cbn [world aw_h] in Hq. rewrite insert_length, fmap_length in Hq. specialize (Hq eq_refl).
      exists m, s'. split; [done|]. split; [done|]. split; [by apply (f_equal aw_d) in Hw|]. split; [done|]. right. split_and!; [|by apply quiet_after|done..].
      destruct Hsh as [_ [[Hs1 Hs2]|Hs1]]; [|by left]. destruct Hw2 as [Hw2|Hw2]; [|by right]. exfalso. destruct (proj2 Ea ltac:(eauto)); done.
  Qed.
  Lemma upgrade_when h od w : cget s h = Some (XWeak od w) ->
    exists m s', crun sz s (solo t (CUpgrade h) m) = Ok s' /\ quiescent s' /\
      (forall h', h' < length (cs_h s) -> cget s' h' = cget s h') /\
      ((exists u r, od = Some u /\ kept s u /\ ar_data r = u /\ cs_out s' = cs_out s ++ [(t, RHandle (length (cs_h s)))] /\ cget s' (length (cs_h s)) = Some (XArc r)) \/
       ((forall u, od = Some u -> ~ kept s u) /\ cs_out s' = cs_out s ++ [(t, RNone)])).
  Proof.
    intros Hh. destruct quiet_inv as (D & T & L & W). pose proof (q_alive s D T L W Q) as Hal. pose proof (get_lt _ _ Hh) as Hlt.
    pose proof (used_call sz (fun v => v) (fun x => x) (fun x => x) true n es s t (CUpgrade h) (quiet_calm _) Hr Hi (quiet_take _)
      ltac:(done) ltac:(done)) as H.
    cbn [same_op] in H. cbn [astep] in H. pose proof Hh as Hx. rewrite world_cget in Hx. rewrite Hx in H. cbn [world aw_d aw_g] in H.
    destruct (aweak_upgrade sz (cs_d s, cs_g s) od) as [[[d g] o]| | |] eqn:Ea; cbn [mbind res_bind outcome] in H; [|done|done|].
    2: { exfalso. by eapply quiet_calls. }
    apply upgrade_iff in Ea. destruct o as [r|]; cbn [xret_new xret outcome fst snd] in H.
    all: destruct H as (m & s' & Hrun & Hid & Hout & Hk & Hw); cbn [world aw_h] in Hout, Hw.
    - rewrite fmap_length in Hout. destruct Ea as [-> Hlive].
      assert (Hq := fun El => new_get s' _ _ _ _ El Hw). rewrite fmap_length in Hq. specialize (Hq eq_refl).
      exists m, s'. split; [done|]. split; [by apply quiet_after|]. split.
      { intros h' Hl. rewrite !world_cget, Hw. unfold xget. cbn [aw_h world]. by rewrite lookup_app_l by by rewrite fmap_length. }
      left. exists (ar_data r), r. split_and!; try done. by apply Hal.
    - exists m, s'. split; [done|]. split; [by apply quiet_after|]. split.
      { intros h' Hl. rewrite !world_cget, Hw. done. }
      right. split; [|done]. intros u Hu [c Hl]%Hal. specialize (Ea u Hu). by rewrite Ea in Hl.
  Qed.
End exact.
