(** Parents of datas and of guards under concurrency: [data.parent] mirrors the
    links to halves, and guards of live ancestors are chained. Holds after
    every schedule, whatever the threads do. *)
From Verif Require Import Base BaseLemmas Api SliceItemsModel Spec DataModel RcModel DataInv DataSteps GuardInv ArcModel ArcInv ArcConc ConcInv ConcGuard ConcWorld ConcChild ConcSpec.
Local Open Scope nat_scope.
#[local] Arguments slo {A} F hs : simpl never.
#[local] Arguments thr {V A} F ts : simpl never.

(** ** Ancestors *)
Definition ance (g : gdworld) (x y : nat) : Prop := x = y \/ below g x y.
Lemma data_parent_mpar g x y : data_parent g x = Some y <-> mpar g x = Some (Some y).
Proof. unfold data_parent, mpar. destruct (gd_metas g !! x) as [m|]; cbn; [|done]. split; [by intros ->|by intros [= ->]]. Qed.
Lemma ance_below g x y z : ance g x y -> below g y z -> below g x z.
Proof.
  intros [->|H]; [done|]. induction 1 as [z Hz|p z Hz Hp IH]; [by eapply below_more|by eapply below_more].
Qed.
Lemma below_ance g x y z : below g x y -> ance g y z -> below g x z.
Proof. intros H [<-|H2]; [done|]. eapply ance_below; [by right|done]. Qed.
Lemma ance_trans g x y z : ance g x y -> ance g y z -> ance g x z.
Proof. intros H [<-|H2]; [done|]. right. by eapply ance_below. Qed.
Lemma below_parent g x y p : below g x y -> data_parent g y = Some p -> ance g x p.
Proof. intros H Hp. inversion H as [z Hz|q z Hz Hq]; subst; [left; congruence|right]. by assert (p = q) as -> by congruence. Qed.
Lemma ance_child g x p y : ance g x p -> data_parent g y = Some p -> below g x y.
Proof. intros [->|H] Hp; [by apply below_half|by eapply below_more]. Qed.
Lemma below_root g x y : data_parent g y = None -> ~ below g x y.
Proof. intros E H. inversion H; congruence. Qed.

(** The datas there were keep their parents. *)
Definition mext (g g' : gdworld) : Prop :=
  (forall x, x < length (gd_metas g) -> data_parent g' x = data_parent g x) /\ length (gd_metas g) <= length (gd_metas g').
Lemma data_parent_lt g x p : data_parent g x = Some p -> x < length (gd_metas g).
Proof. unfold data_parent. destruct (gd_metas g !! x) eqn:E; [|done]. intros _. by eapply lookup_lt_Some. Qed.
Lemma below_mext g g' x y : mext g g' -> below g x y -> below g' x y.
Proof.
  intros [E _]. induction 1 as [y Hy|p y Hy Hp IH]; pose proof (data_parent_lt _ _ _ Hy) as Hlt.
  - apply below_half. by rewrite E.
  - apply below_more with p; [|done]. by rewrite E.
Qed.
Lemma ance_mext g g' x y : mext g g' -> ance g x y -> ance g' x y.
Proof. intros E [->|H]; [by left|right; by eapply below_mext]. Qed.
Lemma below_mext_inv g g' x y : mext g g' -> (forall x p, data_parent g x = Some p -> p < x) ->
  y < length (gd_metas g) -> below g' x y -> below g x y.
Proof.
  intros [E El] Hm Hy. induction 1 as [y H|p y H Hp IH].
  - apply below_half. by rewrite <- E.
  - rewrite E in H by done. apply below_more with p; [done|]. apply IH. pose proof (Hm _ _ H). lia.
Qed.
Lemma below_lt g x y : (forall x p, data_parent g x = Some p -> p < x) -> below g x y -> x < y.
Proof. intros Hm. induction 1 as [y H|p y H Hp IH]; [by apply Hm|]. pose proof (Hm _ _ H). lia. Qed.

(** ** Effects of a step on guards *)
Definition gkeepp (g g' : gdworld) : Prop := gd_metas g' = gd_metas g /\
  forall i n', rc_get (gd_guards g') i = Some n' -> exists n, rc_get (gd_guards g) i = Some n /\ a_parent n' = a_parent n.
Lemma gkeepp_refl g : gkeepp g g.
Proof. split; [done|]. eauto. Qed.
Lemma gkeepp_keep g gs : hkeep (gd_guards g) gs -> gkeepp g (gd_set_guards g gs).
Proof. intros [_ H]. split; [done|]. cbn. intros i n' Hn. exists n'. eauto. Qed.
Lemma gkeepp_gate g y down b gs : rc_set (gd_guards g) y (a_set_gate down b) = Ok gs -> gkeepp g (gd_set_guards g gs).
Proof.
  intros (s & v & Hv & ->)%rc_set_inv. split; [done|]. cbn. intros i n'. rewrite rc_get_insert by by eapply live_lt.
  destruct (decide (i = y)) as [->|]; [|eauto]. cbn. intros [= <-]. exists v. split; [by eapply rc_get_live|]. by destruct down.
Qed.
Lemma gkeepp_weak_inc g o g' : gd_weak_inc g o = Ok g' -> gkeepp g g'.
Proof. unfold gd_weak_inc. intros H. repeat case_match; try done; injection H as <-; (split; [done|]; cbn; eauto). Qed.
Lemma gkeepp_weak_dec g o g' : gd_weak_dec g o = Ok g' -> gkeepp g g'.
Proof. unfold gd_weak_dec. intros H. repeat case_match; try done; injection H as <-; (split; [done|]; cbn; eauto). Qed.
Lemma gkeepp_close g y down g' ok : gate_try_close g y down = Ok (g', ok) -> gkeepp g g'.
Proof.
  unfold gate_try_close. intros (n & _ & H)%bind_inv. apply bind_inv in H as (gs & H & [= <- <-]). by eapply gkeepp_gate.
Qed.
Lemma gkeepp_open g y down g' : gate_open g y down = Ok g' -> gkeepp g g'.
Proof. unfold gate_open. intros (gs & H & [= <-])%bind_inv. by eapply gkeepp_gate. Qed.

Section tree.
  Context {V : Type} (sz : N).
  Notation stack := (list (frame V)).
  Implicit Types (s : cstate V) (t : nat) (d : dworld V).

  Lemma mstep_g d g (st : stack) d' g' st' : mstep sz d g st = Ok (d', g', st') ->
    gkeepp g g' \/
    (exists x side k' n' k, st = FChildCas x side k' n' :: k /\ g' = gd_new_data g (Some x) /\
      st' = FV (VData (length (dw_datas d))) :: k) \/
    (exists x b pg k, st = FGuardCas x b pg :: k /\ gd_new_guard g x b pg = Ok (g', length (gd_guards g)) /\
      st' = FV (VGuard (length (gd_guards g))) :: k).
  Proof.
    intros Hs. unfold mstep in Hs. destruct st as [|f k]; [done|].
    destruct f; try done.
    - left. apply bind_inv in Hs as ([h r] & Hd & Hs). destruct r as [n|].
      + destruct (node_own sz n). injection Hs as <- <- <-. apply gkeepp_refl.
      + injection Hs as <- <- <-. apply gkeepp_refl.
    - left. destruct k0 as [|j].
      + apply bind_inv in Hs as (d1 & Hd & [= <- <- <-]). apply gkeepp_refl.
      + apply bind_inv in Hs as ([d1 v] & Hd & [= <- <- <-]). apply gkeepp_refl.
    - left. apply bind_inv in Hs as ([h r] & Hd & Hs). apply hkeep_dec in Hd. destruct r; injection Hs as <- <- <-; by apply gkeepp_keep.
    - left. apply bind_inv in Hs as (g1 & Hd & [= <- <- <-]). by eapply gkeepp_weak_dec.
    - left. apply bind_inv in Hs as (n & Hd & Hs). destruct (a_gate down n); injection Hs as <- <- <-; apply gkeepp_refl.
    - left. apply bind_inv in Hs as (n & Hn & Hs). destruct (_ <=? _)%N.
      + apply bind_inv in Hs as (h & Hd & [= <- <- <-]). apply gkeepp_refl.
      + destruct (d_child side n); injection Hs as <- <- <-; apply gkeepp_refl.
    - left. apply bind_inv in Hs as (h & Hd & [= <- <- <-]). apply gkeepp_refl.
    - left. apply bind_inv in Hs as (n & Hn & Hs). destruct (node_sub sz side n) as [p len].
      apply bind_inv in Hs as (d1 & Hd & [= <- <- <-]). apply gkeepp_refl.
    - apply bind_inv in Hs as (m & (s & Hm)%rc_val_inv & Hs). destruct (d_child side m) as [c|] eqn:Ec.
      + left. injection Hs as <- <- <-. apply gkeepp_refl.
      + right. left. apply bind_inv in Hs as (h1 & Hi & [= <- <- <-]). eauto 10.
    - left. apply bind_inv in Hs as (h & Hd & [= <- <- <-]). apply gkeepp_refl.
    - left. destruct k0 as [|[|j]]; try done. injection Hs as <- <- <-. apply gkeepp_refl.
    - left. destruct (_ =? 1); [|done]. injection Hs as <- <- <-. apply gkeepp_refl.
    - left. apply bind_inv in Hs as (n & _ & Hs). destruct (gd_metas g !! d0); [|done]. injection Hs as <- <- <-. apply gkeepp_refl.
    - left. destruct (gd_boxes g !! b) as [[wk|]|]; try done. destruct (rc_upgrade _ _) as [gs [y|]] eqn:E; injection Hs as <- <- <-; [|apply gkeepp_refl].
      apply gkeepp_keep. by eapply hkeep_upgrade.
    - left. destruct (gd_metas g !! d0); [|done]. destruct (rc_upgrade _ _) as [h [p|]] eqn:E; injection Hs as <- <- <-; apply gkeepp_refl.
    - apply bind_inv in Hs as (n & _ & Hs). destruct (gd_metas g !! d0); [|done]. destruct (_ =? _).
      + right. right. apply bind_inv in Hs as ([g1 y] & Hg & [= <- <- <-]).
        assert (y = length (gd_guards g)) as ->. { unfold gd_new_guard in Hg. cbn in Hg. repeat case_match; try done. by injection Hg. }
        eauto 10.
      + left. injection Hs as <- <- <-. apply gkeepp_refl.
    - left. destruct (gd_boxes g !! b) as [[wk|]|]; try done. destruct (rc_upgrade _ _) as [gs [y|]] eqn:E; injection Hs as <- <- <-; [|apply gkeepp_refl].
      apply gkeepp_keep. by eapply hkeep_upgrade.
    - left. apply bind_inv in Hs as (h & Hd & [= <- <- <-]). apply gkeepp_refl.
    - left. apply bind_inv in Hs as (h & Hd & [= <- <- <-]). apply gkeepp_keep. by eapply hkeep_inc.
    - left. apply bind_inv in Hs as (h & Hd & [= <- <- <-]). by eapply gkeepp_weak_inc.
    - left. apply bind_inv in Hs as (n & _ & Hs). apply bind_inv in Hs as (h & Hd & [= <- <- <-]). by eapply gkeepp_weak_inc.
    - left. destruct (rc_upgrade _ _) as [h [p|]] eqn:E; injection Hs as <- <- <-; apply gkeepp_refl.
    - left. apply bind_inv in Hs as ([g1 ok] & Hc & Hs). apply gkeepp_close in Hc. by destruct ok; injection Hs as <- <- <-.
    - left. destruct (_ =? 1); injection Hs as <- <- <-; apply gkeepp_refl.
    - left. apply bind_inv in Hs as ([g1 ok] & Hc & Hs). apply gkeepp_close in Hc. by destruct ok; injection Hs as <- <- <-.
    - left. destruct (_ =? 1); injection Hs as <- <- <-; apply gkeepp_refl.
    - left. destruct (_ =? 1); injection Hs as <- <- <-; apply gkeepp_refl.
    - left. apply bind_inv in Hs as ([g1 ok] & Hc & Hs). apply gkeepp_close in Hc. by destruct ok; injection Hs as <- <- <-.
    - left. destruct (_ =? 1); injection Hs as <- <- <-; apply gkeepp_refl.
    - left. destruct k as [|[] k]; try done. apply bind_inv in Hs as ([h o] & Hd & Hs).
      destruct o; injection Hs as <- <- <-; apply gkeepp_refl.
    - left. destruct (node_kids n) as [|c ks].
      + destruct k as [|[] k]; try (injection Hs as <- <- <-; apply gkeepp_refl).
        apply bind_inv in Hs as (d1 & Hd & [= <- <- <-]). apply gkeepp_refl.
      + apply bind_inv in Hs as ([h o] & Hd & Hs). destruct o; injection Hs as <- <- <-; apply gkeepp_refl.
    - left. destruct v; (destruct k as [|[] k]; try done;
        (lazymatch type of Hs with Ok _ = _ => injection Hs as <- <- <-; apply gkeepp_refl
         | _ => apply bind_inv in Hs as (? & Ho & Hs); apply gkeepp_open in Ho; by injection Hs as <- <- <- end)).
  Qed.

  (** ** Events that are not steps inside a call *)
  Definition nofg (f : frame V) : Prop := match f with FFg _ _ | KFg _ _ _ => False | _ => True end.
  Definition chok (st : stack) : Prop :=
    (exists y k, st = FWait y false :: k) \/ forall f x, f ∈ st -> ~ chframe f x.
  Inductive fresh s s' (st : stack) : stack -> Prop :=
  | Fr_none st' : stk fR st' = [] -> Forall nofg st' -> chok st' -> fresh s s' st st'
  | Fr_new n : n = length (dw_datas (cs_d s)) -> cs_g s' = gd_new_data (cs_g s) None ->
      fresh s s' st [FGuard n; KSlice n; KEnd None]
  | Fr_own h r st' : cs_h s !! h = Some (Some (XArc r, 0)) ->
      st' = [FGm1 r; KEnd None] \/ st' = [FIm1 r; KEnd None] \/
      (exists o, st' = [FRel (ar_data r); FRelG (ar_guard r); FV (VFin None o); KEnd None]) -> fresh s s' st st'
  | Fr_hold r : st = [FV (VHold r); KEnd None] -> fresh s s' st [FHold r; KEnd None].
  Record qstep s s' : Prop := {
    q_d : (dw_datas (cs_d s') = dw_datas (cs_d s) /\ cs_g s' = cs_g s) \/
      exists k n, dw_datas (cs_d s') = dw_datas (cs_d s) ++ [Some (k, n)] /\ d_left n = None /\ d_right n = None /\
        cs_g s' = gd_new_data (cs_g s) None;
    q_h : forall h x k, cs_h s !! h = Some (Some (x, S k)) -> exists k', cs_h s' !! h = Some (Some (x, k'));
    q_t : (cs_t s' = cs_t s /\ forall y, y ∈ slo hR (cs_h s') -> y ∈ slo hR (cs_h s)) \/
      exists t st st', cs_t s !! t = Some st /\ cs_t s' = <[t := st']> (cs_t s) /\
        (forall y, y ∈ slo hR (cs_h s') -> y ∈ slo hR (cs_h s) \/ (y ∈ stk fR st /\ st' = [])) /\ fresh s s' st st'
  }.
  Lemma qstep_same s s' : dw_datas (cs_d s') = dw_datas (cs_d s) -> cs_g s' = cs_g s -> cs_h s' = cs_h s -> cs_t s' = cs_t s -> qstep s s'.
  Proof.
    intros E1 E2 E3 E4. split.
    - by left.
    - intros h x k. rewrite E3. eauto.
    - left. by rewrite E3.
  Qed.
  Lemma qstep_borrow s t h x k st' : cs_t s !! t = Some [] -> cs_h s !! h = Some (Some (x, k)) ->
    stk fR st' = [] -> Forall nofg st' -> chok st' -> qstep s (set_thread (borrow s h x k) t st').
  Proof.
    intros Ht Hh H1 H2 H3. split; cbn.
    - by left.
    - intros h' x' k' Hh'. destruct (decide (h' = h)) as [->|].
      + assert (x' = x) as -> by congruence. exists (S k). apply list_lookup_insert. by eapply lookup_lt_Some.
      + rewrite list_lookup_insert_ne by done. eauto.
    - right. exists t, [], st'. split_and!; [done..| |by constructor]. intros y. rewrite (slo_borrow _ _ _ _ _ _ Hh). by left.
  Qed.
  Lemma slo_take_elem (hs : list (option (xhandle * nat))) h y : y ∈ slo hR (<[h := None]> hs) -> y ∈ slo hR hs.
  Proof.
    intros (h' & x & k & Hh & Hy)%slo_elem. apply slo_elem. apply list_lookup_insert_Some in Hh as [(_ & [=] & _)|[_ Hh]]. eauto.
  Qed.
  Lemma take_keep (hs : list (option (xhandle * nat))) h o : hs !! h = Some (Some o) -> o.2 = 0 ->
    forall h' x k, hs !! h' = Some (Some (x, S k)) -> exists k', <[h := None]> hs !! h' = Some (Some (x, k')).
  Proof.
    intros Hh Ho h' x k Hh'. destruct (decide (h' = h)) as [->|].
    - destruct o as [x' k']. cbn in Ho. simplify_eq.
    - rewrite list_lookup_insert_ne by done. eauto.
  Qed.
  Lemma qstep_take s t h x st' : cs_t s !! t = Some [] -> cs_h s !! h = Some (Some (x, 0)) ->
    (forall s', cs_g s' = cs_g s -> fresh s s' [] st') -> qstep s (set_thread (take s h) t st').
  Proof.
    intros Ht Hh Hf. split; cbn.
    - by left.
    - by eapply take_keep.
    - right. exists t, [], st'. split_and!; [done..| |by apply Hf]. intros y Hy. left. by eapply slo_take_elem.
  Qed.
  Lemma end_borrow_keep (hs : list (option (xhandle * nat))) h l h' x k : hs !! h' = Some (Some (x, k)) ->
    exists k', (end_borrow hs h ++ l) !! h' = Some (Some (x, k')).
  Proof.
    intros Hh. assert (exists k', end_borrow hs h !! h' = Some (Some (x, k'))) as [k' Hk].
    { unfold end_borrow. destruct h as [h|]; [|eauto]. destruct (hs !! h) as [[[x' k']|]|] eqn:E; [|eauto..].
      destruct (decide (h' = h)) as [->|].
      - simplify_eq. exists (k - 1). apply list_lookup_insert. by eapply lookup_lt_Some.
      - rewrite list_lookup_insert_ne by done. eauto. }
    exists k'. by apply lookup_app_l_Some.
  Qed.
  Lemma slo_end (hs : list (option (xhandle * nat))) h : slo hR (end_borrow hs h) = slo hR hs.
  Proof.
    unfold end_borrow. destruct h as [h|]; [|done]. destruct (hs !! h) as [[[x' k']|]|] eqn:E; [|done..].
    by eapply slo_borrow.
  Qed.
  Lemma qstep_finish s t (st : stack) h x o : cs_t s !! t = Some st -> (forall y, x = Some y -> forall z, z ∈ hR y -> z ∈ stk fR st) ->
    qstep s (finish s t h x o).
  Proof.
    intros Ht Hx. split; cbn.
    - by left.
    - intros h' x' k Hh. by eapply end_borrow_keep.
    - right. exists t, st, []. split_and!; [done..| |constructor; [done|done|right]]; [|intros f y Hf; by apply elem_of_nil in Hf].
      intros y. rewrite slo_app, slo_end. intros [H|H]%elem_of_app; [by left|right]. split; [|done].
      destruct x as [x|]; [|by apply elem_of_nil in H]. unfold slo in H. cbn in H. rewrite app_nil_r in H. by eapply Hx.
  Qed.
  Lemma chok_none (st : stack) : Forall (fun f => forall x, ~ chframe f x) st -> chok st.
  Proof. intros H. right. intros f x Hf. rewrite Forall_forall in H. by apply H. Qed.
  Lemma data_from_boxed_slice_snd d p len d' n : data_from_boxed_slice d p len = (d', n) -> n = length (dw_datas d).
  Proof. unfold data_from_boxed_slice, data_new, alloc_new. destruct (_ =? 0)%N; cbn; by intros [= <- <-]. Qed.
  Ltac all_frames := repeat (apply Forall_cons; split; [first [exact Logic.I|intros ? Hf; exact Hf]|]); by apply Forall_nil.
  Lemma cstart_qstep s t o s' : cstart sz s t o = Ok s' -> qstep s s'.
  Proof.
    intros Hs. unfold cstart in Hs. destruct (cs_t s !! t) as [[|f st]|] eqn:Ht; [|injection Hs as <-; by apply qstep_same..].
    destruct o as [base vals|base vals|h|side h|h|h|h|h|h|h|h|side h|h i v].
    - destruct (_ <? _)%N; [|injection Hs as <-; by apply qstep_same]. destruct (new_block _ _ _) as [[d p] len] eqn:E1.
      destruct (data_from_boxed_slice d p len) as [d' n] eqn:E2. injection Hs as <-. apply new_block_datas in E1.
      pose proof (data_from_boxed_slice_snd _ _ _ _ _ E2) as ->. apply data_from_boxed_slice_leaf in E2 as (k & m & E2 & Hl & Hr).
      rewrite E1 in E2. split; cbn.
      + right. eauto 10.
      + eauto.
      + right. exists t, [], [FGuard (length (dw_datas d)); KSlice (length (dw_datas d)); KEnd None].
        split_and!; [done..|by left|]. constructor; [by rewrite E1|done].
    - destruct (_ <? _)%N; [|injection Hs as <-; by apply qstep_same]. destruct (new_block _ _ _) as [[d p] len] eqn:E1.
      destruct (split_alloc_from_items sz d p len) as [[d' it] al] eqn:E2. injection Hs as <-.
      apply new_block_datas in E1. assert (dw_datas d' = dw_datas (cs_d s)) as E3.
      { rewrite <- E1. unfold split_alloc_from_items, alloc_new in E2. repeat case_match; simplify_eq; done. }
      destruct (qstep_finish s t [] None (Some (XMut (MutS it al))) None Ht) as [_ Q2 Q3]; [intros y [= <-] z Hz; by apply elem_of_nil in Hz|].
      split; [by left|done|]. destruct Q3 as [|(t' & st1 & st2 & Q)]; [by left|right]. exists t', st1, st2.
      destruct Q as (Q1' & Q2' & Q3' & Q4). split_and!; [done..|]. inversion Q4; subst; [by apply Fr_none|by apply Fr_new|by eapply Fr_own|by apply Fr_hold].
    - destruct (slot s h) as [[[r|d g| | | |] k]|] eqn:Eh; injection Hs as <-; try (by apply qstep_same); apply slot_Some in Eh;
        (apply qstep_borrow; [done..|all_frames|apply chok_none; all_frames]).
    - destruct (slot s h) as [[[r|d g| | | |] k]|] eqn:Eh; injection Hs as <-; try (by apply qstep_same); apply slot_Some in Eh.
      apply qstep_borrow; [done..|all_frames|left; eauto].
    - destruct (slot s h) as [[[r|d g| | | |] [|k]]|] eqn:Eh; injection Hs as <-; try (by apply qstep_same); apply slot_Some in Eh.
      eapply qstep_take; [done..|]. intros s' _. eapply Fr_own; eauto.
    - destruct (slot s h) as [[[r|d g| | | |] [|k]]|] eqn:Eh; injection Hs as <-; try (by apply qstep_same); apply slot_Some in Eh.
      eapply qstep_take; [done..|]. intros s' _. eapply Fr_own; eauto.
    - destruct (slot s h) as [[[r|d g| |m| |] [|k]]|] eqn:Eh; try (injection Hs as <-; by apply qstep_same). apply slot_Some in Eh.
      cbn in Hs. injection Hs as <-. split; cbn.
      + right. eauto 10.
      + by eapply take_keep.
      + right. exists t, []. eexists. split_and!; [done..|intros y Hy; left; by eapply slo_take_elem|]. by constructor.
    - destruct (slot s h) as [[[r|d g| | | |] k]|] eqn:Eh; injection Hs as <-; try (by apply qstep_same); apply slot_Some in Eh.
      apply qstep_borrow; [done..|all_frames|apply chok_none; all_frames].
    - destruct (slot s h) as [[[r|d g| | | |] k]|] eqn:Eh; injection Hs as <-; try (by apply qstep_same); apply slot_Some in Eh.
      apply qstep_borrow; [done..|all_frames|apply chok_none; all_frames].
    - destruct (slot s h) as [[[r|d g| |m| |] [|k]]|] eqn:Eh; injection Hs as <-; try (by apply qstep_same); apply slot_Some in Eh;
        (eapply qstep_take; [done..|]; intros s' _).
      + eapply Fr_own; eauto.
      + constructor; [done|all_frames|apply chok_none; all_frames].
      + constructor; [done|all_frames|apply chok_none; all_frames].
    - destruct (slot s h) as [[[r|d g| |m| |] k]|]; try (injection Hs as <-; by apply qstep_same).
      + apply bind_inv in Hs as (n & _ & Hs). apply bind_inv in Hs as (vs & _ & [= <-]). by apply qstep_same.
      + apply bind_inv in Hs as (vs & _ & [= <-]). by apply qstep_same.
    - destruct (slot s h) as [[[r|d g| |m| |] [|k]]|] eqn:Eh; try (injection Hs as <-; by apply qstep_same). apply slot_Some in Eh.
      apply bind_inv in Hs as ([d [m1 m2]] & Hd & [= <-]). apply mut_split_datas in Hd. split; cbn.
      + by left.
      + intros h' x k Hh'. destruct (decide (h' = h)) as [->|]; [simplify_eq|].
        exists (S k). apply lookup_app_l_Some. by rewrite list_lookup_insert_ne.
      + right. exists t, [], []. split_and!; [done..| |constructor; [done|done|right]]; [|intros f y Hf; by apply elem_of_nil in Hf].
        intros y. rewrite slo_app. intros [H|H]%elem_of_app; [|by apply elem_of_nil in H]. left.
        apply slo_elem in H as (h' & x & k & Hh & Hy). apply slo_elem.
        apply list_lookup_insert_Some in Hh as [(_ & [= <- <-] & _)|[_ Hh]]; [by apply elem_of_nil in Hy|eauto].
    - destruct (slot s h) as [[[r|d g| |m| |] [|k]]|]; try (injection Hs as <-; by apply qstep_same).
      destruct (_ <? _)%N; [|injection Hs as <-; by apply qstep_same]. apply bind_inv in Hs as ([d old] & Hd & [= <-]).
      apply mem_replace_datas in Hd. by apply qstep_same.
  Qed.
  Lemma cstep_qstep s e s' : cstep sz s e = Ok s' -> qstep s s' \/
    exists t st d g st', e = SStep t /\ cs_t s !! t = Some st /\ mstep sz (cs_d s) (cs_g s) st = Ok (d, g, st') /\
      s' = CS d g (cs_h s) (<[t := st']> (cs_t s)) (cs_out s) (cs_log s ++ step_log st st').
  Proof.
    intros Hs. destruct e as [t o|t|t i v|t]; cbn in Hs.
    - left. by eapply cstart_qstep.
    - destruct (cs_t s !! t) as [st|] eqn:Ht; [|left; unfold tstep in Hs; rewrite Ht in Hs; injection Hs as <-; by apply qstep_same].
      destruct (tstep_cases sz s t st Ht) as [[-> E]|[(r & -> & E)|[(x & o & h & -> & E)|[(r & -> & E)|E]]]]; rewrite E in Hs.
      1-4: left; injection Hs as <-.
      + by apply qstep_same.
      + by apply qstep_same.
      + eapply qstep_finish; [done|]. intros y -> z Hz. cbn. by rewrite app_nil_r.
      + split; cbn; [by left|eauto|]. right. exists t. do 2 eexists. split_and!; [done..|by left|by constructor].
      + right. apply bind_inv in Hs as ([[d g] st'] & Hm & [= <-]). eauto 10.
    - left. unfold hold_write in Hs. destruct (cs_t s !! t) as [st|] eqn:Ht; [|injection Hs as <-; by apply qstep_same].
      repeat (case_match; try (injection Hs as <-; by apply qstep_same)). subst. apply bind_inv in Hs as (n & _ & Hs).
      destruct (_ <? _)%N; [|injection Hs as <-; by apply qstep_same]. apply bind_inv in Hs as ([d old] & Hd & [= <-]).
      apply mem_replace_datas in Hd. by apply qstep_same.
    - left. unfold hold_end in Hs. destruct (cs_t s !! t) as [st|] eqn:Ht; [|injection Hs as <-; by apply qstep_same].
      repeat (case_match; try (injection Hs as <-; by apply qstep_same)). subst. injection Hs as <-.
      eapply qstep_finish; [done|]. intros y [= <-] z Hz. done.
  Qed.

  (** ** How datas change *)
  Definition dl s (x : nat) : Prop := is_Some (rc_get (dw_datas (cs_d s)) x).
  Notation datas s := (dw_datas (cs_d s)).
  Lemma new_guard_metas g x b pg g' y : gd_new_guard g x b pg = Ok (g', y) ->
    length (gd_metas g') = length (gd_metas g) /\ (forall z, data_parent g' z = data_parent g z) /\
    y = length (gd_guards g) /\ gd_guards g' = gd_guards g ++ [Some (1, AGuard pg false false)].
  Proof.
    unfold gd_new_guard. cbn. destruct (gd_metas g !! x) as [m|] eqn:E; [|done]. destruct (_ =? _); [|done]. intros [= <- <-].
    cbn. rewrite insert_length. split_and!; [done| |done..]. intros z. unfold data_parent. cbn.
    destruct (decide (z = x)) as [->|]; [|by rewrite list_lookup_insert_ne].
    rewrite list_lookup_insert by by eapply lookup_lt_Some. by rewrite E.
  Qed.
  Inductive eff s s' : Prop :=
  | E_keep : hkeep (datas s) (datas s') -> length (gd_metas (cs_g s')) = length (gd_metas (cs_g s)) ->
      (forall z, data_parent (cs_g s') z = data_parent (cs_g s) z) -> eff s s'
  | E_root k n : datas s' = datas s ++ [Some (k, n)] -> d_left n = None -> d_right n = None ->
      cs_g s' = gd_new_data (cs_g s) None -> eff s s'
  | E_half x side k' n' (j : nat) n : live (datas s) x j n -> d_child side n = None -> d_left n' = None -> d_right n' = None ->
      datas s' = <[x := Some (j, d_set_child side (Some (length (datas s))) n)]> (datas s ++ [Some (k', n')]) ->
      cs_g s' = gd_new_data (cs_g s) (Some x) -> eff s s'.
  Lemma cstep_eff s D e s' : GI s D -> CI sz s -> cstep sz s e = Ok s' -> eff s s'.
  Proof.
    intros G C Hs. destruct (cstep_qstep _ _ _ Hs) as [Q|(t & st & d & g & st' & -> & Ht & Hm & ->)].
    - destruct (q_d _ _ Q) as [[E1 E2]|(k & n & E1 & Hl & Hr & E2)].
      + apply E_keep; [rewrite E1; apply hkeep_refl|by rewrite E2..].
      + by eapply E_root.
    - destruct (GI_mstep sz s D t st d g st' (cs_out s) (cs_log s) G Ht Hm) as (X & G' & _). apply G_len in G'. cbn in G'.
      pose proof (G_len _ _ G) as El.
      destruct (mstep_g _ _ _ _ _ _ Hm) as [[Em _]|[(x & side & k' & n' & k & -> & Eg & E)|(x & b & pg & k & -> & Eg & E)]];
        destruct (mstep_nodes _ _ _ _ _ _ _ Hm) as [Hk|(x1 & side1 & k1 & n1 & k2 & j & n & E1 & Hn & Hc & Ed & E2)]; simplify_eq.
      + apply E_keep; cbn; [done|by rewrite Em|]. intros z. unfold data_parent. by rewrite Em.
      + exfalso. rewrite Ed, insert_length, app_length in G'. cbn in G'. rewrite Em in G'. lia.
      + exfalso. destruct Hk as [Hk _]. rewrite Hk in G'. cbn in G'. rewrite app_length in G'. cbn in G'. lia.
      + destruct (ci_new _ _ C x1 side1 n1) as (_ & Hl & Hr & _). { apply thr_elem. exists t. eexists. split; [done|]. left. }
        by eapply (E_half _ _ x1 side1 k1 n1 j n).
      + destruct (new_guard_metas _ _ _ _ _ _ Eg) as (E1 & E2 & _). by apply E_keep.
  Qed.

  Section kept.
    Context s s' D (G : GI s D) (H : eff s s').
    Lemma eff_len : length (datas s) <= length (datas s').
    Proof. destruct H as [[E _] _ _|k n E _ _ _|x side k' n' j n _ _ _ _ E _]; rewrite E, ?insert_length, ?app_length; lia. Qed.
    Lemma new_data_parent o x : data_parent (gd_new_data (cs_g s) o) x =
      if decide (x = length (gd_metas (cs_g s))) then o else data_parent (cs_g s) x.
    Proof.
      unfold data_parent. cbn. case_decide as E.
      - subst. by rewrite lookup_app_r, Nat.sub_diag by lia.
      - destruct (decide (x < length (gd_metas (cs_g s)))); [by rewrite lookup_app_l|].
        rewrite lookup_app_r, !lookup_ge_None_2 by (cbn; lia). done.
    Qed.
    Lemma eff_mext : mext (cs_g s) (cs_g s').
    Proof.
      destruct H as [_ E1 E2|k n _ _ _ E|x side k' n' j n _ _ _ _ _ E].
      - split; [by intros|lia].
      - rewrite E. split; [|cbn; rewrite app_length; lia]. intros x Hx. rewrite new_data_parent, decide_False by lia. done.
      - rewrite E. split; [|cbn; rewrite app_length; lia]. intros y Hy. rewrite new_data_parent, decide_False by lia. done.
    Qed.
    Lemma eff_live x : x < length (datas s) -> dl s' x -> dl s x.
    Proof.
      intros Hx [m Hm]. unfold dl. destruct H as [[_ E] _ _|k n E _ _ _|x' side k' n' j n Hj _ _ _ E _].
      - rewrite (E _ _ Hm). eauto.
      - rewrite E, rc_get_snoc, decide_False in Hm by lia. by rewrite Hm.
      - rewrite E in Hm. apply (cas_get _ _ _ _ _ _ _ Hj) in Hm as [(-> & _)|[(-> & _)|[_ Hm]]]; [|lia|by rewrite Hm].
        rewrite (rc_get_live _ _ _ _ Hj). eauto.
    Qed.
    Lemma eff_dead x : x < length (datas s) -> ~ dl s x -> ~ dl s' x.
    Proof. intros Hx Hn Hl. by apply Hn, eff_live. Qed.
    Lemma dl_lt x : dl s x -> x < length (datas s).
    Proof. intros [n Hn]. by eapply rc_get_lt. Qed.
  End kept.
  Lemma parent_lt s D x p : GI s D -> data_parent (cs_g s) x = Some p -> p < x.
  Proof.
    intros G. unfold data_parent. destruct (gd_metas (cs_g s) !! x) as [m|] eqn:E; [|done]. intros Hp.
    by eapply (gi_meta _ _ _ _ _ (G_inv _ _ G)).
  Qed.

  (** ** [data.parent] and the links *)
  Record MI s : Prop := {
    m_kid : forall p n c, rc_get (datas s) p = Some n -> c ∈ kids n -> data_parent (cs_g s) c = Some p;
    m_par : forall p n c, data_parent (cs_g s) c = Some p -> rc_get (datas s) p = Some n -> c ∈ kids n
  }.
  Lemma MI_init n : MI (init_cstate n).
  Proof. split; intros p m c; intros H; [done|]. by apply data_parent_lt in H; cbn in H; lia. Qed.
  Lemma in_kids x (n : dnode) : x ∈ kids n <-> exists side, d_child side n = Some x.
  Proof.
    unfold kids, d_child. rewrite elem_of_app. split.
    - intros [H|H]; [exists false|exists true]; by destruct (d_left n), (d_right n); cbn in *; set_solver.
    - intros [[] H]; rewrite H; set_solver.
  Qed.
  Lemma kids_set side c (n : dnode) y : d_child side n = None -> y ∈ kids (d_set_child side (Some c) n) <-> y = c \/ y ∈ kids n.
  Proof.
    rewrite !in_kids. intros Hn. split.
    - intros [side' Hy]. destruct (decide (side = side')) as [<-|Hne].
      + rewrite d_child_same in Hy. injection Hy as ->. by left.
      + right. exists side'. rewrite d_child_other in Hy; [done|congruence].
    - intros [->|[side' Hy]]; [exists side; by rewrite d_child_same|]. exists side'. rewrite d_child_other; [done|congruence].
  Qed.
  Lemma MI_eff s s' D : GI s D -> CI sz s -> eff s s' -> MI s -> MI s'.
  Proof.
    intros G C H M. pose proof (G_len _ _ G) as El. destruct H as [[_ Hk] E1 E2|k n E Hl Hr Eg|x side k' n' j n Hj Hc Hl Hr E Eg].
    - split; intros p m c Hp; [intros Hc; rewrite E2; eapply m_kid; eauto|]. rewrite E2 in Hp. intros Hm. eapply m_par; eauto.
    - split; intros p m c; rewrite E, Eg, new_data_parent, rc_get_snoc.
      + intros Hp Hc. case_decide.
        * cbn in Hp. injection Hp as <-. unfold kids in Hc. rewrite Hl, Hr in Hc. by apply elem_of_nil in Hc.
        * rewrite decide_False; [by eapply m_kid|]. apply in_kids in Hc as [sd Hc].
          destruct (ci_kid _ _ C p m sd c Hp Hc) as [? _]. lia.
      + destruct (decide (c = _)) as [|Hc]; [done|]. intros Hp Hm. case_decide; [|by eapply m_par].
        pose proof (data_parent_lt _ _ _ Hp). pose proof (parent_lt _ _ _ _ G Hp). lia.
    - pose proof (live_lt _ _ _ _ Hj) as Hlt. pose proof (rc_get_live _ _ _ _ Hj) as Hxg. split; intros p m c.
      + rewrite E, Eg, new_data_parent. intros [(-> & ->)|[(-> & ->)|[Hne Hp]]]%(cas_get _ _ _ _ _ _ _ Hj) Hm.
        * apply (kids_set side) in Hm as [->|Hm]; [by rewrite decide_True|..|done]. rewrite decide_False; [by eapply m_kid|].
          apply in_kids in Hm as [sd Hm]. destruct (ci_kid _ _ C x n sd c Hxg Hm) as [? _]. lia.
        * unfold kids in Hm. rewrite Hl, Hr in Hm. by apply elem_of_nil in Hm.
        * rewrite decide_False; [by eapply m_kid|]. apply in_kids in Hm as [sd Hm].
          destruct (ci_kid _ _ C p m sd c Hp Hm) as [? _]. lia.
      + rewrite Eg, new_data_parent. intros Hp. rewrite E. intros [(-> & ->)|[(-> & ->)|[Hne Hm]]]%(cas_get _ _ _ _ _ _ _ Hj).
        * apply kids_set; [done|]. case_decide as Ed; [left; congruence|right]. by eapply m_par.
        * case_decide; [simplify_eq; lia|]. pose proof (data_parent_lt _ _ _ Hp). pose proof (parent_lt _ _ _ _ G Hp). lia.
        * case_decide; [simplify_eq|by eapply m_par].
  Qed.
  Lemma MI_reach n es s : creach sz n es s -> MI s.
  Proof.
    unfold creach. enough (forall s0 D, GI s0 D -> CI sz s0 -> MI s0 -> crun sz s0 es = Ok s -> MI s) as H.
    { intros Hr. by apply (H (init_cstate n) []); [apply GI_init|apply CI_init|apply MI_init|]. }
    clear n. induction es as [|e es IH]; intros s0 D G C M; cbn; [by intros [= <-]|].
    intros (s1 & H1 & H2)%bind_inv. destruct (GI_cstep _ _ _ _ _ G H1) as [X G1].
    eapply IH; [exact G1|by eapply CI_cstep| |exact H2]. eapply (MI_eff s0); [exact G|done|by eapply cstep_eff|done].
  Qed.

  (** ** Parents of guards *)
  Lemma acc_guard_fun E E' b b' x x' (k : stack) : acc E b (QG x) k -> acc E' b' (QG x') k -> x = x'.
  Proof. intros H1 H2. inversion H1; subst; by inversion H2. Qed.
  Lemma run_gcas E b x y pg (k : stack) : run E b (FGuardCas x y pg :: k) -> pgok E x pg /\ acc E b (QG x) k.
  Proof.
    intros H. inversion H as [| | | | | | | |? ? ? Hf|? ? ? ? Hf| ? ? ? Hf| | | | |? ? Hf|? ? Hf| |? ? Hf| |]; subst; try done.
    - by destruct Hf as (-> & _ & ?).
    - by destruct Hf.
    - by destruct Hf.
    - by destruct Hf.
    - by destruct Hf.
  Qed.
  Lemma cstep_guards s e s' : cstep sz s e = Ok s' -> forall i n', rc_get (gd_guards (cs_g s')) i = Some n' ->
    (exists n, rc_get (gd_guards (cs_g s)) i = Some n /\ a_parent n' = a_parent n) \/
    (exists t x b k, cs_t s !! t = Some (FGuardCas x b (a_parent n') :: k) /\ i = length (gd_guards (cs_g s)) /\
      cs_t s' !! t = Some (FV (VGuard i) :: k)).
  Proof.
    intros Hs i n' Hi. destruct (cstep_qstep _ _ _ Hs) as [Q|(t & st & d & g & st' & -> & Ht & Hm & ->)].
    - left. destruct (q_d _ _ Q) as [[_ E2]|(k & n & _ & _ & _ & E2)]; rewrite E2 in Hi; eauto.
    - cbn in Hi. destruct (mstep_g _ _ _ _ _ _ Hm) as [[_ E]|[(x & side & k' & m' & k & -> & -> & E)|(x & b & pg & k & -> & Eg & ->)]].
      + left. eauto.
      + left. eauto.
      + destruct (new_guard_metas _ _ _ _ _ _ Eg) as (_ & _ & _ & Eg'). rewrite Eg', rc_get_snoc in Hi.
        case_decide as Ei; [|left; eauto]. right. cbn in Hi. injection Hi as <-. subst i. exists t, x, b, k. split_and!; [done..|].
        cbn. apply list_lookup_insert. by eapply lookup_lt_Some.
  Qed.
  Definition GP s (D : list nat) : Prop := forall i n x p, rc_get (gd_guards (cs_g s)) i = Some n -> a_parent n = None ->
    D !! i = Some x -> data_parent (cs_g s) x = Some p -> ~ dl s p.
  Lemma GP_init n : GP (init_cstate n) [].
  Proof. intros i m x p H. done. Qed.
  Lemma GP_cstep s D X e s' : GI s D -> CI sz s -> cstep sz s e = Ok s' -> GI s' (D ++ X) -> GP s D -> GP s' (D ++ X).
  Proof.
    intros G C Hs G' P i n x p Hi Hn Hx Hp. pose proof (cstep_eff _ _ _ _ G C Hs) as F. pose proof (eff_mext _ _ F) as M.
    pose proof (G_len _ _ G) as El.
    assert (data_parent (cs_g s) x = Some p -> ~ dl s p -> ~ dl s' p) as Hd.
    { intros Hp' Hl. apply (eff_dead s); [done| |done]. pose proof (data_parent_lt _ _ _ Hp'). pose proof (parent_lt _ _ _ _ G Hp'). lia. }
    destruct (cstep_guards _ _ _ Hs i n Hi) as [(m & Hm & E)|(t & x' & b & k & Ht & -> & Ht')].
    - rewrite lookup_app_l in Hx by (rewrite (gi_len _ _ _ _ _ (G_inv _ _ G)); by eapply rc_get_lt).
      rewrite (proj1 M) in Hp by by eapply (gi_dom _ _ _ _ _ (G_inv _ _ G)). apply Hd; [done|]. eapply P; eauto. congruence.
    - destruct (G_run _ _ G _ _ Ht) as [b0 [Hpg Ha]%run_gcas]. destruct (G_run _ _ G' _ _ Ht') as [b1 (q & Hv & Ha')%run_val_inv].
      destruct Hv as (x1 & -> & Hx1). cbn in Hx1. assert (x1 = x) as -> by congruence. rewrite (acc_guard_fun _ _ _ _ _ _ _ Ha' Ha) in *.
      rewrite Hn in Hpg. cbn in Hpg. assert (x' < length (gd_metas (cs_g s))) as Hlt.
      { destruct Hpg as [H|(q & H & _)]; unfold mpar in H; apply fmap_Some in H as (m & H & _); by eapply lookup_lt_Some. }
      rewrite (proj1 M) in Hp by done. apply Hd; [done|]. apply data_parent_mpar in Hp. destruct Hpg as [H|(q & H & Hq)]; simplify_eq.
      intros [m Hm]. unfold rc_get in Hm. by rewrite Hq in Hm.
  Qed.

  (** A live ancestor of a data with a guard has a guard, chained to it. *)
  Lemma live_down s (D : list nat) T L R O x y : dinv sz (cs_d s) T L R O -> MI s -> dl s x -> ance (cs_g s) x y -> dl s y.
  Proof.
    intros I M Hx [<-|H]; [done|].
    assert (forall p y, data_parent (cs_g s) y = Some p -> dl s p -> dl s y) as Hc.
    { intros p z Hp [n Hn]. pose proof (m_par _ M _ _ _ Hp Hn) as [side Hz]%in_kids.
      apply rc_get_Some in Hn as [k Hn]. destruct (dinv_linked_live _ _ _ _ _ _ I _ _ _ _ _ Hn Hz) as (k' & n' & Hl).
      exists n'. by eapply rc_get_live. }
    induction H as [y Hy|p y Hy Hp IH]; eauto.
  Qed.
  Section chain.
    Context s D T L (R : list nat) O (G : GI s D) (M : MI s) (P : GP s D) (I : dinv sz (cs_d s) T L R O).
    Notation gv := (rc_get (gd_guards (cs_g s))).
    Lemma gparent_live j m i : gv j = Some m -> a_parent m = Some i -> exists n, gv i = Some n.
    Proof.
      intros (k & Hj)%rc_get_Some Hi. apply count_get. rewrite (gi_cnt _ _ _ _ _ (G_inv _ _ G)).
      pose proof (hsum_ge (fun n => cnt i (a_pars n)) _ _ _ _ Hj) as H. cbn in H. unfold a_pars in H at 1. rewrite Hi in H. cbn in H.
      rewrite cnt_cons, decide_True in H by done. lia.
    Qed.
    Lemma guard_chain x y : dl s x -> ance (cs_g s) x y -> forall i n, gv i = Some n -> D !! i = Some y ->
      exists i' n', gv i' = Some n' /\ D !! i' = Some x /\ (i' = i \/ exists j m, gv j = Some m /\ a_parent m = Some i').
    Proof.
      intros Hx [<-|H] i n Hi Hy; [eauto 10|].
      assert (forall i n y p, gv i = Some n -> D !! i = Some y -> data_parent (cs_g s) y = Some p -> dl s p ->
        exists i' n', gv i' = Some n' /\ D !! i' = Some p /\ a_parent n = Some i') as Hup.
      { clear i n Hi y H Hy. intros i n y p Hi Hy Hp Hl. destruct (a_parent n) as [i'|] eqn:E; [|by destruct (P _ _ _ _ Hi E Hy Hp)].
        destruct (gi_par _ _ _ _ _ (G_inv _ _ G) _ _ _ _ Hi E Hy) as (_ & m & p' & Hm & Hp' & Hd).
        unfold data_parent in Hp. rewrite Hm in Hp. destruct (gparent_live _ _ _ Hi E) as [n' Hn'].
        exists i', n'. split_and!; [done| |done]. congruence. }
      revert i n Hi Hy. induction H as [y Hp|p y Hp Hb IH]; intros i n Hi Hy.
      - destruct (Hup _ _ _ _ Hi Hy Hp Hx) as (i' & n' & H1 & H2 & H3). exists i', n'. split_and!; [done..|]. right. eauto.
      - destruct (Hup _ _ _ _ Hi Hy Hp) as (i' & n' & H1 & H2 & H3). { eapply live_down; [done..|]. by right. }
        destruct (IH _ _ H1 H2) as (i2 & n2 & H4 & H5 & H6). exists i2, n2.
        split_and!; [done..|]. right. destruct H6 as [->|H6]; eauto.
    Qed.
    (** A thread that has the only reference to the guard of [x] has the only
        guard in this part of the tree. *)
    Lemma sole_guard t (st : stack) i x j z : cs_t s !! t = Some st -> i ∈ stk fG st -> D !! i = Some x -> dl s x ->
      rc_count (gd_guards (cs_g s)) i = 1 -> j ∈ rG s t -> D !! j = Some z -> ~ ance (cs_g s) x z.
    Proof.
      intros Ht Hi Hx Hl Hc Hj Hz Hxz. pose proof (rest_inv s D t st G Ht) as GI'.
      pose proof (gi_cnt _ _ _ _ _ GI' i) as Ec. rewrite Hc, cnt_app in Ec. apply cnt_pos in Hi as Hi'.
      destruct (ginv_ref _ _ _ _ _ GI' i) as (k0 & n0 & ? & Hi0 & _); [apply elem_of_app; by left|]. apply rc_get_live in Hi0.
      destruct (ginv_ref _ _ _ _ _ GI' j) as (k1 & n1 & ? & Hj0 & _); [apply elem_of_app; by right|]. apply rc_get_live in Hj0.
      destruct (guard_chain x z Hl Hxz j n1 Hj0 Hz) as (i' & n' & H1 & H2 & H3).
      assert (i' = i) as -> by (by eapply (ginv_unique _ _ _ _ _ GI')). destruct H3 as [->|(j' & m & Hj' & Hm)].
      - apply cnt_pos in Hj. lia.
      - apply rc_get_Some in Hj' as [k' Hj']. pose proof (hsum_ge (fun n => cnt i (a_pars n)) _ _ _ _ Hj') as H.
        cbn in H. unfold a_pars in H at 1. rewrite Hm in H. cbn in H. rewrite cnt_cons, decide_True in H by done. lia.
    Qed.
  End chain.
End tree.
