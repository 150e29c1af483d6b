(** The kinds of events, as far as datas, guards and the values in variables are
    concerned. *)
From Verif Require Import Base BaseLemmas Api SliceItemsModel BinPartsModel DataModel RcModel Spec DataInv DataSteps GuardInv ArcModel ArcConc ConcInv ConcGuard ConcWorld ConcData ConcSafe ConcSpec OrderModel OrderInv OrderSteps PubModel PubCount.
Local Open Scope nat_scope.
#[local] Arguments slo {A} F hs : simpl never.
#[local] Arguments thr {V A} F ts : simpl never.

(** Guards a value mentions *)
Definition hQ (x : xhandle) : list nat :=
  match x with XArc r => [ar_guard r] | XWeak _ o => option_list o | _ => [] end.
Section frames.
  Context {V : Type}.
  (** Datas and guards a frame mentions, and boxes it is about to read *)
  Definition fP (f : frame V) : list nat :=
    match f with
    | FRel d => [d]
    | FChild x _ | FChildAlloc x _ | FChildCas x _ _ _ => [x]
    | FChildInc x _ c | FChildLost x _ c _ _ | FChildUndo x _ c _ _ | FChildUnwrap x _ c _ _ => [x; c]
    | FGuard x | FGuardUp x _ | FGuardPar x _ | FGuardCas x _ _ | FGuardLost x _ _ => [x]
    | KGuardPar x _ p => [x; p]
    | KSlice d => [d]
    | FCloneD r | FCloneG r | FDown r => [ar_data r]
    | FCloneW o _ | FUpgrade o => option_list o
    | FGm1 r | FGm2 r | FGm3 r | FGm4 r | FGm5 r | FIm1 r | FIm2 r | FIm3 r | FHold r => [ar_data r]
    | FFg n _ => kids n
    | KFg side n _ => kids (d_set_child side None n)
    | FV (VData d) => [d]
    | FV (VHold r) => [ar_data r]
    | FV (VFin (Some x) _) => hM x
    | _ => []
    end.
  Definition fQ (f : frame V) : list nat :=
    match f with
    | FRelG g => [g]
    | FRelW o => option_list o
    | FWait g _ => [g]
    | FGuardCas _ _ pg | FGuardLost _ _ pg => option_list pg
    | FCloneD r | FCloneG r | FDown r => [ar_guard r]
    | FCloneW _ o => option_list o
    | FGm1 r | FGm2 r | FGm3 r | FGm4 r | FGm5 r | FIm1 r | FIm2 r | FIm3 r | FHold r | KImG r => [ar_guard r]
    | FOpen g _ => [g]
    | FV (VGuard g) => [g]
    | FV (VHold r) => [ar_guard r]
    | FV (VFin (Some x) _) => hQ x
    | _ => []
    end.
  Definition fX (f : frame V) : list nat :=
    match f with FGuardUp _ b | FGuardLost _ b _ => [b] | _ => [] end.
End frames.

Section events.
  Context {V : Type} (sz : N) (acq : bool).
  Notation stack := (list (frame V)).
  Implicit Types (s : cstate V) (e : sched (V:=V)) (st : stack).
  Notation datas s := (dw_datas (cs_d s)).
  Definition shared (x : xhandle) : Prop := match x with XMut _ => False | _ => True end.
  (** Variables keep what they have, apart from [ArcSliceMut]s. *)
  Definition same_vars s s' : Prop :=
    forall h x k, shared x -> cs_h s' !! h = Some (Some (x, k)) <-> cs_h s !! h = Some (Some (x, k)).
  Inductive evt s e s' : Prop :=
  | V_quiet : cs_t s' = cs_t s -> datas s' = datas s -> cs_g s' = cs_g s -> same_vars s s' ->
      touches s e s' = [] -> syncs acq s e = ([], []) -> evt s e s'
  | V_deref h r k n : cs_t s' = cs_t s -> datas s' = datas s -> cs_g s' = cs_g s -> cs_h s' = cs_h s ->
      cs_h s !! h = Some (Some (XArc r, k)) -> rc_get (datas s) (ar_data r) = Some n ->
      touches s e s' = [(BNode (ar_data r), Use)] -> syncs acq s e = ([], []) ->
      h ∈ vars_in s e s' -> h ∈ bor_out s e s' -> evt s e s'
  | V_borrow h x k st' : cs_t s !! actor e = Some [] -> cs_t s' = <[actor e := st']> (cs_t s) ->
      datas s' = datas s -> cs_g s' = cs_g s ->
      cs_h s !! h = Some (Some (x, k)) -> cs_h s' = <[h := Some (x, S k)]> (cs_h s) ->
      touches s e s' = [] -> syncs acq s e = ([], []) -> h ∈ vars_in s e s' ->
      stk fR st' = [] -> stk fG st' = [] -> stk fB st' = [h] -> stk fX st' = [] -> Forall casok st' ->
      (forall y, y ∈ stk fP st' -> y ∈ hM x) -> (forall y, y ∈ stk fQ st' -> y ∈ hQ x) -> evt s e s'
  | V_take h x st' : cs_t s !! actor e = Some [] -> cs_t s' = <[actor e := st']> (cs_t s) ->
      datas s' = datas s -> cs_g s' = cs_g s ->
      cs_h s !! h = Some (Some (x, 0)) -> cs_h s' = <[h := None]> (cs_h s) ->
      touches s e s' = [] -> syncs acq s e = ([], []) -> h ∈ vars_in s e s' -> shares e = false ->
      stk fR st' = hR x -> stk fG st' = hG x -> stk fB st' = [] -> stk fX st' = [] -> Forall casok st' ->
      (forall y, y ∈ stk fP st' -> y ∈ hM x) -> (forall y, y ∈ stk fQ st' -> y ∈ hQ x) -> evt s e s'
  | V_new n nd : cs_t s !! actor e = Some [] -> cs_t s' = <[actor e := [FGuard n; KSlice n; KEnd None]]> (cs_t s) ->
      n = length (datas s) -> datas s' = datas s ++ [Some (1, nd)] -> kids nd = [] -> cs_g s' = gd_new_data (cs_g s) None ->
      same_vars s s' -> touches s e s' = [(BBox (length (gd_boxes (cs_g s))), Init); (BNode n, Init)] ->
      syncs acq s e = ([], []) -> evt s e s'
  | V_step st d g st' : cs_t s !! actor e = Some st -> e = SStep (actor e) -> mstep sz (cs_d s) (cs_g s) st = Ok (d, g, st') ->
      cs_t s' = <[actor e := st']> (cs_t s) -> cs_d s' = d -> cs_g s' = g -> cs_h s' = cs_h s ->
      touches s e s' = touch (cs_d s) (cs_g s) st -> syncs acq s e = sync acq (cs_d s) (cs_g s) st -> evt s e s'
  | V_fin st h x : cs_t s !! actor e = Some st -> cs_t s' = <[actor e := []]> (cs_t s) ->
      datas s' = datas s -> cs_g s' = cs_g s ->
      cs_h s' = end_borrow (cs_h s) h ++ match x with Some x => [Some (x, 0)] | None => [] end ->
      stk fR st = match x with Some x => hR x | None => [] end -> stk fG st = match x with Some x => hG x | None => [] end ->
      stk fB st = option_list h -> (forall y, x = Some y -> hM y = stk fP st /\ hQ y = stk fQ st) ->
      touches s e s' = [] -> syncs acq s e = ([], []) ->
      (forall h', h = Some h' -> h' ∈ bor_out s e s') -> (forall y, x = Some y -> length (cs_h s) ∈ var_out s e s') -> evt s e s'
  | V_hold r : cs_t s !! actor e = Some [FV (VHold r); KEnd None] -> cs_t s' = <[actor e := [FHold r; KEnd None]]> (cs_t s) ->
      datas s' = datas s -> cs_g s' = cs_g s -> cs_h s' = cs_h s ->
      touches s e s' = [] -> syncs acq s e = ([], []) -> evt s e s'.
  Lemma same_vars_refl s s' : cs_h s' = cs_h s -> same_vars s s'.
  Proof. intros E h x k _. by rewrite E. Qed.
  Lemma end_borrow_len hs h : length (end_borrow hs h) = length hs.
  Proof. unfold end_borrow. destruct h; [|done]. destruct (hs !! n) as [[[? ?]|]|]; try done. by rewrite insert_length. Qed.
  Lemma evt_tstep s t s' : tstep sz s t = Ok s' -> evt s (SStep t) s'.
  Proof.
    intros H. destruct (cs_t s !! t) as [st|] eqn:Ht.
    2:{ unfold tstep in H. rewrite Ht in H. injection H as <-. apply V_quiet; try done; cbn; by rewrite Ht. }
    destruct (tstep_cases sz s t st Ht) as [(-> & Hc)|[(r & -> & Hc)|[(x & o & h & -> & Hc)|[(r & -> & Hc)|Hc]]]]; rewrite Hc in H; clear Hc.
    - injection H as <-. apply V_quiet; try done; cbn; by rewrite Ht.
    - injection H as <-. apply V_quiet; try done; cbn; by rewrite Ht.
    - injection H as <-. eapply (V_fin _ _ _ _ h x); try done; cbn [actor].
      + rewrite !stk_cons. cbn. by destruct x; rewrite ?app_nil_r.
      + rewrite !stk_cons. cbn. by destruct x; rewrite ?app_nil_r.
      + by destruct h.
      + intros y ->. rewrite !stk_cons. cbn. by rewrite !app_nil_r.
      + cbn. by rewrite Ht.
      + cbn. by rewrite Ht.
      + intros h' ->. cbn. rewrite Ht. left.
      + intros y ->. cbn. rewrite app_length, end_borrow_len. apply elem_of_app. left. apply elem_of_seq. cbn. lia.
    - injection H as <-. eapply V_hold; try done; cbn; by rewrite Ht.
    - apply bind_inv in H as ([[d g] st'] & Hm & [= <-]). eapply V_step; try done; cbn; by rewrite Ht.
  Qed.
  Lemma evt_end s t s' : hold_end s t = Ok s' -> evt s (SEnd t) s'.
  Proof.
    unfold hold_end. intros H. destruct (cs_t s !! t) as [st|] eqn:Ht; [|injection H as <-; by apply V_quiet].
    destruct (hold_dec st) as [(r & ->)|E].
    - injection H as <-. eapply (V_fin _ _ _ _ None (Some (XArc r))); try done.
      + by intros y [= <-].
      + intros y [= <-]. cbn. rewrite app_length. apply elem_of_app. left. apply elem_of_seq. cbn. lia.
    - rewrite E in H. injection H as <-. by apply V_quiet.
  Qed.
  Lemma evt_write s t i v s' : hold_write sz s t i v = Ok s' -> evt s (SWrite t i v) s'.
  Proof.
    unfold hold_write. intros H. destruct (cs_t s !! t) as [st|] eqn:Ht; [|injection H as <-; by apply V_quiet].
    destruct (hold_dec st) as [(r & ->)|E]; [|rewrite E in H; injection H as <-; by apply V_quiet].
    apply bind_inv in H as (n & Hn & H). destruct (_ <? _)%N; [|injection H as <-; by apply V_quiet].
    apply bind_inv in H as ([d old] & Hd & [= <-]). apply V_quiet; try done. cbn. by eapply mem_replace_datas.
  Qed.
  Lemma began_call s t o s' h st' : cs_t s !! t = Some [] -> cs_t s' !! t = Some st' -> st' <> [] -> uses o = Some h ->
    h ∈ vars_in s (SStart t o) s'.
  Proof. intros H1 H2 H3 H4. cbn. unfold began. rewrite H1, H2, H4. destruct st'; [done|]. cbn. left. Qed.
  Ltac done_vars :=
    try done; try (by repeat constructor);
    (let y := fresh in intros y; rewrite !stk_cons; cbn; rewrite ?app_nil_r; set_solver).
  Lemma evt_cstart s t o s' : cstart sz s t o = Ok s' -> evt s (SStart t o) s'.
  Proof.
    intros H. unfold cstart in H. destruct (cs_t s !! t) as [[|f st]|] eqn:Ht.
    2,3: injection H as <-; apply V_quiet; try done; cbn; destruct o; try done; try (rewrite Nat.eqb_refl; done); unfold responded; rewrite Nat.eqb_refl; cbn; by repeat case_match.
    assert (t < length (cs_t s)) as Hlt by by eapply lookup_lt_Some.
    assert (forall o, touches s (SStart t o) s = []) as Hno.
    { intros o'. cbn. destruct o'; try done; try (rewrite Nat.eqb_refl; done). unfold responded. rewrite Nat.eqb_refl. cbn. by repeat case_match. }
    assert (Ok s = Ok s' -> evt s (SStart t o) s') as Hid. { intros [= <-]. apply V_quiet; try done; apply Hno. }
    assert (forall h x k st', uses o = Some h -> slot s h = Some (x, k) -> s' = set_thread (borrow s h x k) t st' -> st' <> [] ->
      o <> CIntoImmut h -> o <> CDeref h ->
      stk fR st' = [] -> stk fG st' = [] -> stk fB st' = [h] -> stk fX st' = [] -> Forall casok st' ->
      (forall y, y ∈ stk fP st' -> y ∈ hM x) -> (forall y, y ∈ stk fQ st' -> y ∈ hQ x) -> evt s (SStart t o) s') as Hb.
    { intros h x k st' Hu Hh -> Hne N2 N3. intros. apply slot_Some in Hh. eapply (V_borrow _ _ _ h x k st'); try done.
      - cbn. destruct o; try done; cbn in Hu; injection Hu as ->; done.
      - eapply began_call; [exact Ht| |exact Hne|exact Hu]. cbn. by rewrite list_lookup_insert. }
    assert (forall h x st', uses o = Some h -> slot s h = Some (x, 0) -> s' = set_thread (take s h) t st' -> st' <> [] -> shares (SStart t o) = false ->
      o <> CIntoImmut h -> o <> CDeref h ->
      stk fR st' = hR x -> stk fG st' = hG x -> stk fB st' = [] -> stk fX st' = [] -> Forall casok st' ->
      (forall y, y ∈ stk fP st' -> y ∈ hM x) -> (forall y, y ∈ stk fQ st' -> y ∈ hQ x) -> evt s (SStart t o) s') as Htk.
    { intros h x st' Hu Hh -> Hne Hsh N2 N3. intros. apply slot_Some in Hh. eapply (V_take _ _ _ h x st'); try done.
      - cbn. destruct o; try done; cbn in Hu; injection Hu as ->; done.
      - eapply began_call; [exact Ht| |exact Hne|exact Hu]. cbn. by rewrite list_lookup_insert. }
    destruct o.
    - destruct (_ <? _)%N; [|by apply Hid]. destruct (new_block (cs_d s) base vals) as [[d p] len] eqn:En.
      pose proof (new_block_datas _ _ _ _ _ _ En) as E1.
      destruct (data_from_boxed_slice d p len) as [d1 n] eqn:Ed. injection H as <-.
      assert (exists nd, dw_datas d1 = datas s ++ [Some (1, nd)] /\ kids nd = [] /\ n = length (datas s)) as (nd & E2 & Ek & ->).
      { unfold data_from_boxed_slice, data_new, alloc_new in Ed. destruct (_ =? 0)%N; cbn in Ed; injection Ed as <- <-; cbn; rewrite E1; eauto. }
      eapply (V_new _ _ _ _ nd); try done; cbn [actor set_thread set_world cs_d cs_h cs_t cs_g]; try done.
      cbn. rewrite E2, app_length. cbn. by destruct (Nat.eqb_spec (length (datas s) + 1) (length (datas s))); [lia|].
    - destruct (_ <? _)%N; [|by apply Hid]. destruct (new_block (cs_d s) base vals) as [[d p] len] eqn:En.
      pose proof (new_block_datas _ _ _ _ _ _ En) as E1.
      destruct (split_alloc_from_items sz d p len) as [[d1 it] al] eqn:Ed. injection H as <-.
      apply V_quiet; try done; cbn.
      + by rewrite list_insert_id.
      + rewrite <- E1. unfold split_alloc_from_items, alloc_new in Ed. destruct (_ || _); cbn in Ed; by injection Ed as <- <- <-.
      + intros h x k Hx. cbn. split; [|intros; by apply lookup_app_l_Some].
        intros [?|[_ Hl]]%lookup_app_Some; [done|]. destruct (h - _) in Hl; [|done]. injection Hl as <- <-. done.
    - destruct (slot s h) as [[x k]|] eqn:Eh; [|by apply Hid]. destruct x as [r|x y|p|m|m|m]; try (by apply Hid).
      + injection H as <-. eapply Hb; done_vars.
      + injection H as <-. eapply Hb; done_vars.
    - destruct (slot s h) as [[x k]|] eqn:Eh; [|by apply Hid]. destruct x as [r|x y|p|m|m|m]; try (by apply Hid).
      injection H as <-. eapply Hb; done_vars.
    - destruct (slot s h) as [[x [|k]]|] eqn:Eh; try (by apply Hid); destruct x as [r|x y|p|m|m|m]; try (by apply Hid).
      injection H as <-. eapply Htk; done_vars.
    - destruct (slot s h) as [[x [|k]]|] eqn:Eh; try (by apply Hid); destruct x as [r|x y|p|m|m|m]; try (by apply Hid).
      injection H as <-. eapply Htk; done_vars.
    - destruct (slot s h) as [[x [|k]]|] eqn:Eh; try (by apply Hid); destruct x as [r|x y|p|m|m|m]; try (by apply Hid).
      destruct (data_new _ _ _ _) as [d n] eqn:Ed. injection H as <-. apply slot_Some in Eh.
      unfold data_new in Ed. cbn in Ed. injection Ed as <- <-.
      eapply (V_new _ _ _ (length (datas s))); try done; cbn [actor set_thread set_world set_slots take cs_d cs_h cs_t cs_g]; try done.
      + intros h' x k Hx. cbn. destruct (decide (h' = h)) as [->|N]; [|by rewrite list_lookup_insert_ne].
        rewrite list_lookup_insert by by eapply lookup_lt_Some. rewrite Eh. split; [done|intros [= <- <-]; done].
      + cbn. rewrite app_length. cbn. by destruct (Nat.eqb_spec (length (datas s) + 1) (length (datas s))); [lia|].
    - destruct (slot s h) as [[x k]|] eqn:Eh; [|by apply Hid]. destruct x as [r|x y|p|m|m|m]; try (by apply Hid).
      injection H as <-. eapply Hb; done_vars.
    - destruct (slot s h) as [[x k]|] eqn:Eh; [|by apply Hid]. destruct x as [r|x y|p|m|m|m]; try (by apply Hid).
      injection H as <-. eapply Hb; done_vars.
    - destruct (slot s h) as [[x [|k]]|] eqn:Eh; try (by apply Hid); destruct x as [r|x y|p|m|m|m]; try (by apply Hid); injection H as <-.
      + eapply Htk; done_vars.
      + eapply Htk; done_vars.
      + eapply Htk; done_vars.
    - destruct (slot s h) as [[x k]|] eqn:Eh; [|by apply Hid]. destruct x as [r|x y|p|m|m|m]; try (by apply Hid).
      + apply bind_inv in H as (n & Hn & H). apply bind_inv in H as (vs & _ & [= <-]).
        assert (responded s (put_out s t (seen sz (d_ptr n) (d_len n) vs)) = true) as Hr.
        { unfold responded. cbn. rewrite app_length. cbn. destruct (Nat.eqb_spec (length (cs_out s) + 1) (length (cs_out s))); [lia|done]. }
        assert (began s t (put_out s t (seen sz (d_ptr n) (d_len n) vs)) = true) as Hg by (unfold began; cbn [put_out cs_t]; by rewrite Ht).
        pose proof (rc_val_inv _ _ _ Hn) as Hn'. apply slot_Some in Eh as Eh'.
        eapply (V_deref _ _ _ h r k n); try done.
        * destruct Hn' as [? Hn']. exact (rc_get_live _ _ _ _ Hn').
        * cbn [touches]. by rewrite Eh, Hr.
        * cbn [vars_in]. rewrite Hg. cbn. left.
        * cbn [bor_out]. rewrite Hg. left.
      + apply bind_inv in H as (vs & _ & [= <-]). apply V_quiet; try done. cbn [touches]. by rewrite Eh.
    - destruct (slot s h) as [[x [|k]]|] eqn:Eh; try (by apply Hid); destruct x as [r|x y|p|m|m|m]; try (by apply Hid).
      apply bind_inv in H as ([d [m1 m2]] & Hm & [= <-]). apply slot_Some in Eh.
      apply V_quiet; try done; cbn.
      + by rewrite list_insert_id.
      + by eapply mut_split_datas.
      + intros h' x k Hx. cbn. assert (h < length (cs_h s)) by by eapply lookup_lt_Some. split.
        * intros [Hl|[_ Hl]]%lookup_app_Some.
          -- destruct (decide (h' = h)) as [->|N]; [|by rewrite list_lookup_insert_ne in Hl].
             rewrite list_lookup_insert in Hl by done. injection Hl as <- <-. done.
          -- destruct (h' - _) in Hl; [|done]. injection Hl as <- <-. done.
        * intros Hl. apply lookup_app_l_Some. destruct (decide (h' = h)) as [->|N]; [|by rewrite list_lookup_insert_ne].
          rewrite Eh in Hl. injection Hl as <- <-. done.
    - destruct (slot s h) as [[x [|k]]|] eqn:Eh; try (by apply Hid); destruct x as [r|x y|p|m|m|m]; try (by apply Hid).
      destruct (_ <? _)%N; [|by apply Hid]. apply bind_inv in H as ([d old] & Hm & [= <-]).
      apply V_quiet; try done. cbn. by eapply mem_replace_datas.
  Qed.
  Lemma cstep_evt s e s' : cstep sz s e = Ok s' -> evt s e s'.
  Proof. destruct e; cbn; [apply evt_cstart|apply evt_tstep|apply evt_write|apply evt_end]. Qed.
End events.
