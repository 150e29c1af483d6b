(** The single-threaded and the thread-safe module run in lockstep: as long as
    their calls return the same, their items, buffers and data nodes are the
    same (C33, C43). *)
From Verif Require Import Base Api BaseLemmas SliceItemsModel BinPartsModel DataModel RcModel Spec DataInv DataSteps RelInv Refine Observe RcTheory
  ArcModel ArcInv ArcRelInv ArcSpec ArcRefine ArcObserve ArcFacts ArcTheory.

Section pos.
  Context {V : Type} (sz : N).
  Notation dworld := (dworld V).
  Implicit Types (d : dworld).
  (** Live nodes have a reference. *)
  Definition pos d : Prop := forall i n, ~ live (dw_datas d) i 0 n.
  Lemma pos_datas d d' : dw_datas d' = dw_datas d -> pos d -> pos d'.
  Proof. unfold pos. by intros ->. Qed.
  Lemma pos_insert d i s (n : dnode) : pos d -> s <> 0 -> pos (dw_set_datas d (<[i := Some (s, n)]> (dw_datas d))).
  Proof. intros H Hs j m Hj. cbn in Hj. apply live_insert in Hj as [(_ & [= ? _] & _)|[_ Hj]]; [done|by apply H in Hj]. Qed.
  Lemma pos_kill d i : pos d -> pos (dw_set_datas d (<[i := None]> (dw_datas d))).
  Proof. intros H j m Hj. cbn in Hj. apply live_insert in Hj as [(_ & Hn & _)|[_ Hj]]; [done|by apply H in Hj]. Qed.
  Lemma pos_inc d i h : pos d -> rc_inc (dw_datas d) i = Ok h -> pos (dw_set_datas d h).
  Proof. intros H. unfold rc_inc. destruct (_ !! i) as [[[s n]|]|]; try done. intros [= <-]. by apply pos_insert. Qed.
  Lemma pos_set d i f h : pos d -> rc_set (dw_datas d) i f = Ok h -> pos (dw_set_datas d h).
  Proof.
    intros H. unfold rc_set. destruct (_ !! i) as [[[s n]|]|] eqn:E; try done. intros [= <-]. apply pos_insert; [done|]. intros ->. by apply H in E.
  Qed.
  Lemma pos_dec d i h o : pos d -> rc_dec (dw_datas d) i = Ok (h, o) -> pos (dw_set_datas d h).
  Proof.
    intros H. unfold rc_dec. destruct (_ !! i) as [[[[|[|s]] n]|]|] eqn:E; try done; intros [= <- <-]; [by apply pos_kill|by apply pos_insert].
  Qed.
  Lemma pos_new d p len al : pos d -> pos (fst (data_new d p len al)).
  Proof. intros H j m Hj. cbn in Hj. apply live_snoc in Hj as [[_ Hj]|[_ Hj]]; [done|by apply H in Hj]. Qed.

  Lemma drop_in_place_datas n : forall d p d', drop_in_place sz d n p = Ok d' -> dw_datas d' = dw_datas d.
  Proof.
    induction n as [|n IH]; intros d p d' E; cbn [drop_in_place] in E; [by injection E as <-|].
    unfold mem_take in E. destruct (mem_at _ _ _); cbn [mbind res_bind] in E; try done. by apply IH in E.
  Qed.
  Lemma alloc_release_datas d o d' : alloc_release sz d o = Ok d' -> dw_datas d' = dw_datas d.
  Proof.
    destruct o as [a|]; cbn; [|by intros [= <-]]. destruct (rc_dec _ _) as [[h [v|]]| | |]; cbn; try done; [|by intros [= <-]].
    unfold salloc_drop. repeat case_match; try done; by intros [= <-].
  Qed.
  Lemma alloc_clone_datas d o d' : alloc_clone d o = Ok d' -> dw_datas d' = dw_datas d.
  Proof. destruct o as [a|]; cbn; [|by intros [= <-]]. destruct (rc_inc _ _); cbn; try done. by intros [= <-]. Qed.
  Lemma data_release_pos fuel : forall d x d', pos d -> data_release sz fuel d x = Ok d' -> pos d'.
  Proof.
    induction fuel as [|fuel IH]; intros d x d' H E; [done|]. cbn [data_release] in E.
    destruct (rc_dec _ _) as [[h o]| | |] eqn:E0; cbn [mbind res_bind] in E; try done. apply (pos_dec _ _ _ _ H) in E0.
    destruct o as [n|]; [|by injection E as <-].
    assert (forall d o d', pos d -> match o with None => Ok d | Some c => data_release sz fuel d c end = Ok d' -> pos d') as Hk.
    { intros d0 [c|] d0' H0 E1; [by eapply IH|by injection E1 as <-]. }
    destruct (match d_left n with None => _ | Some _ => _ end) as [d1| | |] eqn:E1; cbn [mbind res_bind] in E; try done. apply (Hk _ _ _ E0) in E1.
    destruct (match d_right n with None => _ | Some _ => _ end) as [d2| | |] eqn:E2; cbn [mbind res_bind] in E; try done. apply (Hk _ _ _ E1) in E2.
    destruct (match d_left n with None => _ | Some _ => _ end) as [d3| | |] eqn:E3; cbn [mbind res_bind] in E; try done.
    apply alloc_release_datas in E. eapply pos_datas; [exact E|]. eapply pos_datas; [|exact E2].
    destruct (d_left n), (d_right n); cbn in E3; try (by eapply drop_in_place_datas). by injection E3 as <-.
  Qed.
  Lemma data_clone_child_pos d x side p len d' c : pos d -> data_clone_child d x side p len = Ok (d', c) -> pos d'.
  Proof.
    intros H. unfold data_clone_child. destruct (rc_val _ _) as [n| | |]; cbn [mbind res_bind]; try done. destruct (d_child side n) as [c'|].
    - destruct (rc_inc _ _) as [h| | |] eqn:E; cbn [mbind res_bind]; try done. intros [= <- <-]. by eapply pos_inc.
    - destruct (alloc_clone d _) as [d1| | |] eqn:E1; cbn [mbind res_bind]; try done. apply alloc_clone_datas in E1.
      assert (pos d1) as H1 by (by eapply pos_datas).
      pose proof (pos_new d1 p len (if (len =? 0)%N then None else d_alloc n) H1) as H2.
      destruct (data_new d1 p len _) as [d2 c2]. cbn [fst] in H2.
      destruct (rc_inc _ _) as [h| | |] eqn:E; cbn [mbind res_bind]; try done. apply (pos_inc _ _ _ H2) in E.
      destruct (rc_set _ _ _) as [h2| | |] eqn:E3; cbn [mbind res_bind]; try done. intros [= <- <-].
      apply (pos_set (dw_set_datas d2 h) _ _ _ E) in E3. exact E3.
  Qed.

  (** Obtaining a guard leaves the data layer as it was. *)
  Lemma guard_of_fst fuel : forall (s : dworld * gdworld) (d : nat) s' g, pos (fst s) -> guard_of sz fuel s d = Ok (s', g) -> fst s' = fst s.
  Proof.
    induction fuel as [|fuel IH]; intros s d s' g H E; [done|]. cbn [guard_of] in E. destruct (rc_val _ _) as [n| | |]; cbn [mbind res_bind] in E; try done.
    destruct (_ !! d) as [m|]; [|done]. destruct (_ !! am_box m) as [[wk|]|]; try done. destruct (rc_upgrade (gd_guards _) wk) as [gs [g0|]].
    { by injection E as <- <-. }
    destruct (rc_upgrade (dw_datas (fst s)) (am_parent m)) as [hh [p|]] eqn:Eu.
    - assert (exists k v, live (dw_datas (fst s)) p k v /\ hh = <[p := Some (S k, v)]> (dw_datas (fst s))) as (k & v & Hp & ->).
      { unfold rc_upgrade in Eu. destruct (am_parent m) as [q|]; [|done]. destruct (_ !! q) as [[[k v]|]|] eqn:Eq; try done. injection Eu as <- <-. eauto. }
      destruct (guard_of _ _ _ _) as [[s1 pg]| | |] eqn:E1; cbn [mbind res_bind] in E; try done. apply IH in E1; [|by apply pos_insert].
      cbn [fst] in E1. rewrite E1, data_drop_temp in E; [|intros ->; by eapply H|done]. cbn [mbind res_bind fst snd] in E.
      destruct (gd_new_guard _ _ _ _) as [[w1 g1]| | |]; cbn [mbind res_bind] in E; try done. by injection E as <- <-.
    - cbn [mbind res_bind fst snd] in E. destruct (gd_new_guard _ _ _ _) as [[w1 g1]| | |]; cbn [mbind res_bind] in E; try done. by injection E as <- <-.
  Qed.
  Lemma arc_from_data_fst (s : dworld * gdworld) (d : nat) s' r : pos (fst s) -> arc_from_data sz s d = Ok (s', r) -> fst s' = fst s /\ ar_data r = d.
  Proof.
    intros H. unfold arc_from_data, guard_for. destruct (guard_of _ _ _ _) as [[s1 g]| | |] eqn:E; cbn [mbind res_bind]; try done. intros [= <- <-].
    split; [|done]. by eapply guard_of_fst.
  Qed.
End pos.

(** Two instances of the generic parts iterator in lockstep. *)
Section bpi_sim.
  Context {S1 W1 S2 W2 : Type} (RW : W1 -> W2 -> Prop) (RS : S1 -> S2 -> Prop).
  Definition dsim (q1 : deque S1) (q2 : deque S2) : Prop := Forall2 RS (dq_items q1) (dq_items q2) /\ dq_cap q1 = dq_cap q2.
  Definition bsim (it1 : bpi S1) (it2 : bpi S2) : Prop :=
    bp_num_parts it1 = bp_num_parts it2 /\ bp_front it1 = bp_front it2 /\ bp_back it1 = bp_back it2 /\ dsim (bp_deque it1) (bp_deque it2).
  Definition osim (o1 : option S1) (o2 : option S2) : Prop := option_Forall2 RS o1 o2.
  Context (growf capf : N -> N).
  Lemma dsim_len q1 q2 : dsim q1 q2 -> length (dq_items q1) = length (dq_items q2).
  Proof. intros [H _]. by eapply Forall2_length. Qed.
  Lemma push_front_sim q1 q2 s1 s2 : dsim q1 q2 -> RS s1 s2 -> dsim (dq_push_front growf q1 s1) (dq_push_front growf q2 s2).
  Proof. intros H Hs. pose proof (dsim_len _ _ H) as Hl. destruct H as [H Hc]. unfold dq_push_front. rewrite Hl, Hc. split; [by constructor|done]. Qed.
  Lemma push_back_sim q1 q2 s1 s2 : dsim q1 q2 -> RS s1 s2 -> dsim (dq_push_back growf q1 s1) (dq_push_back growf q2 s2).
  Proof.
    intros H Hs. pose proof (dsim_len _ _ H) as Hl. destruct H as [H Hc]. unfold dq_push_back. rewrite Hl, Hc. split; [|done]. cbn.
    apply Forall2_app; [done|]. by constructor.
  Qed.
  Lemma Forall2_last l1 l2 : Forall2 RS l1 l2 -> osim (last l1) (last l2) /\ Forall2 RS (removelast l1) (removelast l2).
  Proof.
    induction 1 as [|x y l1 l2 Hx H IH]; [by split; constructor|]. destruct IH as [IH1 IH2]. destruct l1 as [|x' l1], l2 as [|y' l2]; inversion H; subst.
    - split; constructor; done.
    - split; [exact IH1|]. change (removelast (x :: x' :: l1)) with (x :: removelast (x' :: l1)). change (removelast (y :: y' :: l2)) with (y :: removelast (y' :: l2)). by constructor.
  Qed.
  Lemma bpi_new_sim s1 s2 n : RS s1 s2 -> match bpi_new capf growf s1 n, bpi_new capf growf s2 n with
    | Ok a, Ok b => bsim a b | Panic, Panic => True | UB, UB => True | NoFuel, NoFuel => True | _, _ => False end.
  Proof.
    intros Hs. unfold bpi_new. destruct (n =? 0)%N; [done|]. destruct (bpi_log_loop _ _ _) as [[m log]| | |]; cbn [mbind res_bind]; try done.
    destruct (negb _); [done|]. destruct (if (log <=? 1)%N then _ else _) as [cap| | |]; cbn [mbind res_bind]; try done.
    split_and!; try done. apply push_front_sim; [|done]. split; [constructor|done].
  Qed.
  Lemma bpi_len_sim it1 it2 : bsim it1 it2 -> bpi_len it1 = bpi_len it2.
  Proof. intros (H1 & H2 & H3 & _). unfold bpi_len. by rewrite H1, H2, H3. Qed.

  Context (split1 : W1 -> S1 -> res (W1 * (S1 * S1))) (split2 : W2 -> S2 -> res (W2 * (S2 * S2))).
  Definition split_sim : Prop := forall w1 w2 s1 s2 w1' w2' a1 a2 b1 b2, RW w1 w2 -> RS s1 s2 ->
    split1 w1 s1 = Ok (w1', (a1, b1)) -> split2 w2 s2 = Ok (w2', (a2, b2)) -> RW w1' w2' /\ RS a1 a2 /\ RS b1 b2.
  Lemma loop_front_sim : split_sim -> forall fuel n w1 w2 q1 q2 i1 i2 w1' w2' q1' q2' i1' i2', RW w1 w2 -> dsim q1 q2 -> osim i1 i2 ->
    bpi_loop_front split1 growf fuel n w1 q1 i1 = Ok (w1', q1', i1') -> bpi_loop_front split2 growf fuel n w2 q2 i2 = Ok (w2', q2', i2') ->
    RW w1' w2' /\ dsim q1' q2' /\ osim i1' i2'.
  Proof.
    intros HS. induction fuel as [|fuel IH]; intros n w1 w2 q1 q2 i1 i2 w1' w2' q1' q2' i1' i2' HW HQ HI E1 E2; [done|]. cbn [bpi_loop_front] in E1, E2.
    destruct (_ =? 0)%N; [|injection E1 as <- <- <-; injection E2 as <- <- <-; done].
    assert (dsim (match i1 with Some it => dq_push_front growf q1 it | None => q1 end) (match i2 with Some it => dq_push_front growf q2 it | None => q2 end)) as HQ'.
    { destruct HI; [by apply push_front_sim|done]. }
    revert E1 E2 HQ'. generalize (match i1 with Some it => dq_push_front growf q1 it | None => q1 end) (match i2 with Some it => dq_push_front growf q2 it | None => q2 end).
    intros p1 p2 E1 E2 HQ'. pose proof HQ' as [HF HC]. destruct (dq_items p1) as [|s1 l1], (dq_items p2) as [|s2 l2]; inversion HF; subst.
    - eapply IH; [exact HW|exact HQ'| |exact E1|exact E2]. constructor.
    - destruct (split1 w1 s1) as [[v1 [a1 b1]]| | |] eqn:X1; cbn [mbind res_bind] in E1; try done. destruct (split2 w2 s2) as [[v2 [a2 b2]]| | |] eqn:X2; cbn [mbind res_bind] in E2; try done.
      destruct (HS _ _ _ _ _ _ _ _ _ _ HW ltac:(done) X1 X2) as (HW' & Ha & Hb).
      eapply IH; [exact HW'| | |exact E1|exact E2]; [split; cbn; [by constructor|done]|by constructor].
  Qed.
  Lemma loop_back_sim : split_sim -> forall fuel n w1 w2 q1 q2 i1 i2 w1' w2' q1' q2' i1' i2', RW w1 w2 -> dsim q1 q2 -> osim i1 i2 ->
    bpi_loop_back split1 growf fuel n w1 q1 i1 = Ok (w1', q1', i1') -> bpi_loop_back split2 growf fuel n w2 q2 i2 = Ok (w2', q2', i2') ->
    RW w1' w2' /\ dsim q1' q2' /\ osim i1' i2'.
  Proof.
    intros HS. induction fuel as [|fuel IH]; intros n w1 w2 q1 q2 i1 i2 w1' w2' q1' q2' i1' i2' HW HQ HI E1 E2; [done|]. cbn [bpi_loop_back] in E1, E2.
    destruct (_ =? 0)%N; [|injection E1 as <- <- <-; injection E2 as <- <- <-; done].
    assert (dsim (match i1 with Some it => dq_push_back growf q1 it | None => q1 end) (match i2 with Some it => dq_push_back growf q2 it | None => q2 end)) as HQ'.
    { destruct HI; [by apply push_back_sim|done]. }
    revert E1 E2 HQ'. generalize (match i1 with Some it => dq_push_back growf q1 it | None => q1 end) (match i2 with Some it => dq_push_back growf q2 it | None => q2 end).
    intros p1 p2 E1 E2 HQ'. pose proof HQ' as [HF HC]. apply Forall2_last in HF as [HL HR]. destruct (last (dq_items p1)) as [s1|], (last (dq_items p2)) as [s2|]; inversion HL; subst.
    - destruct (split1 w1 s1) as [[v1 [a1 b1]]| | |] eqn:X1; cbn [mbind res_bind] in E1; try done. destruct (split2 w2 s2) as [[v2 [a2 b2]]| | |] eqn:X2; cbn [mbind res_bind] in E2; try done.
      destruct (HS _ _ _ _ _ _ _ _ _ _ HW ltac:(done) X1 X2) as (HW' & Ha & Hb).
      eapply IH; [exact HW'| | |exact E1|exact E2]; [split; cbn; [|done]|by constructor]. apply Forall2_app; [done|]. by constructor.
    - eapply IH; [exact HW|exact HQ'| |exact E1|exact E2]. constructor.
  Qed.
  Context (dbg : bool).
  Lemma bpi_next_sim w1 w2 it1 it2 w1' w2' it1' it2' o1 o2 : split_sim -> RW w1 w2 -> bsim it1 it2 ->
    bpi_next split1 growf dbg w1 it1 = Ok (w1', it1', o1) -> bpi_next split2 growf dbg w2 it2 = Ok (w2', it2', o2) ->
    RW w1' w2' /\ bsim it1' it2' /\ osim o1 o2.
  Proof.
    intros HS HW HB E1 E2. unfold bpi_next in E1, E2. pose proof (bpi_len_sim _ _ HB) as Hl. rewrite <- Hl in E2. pose proof HB as (H1 & H2 & H3 & HD).
    rewrite <- H1, <- H2 in E2. rewrite <- (dsim_len _ _ HD) in E2. rewrite <- (proj2 HD) in E2.
    destruct (bpi_len it1) as [l| | |]; cbn [mbind res_bind] in E1, E2; try done. destruct (0 =? l)%N; [injection E1 as <- <- <-; injection E2 as <- <- <-; split_and!; try done; constructor|].
    destruct (dbg && _); [done|]. destruct (usub _ _) as [m| | |]; cbn [mbind res_bind] in E1, E2; try done. destruct (dbg && _); [done|].
    destruct (greatest_power_of_2_factor m) as [n| | |]; cbn [mbind res_bind] in E1, E2; try done. destruct (shrink_to _ _ _) as [n'| | |]; cbn [mbind res_bind] in E1, E2; try done.
    destruct (bpi_loop_front split1 _ _ _ _ _ _) as [[[v1 q1] i1]| | |] eqn:X1; cbn [mbind res_bind] in E1; try done.
    destruct (bpi_loop_front split2 _ _ _ _ _ _) as [[[v2 q2] i2]| | |] eqn:X2; cbn [mbind res_bind] in E2; try done.
    destruct (loop_front_sim HS _ _ _ _ _ _ _ _ _ _ _ _ _ _ HW HD (None_Forall2 RS) X1 X2) as (HW' & HD' & HI).
    destruct (dbg && _); [done|]. destruct (dbg && _); [done|]. destruct (uadd _ _) as [f| | |]; cbn [mbind res_bind] in E1, E2; try done. rewrite <- H3 in E2.
    destruct HI as [x y Hxy|].
    - injection E1 as <- <- <-. injection E2 as <- <- <-. split_and!; try done; constructor; done.
    - unfold dq_pop_front in E1, E2. pose proof HD' as [HF HC]. destruct (dq_items q1) as [|x1 l1], (dq_items q2) as [|x2 l2]; inversion HF; subst; injection E1 as <- <- <-; injection E2 as <- <- <-.
      + split_and!; try done; constructor.
      + split_and!; try done; constructor; done.
  Qed.
  Lemma bpi_next_back_sim w1 w2 it1 it2 w1' w2' it1' it2' o1 o2 : split_sim -> RW w1 w2 -> bsim it1 it2 ->
    bpi_next_back split1 growf dbg w1 it1 = Ok (w1', it1', o1) -> bpi_next_back split2 growf dbg w2 it2 = Ok (w2', it2', o2) ->
    RW w1' w2' /\ bsim it1' it2' /\ osim o1 o2.
  Proof.
    intros HS HW HB E1 E2. unfold bpi_next_back in E1, E2. pose proof (bpi_len_sim _ _ HB) as Hl. rewrite <- Hl in E2. pose proof HB as (H1 & H2 & H3 & HD).
    rewrite <- H1, <- H3 in E2. rewrite <- (dsim_len _ _ HD) in E2. rewrite <- (proj2 HD) in E2.
    destruct (bpi_len it1) as [l| | |]; cbn [mbind res_bind] in E1, E2; try done. destruct (0 =? l)%N; [injection E1 as <- <- <-; injection E2 as <- <- <-; split_and!; try done; constructor|].
    destruct (dbg && _); [done|]. destruct (usub _ _) as [m| | |]; cbn [mbind res_bind] in E1, E2; try done. destruct (dbg && _); [done|].
    destruct (greatest_power_of_2_factor m) as [n| | |]; cbn [mbind res_bind] in E1, E2; try done. destruct (shrink_to _ _ _) as [n'| | |]; cbn [mbind res_bind] in E1, E2; try done.
    destruct (bpi_loop_back split1 _ _ _ _ _ _) as [[[v1 q1] i1]| | |] eqn:X1; cbn [mbind res_bind] in E1; try done.
    destruct (bpi_loop_back split2 _ _ _ _ _ _) as [[[v2 q2] i2]| | |] eqn:X2; cbn [mbind res_bind] in E2; try done.
    destruct (loop_back_sim HS _ _ _ _ _ _ _ _ _ _ _ _ _ _ HW HD (None_Forall2 RS) X1 X2) as (HW' & HD' & HI).
    destruct (dbg && _); [done|]. destruct (dbg && _); [done|]. destruct (uadd _ _) as [f| | |]; cbn [mbind res_bind] in E1, E2; try done. rewrite <- H2 in E2.
    destruct HI as [x y Hxy|].
    - injection E1 as <- <- <-. injection E2 as <- <- <-. split_and!; try done; constructor; done.
    - unfold dq_pop_back in E1, E2. pose proof HD' as [HF HC]. apply Forall2_last in HF as [HL HR].
      destruct (last (dq_items q1)) as [x1|], (last (dq_items q2)) as [x2|]; inversion HL; subst; injection E1 as <- <- <-; injection E2 as <- <- <-.
      + split_and!; try done; constructor; done.
      + split_and!; try done; constructor.
  Qed.
End bpi_sim.

Section sim.
  Context {V : Type} (cf : cfg V).
  Notation sz := (c_sz cf).
  Notation sr := (dworld V * gworld)%type.
  Notation sa := (dworld V * gdworld)%type.
  Implicit Types (s : sr) (x : sa) (o : op V) (h : nat) (ops : list (op V)).

  Definition rsim (r : rcslice) (r' : arcslice) : Prop := rs_data r = ar_data r'.
  Definition wsim s x : Prop := fst s = fst x /\ pos (fst s).
  Definition hsim (c : handle) (c' : xhandle) : Prop :=
    match c, c' with
    | HRc r, XArc r' => rsim r r'
    | HWeak d _, XWeak d' _ => d = d'
    | HParts it, XParts it' => bsim rsim it it'
    | HMut m, XMut m' => m = m'
    | HIter m, XIter m' => m = m'
    | HMParts m, XMParts m' => m = m'
    | _, _ => False
    end.
  Notation hssim := (Forall2 (option_Forall2 hsim)).
  (** Same data layer, same variables up to guards. *)
  Definition sim (w : world V) (y : aworld V) : Prop := w_d w = aw_d y /\ hssim (w_h w) (aw_h y).

  Ltac bd E := match type of E with (?m ≫= _) = Ok _ => let z := fresh "z" in let Ez := fresh "Ez" in
    destruct m as [z| | |] eqn:Ez; cbn [mbind res_bind] in E; try done end.

  Lemma clone_sim s x r r' s1 x1 q q' : wsim s x -> rsim r r' -> rcs_clone s r = Ok (s1, q) -> arc_clone x r' = Ok (x1, q') -> wsim s1 x1 /\ rsim q q'.
  Proof.
    intros [Hd Hp] Hr. unfold rcs_clone, arc_clone. unfold rsim in *. rewrite <- Hd, <- Hr. intros E1 E2.
    destruct (rc_inc (dw_datas (fst s)) _) as [hh| | |] eqn:E; cbn [mbind res_bind] in E1, E2; try done. bd E1. bd E2. injection E1 as <- <-. injection E2 as <- <-.
    split; [|done]. split; [done|]. by eapply pos_inc.
  Qed.
  Lemma drop_sim s x r r' s1 x1 : wsim s x -> rsim r r' -> rcs_drop sz s r = Ok s1 -> arc_drop sz x r' = Ok x1 -> wsim s1 x1.
  Proof.
    intros [Hd Hp] Hr. unfold rcs_drop, arc_drop. unfold rsim in *. rewrite <- Hd, <- Hr. intros E1 E2.
    destruct (data_drop _ _ _) as [d| | |] eqn:E; cbn [mbind res_bind] in E1, E2; try done. bd E1. bd E2. injection E1 as <-. injection E2 as <-.
    split; [done|]. by eapply data_release_pos.
  Qed.
  Lemma half_sim s x r r' s1 x1 q q' (side : bool) : wsim s x -> rsim r r' ->
    (if side then rcs_clone_right sz s r else rcs_clone_left s r) = Ok (s1, q) ->
    (if side then arc_clone_right sz x r' else arc_clone_left sz x r') = Ok (x1, q') -> wsim s1 x1 /\ rsim q q'.
  Proof.
    intros [Hd Hp] Hr E1 E2.
    assert (exists n d c, rc_val (dw_datas (fst s)) (rs_data r) = Ok n /\
      (if (if side then (d_len n <=? 1)%N else (d_len n =? 0)%N) then hh ← rc_inc (dw_datas (fst s)) (rs_data r); Ok (dw_set_datas (fst s) hh, rs_data r)
       else if side then data_clone_right sz (fst s) (rs_data r) else data_clone_left (fst s) (rs_data r)) = Ok (d, c) /\ fst s1 = d /\ rs_data q = c) as (n & d & c & En & Ec & H1 & H2).
    { destruct side; [unfold rcs_clone_right in E1|unfold rcs_clone_left in E1];
      (destruct (rc_val _ _) as [n| | |]; cbn [mbind res_bind] in E1; try done); exists n;
      [destruct (d_len n <=? 1)%N|destruct (d_len n =? 0)%N].
      all: try (unfold rcs_clone in E1; bd E1; bd E1; injection E1 as <- <-; cbn [fst]; eauto 10).
      all: bd E1; destruct z as [d c]; bd E1; destruct z as [g i]; injection E1 as <- <-; cbn [fst rs_data]; eauto 10. }
    assert (pos d) as Hpd.
    { destruct (if side then (d_len n <=? 1)%N else _).
      - destruct (rc_inc _ _) as [hh| | |] eqn:Ei; cbn [mbind res_bind] in Ec; try done. injection Ec as <- <-. by eapply pos_inc.
      - destruct side; [unfold data_clone_right in Ec|unfold data_clone_left in Ec]; rewrite En in Ec; cbn [mbind res_bind] in Ec; (eapply data_clone_child_pos; [|exact Ec]); done. }
    assert (exists x2, arc_from_data sz x2 c = Ok (x1, q') /\ fst x2 = d) as (x2 & Ef & H3).
    { destruct side; [unfold arc_clone_right, adata_clone_right in E2|unfold arc_clone_left, adata_clone_left in E2];
      (destruct (gate_wait _ _ _) as [[]| | |]; cbn [mbind res_bind] in E2; try done); unfold rsim in Hr; rewrite <- Hr, <- Hd, En in E2; cbn [mbind res_bind] in E2;
      [destruct (d_len n <=? 1)%N|destruct (d_len n =? 0)%N].
      all: try (destruct (rc_inc _ _) as [hh| | |]; cbn [mbind res_bind] in E2, Ec; try done; injection Ec as <- <-; eexists; split; [exact E2|done]).
      all: rewrite Ec in E2; cbn [mbind res_bind] in E2; eexists; split; [exact E2|done]. }
    destruct (arc_from_data_fst sz x2 c x1 q' ltac:(by rewrite H3) Ef) as [H4 H5]. unfold wsim, rsim. rewrite H4, H3, H5, H1, H2. done.
  Qed.
  Lemma split_left_sim : split_sim wsim rsim (rcs_split_off_left sz) (arc_split_off_left sz).
  Proof.
    intros s x r r' s1 x1 a a' b b' HW HR E1 E2. unfold rcs_split_off_left in E1. unfold arc_split_off_left in E2.
    bd E1. destruct z as [s2 l]. bd E1. destruct z as [s3 t]. bd E1. injection E1 as <- <- <-.
    bd E2. destruct z0 as [x2 l']. bd E2. destruct z0 as [x3 t']. bd E2. injection E2 as <- <- <-.
    destruct (half_sim _ _ _ _ _ _ _ _ false HW HR Ez Ez2) as [HW1 H1]. destruct (half_sim _ _ _ _ _ _ _ _ true HW1 HR Ez0 Ez3) as [HW2 H2].
    split; [by eapply (drop_sim _ _ _ _ _ _ HW2 HR)|done].
  Qed.
  Lemma split_right_sim : split_sim wsim rsim (rcs_split_off_right sz) (arc_split_off_right sz).
  Proof.
    intros s x r r' s1 x1 a a' b b' HW HR E1 E2. unfold rcs_split_off_right in E1. unfold arc_split_off_right in E2.
    bd E1. destruct z as [s2 l]. bd E1. destruct z as [s3 t]. bd E1. injection E1 as <- <- <-.
    bd E2. destruct z0 as [x2 l']. bd E2. destruct z0 as [x3 t']. bd E2. injection E2 as <- <- <-.
    destruct (half_sim _ _ _ _ _ _ _ _ false HW HR Ez Ez2) as [HW1 H1]. destruct (half_sim _ _ _ _ _ _ _ _ true HW1 HR Ez0 Ez3) as [HW2 H2].
    split; [by eapply (drop_sim _ _ _ _ _ _ HW2 HR)|done].
  Qed.
  Lemma drop_all_sim l l' : Forall2 rsim l l' -> forall s x s1 x1, wsim s x -> rcs_drop_all sz s l = Ok s1 -> arc_drop_all sz x l' = Ok x1 -> wsim s1 x1.
  Proof.
    induction 1 as [|r r' l l' Hr H IH]; intros s x s1 x1 HW E1 E2; cbn [rcs_drop_all arc_drop_all] in E1, E2.
    - injection E1 as <-. by injection E2 as <-.
    - bd E1. bd E2. eapply (IH z z0); [|done|done]. by eapply drop_sim.
  Qed.
  Lemma clone_all_sim l l' : Forall2 rsim l l' -> forall s x s1 x1 q q', wsim s x -> clone_all rcs_clone s l = Ok (s1, q) -> clone_all arc_clone x l' = Ok (x1, q') ->
    wsim s1 x1 /\ Forall2 rsim q q'.
  Proof.
    induction 1 as [|r r' l l' Hr H IH]; intros s x s1 x1 q q' HW E1 E2; cbn [clone_all] in E1, E2.
    - injection E1 as <- <-. injection E2 as <- <-. by split.
    - bd E1. destruct z as [s2 y]. bd E2. destruct z as [x2 y']. destruct (clone_sim _ _ _ _ _ _ _ _ HW Hr Ez Ez0) as [HW2 Hy].
      bd E1. destruct z as [s3 q1]. bd E2. destruct z as [x3 q1']. injection E1 as <- <-. injection E2 as <- <-.
      destruct (IH _ _ _ _ _ _ HW2 Ez1 Ez2) as [HW3 Hq]. split; [done|by constructor].
  Qed.
  Lemma slices_sim l l' : Forall2 rsim l l' -> forall s x, fst s = fst x -> rcs_slices s l = arc_slices x l'.
  Proof.
    induction 1 as [|r r' l l' Hr H IH]; intros s x HW; cbn [rcs_slices arc_slices]; [done|]. unfold rcs_slice, arc_slice. rewrite <- HW, <- Hr. by rewrite (IH s x HW).
  Qed.

  Lemma get_sim w y h : sim w y -> option_Forall2 hsim (get_h w h) (xget y h).
  Proof.
    intros [_ H]. unfold get_h, xget. pose proof (proj1 (Forall2_lookup _ _ _) H h) as Hh. destruct Hh as [a b Hab|]; [|constructor]. destruct Hab; by constructor.
  Qed.
  Lemma sim_new hs hs' c c' : hssim hs hs' -> hsim c c' -> hssim (hs ++ [Some c]) (hs' ++ [Some c']).
  Proof. intros H Hc. apply Forall2_app; [done|]. constructor; [by constructor|constructor]. Qed.
  Lemma sim_upd hs hs' h c c' : hssim hs hs' -> hsim c c' -> hssim (<[h := Some c]> hs) (<[h := Some c']> hs').
  Proof. intros H Hc. apply Forall2_insert; [done|by constructor]. Qed.
  Lemma sim_del hs hs' h : hssim hs hs' -> hssim (<[h := None]> hs) (<[h := None]> hs').
  Proof. intros H. apply Forall2_insert; [done|constructor]. Qed.

  Lemma new_sim (d : dworld V) base vals : pos d -> pos (fst (fst (new_block d base vals))).
  Proof. by apply pos_datas. Qed.
  Lemma from_boxed_pos (d : dworld V) p len : pos d -> pos (fst (data_from_boxed_slice d p len)).
  Proof. intros H. unfold data_from_boxed_slice. destruct (_ =? _)%N; [by apply pos_new|]. cbn [alloc_new rc_new]. apply pos_new. by eapply pos_datas. Qed.
  Lemma arc_get_mut_same x r x1 q : arc_get_mut x r = Ok (x1, q) -> fst x1 = fst x /\ forall p l, q = Some (p, l) -> exists n, rc_val (dw_datas (fst x)) (ar_data r) = Ok n /\ p = d_ptr n /\ l = d_len n.
  Proof.
    unfold arc_get_mut. intros E. bd E. destruct z as [w1 []]; cbn [negb] in E; [|by injection E as <- <-].
    destruct (_ =? _)%nat; [|cbn [mbind res_bind] in E; bd E; by injection E as <- <-].
    destruct (gate_try_close w1 _ false) as [[w2 []]| | |]; cbn [mbind res_bind negb] in E; try done; [|bd E; by injection E as <- <-].
    destruct (_ =? _)%nat; [|cbn [mbind res_bind] in E; destruct (gate_open w2 _ _) as [w3| | |]; cbn [mbind res_bind] in E; try done; bd E; by injection E as <- <-].
    destruct (rc_val _ _) as [n| | |]; cbn [mbind res_bind] in E; try done.
    destruct (_ =? _)%nat; cbn [mbind res_bind] in E; destruct (gate_open w2 _ _) as [w3| | |]; cbn [mbind res_bind] in E; try done; bd E; injection E as <- <-; (split; [done|]); intros p l; [|done].
    intros [= <- <-]. eauto.
  Qed.

  Lemma ret_slice_sim s x hs hs' p len w' y' r r' : fst s = fst x -> hssim hs hs' ->
    ret_slice sz s hs p len = Ok (w', r) -> xret_slice sz x hs' p len = Ok (y', r') -> sim w' y'.
  Proof.
    intros Hd Hh. unfold ret_slice, xret_slice. rewrite <- Hd. destruct (mem_read _ _ _ _); cbn [mbind res_bind]; try done. intros [= <- <-] [= <- <-]. by split.
  Qed.
  Lemma ret_replace_sim s x hs hs' p len i v w' y' r r' : fst s = fst x -> hssim hs hs' ->
    ret_replace sz s hs p len i v = Ok (w', r) -> xret_replace sz x hs' p len i v = Ok (y', r') -> sim w' y'.
  Proof.
    intros Hd Hh. unfold ret_replace, xret_replace. rewrite <- Hd. destruct (_ <? _)%N; [|by intros [= <- <-] [= <- <-]].
    destruct (mem_replace _ _ _ _) as [[d old]| | |]; cbn [mbind res_bind]; try done. intros [= <- <-] [= <- <-]. by split.
  Qed.

  Lemma step_sim w y o w' y' r : sim w y -> pos (w_d w) -> rstep cf w o = Ok (w', r) -> xstep cf y o = Ok (y', r) -> sim w' y'.
  Proof.
    intros S Hp E1 E2. pose proof S as [Hd Hh]. unfold rstep in E1. unfold xstep in E2.
    assert (wsim (w_d w, w_g w) (aw_d y, aw_g y)) as HW by (by split).
    destruct o; cbn [step] in E1; cbn [astep] in E2;
    try (match type of E1 with context [get_h _ ?h] => pose proof (get_sim w y h S) as G;
      destruct (get_h w h) as [[rr|dd gg|it|m|m|m]|], (xget y h) as [[rr'|dd' gg'|it'|m'|m'|m']|]; inversion G as [? ? G'|]; subst; try cbn [hsim] in G'; try done; subst;
      try (injection E1 as <- <-; injection E2 as <- ; by split); try (destruct (negb _); injection E1 as <- <-; injection E2 as <-; by split) end).
    - destruct (_ <? _)%N; [|injection E1 as <- <-; injection E2 as <-; by split]. unfold rcs_from_boxed_slice in E1. unfold arc_from_boxed_slice in E2. cbn [fst snd] in E1, E2. rewrite <- Hd in E2.
      pose proof (new_sim (w_d w) base vals Hp) as Hp1. destruct (new_block _ _ _) as [[d p] len]. cbn [fst] in Hp1. pose proof (from_boxed_pos d p len Hp1) as Hp2.
      destruct (data_from_boxed_slice d p len) as [d1 n]. cbn [fst] in Hp2. bd E1. destruct z as [s1 r1]. injection E1 as <- <-. unfold rcs_from_unique_data in Ez. bd Ez. destruct z. injection Ez as <- <-.
      bd E2. destruct z as [x1 r1']. injection E2 as <-. apply arc_from_data_fst in Ez as [H1 H2]; [|done]. cbn in H1. split; [done|]. by apply sim_new.
    - destruct (_ <? _)%N; [|injection E1 as <- <-; injection E2 as <-; by split]. unfold mut_from_boxed_slice in E1. unfold arc_mut_from_boxed_slice in E2. cbn [fst snd] in E1, E2. rewrite <- Hd in E2.
      destruct (new_block _ _ _) as [[d p] len]. destruct (split_alloc_from_items _ _ _ _) as [[d1 it] al]. injection E1 as <- <-. injection E2 as <-. split; [done|]. by apply sim_new.
    - injection E1 as <- <-. injection E2 as <-. split; [done|]. by apply sim_new.
    - bd E1. destruct z as [s1 q]. bd E2. destruct z as [x1 q']. injection E1 as <- <-. injection E2 as <-.
      destruct (clone_sim _ _ _ _ _ _ _ _ HW G' Ez Ez0) as [[H1 _] H2]. split; [done|]. by apply sim_new.
    - bd E1. bd E2. injection E1 as <- <-. injection E2 as <-. unfold weak_clone in Ez. bd Ez. injection Ez as <-. unfold aweak_clone in Ez0. bd Ez0. injection Ez0 as <-. split; [done|]. by apply sim_new.
    - bd E1. destruct z as [s1 q]. bd E2. destruct z as [x1 q']. injection E1 as <- <-. injection E2 as <-. unfold bpi_clone in Ez, Ez0. bd Ez. destruct z as [s2 l]. injection Ez as <- <-. bd Ez0. destruct z as [x2 l']. injection Ez0 as <- <-.
      pose proof G' as (H1 & H2 & H3 & H4 & H5). destruct (clone_all_sim _ _ H4 _ _ _ _ _ _ HW Ez1 Ez) as [[H6 _] H7]. split; [done|]. apply sim_new; [done|].
      split_and!; try done. cbn. by rewrite (Forall2_length _ _ _ H7).
    - bd E1. destruct z as [s1 q]. bd E2. destruct z as [x1 q']. injection E1 as <- <-. injection E2 as <-. unfold mut_clone in Ez. unfold arc_mut_clone in Ez0. cbn [fst] in Ez, Ez0. rewrite <- Hd in Ez0.
      destruct (mem_read _ _ _ _) as [vs| | |]; cbn [mbind res_bind] in Ez, Ez0; try done. unfold mut_from_boxed_slice in Ez. unfold arc_mut_from_boxed_slice in Ez0. cbn [fst snd] in Ez, Ez0.
      destruct (new_block _ _ _) as [[d p] len]. destruct (split_alloc_from_items _ _ _ _) as [[d1 it] al]. injection Ez as <- <-. injection Ez0 as <- <-. split; [done|]. by apply sim_new.
    - bd E1. destruct z as [s1 q]. bd E2. destruct z as [x1 q']. injection E1 as <- <-. injection E2 as <-.
      destruct (half_sim _ _ _ _ _ _ _ _ side HW G' Ez Ez0) as [[H1 _] H2]. split; [done|]. by apply sim_new.
    - bd E1. destruct z as [s1 [q1 q2]]. bd E2. destruct z as [x1 [q1' q2']]. injection E1 as <- <-. injection E2 as <- _.
      assert (wsim s1 x1 /\ rsim q1 q1' /\ rsim q2 q2') as ([H1 _] & H2 & H3).
      { destruct side; [by eapply split_right_sim|by eapply split_left_sim]. }
      split; [done|]. apply sim_new; [|done]. by apply sim_upd.
    - cbn [fst snd] in E1, E2. rewrite <- Hd in E2. bd E1. destruct z as [d [m1 m2]]. injection E1 as <- <-. injection E2 as <- _. split; [done|]. apply sim_new; [|done]. by apply sim_upd.
    - destruct (negb _); [injection E1 as <- <-; injection E2 as <-; by split|]. pose proof (bpi_new_sim rsim (c_growf cf) (c_capf cf) rr rr' n G') as Hn.
        destruct (bpi_new _ _ rr _) as [it| | |], (bpi_new _ _ rr' _) as [it'| | |]; try done.
      + injection E1 as <- <-. injection E2 as <- _. split; [done|]. apply sim_new; [|done]. by apply sim_del.
      + bd E1. bd E2. injection E1 as <- <-. injection E2 as <-. destruct (drop_sim _ _ _ _ _ _ HW G' Ez Ez0) as [H1 _]. split; [done|]. by apply sim_del.
    - destruct (negb _); [injection E1 as <- <-; injection E2 as <-; by split|]. destruct (mut_split_into_parts _ _) as [it| | |]; try done.
      + injection E1 as <- <-. injection E2 as <- _. split; [done|]. apply sim_new; [|done]. by apply sim_del.
      + cbn [fst snd] in E1, E2. rewrite <- Hd in E2. bd E1. injection E1 as <- <-. injection E2 as <-. split; [done|]. by apply sim_del.
    - bd E1. bd E2. destruct z0 as [x1 q]. destruct (arc_get_mut_same _ _ _ _ Ez0) as [H1 H2]. cbn [fst] in H1, H2.
      destruct z as [[p l]|], q as [[p' l']|].
      + destruct (H2 _ _ eq_refl) as (n & H3 & -> & ->). unfold rcs_get_mut in Ez. cbn [fst snd] in Ez. rewrite <- Hd in H3. unfold rsim in G'. rewrite <- G' in H3. rewrite H3 in Ez. cbn [mbind res_bind] in Ez. bd Ez. destruct (_ && _); [|done]. injection Ez as <- <-.
        eapply ret_slice_sim; [|exact Hh|exact E1|exact E2]. cbn. by rewrite H1.
      + unfold ret_slice in E1. bd E1. injection E1 as <- <-. discriminate E2.
      + unfold xret_slice in E2. bd E2. injection E2 as <- <-. discriminate E1.
      + injection E1 as <- <-. injection E2 as <-. split; [cbn; by rewrite H1|done].
    - bd E1. bd E2. destruct z0 as [x1 q]. destruct (arc_get_mut_same _ _ _ _ Ez0) as [H1 H2]. cbn [fst] in H1, H2.
      destruct z as [[p l]|], q as [[p' l']|].
      + destruct (H2 _ _ eq_refl) as (n & H3 & -> & ->). unfold rcs_get_mut in Ez. cbn [fst snd] in Ez. rewrite <- Hd in H3. unfold rsim in G'. rewrite <- G' in H3. rewrite H3 in Ez. cbn [mbind res_bind] in Ez. bd Ez. destruct (_ && _); [|done]. injection Ez as <- <-.
        eapply ret_replace_sim; [|exact Hh|exact E1|exact E2]. cbn. by rewrite H1.
      + unfold ret_replace in E1. destruct (_ <? _)%N; [bd E1; destruct z; injection E1 as <- <-; discriminate E2|injection E1 as <- <-; discriminate E2].
      + unfold xret_replace in E2. destruct (_ <? _)%N; [bd E2; destruct z; injection E2 as <- <-; discriminate E1|injection E2 as <- <-; discriminate E1].
      + injection E1 as <- <-. injection E2 as <-. split; [cbn; by rewrite H1|done].
    - bd E1. destruct z as [s1 q]. bd E2. destruct z as [x1 q'].
      unfold rcs_into_mut in Ez. unfold arc_into_mut in Ez0. cbn [fst snd] in Ez, Ez0. rewrite <- Hd in Ez0. unfold rsim in G'. rewrite <- G' in Ez0.
      destruct (gate_try_close _ _ _) as [[g1 ok]| | |]; cbn [mbind res_bind] in Ez0; try done.
      destruct q as [m|q], q' as [m'|q'].
      + destruct ok; cbn [negb] in Ez0; [|done]. destruct (_ =? _)%nat; [|done]. match type of Ez0 with (if ?b then _ else _) = _ => destruct b end; [|by bd Ez0].
        destruct (rc_try_unwrap _ _) as [[hh [n|]]| | |]; cbn [mbind res_bind] in Ez, Ez0; try done.
        destruct (data_into_mut _ _ _) as [[d [it al]]| | |]; cbn [mbind res_bind] in Ez, Ez0; try done. bd Ez. bd Ez0. bd Ez0. injection Ez as <- <-. injection Ez0 as <- <-.
        injection E1 as <- <-. injection E2 as <- _. split; [done|]. apply sim_new; [|done]. by apply sim_del.
      + injection E1 as <- <-. discriminate E2.
      + injection E1 as <- <-. discriminate E2.
      + assert (fst s1 = w_d w /\ q = rr) as [H1 ->].
        { destruct (_ =? _)%nat; [|by injection Ez as <- <-]. destruct (rc_try_unwrap _ _) as [[hh [n|]]| | |] eqn:Eu; cbn [mbind res_bind] in Ez; try done.
          - bd Ez. destruct z as [d [it al]]. by bd Ez.
          - injection Ez as <- <-. unfold rc_try_unwrap in Eu. destruct (_ !! _) as [[[[|[|k]] v]|]|]; try done. injection Eu as <-. by destruct (w_d w). }
        assert (fst x1 = w_d w /\ q' = rr') as [H2 ->].
        { destruct ok; cbn [negb] in Ez0; [|by injection Ez0 as <- <-].
          match type of Ez0 with (if ?b then _ else _) = _ => destruct b end; [|bd Ez0; by injection Ez0 as <- <-]. destruct (rc_try_unwrap _ _) as [[hh [n|]]| | |] eqn:Eu; cbn [mbind res_bind] in Ez0; try done.
          - bd Ez0. destruct z as [d [it al]]. bd Ez0. by bd Ez0.
          - bd Ez0. injection Ez0 as <- <-. unfold rc_try_unwrap in Eu. destruct (_ !! _) as [[[[|[|k]] v]|]|]; try done. injection Eu as <-. by destruct (w_d w). }
        injection E1 as <- <-. injection E2 as <-. split; [cbn; by rewrite H1, H2|]. by apply sim_upd.
    - bd E1. destruct z as [s1 q]. bd E2. destruct z as [x1 q']. injection E1 as <- <-. injection E2 as <- _. unfold mut_into_immut, rcs_from_unique_data in Ez. unfold arc_mut_into_immut in Ez0. cbn [fst snd] in Ez, Ez0. rewrite <- Hd in Ez0.
      pose proof (pos_new (w_d w) (si_ptr (ms_items m')) (si_len (ms_items m')) (ms_alloc m') Hp) as Hp2. destruct (data_new _ _ _ _) as [d n]. cbn [fst] in Hp2. bd Ez. destruct z. injection Ez as <- <-.
      apply arc_from_data_fst in Ez0 as [H1 H2]; [|done]. cbn in H1. split; [done|]. apply sim_new; [by apply sim_del|done].
    - bd E1. destruct z as [s1 [q g]]. bd E2. destruct z as [x1 [q' g']]. injection E1 as <- <-. injection E2 as <-. unfold rcs_downgrade in Ez. unfold arc_downgrade in Ez0. bd Ez. bd Ez. bd Ez. injection Ez as <- <- <-. bd Ez0. bd Ez0. bd Ez0. injection Ez0 as <- <- <-.
      split; [done|]. apply sim_new; [done|]. cbn. by rewrite G'.
    - bd E1. destruct z as [s1 q]. bd E2. destruct z as [x1 q']. unfold weak_upgrade in Ez. unfold aweak_upgrade in Ez0. cbn [fst snd] in Ez, Ez0. rewrite <- Hd in Ez0.
      destruct (rc_upgrade (dw_datas (w_d w)) _) as [hh [d|]] eqn:Eu.
      + bd Ez. destruct z as [gw i]. injection Ez as <- <-. bd Ez0. destruct z as [x2 r2]. injection Ez0 as <- <-. injection E1 as <- <-. injection E2 as <- _.
        assert (pos (dw_set_datas (w_d w) hh)) as Hp2.
        { unfold rc_upgrade in Eu. destruct dd' as [q|]; [|done]. destruct (_ !! q) as [[[k v]|]|]; try done. injection Eu as <- _. by apply pos_insert. }
        apply arc_from_data_fst in Ez as [H1 H2]; [|done]. cbn in H1. split; [done|]. apply sim_new; done.
      + injection Ez as <- <-. injection Ez0 as <- <-. injection E1 as <- <-. injection E2 as <-. by split.
    - bd E1. bd E2. injection E1 as <- <-. injection E2 as <-. cbn [handle_drop xhandle_drop] in Ez, Ez0. destruct (drop_sim _ _ _ _ _ _ HW G' Ez Ez0) as [H1 _]. split; [done|]. by apply sim_del.
    - bd E1. bd E2. injection E1 as <- <-. injection E2 as <-. cbn [handle_drop xhandle_drop] in Ez, Ez0. unfold weak_drop in Ez. bd Ez. injection Ez as <-. unfold aweak_drop in Ez0. bd Ez0. injection Ez0 as <-. split; [done|]. by apply sim_del.
    - bd E1. bd E2. injection E1 as <- <-. injection E2 as <-. cbn [handle_drop xhandle_drop] in Ez, Ez0. pose proof G' as (_ & _ & _ & H4 & _). destruct (drop_all_sim _ _ H4 _ _ _ _ HW Ez Ez0) as [H1 _]. split; [done|]. by apply sim_del.
    - cbn [handle_drop xhandle_drop fst snd] in E1, E2. rewrite <- Hd in E2. destruct (mut_drop _ _ _); cbn [mbind res_bind] in E1, E2; try done. injection E1 as <- <-. injection E2 as <-. split; [done|]. by apply sim_del.
    - cbn [handle_drop xhandle_drop fst snd] in E1, E2. rewrite <- Hd in E2. destruct (iter_drop _ _ _); cbn [mbind res_bind] in E1, E2; try done. injection E1 as <- <-. injection E2 as <-. split; [done|]. by apply sim_del.
    - cbn [handle_drop xhandle_drop fst snd] in E1, E2. rewrite <- Hd in E2. destruct (mparts_drop _ _ _); cbn [mbind res_bind] in E1, E2; try done. injection E1 as <- <-. injection E2 as <-. split; [done|]. by apply sim_del.
    - unfold rcs_slice in E1. unfold arc_slice in E2. cbn [fst] in E1, E2. rewrite <- Hd in E2. unfold rsim in G'. rewrite <- G' in E2. destruct (rc_val _ _); cbn [mbind res_bind] in E1, E2; try done. eapply ret_slice_sim; [|exact Hh|exact E1|exact E2]; done.
    - unfold parts_as_slice in E1. unfold arc_parts_as_slice in E2. pose proof G' as (H1 & H2 & H3 & H4 & H5). rewrite <- H1, <- H2, <- H3, <- H5, <- (slices_sim _ _ H4 (w_d w, w_g w) (aw_d y, aw_g y) Hd) in E2.
      bd E1. destruct z as [p len]. cbn [mbind res_bind] in E2. eapply ret_slice_sim; [|exact Hh|exact E1|exact E2]; done.
    - eapply ret_slice_sim; [|exact Hh|exact E1|exact E2]; done.
    - destruct (sit_as_slice _ _) as [[p len]| | |]; cbn [mbind res_bind] in E1, E2; try done. eapply ret_slice_sim; [|exact Hh|exact E1|exact E2]; done.
    - destruct (sip_as_slice _ _) as [[p len]| | |]; cbn [mbind res_bind] in E1, E2; try done. eapply ret_slice_sim; [|exact Hh|exact E1|exact E2]; done.
    - eapply ret_replace_sim; [|exact Hh|exact E1|exact E2]; done.
    - destruct (sit_as_slice _ _) as [[p len]| | |]; cbn [mbind res_bind] in E1, E2; try done. eapply ret_replace_sim; [|exact Hh|exact E1|exact E2]; done.
    - destruct (sip_as_slice _ _) as [[p len]| | |]; cbn [mbind res_bind] in E1, E2; try done. eapply ret_replace_sim; [|exact Hh|exact E1|exact E2]; done.
    - injection E1 as <- <-. injection E2 as <- _. split; [done|]. apply sim_new; [by apply sim_del|done].
    - bd E1. destruct z as [[s1 i1] q]. bd E2. destruct z as [[x1 i1'] q'].
      assert (wsim s1 x1 /\ bsim rsim i1 i1' /\ osim rsim q q') as ([H1 _] & H2 & H3).
      { destruct back; [eapply (bpi_next_back_sim wsim rsim _ _ _ false _ _ _ _ _ _ _ _ _ _ split_right_sim HW G' Ez Ez0)|eapply (bpi_next_sim wsim rsim _ _ _ false _ _ _ _ _ _ _ _ _ _ split_left_sim HW G' Ez Ez0)]. }
      destruct H3 as [a b Hab|].
      + injection E1 as <- <-. injection E2 as <- _. split; [done|]. apply sim_new; [by apply sim_upd|done].
      + injection E1 as <- <-. injection E2 as <-. split; [done|]. by apply sim_upd.
    - cbn [fst snd] in E1, E2. rewrite <- Hd in E2. bd E1. destruct z as [[d m1] q]. injection E1 as <- <-. injection E2 as <-. split; [done|]. by apply sim_upd.
    - cbn [fst snd] in E1, E2. rewrite <- Hd in E2. bd E1. destruct z as [[d m1] [q|]]; injection E1 as <- <-; [injection E2 as <- _|injection E2 as <-].
      + split; [done|]. apply sim_new; [by apply sim_upd|done].
      + split; [done|]. by apply sim_upd.
    - cbn [fst snd] in E1, E2. rewrite <- Hd in E2. destruct (iter_split_off _ _ _ _ _) as [[d [m1 m2]]| | |]; try done; injection E1 as <- <-; [injection E2 as <- _|injection E2 as <-; by split].
      split; [done|]. apply sim_new; [by apply sim_upd|done].
    - rewrite (bpi_len_sim _ _ _ G') in E1. destruct (bpi_len it') as [l| | |]; cbn [mbind res_bind] in E1, E2; try done. injection E1 as <- <-. injection E2 as <-. by split.
    - destruct (sit_len _ _) as [l| | |]; cbn [mbind res_bind] in E1, E2; try done. injection E1 as <- <-. injection E2 as <-. by split.
    - destruct (sip_len _) as [l| | |]; cbn [mbind res_bind] in E1, E2; try done. injection E1 as <- <-. injection E2 as <-. by split.
  Qed.
End sim.
