(** What panicking destructors change: nothing but which destructors run. The run
    with panics and the run without go through states that are equal up to their
    traces. *)
From Verif Require Import Base BaseLemmas Api SliceItemsModel BinPartsModel DataModel RcModel ArcModel PanicModel TraceHom Spec DataInv Observe Conserve.

(** Forgetting the trace. *)
Definition untraced {V} (w : dworld V) : dworld V := DW (dw_allocs w) (dw_datas w) (dw_blocks w) (dw_mem w) [].
Definition same {V} (w w' : dworld V) : Prop := untraced w = untraced w'.
Definition ev {V} (x : (nat * N) * V) : event V := EDrop (fst (fst x)) (snd (fst x)) (snd x).
Definition bn (b : bool) : nat := if b then 1 else 0.

Section data.
  Context {V : Type} (sz : N) (bomb : V -> bool).
  Notation dworld := (dworld V).
  Notation pd := (dworld * leaked V)%type.
  Implicit Types (w wp : dworld) (s : pd).

  Lemma same_refl w : same w w. Proof. done. Qed.
  Lemma same_datas w wp : same w wp -> dw_datas wp = dw_datas w. Proof. by intros [= ? ? ? ?]. Qed.
  Lemma same_mem w wp : same w wp -> dw_mem wp = dw_mem w. Proof. by intros [= ? ? ? ?]. Qed.
  Lemma same_allocs w wp : same w wp -> dw_allocs wp = dw_allocs w. Proof. by intros [= ? ? ? ?]. Qed.
  Lemma same_blocks w wp : same w wp -> dw_blocks wp = dw_blocks w. Proof. by intros [= ? ? ? ?]. Qed.
  Lemma same_set_datas w wp h : same w wp -> same (dw_set_datas w h) (dw_set_datas wp h).
  Proof. intros [= ? ? ? ?]. unfold same, untraced. cbn. congruence. Qed.
  Lemma untraced_pre w : w = pre (dw_trace w) (untraced w).
  Proof. unfold pre. cbn. rewrite app_nil_r. by destruct w. Qed.
  Lemma same_pre t t' w : same (pre t w) (pre t' w). Proof. done. Qed.
  Lemma same_trace w wp : same w wp -> dw_trace w = dw_trace wp -> w = wp.
  Proof. intros H E. rewrite (untraced_pre w), (untraced_pre wp). by rewrite H, E. Qed.

  (** A function that does not look at the trace. *)
  Lemma same_fun {A} (f : dworld -> res (dworld * A)) : (forall t w, f (pre t w) = rmap (pre1 t) (f w)) ->
    forall w wp w' a, same w wp -> f w = Ok (w', a) -> exists wp' nd, f wp = Ok (wp', a) /\ same w' wp' /\
      dw_trace w' = dw_trace w ++ nd /\ dw_trace wp' = dw_trace wp ++ nd.
  Proof.
    intros Hf w wp w' a Hs E. rewrite (untraced_pre w), Hf in E. rewrite (untraced_pre wp), Hf, <- Hs.
    destruct (f (untraced w)) as [[w0 a0]| | |]; try done. unfold rmap in *. cbn in E. injection E as <- <-. cbn.
    exists (pre (dw_trace wp) w0), (dw_trace w0). split_and!; try done; cbn; by rewrite ?app_nil_r.
  Qed.
  Lemma same_fun0 (f : dworld -> res dworld) : (forall t w, f (pre t w) = rmap (pre t) (f w)) ->
    forall w wp w', same w wp -> f w = Ok w' -> exists wp' nd, f wp = Ok wp' /\ same w' wp' /\
      dw_trace w' = dw_trace w ++ nd /\ dw_trace wp' = dw_trace wp ++ nd.
  Proof.
    intros Hf w wp w' Hs E. rewrite (untraced_pre w), Hf in E. rewrite (untraced_pre wp), Hf, <- Hs.
    destruct (f (untraced w)) as [w0| | |]; try done. unfold rmap in *. cbn in E. injection E as <-. cbn.
    exists (pre (dw_trace wp) w0), (dw_trace w0). split_and!; try done; cbn; by rewrite ?app_nil_r.
  Qed.

  (** Bombs among dropped items. *)
  Definition bombs (nd : list (event V)) : nat := length (filter (fun x => bomb (snd x) = true) (drops nd)).
  Definition any (nd : list (event V)) : bool := negb (bombs nd =? 0)%nat.
  Lemma bombs_app nd nd' : bombs (nd ++ nd') = bombs nd + bombs nd'.
  Proof. unfold bombs. by rewrite drops_app, filter_app, app_length. Qed.
  Lemma bombs_cons b i v nd : bombs (EDrop b i v :: nd) = bn (bomb v) + bombs nd.
  Proof.
    unfold bombs. rewrite drops_cons, filter_cons. cbn [snd]. destruct (bomb v); [by rewrite decide_True|by rewrite decide_False].
  Qed.
  Lemma any_app nd nd' : any (nd ++ nd') = any nd || any nd'.
  Proof. unfold any. rewrite bombs_app. destruct (bombs nd); done. Qed.
  Lemma any_bombs nd : bn (any nd) <= bombs nd.
  Proof. unfold any. destruct (bombs nd); cbn; lia. Qed.
  Lemma drops_perm (nd nd' : list (event V)) : nd ≡ₚ nd' -> drops nd ≡ₚ drops nd'.
  Proof.
    induction 1 as [|e l l' _ IH|e e' l|l1 l2 l3 _ IH1 _ IH2]; [done| | |by etrans].
    - destruct e; cbn; [by f_equiv|done].
    - destruct e, e'; cbn; try done. apply Permutation_swap.
  Qed.
  Lemma bombs_perm (nd nd' : list (event V)) : nd ≡ₚ nd' -> bombs nd = bombs nd'.
  Proof. intros H%drops_perm. unfold bombs. by rewrite H. Qed.
  Lemma bn_or a b : bn (a || b) <= bn a + bn b. Proof. destruct a, b; cbn; lia. Qed.

  (** What dropping something does when destructors panic, given what it does when
      they do not: [nd] are the events of the latter. *)
  Definition post_from (u0 : bool) (nd : list (event V)) w' (u : bool) (s : pd) (r : unw pd) : Prop :=
    match r with
    | Go s' u' => exists pnd lk, same w' (fst s') /\ dw_trace (fst s') = dw_trace (fst s) ++ pnd /\ snd s' = snd s ++ lk /\
        pnd `sublist_of` nd /\ nd ≡ₚ pnd ++ (ev <$> lk) /\
        u' = u || any nd /\ bombs pnd + bn u = bn u' /\ (u0 = true \/ u' = false -> lk = [])
    | Abort => 2 <= bombs nd + bn u
    end.
  Definition post nd w' u : pd -> unw pd -> Prop := post_from u nd w' u.
  Lemma post_weaken u0 nd w' u s r : (u0 = true -> u = true) -> post nd w' u s r -> post_from u0 nd w' u s r.
  Proof.
    intros H. destruct r as [s' u'|]; [|done]. intros (pnd & lk & S & T & L & B & P & U & C & Z). exists pnd, lk. split_and!; try done.
    intros [Hu|Hu]; apply Z; [left; by apply H|by right].
  Qed.
  Lemma post_nil u0 w' u wp lk : same w' wp -> post_from u0 [] w' u (wp, lk) (Go (wp, lk) u).
  Proof.
    intros H. exists [], []. cbn. rewrite !app_nil_r, orb_false_r. split_and!; try done.
  Qed.
  Lemma post_bind u0 nd1 nd2 w1 w2 u s x (f : pd -> bool -> res (unw pd)) : (u0 = true -> u = true) -> post_from u0 nd1 w1 u s x ->
    (forall s1 u1, x = Go s1 u1 -> same w1 (fst s1) -> u1 = u || any nd1 -> (u0 = true -> u1 = true) -> exists y, f s1 u1 = Ok y /\ post_from u0 nd2 w2 u1 s1 y) ->
    exists y, ubind (Ok x) f = Ok y /\ post_from u0 (nd1 ++ nd2) w2 u s y.
  Proof.
    intros Hu0 H1 H2. unfold ubind. cbn [mbind res_bind]. destruct x as [s1 u1|].
    2:{ exists Abort. split; [done|]. cbn in *. rewrite bombs_app. lia. }
    destruct H1 as (pnd1 & lk1 & S1 & T1 & L1 & B1 & P1 & U1 & C1 & Z1).
    destruct (H2 s1 u1 eq_refl S1 U1) as (y & Ey & Py). { intros H. rewrite U1, (Hu0 H). done. } exists y. split; [done|]. destruct y as [s2 u2|].
    2:{ cbn in *. rewrite bombs_app. pose proof (bn_or u (any nd1)). pose proof (any_bombs nd1). subst u1. lia. }
    destruct Py as (pnd2 & lk2 & S2 & T2 & L2 & B2 & P2 & U2 & C2 & Z2). exists (pnd1 ++ pnd2), (lk1 ++ lk2). split_and!.
    - done.
    - by rewrite T2, T1, app_assoc.
    - by rewrite L2, L1, app_assoc.
    - by apply sublist_app.
    - rewrite P1, P2, fmap_app. solve_Permutation.
    - by rewrite U2, U1, any_app, orb_assoc.
    - rewrite bombs_app. lia.
    - intros H. destruct H as [->|H].
      + rewrite Z1, Z2; [done|by left|by left].
      + subst u2. apply orb_false_iff in H as [Hu1 Hn2]. rewrite Z1, Z2; [done| |by right]. right. by rewrite Hu1, Hn2.
  Qed.
  Lemma post_plain u0 nd w w' u wp lk (f : dworld -> res dworld) : (forall t w, f (pre t w) = rmap (pre t) (f w)) ->
    same w wp -> f w = Ok w' -> dw_trace w' = dw_trace w ++ nd -> drops nd = [] ->
    exists y, plain u (w ← f wp; Ok (w, lk)) = Ok y /\ post_from u0 nd w' u (wp, lk) y.
  Proof.
    intros Hf Hs E T Hd. destruct (same_fun0 f Hf _ _ _ Hs E) as (wp' & nd' & -> & Hs' & T1 & T2). rewrite T in T1. apply app_inv_head in T1 as <-.
    unfold plain. cbn [mbind res_bind]. eexists. split; [done|]. exists nd, []. cbn. rewrite !app_nil_r. unfold any, bombs. rewrite Hd. cbn.
    rewrite orb_false_r. split_and!; try done.
  Qed.

  Lemma drop_step w n p w' : drop_in_place sz w (S n) p = Ok w' ->
    exists w1 v, mem_take sz w p = Ok (w1, v) /\ dw_trace w1 = dw_trace w /\ drop_in_place sz (dw_log w1 (EDrop (p_blk p) (p_idx p) v)) n (ptr_add sz p 1) = Ok w'.
  Proof.
    cbn [drop_in_place]. destruct (mem_take sz w p) as [[w1 v]| | |] eqn:E; try done. intros H. exists w1, v. split; [done|]. split; [|exact H].
    unfold mem_take in E. destruct (mem_at sz w p); try done. cbn in E. by injection E as <- <-.
  Qed.
  Lemma pdrop_post n : forall u w wp lk p w', same w wp -> drop_in_place sz w n p = Ok w' -> exists nd x, dw_trace w' = dw_trace w ++ nd /\
    pdrop_in_place sz bomb u wp n p = Ok x /\ post nd w' u (wp, lk) (match x with Go wp' u' => Go (wp', lk) u' | Abort => Abort end) /\
    (x = Abort <-> 2 <= bombs nd + bn u).
  Proof.
    induction n as [|n IH]; intros u w wp lk p w' Hs E.
    { injection E as <-. exists [], (Go wp u). rewrite app_nil_r. split_and!; try done. { by apply post_nil. }
      split; [done|]. unfold bombs. cbn. destruct u; cbn; lia. }
    apply drop_step in E as (w1 & v & E1 & Tw1 & E2). cbn [pdrop_in_place].
    destruct (same_fun (fun w => mem_take sz w p) (fun t w => mem_take_pre sz t w p) _ _ _ _ Hs E1) as (wp1 & nd1 & -> & Hs1 & T1 & T2).
    rewrite Tw1 in T1. assert (nd1 = []) as -> by (destruct nd1; [done|]; apply (f_equal length) in T1; rewrite app_length in T1; cbn in T1; lia).
    rewrite app_nil_r in T2. cbn [mbind res_bind]. set (e := EDrop (p_blk p) (p_idx p) v) in *.
    assert (same (dw_log w1 e) (dw_log wp1 e)) as Hs2.
    { unfold same, untraced in *. cbn. congruence. }
    destruct (IH (bomb v || u) _ _ lk _ _ Hs2 E2) as (nd & x & T & Ex & Px & Hx).
    pose proof (bombs_cons (p_blk p) (p_idx p) v nd : bombs (e :: nd) = _) as Hb.
    exists (e :: nd). rewrite T. cbn [dw_log dw_trace]. rewrite Tw1, <- app_assoc. cbn [app].
    destruct (bomb v && u) eqn:Hbu.
    { apply andb_true_iff in Hbu as [Hv ->]. exists Abort. rewrite Hv in Hb. cbn in *. split_and!; try done; [lia|]. split; [intros _|done]. lia. }
    exists x. split_and!; try done.
    2:{ rewrite Hx, Hb. destruct (bomb v), u; cbn in *; try done; lia. }
    destruct x as [wp' u'|]; [|cbn in *; rewrite Hb; destruct (bomb v), u; cbn in *; try done; lia].
    destruct Px as (pnd & lk' & S2 & T3 & L2 & B2 & P2 & U2 & C2 & Z2). cbn [fst snd] in *.
    exists (e :: pnd), lk'. cbn [fst snd]. split_and!; try done.
    - rewrite T3. cbn. by rewrite T2, <- app_assoc.
    - by apply sublist_skip.
    - by rewrite P2.
    - rewrite U2. unfold any. rewrite Hb. destruct (bomb v), u, (bombs nd); done.
    - unfold e. rewrite bombs_cons. destruct (bomb v), u; cbn in *; try done; lia.
    - intros _. apply app_inv_head with lk. by rewrite app_nil_r.
  Qed.
  Lemma leave_post n : forall w wp lk p w', same w wp -> drop_in_place sz w n p = Ok w' -> exists nd, dw_trace w' = dw_trace w ++ nd /\
    nd = ev <$> drops nd /\ exists wp', leave sz (wp, lk) n p = (wp', lk ++ drops nd) /\ same w' wp' /\ dw_trace wp' = dw_trace wp.
  Proof.
    induction n as [|n IH]; intros w wp lk p w' Hs E.
    { injection E as <-. exists []. rewrite app_nil_r. split_and!; try done. exists wp. cbn. by rewrite app_nil_r. }
    apply drop_step in E as (w1 & v & E1 & Tw1 & E2). cbn [leave fst snd]. unfold mem_take in E1.
    destruct (mem_at sz w p) as [v0| | |] eqn:Em; try done. cbn in E1. injection E1 as <- <-. apply mem_at_Some in Em. rewrite (same_mem _ _ Hs), Em.
    set (e := EDrop (p_blk p) (p_idx p) v0) in *. set (m := delete (p_blk p, p_idx p) (dw_mem w)) in *.
    assert (same (dw_log (dw_set_mem w m) e) (dw_set_mem wp m)) as Hs2.
    { unfold same, untraced in *. cbn. injection Hs as ? ? ? ?. congruence. }
    destruct (IH _ _ (lk ++ [((p_blk p, p_idx p), v0)]) _ _ Hs2 E2) as (nd & T & Hnd & wp' & El & S' & T').
    exists (e :: nd). rewrite T. cbn [dw_log dw_set_mem dw_trace]. rewrite <- app_assoc. split; [done|]. unfold e. rewrite drops_cons. split.
    { cbn [fmap list_fmap]. by rewrite <- Hnd. }
    exists wp'. rewrite El, <- app_assoc. done.
  Qed.
  Lemma drop_none w n p w' nd : drop_in_place sz w n p = Ok w' -> dw_trace w' = dw_trace w ++ nd -> frees nd = [].
  Proof. intros E T. destruct (drop_in_place_trace sz _ _ _ _ E) as (nd' & T' & _ & F & _). rewrite T in T'. by apply app_inv_head in T' as ->. Qed.
  Lemma alloc_release_drops w o w' nd : alloc_release sz w o = Ok w' -> dw_trace w' = dw_trace w ++ nd -> drops nd = [].
  Proof.
    destruct o as [a|]; cbn [alloc_release].
    2:{ intros [= <-] T. rewrite <- (app_nil_r (dw_trace w)) in T at 1. by apply app_inv_head in T as <-. }
    destruct (rc_dec _ _) as [[h [v|]]| | |]; cbn [mbind res_bind]; try done.
    2:{ intros [= <-] T. cbn in T. rewrite <- (app_nil_r (dw_trace w)) in T at 1. by apply app_inv_head in T as <-. }
    unfold salloc_drop. destruct (_ || _).
    { intros [= <-] T. cbn in T. rewrite <- (app_nil_r (dw_trace w)) in T at 1. by apply app_inv_head in T as <-. }
    destruct (_ !! _) as [b|]; [|done]. destruct (_ || _ || _); [done|]. intros [= <-] T. cbn in T. by apply app_inv_head in T as <-.
  Qed.
  Lemma trace_ext {A} (l l' : list A) : l `prefix_of` l' -> exists nd, l' = l ++ nd. Proof. done. Qed.
  Lemma bal_nd w w' ins outs nb : balg nb w w' ins outs -> exists nd, dw_trace w' = dw_trace w ++ nd.
  Proof. intros (nd & T & _). eauto. Qed.

  Lemma pdrop_pd u w wp lk n p w' : same w wp -> drop_in_place sz w n p = Ok w' -> exists nd y, dw_trace w' = dw_trace w ++ nd /\
    ubind (pdrop_in_place sz bomb u wp n p) (fun w u' => Ok (Go (w, lk) u')) = Ok y /\ post nd w' u (wp, lk) y /\
    (y = Abort <-> 2 <= bombs nd + bn u).
  Proof.
    intros Hs E. destruct (pdrop_post n u w wp lk p w' Hs E) as (nd & x & T & Ex & Px & Hx). rewrite Ex. unfold ubind. cbn [mbind res_bind].
    exists nd. destruct x as [wp' u'|].
    - exists (Go (wp', lk) u'). split_and!; try done. split; [done|]. intros H. by apply Hx in H.
    - exists Abort. split_and!; done.
  Qed.

  Lemma release_post fuel : forall u w wp lk d w', same w wp -> data_release sz fuel w d = Ok w' -> exists nd y, dw_trace w' = dw_trace w ++ nd /\
    pdata_release sz bomb u fuel (wp, lk) d = Ok y /\ post nd w' u (wp, lk) y.
  Proof.
    induction fuel as [|fuel IH]; intros u w wp lk d w' Hs E; [done|]. cbn [data_release pdata_release fst snd] in *. rewrite (same_datas _ _ Hs).
    destruct (rc_dec _ _) as [[h [n|]]| | |]; cbn [mbind res_bind] in *; try done.
    2:{ injection E as <-. exists [], (Go (dw_set_datas wp h, lk) u). cbn. rewrite app_nil_r. split_and!; try done.
        exists [], []. cbn. rewrite !app_nil_r, orb_false_r. split_and!; try done. by apply same_set_datas. }
    apply (same_set_datas _ _ h) in Hs. set (w0 := dw_set_datas w h) in *. set (wp0 := dw_set_datas wp h) in *.
    change (dw_trace w) with (dw_trace w0).
    assert (exists nd y, dw_trace w' = dw_trace w0 ++ nd /\
      ubind (match d_left n with None => Ok (Go (wp0, lk) u) | Some c => pdata_release sz bomb u fuel (wp0, lk) c end) (fun s ul =>
            ubind (match d_right n with None => Ok (Go s ul) | Some c => pdata_release sz bomb ul fuel s c end) (fun s ur =>
            let '(p, len) := own_sub sz n in
            ubind (if ur && negb u then Ok (Go (leave sz s (N.to_nat len) p) ur)
                   else ubind (pdrop_in_place sz bomb ur (fst s) (N.to_nat len) p) (fun w u' => Ok (Go (w, snd s) u')))
            (fun s u' => plain u' (w ← alloc_release sz (fst s) (d_alloc n); Ok (w, snd s))))) = Ok y /\ post nd w' u (wp0, lk) y) as (nd & y & T & -> & P).
    2:{ exists nd, y. split_and!; try done. }
    assert (forall u w wp lk o w', same w wp -> match o with None => Ok w | Some c => data_release sz fuel w c end = Ok w' -> exists nd y,
      dw_trace w' = dw_trace w ++ nd /\ match o with None => Ok (Go (wp, lk) u) | Some c => pdata_release sz bomb u fuel (wp, lk) c end = Ok y /\ post nd w' u (wp, lk) y) as Hk.
    { intros u0 w3 wp3 lk3 [c|] w4 Hs3 H; [by eapply IH|]. injection H as <-. exists [], (Go (wp3, lk3) u0). rewrite app_nil_r. split_and!; try done. by apply post_nil. }
    destruct (match d_left n with None => Ok w0 | Some _ => _ end) as [w1| | |] eqn:E1; cbn [mbind res_bind] in E; try done.
    destruct (match d_right n with None => Ok w1 | Some _ => _ end) as [w2| | |] eqn:E2; cbn [mbind res_bind] in E; try done.
    match type of E with (?m ≫= _) = _ => destruct m as [w3| | |] eqn:E3; cbn [mbind res_bind] in E; try done end.
    assert (drop_in_place sz w2 (N.to_nat (snd (own_sub sz n))) (fst (own_sub sz n)) = Ok w3) as E3'.
    { revert E3. unfold own_sub. destruct (d_left n), (d_right n); done. }
    destruct (own_sub sz n) as [p len]. cbn [fst snd] in E3'.
    destruct (bal_nd _ _ _ _ _ (alloc_release_bal _ _ _ _ E)) as [nd4 T4].
    pose proof (alloc_release_drops _ _ _ _ E T4) as D4.
    destruct (Hk u w0 wp0 lk _ _ Hs E1) as (nd1 & y1 & T1 & -> & P1).
    destruct (bal_nd _ _ _ _ _ (drop_in_place_bal _ _ _ _ _ E3')) as [nd3 T3].
    assert (exists nd2, dw_trace w2 = dw_trace w1 ++ nd2) as [nd2 T2].
    { destruct (d_right n); [by eapply bal_nd, data_release_bal|]. injection E2 as <-. exists []. by rewrite app_nil_r. }
    exists (nd1 ++ (nd2 ++ (nd3 ++ nd4))).
    destruct (post_bind u nd1 (nd2 ++ nd3 ++ nd4) w1 w' u (wp0, lk) y1
      (fun s ul => ubind (match d_right n with None => Ok (Go s ul) | Some c => pdata_release sz bomb ul fuel s c end) (fun s ur =>
            ubind (if ur && negb u then Ok (Go (leave sz s (N.to_nat len) p) ur)
                   else ubind (pdrop_in_place sz bomb ur (fst s) (N.to_nat len) p) (fun w u' => Ok (Go (w, snd s) u')))
            (fun s u' => plain u' (w ← alloc_release sz (fst s) (d_alloc n); Ok (w, snd s))))) (fun H => H) P1) as (y & Ey & Py).
    2:{ exists y. split_and!; try done. by rewrite T4, T3, T2, T1, <- !app_assoc. }
    intros [wp1 lk1] ul -> Hs1 Hul Hul0. cbn [fst snd] in *.
    destruct (Hk ul w1 wp1 lk1 _ _ Hs1 E2) as (nd2' & y2 & T2' & -> & P2). rewrite T2 in T2'. apply app_inv_head in T2' as <-.
    apply (post_weaken u) in P2; [|done].
    eapply post_bind; [done|exact P2|]. intros [wp2 lk2] ur -> Hs2 Hur Hur0. cbn [fst snd] in *.
    assert (exists y, (if ur && negb u then Ok (Go (leave sz (wp2, lk2) (N.to_nat len) p) ur)
      else ubind (pdrop_in_place sz bomb ur wp2 (N.to_nat len) p) (fun w u' => Ok (Go (w, lk2) u'))) = Ok y /\ post_from u nd3 w3 ur (wp2, lk2) y) as (y3 & -> & P3).
    - destruct (ur && negb u) eqn:Hu.
      + apply andb_true_iff in Hu as [-> Hu]. apply negb_true_iff in Hu as ->.
        destruct (leave_post _ w2 wp2 lk2 p w3 Hs2 E3') as (nd3' & T3' & Hev & wp3 & -> & Hs3 & Tp3). rewrite T3 in T3'. apply app_inv_head in T3' as <-.
        eexists. split; [done|]. exists [], (drops nd3). cbn [fst snd]. rewrite app_nil_r. split_and!; try done.
        * apply sublist_nil_l.
        * by rewrite <- Hev.
        * by intros [?|?].
      + destruct (pdrop_pd ur w2 wp2 lk2 _ _ _ Hs2 E3') as (nd3' & y3 & T3' & -> & P3 & _). rewrite T3 in T3'. apply app_inv_head in T3' as <-.
        exists y3. split; [done|]. by apply post_weaken.
    - eapply post_bind; [done|exact P3|]. intros [wp3 lk3] u3 -> Hs3 Hu3 Hu30. cbn [fst snd] in *.
      eapply (post_plain u nd4 w3 w' u3 wp3 lk3 (fun w => alloc_release sz w (d_alloc n))); try done. intros t w5. apply alloc_release_pre.
  Qed.
End data.

(** *** Variables *)
(** An aborted or unwinding drop of a variable: [post] on the data, and the same guards. *)
Definition hpost {V G} (bomb : V -> bool) (nd : list (event V)) (s' : dworld V * G) (u : bool) (ps : dworld V * leaked V) (r : unw ((dworld V * leaked V) * G)) : Prop :=
  match r with
  | Go ps' u' => snd ps' = snd s' /\ post bomb nd (fst s') u ps (Go (fst ps') u')
  | Abort => post bomb nd (fst s') u ps Abort
  end.
(** Nothing is left behind, and two bombs are what it takes to abort. *)
Definition clean {V G} (bomb : V -> bool) (nd : list (event V)) (u : bool) (ps : dworld V * leaked V) (r : unw ((dworld V * leaked V) * G)) : Prop :=
  (r = Abort <-> 2 <= bombs bomb nd + bn u) /\ match r with Go ps' _ => snd (fst ps') = snd ps | Abort => True end.

Section drop.
  Context {V G : Type} (sz : N) (bomb : V -> bool).
  Notation pd := (dworld V * leaked V)%type.
  Notation pdg := (pd * G)%type.
  Implicit Types (g : G).

  (** Two drops in sequence. *)
  Lemma hpost_bind nd1 nd2 (s1 s2 : dworld V * G) u (ps : pdg) (x : unw pdg) (f : pdg -> bool -> res (unw pdg)) : hpost bomb nd1 s1 u (fst ps) x ->
    (forall ps1 u1, same (fst s1) (fst (fst ps1)) -> snd ps1 = snd s1 -> exists y, f ps1 u1 = Ok y /\ hpost bomb nd2 s2 u1 (fst ps1) y) ->
    exists y, ubind (Ok x) f = Ok y /\ hpost bomb (nd1 ++ nd2) s2 u (fst ps) y.
  Proof.
    intros H1 H2. destruct x as [ps1 u1|].
    2:{ exists Abort. split; [done|]. cbn in *. rewrite bombs_app. lia. }
    destruct H1 as [Hg H1]. assert (same (fst s1) (fst (fst ps1))) as Hs by (by destruct H1 as (? & ? & ? & _)).
    destruct (H2 ps1 u1 Hs Hg) as (y & Ey & Py). exists y. split; [exact Ey|].
    set (f' := fun (s : pd) (u : bool) => Ok (match y with Go ps' u' => Go (fst ps') u' | Abort => Abort end : unw pd) : res (unw pd)).
    destruct (post_bind bomb u nd1 nd2 (fst s1) (fst s2) u (fst ps) (Go (fst ps1) u1) f' (fun H => H) H1) as (y' & Ey' & Py').
    { intros s3 u3 [= <- <-] _ _ Hu0. eexists. split; [done|]. destruct y as [ps2 u2|].
      - destruct Py as [_ Py]. by apply post_weaken.
      - by apply post_weaken. }
    unfold f' in Ey'. cbn in Ey'. injection Ey' as <-. destruct y as [ps2 u2|]; [split; [by destruct Py|exact Py']|exact Py'].
  Qed.
  Lemma hpost_guard nd (w : dworld V) g g' u (s : pd) (x : unw pd) (m : res G) : post bomb nd w u s x -> m = Ok g' ->
    exists y, ubind (Ok x) (fun d u => plain u (g ← m; Ok (d, g))) = Ok y /\ hpost bomb nd (w, g') u s y.
  Proof. intros H ->. destruct x as [s1 u1|]; [|by exists Abort]. exists (Go (s1, g') u1). done. Qed.

  Lemma items_post u w wp lk p len al w' : same w wp -> items_alloc_drop sz w p len al = Ok w' -> exists nd y, dw_trace w' = dw_trace w ++ nd /\
    pitems_alloc_drop sz bomb u (wp, lk) p len al = Ok y /\ post bomb nd w' u (wp, lk) y /\
    (y = Abort <-> 2 <= bombs bomb nd + bn u) /\ match y with Go s _ => snd s = lk | Abort => True end.
  Proof.
    intros Hs E. unfold items_alloc_drop in E. destruct (drop_in_place sz w _ p) as [w1| | |] eqn:E1; try done. cbn [mbind res_bind] in E.
    destruct (pdrop_pd sz bomb u w wp lk _ _ _ Hs E1) as (nd1 & y1 & T1 & Ey1 & P1 & A1).
    destruct (bal_nd _ _ _ _ _ (alloc_release_bal _ _ _ _ E)) as [nd2 T2]. pose proof (alloc_release_drops _ _ _ _ _ E T2) as D2.
    assert (bombs bomb (nd1 ++ nd2) = bombs bomb nd1) as Hb. { rewrite bombs_app. unfold bombs at 2. rewrite D2. cbn. lia. }
    assert (exists y, ubind (Ok y1) (fun s u => plain u (w ← alloc_release sz (fst s) al; Ok (w, lk))) = Ok y /\ post_from bomb u (nd1 ++ nd2) w' u (wp, lk) y /\
      (y = Abort <-> y1 = Abort) /\ match y with Go s _ => snd s = lk | Abort => True end) as (y & Ey & Py & Ay & Ly).
    { destruct (post_bind bomb u nd1 nd2 w1 w' u (wp, lk) y1 (fun s u => plain u (w ← alloc_release sz (fst s) al; Ok (w, lk))) (fun H => H) P1) as (y & Ey & Py).
      - intros s2 u2 -> Hs2 _ _. destruct s2 as [wp2 lk2]. cbn [fst snd].
        assert (lk2 = lk) as ->.
        { destruct (pdrop_in_place sz bomb u wp _ p) as [[? ?|]| | |]; unfold ubind in Ey1; cbn in Ey1; try done. by injection Ey1 as -> -> ->. }
        eapply (post_plain bomb u nd2 w1 w' u2 wp2 lk (fun w => alloc_release sz w al)); try done. intros t w5. apply alloc_release_pre.
      - exists y. split_and!; try done.
        + destruct y1 as [s2 u2|]; unfold ubind in Ey; cbn in Ey; [|by injection Ey as <-]. destruct (alloc_release sz (fst s2) al); cbn in Ey; try done. by injection Ey as <-.
        + destruct y1 as [s2 u2|]; unfold ubind in Ey; cbn in Ey; [|by injection Ey as <-]. destruct (alloc_release sz (fst s2) al); cbn in Ey; try done. by injection Ey as <-. }
    exists (nd1 ++ nd2), y. split_and!; try done.
    - by rewrite T2, T1, app_assoc.
    - unfold pitems_alloc_drop. cbn [fst snd]. rewrite <- Ey, <- Ey1. unfold ubind. by destruct (pdrop_in_place sz bomb u wp _ p) as [[? ?|]| | |].
    - rewrite Ay, A1, Hb. done.
  Qed.
  Lemma unique_post u (g : G) w wp lk p len al w' : same w wp -> items_alloc_drop sz w p len al = Ok w' -> exists nd y, dw_trace w' = dw_trace w ++ nd /\
    ubind (pitems_alloc_drop sz bomb u (wp, lk) p len al) (fun d u => Ok (Go (d, g) u)) = Ok y /\ hpost bomb nd (w', g) u (wp, lk) y /\ clean bomb nd u (wp, lk) y.
  Proof.
    intros Hs E. destruct (items_post u w wp lk p len al w' Hs E) as (nd & y & T & Ey & Py & Ay & Ly). rewrite Ey. unfold ubind. cbn [mbind res_bind].
    exists nd. destruct y as [s1 u1|].
    - exists (Go (s1, g) u1). split_and!; try done. unfold clean. split; [|done]. split; [done|]. intros H. by apply Ay in H.
    - exists Abort. split_and!; done.
  Qed.
End drop.

Section rc.
  Context {V : Type} (sz : N) (bomb : V -> bool).
  Context (vclone : V -> V) (capf growf : N -> N) (dbg : bool).
  Notation pd := (dworld V * leaked V)%type.

  Lemma prcs_drop_post u w g wp lk r s' : same w wp -> rcs_drop sz (w, g) r = Ok s' -> exists nd y, dw_trace (fst s') = dw_trace w ++ nd /\
    prcs_drop sz bomb u ((wp, lk), g) r = Ok y /\ hpost bomb nd s' u (wp, lk) y.
  Proof.
    intros Hs E. unfold rcs_drop in E. cbn [fst snd] in E. unfold data_drop in E. destruct (data_release sz _ w _) as [w1| | |] eqn:E1; try done. cbn [mbind res_bind] in E.
    destruct (img_drop g _) as [g1| | |] eqn:E2; try done. cbn [mbind res_bind] in E. injection E as <-.
    destruct (release_post sz bomb _ u w wp lk _ _ Hs E1) as (nd & y & T & Ey & Py).
    destruct (hpost_guard bomb nd w1 g g1 u (wp, lk) y _ Py E2) as (z & Ez & Pz). exists nd, z. split_and!; try done.
    unfold prcs_drop, pdata_drop. cbn [fst snd]. rewrite (same_datas _ _ Hs), Ey. exact Ez.
  Qed.
  Lemma prcs_drop_all_post l : forall u w g wp lk s', same w wp -> rcs_drop_all sz (w, g) l = Ok s' -> exists nd y, dw_trace (fst s') = dw_trace w ++ nd /\
    prcs_drop_all sz bomb u ((wp, lk), g) l = Ok y /\ hpost bomb nd s' u (wp, lk) y.
  Proof.
    induction l as [|r l IH]; intros u w g wp lk s' Hs E.
    { injection E as <-. exists [], (Go ((wp, lk), g) u). rewrite app_nil_r. split_and!; try done. split; [done|]. by apply post_nil. }
    cbn [rcs_drop_all] in E. destruct (rcs_drop sz (w, g) r) as [[w1 g1]| | |] eqn:E1; try done. cbn [mbind res_bind] in E.
    destruct (prcs_drop_post u w g wp lk r _ Hs E1) as (nd1 & y1 & T1 & Ey1 & P1). cbn [fst] in T1.
    assert (exists nd2, dw_trace (fst s') = dw_trace w1 ++ nd2) as [nd2 T2].
    { destruct (IH false w1 g1 w1 [] s' (same_refl _) E) as (nd2 & _ & T2 & _). eauto. }
    cbn [prcs_drop_all]. rewrite Ey1.
    destruct (hpost_bind bomb nd1 nd2 (w1, g1) s' u ((wp, lk), g) y1 (fun s u => prcs_drop_all sz bomb u s l) P1) as (y & Ey & Py).
    - intros [[wp1 lk1] g2] u1 Hs1 Hg. cbn in Hs1, Hg. subst g2. destruct (IH u1 w1 g1 wp1 lk1 s' Hs1 E) as (nd2' & y2 & T2' & Ey2 & P2).
      rewrite T2 in T2'. apply app_inv_head in T2' as <-. eauto.
    - exists (nd1 ++ nd2), y. split_and!; try done. by rewrite T2, T1, app_assoc.
  Qed.
  Lemma phandle_post u w g wp lk x s' : same w wp -> handle_drop sz (w, g) x = Ok s' -> exists nd y, dw_trace (fst s') = dw_trace w ++ nd /\
    phandle_drop sz bomb u ((wp, lk), g) x = Ok y /\ hpost bomb nd s' u (wp, lk) y /\
    (match x with HMut _ | HIter _ | HMParts _ => True | _ => False end -> clean bomb nd u (wp, lk) y).
  Proof.
    intros Hs E. destruct x as [r|d wg|it|m|m|m]; cbn [handle_drop phandle_drop fst snd] in *.
    - destruct (prcs_drop_post u w g wp lk r s' Hs E) as (nd & y & H1 & H2 & H3). exists nd, y. split_and!; try done.
    - unfold weak_drop in E. cbn [fst snd] in E. destruct (gmg_drop g wg) as [g1| | |]; try done. cbn in E. injection E as <-. exists [].
      eexists. cbn. rewrite app_nil_r. split_and!; try done. split; [done|]. by apply post_nil.
    - destruct (prcs_drop_all_post _ u w g wp lk s' Hs E) as (nd & y & H1 & H2 & H3). exists nd, y. split_and!; try done.
    - unfold mut_drop in E. destruct (items_alloc_drop _ _ _ _ _) as [w1| | |] eqn:E1; try done. cbn in E. injection E as <-.
      destruct (unique_post sz bomb u g w wp lk _ _ _ _ Hs E1) as (nd & y & H1 & H2 & H3 & H4). exists nd, y. split_and!; try done.
    - unfold iter_drop in E. unfold piter_drop. destruct (sit_as_slice _ _) as [[p len]| | |]; try done. cbn [mbind res_bind] in *.
      destruct (items_alloc_drop _ _ _ _ _) as [w1| | |] eqn:E1; try done. cbn in E. injection E as <-.
      destruct (unique_post sz bomb u g w wp lk _ _ _ _ Hs E1) as (nd & y & H1 & H2 & H3 & H4). exists nd, y. split_and!; try done.
    - unfold mparts_drop in E. unfold pmparts_drop. destruct (sip_as_slice _ _) as [[p len]| | |]; try done. cbn [mbind res_bind] in *.
      destruct (items_alloc_drop _ _ _ _ _) as [w1| | |] eqn:E1; try done. cbn in E. injection E as <-.
      destruct (unique_post sz bomb u g w wp lk _ _ _ _ Hs E1) as (nd & y & H1 & H2 & H3 & H4). exists nd, y. split_and!; try done.
  Qed.

  (** *** Calls *)
  Definition samew (w wp : world V) : Prop := same (w_d w) (w_d wp) /\ w_g wp = w_g w /\ w_h wp = w_h w.
  Lemma samew_pre w wp : samew w wp -> exists t tp w0, w = preW t w0 /\ wp = preW tp w0 /\ dw_trace (w_d w0) = [].
  Proof.
    intros (Hs & Hg & Hh). exists (dw_trace (w_d w)), (dw_trace (w_d wp)), (W (untraced (w_d w)) (w_g w) (w_h w)). unfold preW. cbn. split_and!; [|rewrite Hs|done]; rewrite <- untraced_pre; [by destruct w|].
    rewrite <- Hg, <- Hh. by destruct wp.
  Qed.
  Lemma step_same w wp o w' r : samew w wp -> step sz vclone capf growf dbg w o = Ok (w', r) ->
    exists wp' nd, step sz vclone capf growf dbg wp o = Ok (wp', r) /\ samew w' wp' /\
      dw_trace (w_d w') = dw_trace (w_d w) ++ nd /\ dw_trace (w_d wp') = dw_trace (w_d wp) ++ nd.
  Proof.
    intros H E. destruct (samew_pre _ _ H) as (t & tp & w0 & -> & -> & H0). rewrite step_pre in *. destruct (step _ _ _ _ _ w0 o) as [[w1 r1]| | |]; try done.
    unfold rmap, preO in *. cbn in E. injection E as <- <-. cbn. exists (preW tp w1), (dw_trace (w_d w1)). cbn. rewrite H0, !app_nil_r. done.
  Qed.

  (** What a call does when destructors panic, given what it does when they do not. *)
  Definition is_drop (o : op V) : bool := match o with ODrop _ => true | _ => false end.
  Definition spost (w w' : world V) (r : out V) (o : op V) (pw : pworld) (x : option (pworld (V:=V) * out V)) : Prop := exists nd,
    dw_trace (w_d w') = dw_trace (w_d w) ++ nd /\
    match x with
    | Some (pw', r') => samew w' (fst pw') /\ exists pnd lk, dw_trace (w_d (fst pw')) = dw_trace (w_d (fst pw)) ++ pnd /\ snd pw' = snd pw ++ lk /\
        pnd `sublist_of` nd /\ nd ≡ₚ pnd ++ (ev <$> lk) /\
        r' = (if is_drop o && any bomb nd then RPanic else r) /\ (is_drop o = false \/ any bomb nd = false -> lk = []) /\
        (is_drop o = true -> bombs bomb pnd = bn (any bomb nd))
    | None => r = RPanic /\ (exists h n, o = OSplitIntoParts h n) /\ 1 <= bombs bomb nd \/ is_drop o = true /\ 2 <= bombs bomb nd
    end.

  Lemma pstep_other w wp lk o w' r : samew w wp -> step sz vclone capf growf dbg w o = Ok (w', r) -> (is_drop o = true -> w' = w) ->
    exists x, ('(w, r) ← step sz vclone capf growf dbg wp o; Ok (Some ((w, lk), r))) = Ok x /\ spost w w' r o (wp, lk) x.
  Proof.
    intros Hs E Hd. destruct (step_same _ _ _ _ _ Hs E) as (wp' & nd & -> & Hs' & T1 & T2). cbn [mbind res_bind]. eexists. split; [done|].
    exists nd. split; [done|]. split; [done|]. exists nd, []. cbn [fst snd fmap list_fmap]. rewrite !app_nil_r. split_and!; try done.
    - destruct (is_drop o); [|done]. rewrite (Hd eq_refl) in T1. rewrite <- (app_nil_r (dw_trace (w_d w))) in T1 at 1. apply app_inv_head in T1 as <-. done.
    - intros Ho. rewrite (Hd Ho) in T1. rewrite <- (app_nil_r (dw_trace (w_d w))) in T1 at 1. apply app_inv_head in T1 as <-. unfold bombs. cbn. lia.
  Qed.
  Lemma pfinish_post u w g wp lk hs x s' o r : same w wp -> handle_drop sz (w, g) x = Ok s' -> is_drop o = negb u -> r = (if u then RPanic else RUnit) ->
    (u = true -> exists h n, o = OSplitIntoParts h n) ->
    forall h0, exists z, (y ← phandle_drop sz bomb u ((wp, lk), g) x; pfinish hs y) = Ok z /\
      spost (W w g h0) (W (fst s') (snd s') hs) r o (W wp g h0, lk) z /\
      (match x with HMut _ | HIter _ | HMParts _ => True | _ => u = true end -> exists nd, dw_trace (fst s') = dw_trace w ++ nd /\
        (z = None <-> 2 <= bombs bomb nd + bn u) /\ match z with Some (pw', _) => snd pw' = lk | None => True end).
  Proof.
    intros Hs E Ho Hr Hu h0. destruct (phandle_post u w g wp lk x s' Hs E) as (nd & y & T & -> & Py & Cy). cbn [mbind res_bind].
    destruct y as [[[wp' lk'] g'] u'|]; cbn [pfinish fst snd].
    - eexists. split; [done|]. destruct Py as [Hg (pnd & l & S & T2 & L & B & P & U & C & Z)]. cbn [fst snd] in *. subst g'. split.
      + exists nd. split; [done|]. split; [done|]. exists pnd, l. cbn. split_and!; try done.
        * subst r u'. rewrite Ho. destruct u; cbn; [done|]. by destruct (any bomb nd).
        * intros H. apply Z. rewrite Ho in H. destruct u; [by left|]. right. destruct H as [H|H]; [done|]. by rewrite U, H.
        * rewrite Ho. destruct u; [done|]. intros _. rewrite U in C. cbn in C. lia.
      + intros Hk. exists nd. split; [done|]. assert (u = true \/ u = false) as [Hu'|Hu'] by (destruct u; auto).
        * rewrite (Z (or_introl Hu')) in *. cbn in P, L. rewrite app_nil_r in P, L. split; [|done]. split; [done|]. intros H. exfalso.
          rewrite (bombs_perm _ _ _ P) in H. destruct u'; cbn in C; lia.
        * destruct Cy as [C1 C2]; [by destruct x; try congruence|]. split; [|exact C2]. split; [done|]. intros H. by apply C1 in H.
    - eexists. split; [done|]. cbn in Py. split.
      + exists nd. split; [done|]. destruct u; cbn in *; [left; split_and!; [done|by apply Hu|lia]|right; split; [done|lia]].
      + intros _. exists nd. split; [done|]. split; [|done]. split; [|done]. intros _. exact Py.
  Qed.
  Lemma pstep_post w wp lk o w' r : samew w wp -> step sz vclone capf growf dbg w o = Ok (w', r) ->
    exists x, pstep sz bomb vclone capf growf dbg (wp, lk) o = Ok x /\ spost w w' r o (wp, lk) x.
  Proof.
    intros Hs E. assert (forall h, get_h wp h = get_h w h) as Hget. { intros h. unfold get_h. by destruct Hs as (_ & _ & ->). }
    assert ((is_drop o = true -> w' = w) -> exists x, ('(w, r) ← step sz vclone capf growf dbg wp o; Ok (Some ((w, lk), r))) = Ok x /\ spost w w' r o (wp, lk) x) as Hother
      by (intros H; by apply pstep_other).
    unfold pstep. cbn [fst snd]. destruct o; try by apply Hother.
    - destruct (negb _) eqn:En; [by apply Hother|]. rewrite Hget. destruct (get_h w h) as [[x|? ?|?|m|?|?]|] eqn:Eh; try by apply Hother.
      + destruct (bpi_new capf growf x n) eqn:Eb; try by apply Hother. cbn [step] in E. rewrite En, Eh, Eb in E.
        destruct (rcs_drop sz _ x) as [s1| | |] eqn:Ed; try done. cbn [mbind res_bind] in E. unfold ret in E. injection E as <- <-.
        destruct Hs as (Hd & Hg & Hh). rewrite Hg, Hh. destruct w as [wd wg wh], wp as [pd pg ph]. cbn in *. subst pg ph.
        destruct (pfinish_post true wd wg pd lk (<[h:=None]> wh) (HRc x) s1 (OSplitIntoParts h n) RPanic Hd Ed eq_refl eq_refl ltac:(eauto) wh) as (z & Ez & Sz & _).
        exists z. split; [exact Ez|done].
      + destruct (mut_split_into_parts m n) eqn:Eb; try by apply Hother. cbn [step] in E. rewrite En, Eh, Eb in E.
        destruct (mut_drop sz _ m) as [s1| | |] eqn:Ed; try done. cbn [mbind res_bind] in E. unfold ret in E. injection E as <- <-.
        destruct Hs as (Hd & Hg & Hh). rewrite Hg, Hh. destruct w as [wd wg wh], wp as [pd pg ph]. cbn in *. subst pg ph.
        destruct (pfinish_post true wd wg pd lk (<[h:=None]> wh) (HMut m) (s1, wg) (OSplitIntoParts h n) RPanic Hd) with (h0 := wh) as (z & Ez & Sz & _); try done; [|eauto|].
        { cbn [handle_drop fst snd]. by rewrite Ed. }
        exists z. split; [exact Ez|done].
    - rewrite Hget. destruct (get_h w h) as [x|] eqn:Eh.
      + cbn [step] in E. rewrite Eh in E. destruct (handle_drop sz _ x) as [s1| | |] eqn:Ed; try done. cbn [mbind res_bind] in E. unfold ret in E. injection E as <- <-.
        destruct Hs as (Hd & Hg & Hh). rewrite Hg, Hh. destruct w as [wd wg wh], wp as [pd pg ph]. cbn in *. subst pg ph.
        destruct (pfinish_post false wd wg pd lk (<[h:=None]> wh) x s1 (ODrop h) RUnit Hd Ed eq_refl eq_refl ltac:(done) wh) as (z & Ez & Sz & _).
        exists z. split; [exact Ez|done].
      + apply Hother. intros _. cbn [step] in E. rewrite Eh in E. unfold ret in E. injection E as <- <-. by destruct w.
  Qed.
  (** [split_into_parts] that panics aborts iff a destructor panics on top. *)
  Lemma pstep_split w wp lk h n w' : samew w wp -> step sz vclone capf growf dbg w (OSplitIntoParts h n) = Ok (w', RPanic) ->
    exists z nd, pstep sz bomb vclone capf growf dbg (wp, lk) (OSplitIntoParts h n) = Ok z /\ dw_trace (w_d w') = dw_trace (w_d w) ++ nd /\ (z = None <-> 1 <= bombs bomb nd).
  Proof.
    intros Hs E. assert (get_h wp h = get_h w h) as Hget. { unfold get_h. by destruct Hs as (_ & _ & ->). }
    unfold pstep. cbn [fst snd step] in *. destruct (negb _) eqn:En; [done|]. rewrite Hget. destruct (get_h w h) as [[x|? ?|?|m|?|?]|] eqn:Eh; try done.
    - destruct (bpi_new capf growf x n) eqn:Eb; try done. destruct (rcs_drop sz _ x) as [s1| | |] eqn:Ed; try done. cbn [mbind res_bind] in E. unfold ret in E. injection E as <-.
      destruct Hs as (Hd & Hg & Hh). rewrite Hg, Hh. destruct w as [wd wg wh], wp as [pd pg ph]. cbn in *. subst pg ph.
      destruct (pfinish_post true wd wg pd lk (<[h:=None]> wh) (HRc x) s1 (OSplitIntoParts h n) RPanic Hd Ed eq_refl eq_refl ltac:(eauto) wh) as (z & Ez & _ & Hz).
      destruct (Hz eq_refl) as (nd & T & H & _). exists z, nd. cbn in H. split_and!; [exact Ez|done|]. rewrite H. lia.
    - destruct (mut_split_into_parts m n) eqn:Eb; try done. destruct (mut_drop sz _ m) as [s1| | |] eqn:Ed; try done. cbn [mbind res_bind] in E. unfold ret in E. injection E as <-.
      destruct Hs as (Hd & Hg & Hh). rewrite Hg, Hh. destruct w as [wd wg wh], wp as [pd pg ph]. cbn in *. subst pg ph.
      destruct (pfinish_post true wd wg pd lk (<[h:=None]> wh) (HMut m) (s1, wg) (OSplitIntoParts h n) RPanic Hd) with (h0 := wh) as (z & Ez & _ & Hz); try done; [|eauto|].
      { cbn [handle_drop fst snd]. by rewrite Ed. }
      destruct (Hz I) as (nd & T & H & _). exists z, nd. cbn in H. split_and!; [exact Ez|done|]. rewrite H. lia.
  Qed.
  (** Dropping a unique slice leaves nothing behind. *)
  Lemma pstep_unique w wp lk h x w' r : samew w wp -> get_h w h = Some x -> match x with HMut _ | HIter _ | HMParts _ => True | _ => False end ->
    step sz vclone capf growf dbg w (ODrop h) = Ok (w', r) ->
    exists z nd, pstep sz bomb vclone capf growf dbg (wp, lk) (ODrop h) = Ok z /\ dw_trace (w_d w') = dw_trace (w_d w) ++ nd /\ (z = None <-> 2 <= bombs bomb nd) /\
      match z with Some (pw', _) => snd pw' = lk | None => True end.
  Proof.
    intros Hs Eh Hx E. assert (get_h wp h = get_h w h) as Hget. { unfold get_h. by destruct Hs as (_ & _ & ->). }
    unfold pstep. cbn [fst snd step] in *. rewrite Hget, Eh. rewrite Eh in E.
    destruct (handle_drop sz _ x) as [s1| | |] eqn:Ed; try done. cbn [mbind res_bind] in E. unfold ret in E. injection E as <- <-.
    destruct Hs as (Hd & Hg & Hh). rewrite Hg, Hh. destruct w as [wd wg wh], wp as [pd pg ph]. cbn in *. subst pg ph.
    destruct (pfinish_post false wd wg pd lk (<[h:=None]> wh) x s1 (ODrop h) RUnit Hd Ed eq_refl eq_refl ltac:(done) wh) as (z & Ez & _ & Hz).
    destruct Hz as (nd & T & H & L). { by destruct x. } exists z, nd. cbn in H. split_and!; [exact Ez|done| |exact L]. rewrite H. lia.
  Qed.
End rc.

(** *** The same for [ArcSlice] *)
Section arc.
  Context {V : Type} (sz : N) (bomb : V -> bool).
  Context (vclone : V -> V) (capf growf : N -> N) (dbg : bool).
  Notation pd := (dworld V * leaked V)%type.

  Lemma parc_drop_post u w g wp lk r s' : same w wp -> arc_drop sz (w, g) r = Ok s' -> exists nd y, dw_trace (fst s') = dw_trace w ++ nd /\
    parc_drop sz bomb u ((wp, lk), g) r = Ok y /\ hpost bomb nd s' u (wp, lk) y.
  Proof.
    intros Hs E. unfold arc_drop in E. cbn [fst snd] in E. unfold data_drop in E. destruct (data_release sz _ w _) as [w1| | |] eqn:E1; try done. cbn [mbind res_bind] in E.
    destruct (guard_drop g _) as [g1| | |] eqn:E2; try done. cbn [mbind res_bind] in E. injection E as <-.
    destruct (release_post sz bomb _ u w wp lk _ _ Hs E1) as (nd & y & T & Ey & Py).
    destruct (hpost_guard bomb nd w1 g g1 u (wp, lk) y _ Py E2) as (z & Ez & Pz). exists nd, z. split_and!; try done.
    unfold parc_drop, pdata_drop. cbn [fst snd]. rewrite (same_datas _ _ Hs), Ey. exact Ez.
  Qed.
  Lemma parc_drop_all_post l : forall u w g wp lk s', same w wp -> arc_drop_all sz (w, g) l = Ok s' -> exists nd y, dw_trace (fst s') = dw_trace w ++ nd /\
    parc_drop_all sz bomb u ((wp, lk), g) l = Ok y /\ hpost bomb nd s' u (wp, lk) y.
  Proof.
    induction l as [|r l IH]; intros u w g wp lk s' Hs E.
    { injection E as <-. exists [], (Go ((wp, lk), g) u). rewrite app_nil_r. split_and!; try done. split; [done|]. by apply post_nil. }
    cbn [arc_drop_all] in E. destruct (arc_drop sz (w, g) r) as [[w1 g1]| | |] eqn:E1; try done. cbn [mbind res_bind] in E.
    destruct (parc_drop_post u w g wp lk r _ Hs E1) as (nd1 & y1 & T1 & Ey1 & P1). cbn [fst] in T1.
    assert (exists nd2, dw_trace (fst s') = dw_trace w1 ++ nd2) as [nd2 T2].
    { destruct (IH false w1 g1 w1 [] s' (same_refl _) E) as (nd2 & _ & T2 & _). eauto. }
    cbn [parc_drop_all]. rewrite Ey1.
    destruct (hpost_bind bomb nd1 nd2 (w1, g1) s' u ((wp, lk), g) y1 (fun s u => parc_drop_all sz bomb u s l) P1) as (y & Ey & Py).
    - intros [[wp1 lk1] g2] u1 Hs1 Hg. cbn in Hs1, Hg. subst g2. destruct (IH u1 w1 g1 wp1 lk1 s' Hs1 E) as (nd2' & y2 & T2' & Ey2 & P2).
      rewrite T2 in T2'. apply app_inv_head in T2' as <-. eauto.
    - exists (nd1 ++ nd2), y. split_and!; try done. by rewrite T2, T1, app_assoc.
  Qed.
  Lemma pxhandle_post u w g wp lk x s' : same w wp -> xhandle_drop sz (w, g) x = Ok s' -> exists nd y, dw_trace (fst s') = dw_trace w ++ nd /\
    pxhandle_drop sz bomb u ((wp, lk), g) x = Ok y /\ hpost bomb nd s' u (wp, lk) y /\
    (match x with XMut _ | XIter _ | XMParts _ => True | _ => False end -> clean bomb nd u (wp, lk) y).
  Proof.
    intros Hs E. destruct x as [r|d wg|it|m|m|m]; cbn [xhandle_drop pxhandle_drop fst snd] in *.
    - destruct (parc_drop_post u w g wp lk r s' Hs E) as (nd & y & H1 & H2 & H3). exists nd, y. split_and!; try done.
    - unfold aweak_drop in E. cbn [fst snd] in E. destruct (gd_weak_dec g wg) as [g1| | |]; try done. cbn in E. injection E as <-. exists [].
      eexists. cbn. rewrite app_nil_r. split_and!; try done. split; [done|]. by apply post_nil.
    - destruct (parc_drop_all_post _ u w g wp lk s' Hs E) as (nd & y & H1 & H2 & H3). exists nd, y. split_and!; try done.
    - unfold mut_drop in E. destruct (items_alloc_drop _ _ _ _ _) as [w1| | |] eqn:E1; try done. cbn in E. injection E as <-.
      destruct (unique_post sz bomb u g w wp lk _ _ _ _ Hs E1) as (nd & y & H1 & H2 & H3 & H4). exists nd, y. split_and!; try done.
    - unfold iter_drop in E. unfold piter_drop. destruct (sit_as_slice _ _) as [[p len]| | |]; try done. cbn [mbind res_bind] in *.
      destruct (items_alloc_drop _ _ _ _ _) as [w1| | |] eqn:E1; try done. cbn in E. injection E as <-.
      destruct (unique_post sz bomb u g w wp lk _ _ _ _ Hs E1) as (nd & y & H1 & H2 & H3 & H4). exists nd, y. split_and!; try done.
    - unfold mparts_drop in E. unfold pmparts_drop. destruct (sip_as_slice _ _) as [[p len]| | |]; try done. cbn [mbind res_bind] in *.
      destruct (items_alloc_drop _ _ _ _ _) as [w1| | |] eqn:E1; try done. cbn in E. injection E as <-.
      destruct (unique_post sz bomb u g w wp lk _ _ _ _ Hs E1) as (nd & y & H1 & H2 & H3 & H4). exists nd, y. split_and!; try done.
  Qed.

  (** *** Calls *)
  Definition samex (w wp : aworld V) : Prop := same (aw_d w) (aw_d wp) /\ aw_g wp = aw_g w /\ aw_h wp = aw_h w.
  Lemma samex_pre w wp : samex w wp -> exists t tp w0, w = preX t w0 /\ wp = preX tp w0 /\ dw_trace (aw_d w0) = [].
  Proof.
    intros (Hs & Hg & Hh). exists (dw_trace (aw_d w)), (dw_trace (aw_d wp)), (AW (untraced (aw_d w)) (aw_g w) (aw_h w)). unfold preX. cbn. split_and!; [|rewrite Hs|done]; rewrite <- untraced_pre; [by destruct w|].
    rewrite <- Hg, <- Hh. by destruct wp.
  Qed.
  Lemma astep_same w wp o w' r : samex w wp -> astep sz vclone capf growf dbg w o = Ok (w', r) ->
    exists wp' nd, astep sz vclone capf growf dbg wp o = Ok (wp', r) /\ samex w' wp' /\
      dw_trace (aw_d w') = dw_trace (aw_d w) ++ nd /\ dw_trace (aw_d wp') = dw_trace (aw_d wp) ++ nd.
  Proof.
    intros H E. destruct (samex_pre _ _ H) as (t & tp & w0 & -> & -> & H0). rewrite astep_pre in *. destruct (astep _ _ _ _ _ w0 o) as [[w1 r1]| | |]; try done.
    unfold rmap, preXO in *. cbn in E. injection E as <- <-. cbn. exists (preX tp w1), (dw_trace (aw_d w1)). cbn. rewrite H0, !app_nil_r. done.
  Qed.

  (** What a call does when destructors panic, given what it does when they do not. *)
  Definition xspost (w w' : aworld V) (r : out V) (o : op V) (pw : pxworld) (x : option (pxworld (V:=V) * out V)) : Prop := exists nd,
    dw_trace (aw_d w') = dw_trace (aw_d w) ++ nd /\
    match x with
    | Some (pw', r') => samex w' (fst pw') /\ exists pnd lk, dw_trace (aw_d (fst pw')) = dw_trace (aw_d (fst pw)) ++ pnd /\ snd pw' = snd pw ++ lk /\
        pnd `sublist_of` nd /\ nd ≡ₚ pnd ++ (ev <$> lk) /\
        r' = (if is_drop o && any bomb nd then RPanic else r) /\ (is_drop o = false \/ any bomb nd = false -> lk = []) /\
        (is_drop o = true -> bombs bomb pnd = bn (any bomb nd))
    | None => r = RPanic /\ (exists h n, o = OSplitIntoParts h n) /\ 1 <= bombs bomb nd \/ is_drop o = true /\ 2 <= bombs bomb nd
    end.

  Lemma pxstep_other w wp lk o w' r : samex w wp -> astep sz vclone capf growf dbg w o = Ok (w', r) -> (is_drop o = true -> w' = w) ->
    exists x, ('(w, r) ← astep sz vclone capf growf dbg wp o; Ok (Some ((w, lk), r))) = Ok x /\ xspost w w' r o (wp, lk) x.
  Proof.
    intros Hs E Hd. destruct (astep_same _ _ _ _ _ Hs E) as (wp' & nd & -> & Hs' & T1 & T2). cbn [mbind res_bind]. eexists. split; [done|].
    exists nd. split; [done|]. split; [done|]. exists nd, []. cbn [fst snd fmap list_fmap]. rewrite !app_nil_r. split_and!; try done.
    - destruct (is_drop o); [|done]. rewrite (Hd eq_refl) in T1. rewrite <- (app_nil_r (dw_trace (aw_d w))) in T1 at 1. apply app_inv_head in T1 as <-. done.
    - intros Ho. rewrite (Hd Ho) in T1. rewrite <- (app_nil_r (dw_trace (aw_d w))) in T1 at 1. apply app_inv_head in T1 as <-. unfold bombs. cbn. lia.
  Qed.
  Lemma pxfinish_post u w g wp lk hs x s' o r : same w wp -> xhandle_drop sz (w, g) x = Ok s' -> is_drop o = negb u -> r = (if u then RPanic else RUnit) ->
    (u = true -> exists h n, o = OSplitIntoParts h n) ->
    forall h0, exists z, (y ← pxhandle_drop sz bomb u ((wp, lk), g) x; pxfinish hs y) = Ok z /\
      xspost (AW w g h0) (AW (fst s') (snd s') hs) r o (AW wp g h0, lk) z /\
      (match x with XMut _ | XIter _ | XMParts _ => True | _ => u = true end -> exists nd, dw_trace (fst s') = dw_trace w ++ nd /\
        (z = None <-> 2 <= bombs bomb nd + bn u) /\ match z with Some (pw', _) => snd pw' = lk | None => True end).
  Proof.
    intros Hs E Ho Hr Hu h0. destruct (pxhandle_post u w g wp lk x s' Hs E) as (nd & y & T & -> & Py & Cy). cbn [mbind res_bind].
    destruct y as [[[wp' lk'] g'] u'|]; cbn [pxfinish fst snd].
    - eexists. split; [done|]. destruct Py as [Hg (pnd & l & S & T2 & L & B & P & U & C & Z)]. cbn [fst snd] in *. subst g'. split.
      + exists nd. split; [done|]. split; [done|]. exists pnd, l. cbn. split_and!; try done.
        * subst r u'. rewrite Ho. destruct u; cbn; [done|]. by destruct (any bomb nd).
        * intros H. apply Z. rewrite Ho in H. destruct u; [by left|]. right. destruct H as [H|H]; [done|]. by rewrite U, H.
        * rewrite Ho. destruct u; [done|]. intros _. rewrite U in C. cbn in C. lia.
      + intros Hk. exists nd. split; [done|]. assert (u = true \/ u = false) as [Hu'|Hu'] by (destruct u; auto).
        * rewrite (Z (or_introl Hu')) in *. cbn in P, L. rewrite app_nil_r in P, L. split; [|done]. split; [done|]. intros H. exfalso.
          rewrite (bombs_perm _ _ _ P) in H. destruct u'; cbn in C; lia.
        * destruct Cy as [C1 C2]; [by destruct x; try congruence|]. split; [|exact C2]. split; [done|]. intros H. by apply C1 in H.
    - eexists. split; [done|]. cbn in Py. split.
      + exists nd. split; [done|]. destruct u; cbn in *; [left; split_and!; [done|by apply Hu|lia]|right; split; [done|lia]].
      + intros _. exists nd. split; [done|]. split; [|done]. split; [|done]. intros _. exact Py.
  Qed.
  Lemma pxstep_post w wp lk o w' r : samex w wp -> astep sz vclone capf growf dbg w o = Ok (w', r) ->
    exists x, pxstep sz bomb vclone capf growf dbg (wp, lk) o = Ok x /\ xspost w w' r o (wp, lk) x.
  Proof.
    intros Hs E. assert (forall h, xget wp h = xget w h) as Hget. { intros h. unfold xget. by destruct Hs as (_ & _ & ->). }
    assert ((is_drop o = true -> w' = w) -> exists x, ('(w, r) ← astep sz vclone capf growf dbg wp o; Ok (Some ((w, lk), r))) = Ok x /\ xspost w w' r o (wp, lk) x) as Hother
      by (intros H; by apply pxstep_other).
    unfold pxstep. cbn [fst snd]. destruct o; try by apply Hother.
    - destruct (negb _) eqn:En; [by apply Hother|]. rewrite Hget. destruct (xget w h) as [[x|? ?|?|m|?|?]|] eqn:Eh; try by apply Hother.
      + destruct (bpi_new capf growf x n) eqn:Eb; try by apply Hother. cbn [astep] in E. rewrite En, Eh, Eb in E.
        destruct (arc_drop sz _ x) as [s1| | |] eqn:Ed; try done. cbn [mbind res_bind] in E. unfold ret in E. injection E as <- <-.
        destruct Hs as (Hd & Hg & Hh). rewrite Hg, Hh. destruct w as [wd wg wh], wp as [pd pg ph]. cbn in *. subst pg ph.
        destruct (pxfinish_post true wd wg pd lk (<[h:=None]> wh) (XArc x) s1 (OSplitIntoParts h n) RPanic Hd Ed eq_refl eq_refl ltac:(eauto) wh) as (z & Ez & Sz & _).
        exists z. split; [exact Ez|done].
      + destruct (mut_split_into_parts m n) eqn:Eb; try by apply Hother. cbn [astep] in E. rewrite En, Eh, Eb in E.
        destruct (mut_drop sz _ m) as [s1| | |] eqn:Ed; try done. cbn [mbind res_bind] in E. unfold ret in E. injection E as <- <-.
        destruct Hs as (Hd & Hg & Hh). rewrite Hg, Hh. destruct w as [wd wg wh], wp as [pd pg ph]. cbn in *. subst pg ph.
        destruct (pxfinish_post true wd wg pd lk (<[h:=None]> wh) (XMut m) (s1, wg) (OSplitIntoParts h n) RPanic Hd) with (h0 := wh) as (z & Ez & Sz & _); try done; [|eauto|].
        { cbn [xhandle_drop fst snd]. by rewrite Ed. }
        exists z. split; [exact Ez|done].
    - rewrite Hget. destruct (xget w h) as [x|] eqn:Eh.
      + cbn [astep] in E. rewrite Eh in E. destruct (xhandle_drop sz _ x) as [s1| | |] eqn:Ed; try done. cbn [mbind res_bind] in E. unfold ret in E. injection E as <- <-.
        destruct Hs as (Hd & Hg & Hh). rewrite Hg, Hh. destruct w as [wd wg wh], wp as [pd pg ph]. cbn in *. subst pg ph.
        destruct (pxfinish_post false wd wg pd lk (<[h:=None]> wh) x s1 (ODrop h) RUnit Hd Ed eq_refl eq_refl ltac:(done) wh) as (z & Ez & Sz & _).
        exists z. split; [exact Ez|done].
      + apply Hother. intros _. cbn [astep] in E. rewrite Eh in E. unfold ret in E. injection E as <- <-. by destruct w.
  Qed.
  (** [split_into_parts] that panics aborts iff a destructor panics on top. *)
  Lemma pxstep_split w wp lk h n w' : samex w wp -> astep sz vclone capf growf dbg w (OSplitIntoParts h n) = Ok (w', RPanic) ->
    exists z nd, pxstep sz bomb vclone capf growf dbg (wp, lk) (OSplitIntoParts h n) = Ok z /\ dw_trace (aw_d w') = dw_trace (aw_d w) ++ nd /\ (z = None <-> 1 <= bombs bomb nd).
  Proof.
    intros Hs E. assert (xget wp h = xget w h) as Hget. { unfold xget. by destruct Hs as (_ & _ & ->). }
    unfold pxstep. cbn [fst snd astep] in *. destruct (negb _) eqn:En; [done|]. rewrite Hget. destruct (xget w h) as [[x|? ?|?|m|?|?]|] eqn:Eh; try done.
    - destruct (bpi_new capf growf x n) eqn:Eb; try done. destruct (arc_drop sz _ x) as [s1| | |] eqn:Ed; try done. cbn [mbind res_bind] in E. unfold xret in E. injection E as <-.
      destruct Hs as (Hd & Hg & Hh). rewrite Hg, Hh. destruct w as [wd wg wh], wp as [pd pg ph]. cbn in *. subst pg ph.
      destruct (pxfinish_post true wd wg pd lk (<[h:=None]> wh) (XArc x) s1 (OSplitIntoParts h n) RPanic Hd Ed eq_refl eq_refl ltac:(eauto) wh) as (z & Ez & _ & Hz).
      destruct (Hz eq_refl) as (nd & T & H & _). exists z, nd. cbn in H. split_and!; [exact Ez|done|]. rewrite H. lia.
    - destruct (mut_split_into_parts m n) eqn:Eb; try done. destruct (mut_drop sz _ m) as [s1| | |] eqn:Ed; try done. cbn [mbind res_bind] in E. unfold xret in E. injection E as <-.
      destruct Hs as (Hd & Hg & Hh). rewrite Hg, Hh. destruct w as [wd wg wh], wp as [pd pg ph]. cbn in *. subst pg ph.
      destruct (pxfinish_post true wd wg pd lk (<[h:=None]> wh) (XMut m) (s1, wg) (OSplitIntoParts h n) RPanic Hd) with (h0 := wh) as (z & Ez & _ & Hz); try done; [|eauto|].
      { cbn [xhandle_drop fst snd]. by rewrite Ed. }
      destruct (Hz I) as (nd & T & H & _). exists z, nd. cbn in H. split_and!; [exact Ez|done|]. rewrite H. lia.
  Qed.
  (** Dropping a unique slice leaves nothing behind. *)
  Lemma pxstep_unique w wp lk h x w' r : samex w wp -> xget w h = Some x -> match x with XMut _ | XIter _ | XMParts _ => True | _ => False end ->
    astep sz vclone capf growf dbg w (ODrop h) = Ok (w', r) ->
    exists z nd, pxstep sz bomb vclone capf growf dbg (wp, lk) (ODrop h) = Ok z /\ dw_trace (aw_d w') = dw_trace (aw_d w) ++ nd /\ (z = None <-> 2 <= bombs bomb nd) /\
      match z with Some (pw', _) => snd pw' = lk | None => True end.
  Proof.
    intros Hs Eh Hx E. assert (xget wp h = xget w h) as Hget. { unfold xget. by destruct Hs as (_ & _ & ->). }
    unfold pxstep. cbn [fst snd astep] in *. rewrite Hget, Eh. rewrite Eh in E.
    destruct (xhandle_drop sz _ x) as [s1| | |] eqn:Ed; try done. cbn [mbind res_bind] in E. unfold xret in E. injection E as <- <-.
    destruct Hs as (Hd & Hg & Hh). rewrite Hg, Hh. destruct w as [wd wg wh], wp as [pd pg ph]. cbn in *. subst pg ph.
    destruct (pxfinish_post false wd wg pd lk (<[h:=None]> wh) x s1 (ODrop h) RUnit Hd Ed eq_refl eq_refl ltac:(done) wh) as (z & Ez & _ & Hz).
    destruct Hz as (nd & T & H & L). { by destruct x. } exists z, nd. cbn in H. split_and!; [exact Ez|done| |exact L]. rewrite H. lia.
  Qed.
End arc.
