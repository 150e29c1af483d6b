(** What threads own, and the invariant of the guards under concurrency. *)
From Verif Require Import Base BaseLemmas Api SliceItemsModel Spec DataModel RcModel DataInv DataSteps GuardInv GuardSteps GuardFuns ArcModel ArcInv ArcConc.
Local Open Scope nat_scope.

(** ** Ownership *)

Definition hR (x : xhandle) : list nat := match x with XArc r => [ar_data r] | _ => [] end.
Definition hG (x : xhandle) : list nat := match x with XArc r => [ar_guard r] | _ => [] end.
Definition hW (x : xhandle) : list nat := match x with XWeak _ o => option_list o | _ => [] end.
Definition hO (x : xhandle) : list (rng * option nat) :=
  match x with
  | XMut m => [(Rng (p_blk (si_ptr (ms_items m))) (p_idx (si_ptr (ms_items m))) (si_len (ms_items m)), ms_alloc m)]
  | _ => []
  end.

(** A new child that is not published owns its reference to the buffer but no item. *)
Definition priv (n : dnode) : rng * option nat := (Rng (p_blk (d_ptr n)) (p_idx (d_ptr n)) 0, d_alloc n).

Section own.
  Context {V : Type}.
  (** References to datas, owned items with their reference to the buffer,
      references and weak references to guards, latches, borrowed variables. *)
  Definition fR (f : frame V) : list nat :=
    match f with
    | FRel d => [d]
    | FChildUndo _ _ c _ _ | FChildUnwrap _ _ c _ _ => [c]
    | KGuardPar _ _ p => [p]
    | KSlice d => [d]
    | FCloneG r => [ar_data r]
    | FGm1 r | FGm2 r | FGm3 r | FGm4 r | FGm5 r | FIm1 r | FIm2 r | FIm3 r | FHold r => [ar_data r]
    | FFg n _ => kids n
    | KFg side n _ => kids (d_set_child side None n)
    | FV (VData d) => [d]
    | FV (VHold r) => [ar_data r]
    | FV (VFin (Some x) _) => hR x
    | _ => []
    end.
  Definition fO (f : frame V) : list (rng * option nat) :=
    match f with
    | FItems k p a => [(Rng (p_blk p) (p_idx p) (N.of_nat k), a)]
    | FChildCas _ _ _ n | FChildLost _ _ _ _ n | FChildUndo _ _ _ _ n | FChildUnwrap _ _ _ _ n => [priv n]
    | FFg n a | KFg _ n a => [(own_rng n, a)]
    | FV (VFin (Some x) _) => hO x
    | _ => []
    end.
  Definition fG (f : frame V) : list nat :=
    match f with
    | FRelG g => [g]
    | FGuardCas _ _ pg | FGuardLost _ _ pg => option_list pg
    | FGm1 r | FGm2 r | FGm3 r | FGm4 r | FGm5 r | FIm1 r | FIm2 r | FIm3 r | FHold r => [ar_guard r]
    | KImG r => [ar_guard r]
    | FV (VGuard g) => [g]
    | FV (VHold r) => [ar_guard r]
    | FV (VFin (Some x) _) => hG x
    | _ => []
    end.
  Definition fW (f : frame V) : list nat :=
    match f with
    | FRelW o => option_list o
    | FV (VFin (Some x) _) => hW x
    | _ => []
    end.
  Definition fL (f : frame V) : list (nat * bool) := match f with FOpen g down => [(g, down)] | _ => [] end.
  Definition fB (f : frame V) : list nat := match f with KEnd (Some h) => [h] | _ => [] end.
End own.

(** Sums over stacks, threads and variables. *)
Definition stk {V A} (F : frame V -> list A) (st : list (frame V)) : list A := st ≫= F.
Definition thr {V A} (F : frame V -> list A) (ts : list (list (frame V))) : list A := ts ≫= stk F.
Definition slo {A} (F : xhandle -> list A) (hs : list (option (xhandle * nat))) : list A :=
  hs ≫= fun o => match o with Some (x, _) => F x | None => [] end.
Definition tot {V A} (F : xhandle -> list A) (F' : frame V -> list A) (s : cstate V) : list A :=
  slo F (cs_h s) ++ thr F' (cs_t s).

Section sums.
  Context {V A : Type} (F : frame V -> list A) (H : xhandle -> list A).
  Implicit Types (st : list (frame V)) (ts : list (list (frame V))) (hs : list (option (xhandle * nat))).
  Lemma stk_cons f st : stk F (f :: st) = F f ++ stk F st.
  Proof. done. Qed.
  Lemma stk_app st st' : stk F (st ++ st') = stk F st ++ stk F st'.
  Proof. unfold stk. by rewrite bind_app. Qed.
  Lemma thr_perm ts t st : ts !! t = Some st -> thr F ts ≡ₚ stk F st ++ thr F (delete t ts).
  Proof. intros E. unfold thr. rewrite (delete_Permutation _ _ _ E) at 1. done. Qed.
  Lemma delete_insert_list {B} (l : list B) i x : delete i (<[i := x]> l) = delete i l.
  Proof. revert i. induction l as [|y l IH]; intros [|i]; try done; cbn; by f_equal. Qed.
  Lemma thr_upd ts t st st' : ts !! t = Some st -> thr F (<[t := st']> ts) ≡ₚ stk F st' ++ thr F (delete t ts).
  Proof.
    intros E. rewrite (thr_perm _ t st'), delete_insert_list; [done|].
    apply list_lookup_insert. by eapply lookup_lt_Some.
  Qed.
  Lemma thr_elem ts x : x ∈ thr F ts <-> exists t st, ts !! t = Some st /\ x ∈ stk F st.
  Proof.
    unfold thr. rewrite elem_of_list_bind. split.
    - intros (st & Hx & [t Ht]%elem_of_list_lookup). eauto.
    - intros (t & st & Ht & Hx). exists st. split; [done|]. by eapply elem_of_list_lookup_2.
  Qed.
  Lemma stk_elem st x : x ∈ stk F st <-> exists f, f ∈ st /\ x ∈ F f.
  Proof. unfold stk. rewrite elem_of_list_bind. naive_solver. Qed.
  Lemma delete_elem {B} (l : list B) i x : x ∈ delete i l <-> exists j, j <> i /\ l !! j = Some x.
  Proof.
    rewrite elem_of_list_lookup. split.
    - intros [j E]. destruct (decide (j < i)).
      + rewrite lookup_delete_lt in E by done. exists j. split; [lia|done].
      + rewrite lookup_delete_ge in E by lia. exists (S j). split; [lia|done].
    - intros (j & Hne & E). destruct (decide (j < i)).
      + exists j. by rewrite lookup_delete_lt.
      + exists (pred j). rewrite lookup_delete_ge by lia. by replace (S (pred j)) with j by lia.
  Qed.
  Lemma thr_delete_elem ts t x : x ∈ thr F (delete t ts) <-> exists t' st, t' <> t /\ ts !! t' = Some st /\ x ∈ stk F st.
  Proof.
    unfold thr. rewrite elem_of_list_bind. split.
    - intros (st & Hx & (t' & Hne & E)%delete_elem). eauto.
    - intros (t' & st & Hne & E & Hx). exists st. split; [done|]. apply delete_elem. eauto.
  Qed.
  Lemma slo_app hs hs' : slo H (hs ++ hs') = slo H hs ++ slo H hs'.
  Proof. unfold slo. by rewrite bind_app. Qed.
  Lemma slo_elem hs x : x ∈ slo H hs <-> exists h y k, hs !! h = Some (Some (y, k)) /\ x ∈ H y.
  Proof.
    unfold slo. rewrite elem_of_list_bind. split.
    - intros ([[y k]|] & Hx & [h Hh]%elem_of_list_lookup); [eauto 10|by apply elem_of_nil in Hx].
    - intros (h & y & k & Hh & Hx). exists (Some (y, k)). split; [done|]. by eapply elem_of_list_lookup_2.
  Qed.
  Lemma slo_perm hs h o : hs !! h = Some o ->
    slo H hs ≡ₚ match o with Some (x, _) => H x | None => [] end ++ slo H (delete h hs).
  Proof. intros E. unfold slo. rewrite (delete_Permutation _ _ _ E) at 1. done. Qed.
  Lemma slo_upd hs h o o' : hs !! h = Some o ->
    slo H (<[h := o']> hs) ≡ₚ match o' with Some (x, _) => H x | None => [] end ++ slo H (delete h hs).
  Proof.
    intros E. rewrite (slo_perm _ h o'), delete_insert_list; [done|].
    apply list_lookup_insert. by eapply lookup_lt_Some.
  Qed.
  (** Borrowing does not change what the variables own. *)
  Lemma slo_borrow hs h x k k' : hs !! h = Some (Some (x, k)) -> slo H (<[h := Some (x, k')]> hs) = slo H hs.
  Proof.
    intros E. unfold slo. revert h E. induction hs as [|o hs IH]; intros [|h] E; try done; cbn in *.
    - by injection E as ->.
    - f_equal. by apply IH.
  Qed.
End sums.

(** ** The invariant of the guards *)

Definition lcnt2 (x : nat * bool) (l : list (nat * bool)) : nat := length (filter (fun y => y = x) l).
Lemma lcnt2_cons x y l : lcnt2 x (y :: l) = (if decide (y = x) then 1 else 0) + lcnt2 x l.
Proof. unfold lcnt2. rewrite filter_cons. by case_decide. Qed.
Lemma lcnt2_app x l1 l2 : lcnt2 x (l1 ++ l2) = lcnt2 x l1 + lcnt2 x l2.
Proof. unfold lcnt2. by rewrite filter_app, app_length. Qed.
Lemma lcnt2_perm x l1 l2 : l1 ≡ₚ l2 -> lcnt2 x l1 = lcnt2 x l2.
Proof. unfold lcnt2. by intros ->. Qed.
Lemma lcnt2_pos x l : 0 < lcnt2 x l <-> x ∈ l.
Proof.
  unfold lcnt2. split.
  - intros H. destruct (filter _ l) as [|y k] eqn:E; [cbn in H; lia|].
    assert (y ∈ filter (fun y => y = x) l) as Hy by (rewrite E; left).
    by apply elem_of_list_filter in Hy as [-> ?].
  - intros H. assert (x ∈ filter (fun y => y = x) l) as Hy by (by apply elem_of_list_filter).
    destruct (filter _ l); [by apply elem_of_nil in Hy|cbn; lia].
Qed.
Lemma lcnt2_zero x l : lcnt2 x l = 0 <-> x ∉ l.
Proof. rewrite <- lcnt2_pos. lia. Qed.

(** [D]: the data of each guard. [RI], [RW], [LT]: references, weak references
    and latches held outside guards and boxes. *)
Record ginv (w : gdworld) (D : list nat) (RI RW : list nat) (LT : list (nat * bool)) : Prop := {
  gi_len : length D = length (gd_guards w);
  gi_lenw : length (gd_weak w) = length (gd_guards w);
  gi_dom : forall i x, D !! i = Some x -> x < length (gd_metas w);
  gi_par : forall i n p x, rc_get (gd_guards w) i = Some n -> a_parent n = Some p -> D !! i = Some x ->
    p < i /\ exists m y, gd_metas w !! x = Some m /\ am_parent m = Some y /\ D !! p = Some y;
  gi_pos : forall i n, ~ live (gd_guards w) i 0 n;
  gi_cnt : forall i, rc_count (gd_guards w) i = cnt i RI + hsum (fun n => cnt i (a_pars n)) (gd_guards w);
  gi_rw : forall i, i ∈ RW -> i < length (gd_guards w);
  gi_wcnt : forall i c, gd_weak w !! i = Some c -> c = S (cnt i RW);
  gi_gate : forall i down, lcnt2 (i, down) LT =
    match rc_get (gd_guards w) i with Some n => if a_gate down n then 1 else 0 | None => 0 end;
  gi_nofree : forall b, gd_boxes w !! b <> Some None;
  gi_box : forall x m, gd_metas w !! x = Some m ->
    exists o, gd_boxes w !! am_box m = Some (Some o) /\
      (forall i, o = Some i -> D !! i = Some x) /\
      (forall i n, rc_get (gd_guards w) i = Some n -> D !! i = Some x -> o = Some i);
  gi_meta : forall x m y, gd_metas w !! x = Some m -> am_parent m = Some y -> y < x
}.
Lemma ginv_perm w D RI RI' RW RW' LT LT' : RI ≡ₚ RI' -> RW ≡ₚ RW' -> LT ≡ₚ LT' ->
  ginv w D RI RW LT -> ginv w D RI' RW' LT'.
Proof.
  intros H1 H2 H3 []. split; try done.
  - intros i. by rewrite <- (cnt_perm _ _ _ H1).
  - intros i. rewrite <- H2. apply gi_rw0.
  - intros i c. rewrite <- (cnt_perm _ _ _ H2). apply gi_wcnt0.
  - intros i down. rewrite <- (lcnt2_perm _ _ _ H3). apply gi_gate0.
Qed.

Section facts.
  Context (w : gdworld) (D RI RW : list nat) (LT : list (nat * bool)).
  Context (I : ginv w D RI RW LT).
  Notation gv := (rc_get (gd_guards w)).
  Lemma ginv_ref i : i ∈ RI -> exists s n x, live (gd_guards w) i (S s) n /\ D !! i = Some x.
  Proof.
    intros H%cnt_pos. destruct (count_get (gd_guards w) i) as [n Hn].
    { rewrite (gi_cnt _ _ _ _ _ I). lia. }
    destruct (lookup_lt_is_Some_2 D i) as [x Hx].
    { rewrite (gi_len _ _ _ _ _ I). by eapply rc_get_lt. }
    destruct (rc_get_Some _ _ _ Hn) as [[|s] Hs]; [|eauto]. by apply (gi_pos _ _ _ _ _ I) in Hs.
  Qed.
  (** At most one live guard per data. *)
  Lemma ginv_unique i j n m x : gv i = Some n -> gv j = Some m -> D !! i = Some x -> D !! j = Some x -> i = j.
  Proof.
    intros Hi Hj Hx Hy. destruct (lookup_lt_is_Some_2 (gd_metas w) x) as [k Hk].
    { by eapply (gi_dom _ _ _ _ _ I). }
    destruct (gi_box _ _ _ _ _ I _ _ Hk) as (o & _ & _ & H). rewrite (H _ _ Hi Hx) in H.
    by injection (H _ _ Hj Hy).
  Qed.
  Lemma ginv_latch i down : (i, down) ∈ LT -> exists s n, live (gd_guards w) i s n /\ a_gate down n = true.
  Proof.
    intros H%lcnt2_pos. rewrite (gi_gate _ _ _ _ _ I) in H. destruct (gv i) as [n|] eqn:E; [|lia].
    destruct (a_gate down n) eqn:Ea; [|lia]. apply rc_get_Some in E as [s Hs]. eauto.
  Qed.
End facts.

(** *** Steps *)

Lemma ginv_recount w D RI RI' RW LT i s n s' :
  ginv w D RI RW LT -> live (gd_guards w) i s n -> s' <> 0 ->
  (forall x, cnt x RI' + (if decide (x = i) then s else 0) = cnt x RI + (if decide (x = i) then s' else 0)) ->
  ginv (gd_set_guards w (<[i := Some (s', n)]> (gd_guards w))) D RI' RW LT.
Proof.
  intros [] Hv Hs HR. pose proof (live_lt _ _ _ _ Hv) as Hlt.
  assert (forall x, rc_get (<[i := Some (s', n)]> (gd_guards w)) x = rc_get (gd_guards w) x) as Hget.
  { intros x. rewrite rc_get_insert by done. case_decide; [|done]. subst. cbn. symmetry. by eapply rc_get_live. }
  split; cbn [gd_set_guards gd_guards gd_weak gd_boxes gd_metas]; rewrite ?insert_length; try done.
  - intros j m p x. rewrite Hget. eauto.
  - intros j m [(-> & [= -> ->] & _)|[_ H]]%live_insert; [done|by eapply gi_pos0].
  - intros j. rewrite rc_count_insert by done. cbn.
    pose proof (hsum_insert_live (fun n => cnt j (a_pars n)) _ _ _ _ (Some (s', n)) Hv) as E. cbn in E.
    pose proof (gi_cnt0 j) as Ec. pose proof (HR j) as Er. case_decide; [subst j|lia].
    rewrite (rc_count_live _ _ _ _ Hv) in Ec. lia.
  - intros j down. rewrite Hget. apply gi_gate0.
  - intros x m Hm. destruct (gi_box0 _ _ Hm) as (o & Ho & H1 & H2). exists o. split_and!; try done.
    intros j k. rewrite Hget. eauto.
Qed.
Lemma ginv_inc w D RI RW LT i s n : ginv w D RI RW LT -> live (gd_guards w) i s n ->
  ginv (gd_set_guards w (<[i := Some (S s, n)]> (gd_guards w))) D (i :: RI) RW LT.
Proof.
  intros H Hv. eapply ginv_recount; [done..|]. intros x. rewrite cnt_cons. do 2 case_decide; subst; try done; lia.
Qed.
Lemma ginv_dec w D RI RW LT i s n : ginv w D (i :: RI) RW LT -> live (gd_guards w) i (S (S s)) n ->
  ginv (gd_set_guards w (<[i := Some (S s, n)]> (gd_guards w))) D RI RW LT.
Proof.
  intros H Hv. eapply ginv_recount; [done..|]. intros x. rewrite cnt_cons. do 2 case_decide; subst; try done; lia.
Qed.
Lemma ginv_kill w D RI RW LT i n : ginv w D (i :: RI) RW LT -> live (gd_guards w) i 1 n ->
  (forall j down, (j, down) ∈ LT -> j ∈ RI) ->
  ginv (gd_set_guards w (<[i := None]> (gd_guards w))) D (a_pars n ++ RI) RW LT.
Proof.
  intros [] Hv HL. pose proof (live_lt _ _ _ _ Hv) as Hlt.
  assert (i ∉ RI) as Hni.
  { pose proof (gi_cnt0 i) as E. rewrite cnt_cons, decide_True, (rc_count_live _ _ _ _ Hv) in E by done.
    apply cnt_zero. lia. }
  assert (forall x, rc_get (<[i := None]> (gd_guards w)) x = if decide (x = i) then None else rc_get (gd_guards w) x) as Hget.
  { intros x. rewrite rc_get_insert by done. by case_decide. }
  split; cbn [gd_set_guards gd_guards gd_weak gd_boxes gd_metas]; rewrite ?insert_length; try done.
  - intros j m p x. rewrite Hget. case_decide; [done|eauto].
  - intros j m [(-> & [=] & _)|[_ H]]%live_insert; by eapply gi_pos0.
  - intros j. rewrite rc_count_insert by done. cbn [cval].
    pose proof (hsum_insert_live (fun n => cnt j (a_pars n)) _ _ _ _ None Hv) as E. cbn [ev] in E.
    pose proof (gi_cnt0 j) as Ec. rewrite cnt_cons in Ec. rewrite cnt_app. destruct (decide (j = i)) as [->|Hne].
    + rewrite decide_True, (rc_count_live _ _ _ _ Hv) in Ec by done. lia.
    + rewrite decide_False in Ec by congruence. lia.
  - intros j down. rewrite Hget. case_decide as Ej; [|apply gi_gate0]. subst j. apply lcnt2_zero. eauto.
  - intros x m Hm. destruct (gi_box0 _ _ Hm) as (o & Ho & H1 & H2). exists o. split_and!; try done.
    intros j k. rewrite Hget. case_decide; [done|eauto].
Qed.
(** Opening and closing a gate. *)
Lemma ginv_gate w D RI RW LT LT' i s n down b :
  ginv w D RI RW LT -> live (gd_guards w) i s n ->
  (forall x, lcnt2 x LT' + (if decide (x = (i, down)) then if a_gate down n then 1 else 0 else 0) =
             lcnt2 x LT + (if decide (x = (i, down)) then if (b : bool) then 1 else 0 else 0)) ->
  ginv (gd_set_guards w (<[i := Some (s, a_set_gate down b n)]> (gd_guards w))) D RI RW LT'.
Proof.
  intros [] Hv HL. pose proof (live_lt _ _ _ _ Hv) as Hlt.
  assert (forall x m, rc_get (<[i := Some (s, a_set_gate down b n)]> (gd_guards w)) x = Some m ->
    exists m', rc_get (gd_guards w) x = Some m' /\ a_parent m' = a_parent m) as Hget.
  { intros x m. rewrite rc_get_insert by done. case_decide; [|eauto]. subst. cbn. intros [= <-].
    exists n. split; [by eapply rc_get_live|]. by destruct down. }
  assert (a_pars (a_set_gate down b n) = a_pars n) as Hpar by by destruct down.
  split; cbn [gd_set_guards gd_guards gd_weak gd_boxes gd_metas]; rewrite ?insert_length; try done.
  - intros j m p x (m' & Hm & E)%Hget. rewrite <- E. eauto.
  - intros j m [(_ & [= -> _] & _)|[_ H]]%live_insert; by eapply gi_pos0.
  - intros j. rewrite rc_count_insert by done. cbn [cval].
    pose proof (hsum_insert_live (fun n => cnt j (a_pars n)) _ _ _ _ (Some (s, a_set_gate down b n)) Hv) as E.
    cbn [ev] in E. rewrite Hpar in E. pose proof (gi_cnt0 j) as Ec. case_decide; [subst j|lia].
    rewrite (rc_count_live _ _ _ _ Hv) in Ec. lia.
  - intros j dn. pose proof (HL (j, dn)) as E. pose proof (gi_gate0 j dn) as Eg.
    rewrite rc_get_insert by done. destruct (decide (j = i)) as [->|Ej].
    + rewrite (rc_get_live _ _ _ _ Hv) in Eg. cbn [snd fmap option_fmap option_map].
      destruct (decide ((i, dn) = (i, down))) as [[= ->]|Ed].
      * assert (a_gate down (a_set_gate down b n) = b) as -> by by destruct down. lia.
      * assert (a_gate dn (a_set_gate down b n) = a_gate dn n) as -> by by destruct dn, down. lia.
    + rewrite decide_False, decide_False in E by congruence. lia.
  - intros x m Hm. destruct (gi_box0 _ _ Hm) as (o & Ho & H1 & H2). exists o. split_and!; try done.
    intros j k (m' & Hm' & _)%Hget. eauto.
Qed.
Lemma ginv_winc w D RI RW LT i : ginv w D RI RW LT -> i < length (gd_guards w) ->
  exists w', gd_weak_inc w (Some i) = Ok w' /\ ginv w' D RI (i :: RW) LT /\
    gd_guards w' = gd_guards w /\ gd_boxes w' = gd_boxes w /\ gd_metas w' = gd_metas w.
Proof.
  intros [] Hi. cbn. destruct (lookup_lt_is_Some_2 (gd_weak w) i) as [c Hc]; [lia|]. rewrite Hc.
  eexists. split_and!; try done.
  split; cbn [gd_guards gd_weak gd_boxes gd_metas]; rewrite ?insert_length; try done.
  - intros j [->|H]%elem_of_cons; [done|eauto].
  - intros j k. rewrite cnt_cons. destruct (decide (i = j)) as [->|].
    + rewrite list_lookup_insert by lia. intros [= <-]. f_equal. by apply gi_wcnt0.
    + rewrite list_lookup_insert_ne by done. apply gi_wcnt0.
Qed.
Lemma ginv_wdec w D RI RW LT i : ginv w D RI (i :: RW) LT ->
  exists w', gd_weak_dec w (Some i) = Ok w' /\ ginv w' D RI RW LT /\
    gd_guards w' = gd_guards w /\ gd_boxes w' = gd_boxes w /\ gd_metas w' = gd_metas w.
Proof.
  intros []. assert (i < length (gd_guards w)) as Hi by (apply gi_rw0; left).
  cbn. destruct (lookup_lt_is_Some_2 (gd_weak w) i) as [c Hc]; [lia|]. rewrite Hc.
  pose proof (gi_wcnt0 _ _ Hc) as E. rewrite cnt_cons, decide_True in E by done. destruct c as [|c]; [done|].
  eexists. split_and!; try done.
  split; cbn [gd_guards gd_weak gd_boxes gd_metas]; rewrite ?insert_length; try done.
  - intros j H. apply gi_rw0. by right.
  - intros j k. destruct (decide (i = j)) as [->|].
    + rewrite list_lookup_insert by lia. intros [= <-]. lia.
    + rewrite list_lookup_insert_ne by done. intros H. apply gi_wcnt0 in H. rewrite cnt_cons, decide_False in H; done.
Qed.
Lemma ginv_new_data w D RI RW LT par : ginv w D RI RW LT ->
  (forall y, par = Some y -> y < length (gd_metas w)) ->
  ginv (gd_new_data w par) D RI RW LT.
Proof.
  intros [] Hp. split; cbn [gd_new_data gd_guards gd_weak gd_boxes gd_metas]; try done.
  - intros i x H%gi_dom0. rewrite app_length. lia.
  - intros i n p x H1 H2 H3. destruct (gi_par0 _ _ _ _ H1 H2 H3) as (? & m & y & Hm & ? & ?).
    split; [done|]. exists m, y. by rewrite lookup_app_l by by eapply lookup_lt_Some.
  - intros b [H|[_ H]]%lookup_app_Some; [by eapply gi_nofree0|].
    by destruct (b - length (gd_boxes w)).
  - intros x m [H|[Hge H]]%lookup_app_Some.
    + destruct (gi_box0 _ _ H) as (o & Ho & ? & ?). exists o.
      by rewrite lookup_app_l by by eapply lookup_lt_Some.
    + destruct (x - length (gd_metas w)) as [|j] eqn:E; [|by destruct j]. injection H as <-. exists None.
      rewrite lookup_app_r, Nat.sub_diag by (cbn; lia). split_and!; try done.
      intros i n _ Hx%gi_dom0. lia.
  - intros x m y [H|[Hge H]]%lookup_app_Some Hy; [by eapply gi_meta0|].
    destruct (x - length (gd_metas w)) as [|j] eqn:E; [|by destruct j]. injection H as <-. cbn in Hy.
    apply Hp in Hy. lia.
Qed.
Lemma ginv_new_guard w D RI RW LT x m (par : option nat) : let i := length (gd_guards w) in
  ginv w D (option_list par ++ RI) RW LT -> gd_metas w !! x = Some m ->
  (forall p, par = Some p -> exists y, am_parent m = Some y /\ D !! p = Some y) ->
  (forall j n, rc_get (gd_guards w) j = Some n -> D !! j <> Some x) ->
  exists w', gd_new_guard w x (am_box m) par = Ok (w', i) /\
    gd_guards w' = gd_guards w ++ [Some (1, AGuard par false false)] /\
    gd_boxes w' = gd_boxes w ++ [Some (Some i)] /\
    gd_metas w' = <[x := AMeta (am_parent m) (length (gd_boxes w))]> (gd_metas w) /\
    ginv w' (D ++ [x]) (i :: RI) RW LT.
Proof.
  intros i [] Hm Hp Hno. unfold gd_new_guard. cbn. rewrite Hm, Nat.eqb_refl. eexists. split_and!; try done.
  assert (length D = i) as Hi by done.
  assert (forall j n, rc_get (gd_guards w ++ [Some (1, AGuard par false false)]) j = Some n ->
     (j = i /\ n = AGuard par false false) \/ (j < i /\ rc_get (gd_guards w) j = Some n)) as Hget.
  { intros j n (s & [[-> E]|[? H]]%live_snoc)%rc_get_Some; [injection E as <- <-; by left|right].
    split; [done|]. by eapply rc_get_live. }
  assert (forall j y, (D ++ [x]) !! j = Some y -> (j = i /\ y = x) \/ D !! j = Some y) as HD.
  { intros j y [H|[Hge H]]%lookup_app_Some; [by right|left].
    destruct (j - length D) as [|k] eqn:E; [|by destruct k]. injection H as <-. split; [lia|done]. }
  assert (x < length (gd_metas w)) as Hx by by eapply lookup_lt_Some.
  split; cbn [gd_guards gd_weak gd_boxes gd_metas]; rewrite ?app_length, ?insert_length; cbn [length]; try done; try lia.
  - intros j y [[-> ->]|H]%HD; [done|eauto].
  - intros j n p y Hj Hnp Hy. destruct (Hget _ _ Hj) as [[-> ->]|[Hlt Hj']].
    + cbn in Hnp. subst par. destruct (Hp p eq_refl) as (z & Hz & HDp).
      apply HD in Hy as [[_ ->]|Hy]; [|apply lookup_lt_Some in Hy; lia].
      assert (p < i). { rewrite <- Hi. by eapply lookup_lt_Some. }
      split; [done|]. eexists _, z. split; [by apply list_lookup_insert|]. split; [done|].
      by apply (lookup_app_l_Some D).
    + apply HD in Hy as [[-> ->]|Hy]; [lia|].
      destruct (gi_par0 _ _ _ _ Hj' Hnp Hy) as (? & k & z & Hk & Hz & HDp). split; [done|].
      destruct (decide (x = y)) as [->|].
      * eexists _, z. rewrite list_lookup_insert by done. split_and!; [done| |by apply (lookup_app_l_Some D)].
        cbn. congruence.
      * exists k, z. rewrite list_lookup_insert_ne by done. split_and!; try done. by apply (lookup_app_l_Some D).
  - intros j n [[_ [= ]]|[_ H]]%live_snoc. by eapply gi_pos0.
  - intros j. rewrite rc_count_snoc, hsum_app, cnt_cons. cbn. pose proof (gi_cnt0 j) as E. rewrite cnt_app in E.
    unfold a_pars at 2. cbn. fold i. case_decide as Ej.
    + subst j. rewrite decide_True by done.
      assert (rc_count (gd_guards w) i = 0) as H0 by (unfold rc_count; by rewrite lookup_ge_None_2).
      lia.
    + rewrite decide_False by congruence. lia.
  - intros j H%gi_rw0. lia.
  - intros j c [H|[Hge H]]%lookup_app_Some; [by apply gi_wcnt0|].
    destruct (j - length (gd_weak w)) as [|k] eqn:E; [|by destruct k]. injection H as <-.
    destruct (decide (j ∈ RW)) as [Hj%gi_rw0|Hj%cnt_zero]; [lia|]. by rewrite Hj.
  - intros j down. rewrite gi_gate0. unfold rc_get. destruct (decide (j < i)).
    + by rewrite lookup_app_l by done.
    + rewrite (lookup_ge_None_2 (gd_guards w)) by lia. destruct (_ !! j) as [[[s k]|]|] eqn:E; try done.
      apply (live_snoc (gd_guards w)) in E as [[_ [= <- <-]]|[? _]]; [by destruct down|lia].
  - intros b [H|[_ H]]%lookup_app_Some; [by eapply gi_nofree0|].
    by destruct (b - length (gd_boxes w)) as [|[]].
  - intros y k. destruct (decide (x = y)) as [<-|Hne].
    + rewrite list_lookup_insert by done. intros [= <-]. exists (Some i). cbn.
      rewrite lookup_app_r, Nat.sub_diag by lia. split_and!; try done.
      * intros j [= <-]. by rewrite lookup_app_r, <- Hi, Nat.sub_diag by lia.
      * intros j n [[-> _]|[Hlt Hj]]%Hget Hx'; [done|].
        apply HD in Hx' as [[-> _]|Hx']; [done|]. by destruct (Hno _ _ Hj).
    + rewrite list_lookup_insert_ne by done. intros Hk. destruct (gi_box0 _ _ Hk) as (o & Ho & H1 & H2).
      exists o. split_and!.
      * by rewrite lookup_app_l by by eapply lookup_lt_Some.
      * intros j Hj. apply (lookup_app_l_Some D). by apply H1.
      * intros j n [[-> ->]|[Hlt Hj]]%Hget Hy; apply HD in Hy as [[? ->]|Hy]; try done.
        -- apply lookup_lt_Some in Hy. lia.
        -- eauto.
  - intros y k z. destruct (decide (x = y)) as [<-|Hne].
    + rewrite list_lookup_insert by done. intros [= <-]. cbn. by eapply gi_meta0.
    + rewrite list_lookup_insert_ne by done. apply gi_meta0.
Qed.
