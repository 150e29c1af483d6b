(** Why item accesses are ordered: for every access to an item still there, one
    of those who keep the item alive knows about it. *)
From Verif Require Import Base BaseLemmas Api SliceItemsModel Spec DataModel RcModel DataInv DataSteps GuardInv ArcModel ArcInv ArcConc ConcInv ConcGuard ConcWorld ConcChild ConcData ConcSafe ConcSpec OrderModel.
Local Open Scope nat_scope.
#[local] Arguments slo {A} F hs : simpl never.
#[local] Arguments thr {V A} F ts : simpl never.

Lemma elem_of_gather {A} (f : A -> view) l i : i ∈ gather f l <-> exists x, x ∈ l /\ i ∈ f x.
Proof.
  unfold gather. rewrite elem_of_union_list. split.
  - intros (v & (x & -> & Hx)%elem_of_list_fmap & Hi). eauto.
  - intros (x & Hx & Hi). exists (f x). split; [|done]. apply elem_of_list_fmap. eauto.
Qed.
Lemma spread_mono {A} `{EqDecision A} l v (f : A -> view) x : f x ⊆ spread l v f x.
Proof. unfold spread. case_decide; set_solver. Qed.
Lemma spread_in {A} `{EqDecision A} l v (f : A -> view) x : x ∈ l -> v ⊆ spread l v f x.
Proof. intros H. unfold spread. rewrite decide_True by done. set_solver. Qed.
Lemma spread_out {A} `{EqDecision A} l v (f : A -> view) x : x ∉ l -> spread l v f x = f x.
Proof. intros H. unfold spread. by rewrite decide_False. Qed.

(** ** Who has what: threads and variables *)
Inductive holder := HT (t : nat) | HV (h : nat).
#[global] Instance holder_eq_dec : EqDecision holder.
Proof. solve_decision. Defined.
Section holders.
  Context {V : Type}.
  Notation stack := (list (frame V)).
  Implicit Types (s : cstate V) (o : ostate V).
  (** What all who use it know, and what one of them may know. *)
  Definition mview o (w : holder) : view := match w with HT t => os_thr o t | HV h => os_var o h end.
  Definition hview o (w : holder) : view := match w with HT t => os_thr o t | HV h => os_var o h ∪ os_bor o h end.
  Lemma mview_hview o w : mview o w ⊆ hview o w.
  Proof. destruct w; cbn; set_solver. Qed.
  (** What is asked of a stack and of a value. *)
  Definition hold {A} (F : frame V -> list A) (H : xhandle -> list A) s (w : holder) (x : A) : Prop :=
    match w with
    | HT t => exists st, cs_t s !! t = Some st /\ x ∈ stk F st
    | HV h => exists y k, cs_h s !! h = Some (Some (y, k)) /\ x ∈ H y
    end.
  (** The datas a value or a call may read from, or lead to such. *)
  Definition hM (x : xhandle) : list nat :=
    match x with XArc r => [ar_data r] | XWeak d _ => option_list d | _ => [] end.
  Definition fM (f : frame V) : list nat :=
    match f with
    | FChild x _ | FChildAlloc x _ | FChildCas x _ _ _ => [x]
    | FChildInc x _ c | FChildLost x _ c _ _ | FChildUndo x _ c _ _ | FChildUnwrap x _ c _ _ => [x; c]
    | KSlice d => [d]
    | FCloneD r | FCloneG r | FDown r => [ar_data r]
    | FCloneW o _ | FUpgrade o => option_list o
    | FGm1 r | FGm2 r | FGm3 r | FGm4 r | FGm5 r | FIm1 r | FIm2 r | FIm3 r | FHold r => [ar_data r]
    | FV (VData d) => [d]
    | FV (VHold r) => [ar_data r]
    | FV (VFin (Some x) _) => hM x
    | _ => []
    end.
  Notation refs := (hold fR hR).
  Notation owns := (hold fO hO).
  Notation ments := (hold fM hM).
  Lemma hold_tot {A} (F : frame V -> list A) H s w x : hold F H s w x -> x ∈ tot H F s.
  Proof.
    unfold tot. rewrite elem_of_app. destruct w as [t|h]; cbn.
    - intros (st & Ht & Hx). right. apply thr_elem. eauto.
    - intros (y & k & Hh & Hx). left. apply slo_elem. eauto.
  Qed.
  Lemma tot_hold {A} (F : frame V -> list A) H s x : x ∈ tot H F s -> exists w, hold F H s w x.
  Proof.
    unfold tot. rewrite elem_of_app. intros [(h & y & k & Hh & Hx)%slo_elem|(t & st & Ht & Hx)%thr_elem].
    - exists (HV h). cbn. eauto.
    - exists (HT t). cbn. eauto.
  Qed.
  (** Two different holders of the same thing count twice. *)
  Lemma hold_two {A} (F : frame V -> list A) H s w w' x y : hold F H s w x -> hold F H s w' y -> w <> w' ->
    exists l, tot H F s ≡ₚ x :: y :: l.
  Proof.
    assert (forall (l : list A) z, z ∈ l -> exists l', l ≡ₚ z :: l') as Hin.
    { intros l z Hz. apply elem_of_Permutation in Hz. done. }
    assert (forall t h z z', hold F H s (HT t) z -> hold F H s (HV h) z' -> exists l, tot H F s ≡ₚ z :: z' :: l) as Hx.
    { intros t h z z' (st & Ht & Hz) (q & k & Hh & Hz'). unfold tot.
      destruct (Hin (slo H (cs_h s)) z') as [l1 E1]; [apply slo_elem; eauto|].
      destruct (Hin (thr F (cs_t s)) z) as [l2 E2]; [apply thr_elem; eauto|].
      exists (l1 ++ l2). rewrite E1, E2. cbn. rewrite <- Permutation_middle. apply Permutation_swap. }
    destruct w as [t|h], w' as [t'|h']; intros H1 H2 Hne.
    - destruct H1 as (st & Ht & Hx1), H2 as (st' & Ht' & Hy1). unfold tot.
      assert (y ∈ thr F (delete t (cs_t s))) as Hy2.
      { apply thr_delete_elem. exists t', st'. split; [congruence|done]. }
      destruct (Hin (stk F st) x Hx1) as [l1 E1]. destruct (Hin _ _ Hy2) as [l2 E2].
      exists (l1 ++ slo H (cs_h s) ++ l2). rewrite (thr_perm F _ _ _ Ht), E1, E2.
      cbn. rewrite <- !Permutation_middle. do 2 f_equiv. rewrite !app_assoc. f_equiv. apply Permutation_app_comm.
    - by eapply Hx.
    - destruct (Hx _ _ _ _ H2 H1) as [l E]. exists l. rewrite E. apply Permutation_swap.
    - destruct H1 as (q & k & Hh & Hx1), H2 as (q' & k' & Hh' & Hy1). unfold tot.
      assert (y ∈ slo H (delete h (cs_h s))) as Hy2.
      { unfold slo. apply elem_of_list_bind. exists (Some (q', k')). split; [done|]. apply delete_elem. exists h'. split; [congruence|done]. }
      destruct (Hin (H q) x Hx1) as [l1 E1]. destruct (Hin _ _ Hy2) as [l2 E2].
      exists (l1 ++ l2 ++ thr F (cs_t s)). rewrite (slo_perm H _ _ _ Hh). rewrite E1, E2. cbn. f_equiv.
      rewrite <- !app_assoc. cbn. by rewrite <- Permutation_middle.
  Qed.
End holders.
Notation refs := (hold fR hR).
Notation owns := (hold fO hO).
Notation ments := (hold fM hM).

Section inv.
  Context {V : Type} (sz : N).
  Implicit Types (s : cstate V) (o : ostate V).
  Notation datas s := (dw_datas (cs_d s)).
  Notation allocs s := (dw_allocs (cs_d s)).
  Notation mem s := (dw_mem (cs_d s)).
  Notation blocks s := (dw_blocks (cs_d s)).

  (** Access [i] is known to one who has a reference to data [x], or will be to
      the one who drops the last reference. *)
  Definition sees o (x i : nat) : Prop := i ∈ os_loc o (LData x) \/ exists w, refs (os_s o) w x /\ i ∈ hview o w.
  Definition kept_by o (Pn : dnode -> Prop) (Pe : rng * option nat -> Prop) (i : nat) : Prop :=
    (exists x j n, live (datas (os_s o)) x j n /\ Pn n /\ sees o x i) \/
    (exists w e, owns (os_s o) w e /\ Pe e /\ i ∈ hview o w).
  Definition kept_cell o (c : nat * N) : nat -> Prop :=
    kept_by o (fun n => in_rng c (nrng n) = true) (fun e => in_rng c (fst e) = true).
  Definition kept_alloc o (a : nat) : nat -> Prop :=
    kept_by o (fun n => d_alloc n = Some a) (fun e => snd e = Some a).
  Record OI o : Prop := {
    O_item : forall i a, os_acc o !! i = Some a -> is_Some (mem (os_s o) !! ac_cell a) -> kept_cell o (ac_cell a) i;
    O_alloc : sz <> 0%N -> forall i a al j v, os_acc o !! i = Some a -> live (allocs (os_s o)) al j v ->
      p_blk (sa_ptr v) = fst (ac_cell a) -> i ∈ os_loc o (LAlloc al) \/ kept_alloc o al i;
    O_read : forall i a x j n w, os_acc o !! i = Some a -> ac_write a = true -> live (datas (os_s o)) x j n ->
      in_rng (ac_cell a) (nrng n) = true -> ments (os_s o) w x -> i ∈ mview o w;
    O_write : forall i a h e, os_acc o !! i = Some a -> ac_write a = true -> owns (os_s o) (HV h) e ->
      in_rng (ac_cell a) (fst e) = true -> i ∈ os_var o h;
    O_blk : forall i a, os_acc o !! i = Some a -> fst (ac_cell a) < length (blocks (os_s o));
    O_bnd : forall w x, ments (os_s o) w x -> x < length (datas (os_s o));
    O_free : race_free o
  }.
  Lemma OI_init n : OI (init_ostate n).
  Proof.
    split; try (intros; done).
    - intros [t|h] x; cbn; [|intros (y & k & Hy & _); done]. intros (st & Ht & Hx). apply lookup_replicate in Ht as [-> _]. by apply elem_of_nil in Hx.
    - intros i j (a & b & H & _). done.
  Qed.

  (** *** What it means to be the only one *)
  Lemma owner_sees o T L w e i a : OI o -> DI sz (os_s o) T L -> owns (os_s o) w e ->
    os_acc o !! i = Some a -> in_rng (ac_cell a) (fst e) = true -> i ∈ hview o w.
  Proof.
    intros O D Hw Ha Hc. set (s := os_s o) in *. pose proof (hold_tot _ _ _ _ _ Hw) as He.
    pose proof (own_cells sz _ _ _ _ _ D He Hc) as Hm. pose proof (D_inv _ _ _ _ D) as I.
    destruct (O_item _ O _ _ Ha Hm) as [(x & j & n & Hx & Hn & _)|(w' & e' & Hw' & He' & Hi)].
    - exfalso. destruct (dinv_live_label sz _ _ _ _ _ I _ _ _ Hx) as [l Hl].
      destruct (dinv_live_root sz _ _ _ _ _ I _ _ _ _ Hx Hl) as (y & ly & Hy & Hly & Han).
      destruct (di_geo _ _ _ _ _ _ I _ _ _ _ Hx Hl) as [E _]. rewrite E in Hn.
      apply (in_rng_anc _ _ _ _ Han) in Hn.
      apply elem_of_Permutation in He as [O' EO].
      destruct (dinv_exclusive sz _ _ _ _ _ I _ _ _ EO Hc) as [_ H]. rewrite (H _ _ Hy Hly) in Hn. done.
    - destruct (decide (w = w')) as [->|Hne]; [done|]. exfalso.
      destruct (hold_two _ _ _ _ _ _ _ Hw Hw' Hne) as [l El].
      destruct (dinv_exclusive sz _ _ _ _ _ I _ _ _ El Hc) as [H _]. rewrite (H e') in He'; [done|left].
  Qed.
  Lemma unique_sees o T L w x n i : DI sz (os_s o) T L -> refs (os_s o) w x -> live (datas (os_s o)) x 1 n ->
    sees o x i -> i ∈ hview o w \/ i ∈ os_loc o (LData x).
  Proof.
    intros D Hw Hx [Hi|(w' & Hw' & Hi)]; [by right|]. destruct (decide (w = w')) as [->|Hne]; [by left|]. exfalso.
    destruct (hold_two _ _ _ _ _ _ _ Hw Hw' Hne) as [l El]. pose proof (di_cnt _ _ _ _ _ _ (D_inv _ _ _ _ D) x) as E.
    rewrite (rc_count_live _ _ _ _ Hx), (cnt_perm _ _ _ El) in E. rewrite !cnt_cons in E. rewrite !decide_True in E by done. lia.
  Qed.
  Lemma unique_alloc o T L w r al v i a : sz <> 0%N -> OI o -> DI sz (os_s o) T L -> owns (os_s o) w (r, Some al) -> live (allocs (os_s o)) al 1 v ->
    os_acc o !! i = Some a -> p_blk (sa_ptr v) = fst (ac_cell a) -> i ∈ hview o w \/ i ∈ os_loc o (LAlloc al).
  Proof.
    intros Hsz O D Hw Hal Ha Hb. pose proof (D_inv _ _ _ _ D) as I. pose proof (di_acnt _ _ _ _ _ _ I al) as E.
    rewrite (rc_count_live _ _ _ _ Hal) in E.
    destruct (O_alloc _ O Hsz _ _ _ _ _ Ha Hal Hb) as [?|[(x & j & n & Hx & Hn & _)|(w' & e' & Hw' & He' & Hi)]]; [by right| |].
    - exfalso. pose proof (hold_tot _ _ _ _ _ Hw) as He. apply elem_of_Permutation in He as [O' EO].
      rewrite (cnt_perm _ _ _ (alloc_refs_perm _ _ EO)) in E. rewrite alloc_refs_cons, cnt_app, cnt_option_list in E. cbn [snd] in E. rewrite decide_True in E by done.
      pose proof (hsum_ge (fun n => cnt al (option_list (d_alloc n))) _ _ _ _ Hx) as Hge. cbv beta in Hge. rewrite Hn, cnt_option_list, decide_True in Hge by done. lia.
    - destruct (decide (w = w')) as [->|Hne]; [by left|]. exfalso. destruct e' as [r' o']. cbn in He'. subst o'.
      destruct (hold_two _ _ _ _ _ _ _ Hw Hw' Hne) as [l El].
      rewrite (cnt_perm _ _ _ (alloc_refs_perm _ _ El)) in E. rewrite !alloc_refs_cons, !cnt_app, !cnt_option_list in E. cbn [snd] in E. rewrite !decide_True in E by done. lia.
  Qed.

  (** *** A step *)
  Record flow o o' (new : list access) : Prop := {
    f_loc : forall l, os_loc o l ⊆ os_loc o' l;
    f_acc : os_acc o' = os_acc o ++ new;
    f_ref : forall w x, refs (os_s o) w x -> is_Some (rc_get (datas (os_s o')) x) ->
      (exists w', refs (os_s o') w' x /\ hview o w ⊆ hview o' w') \/ hview o w ⊆ os_loc o' (LData x);
    f_dead : forall x j n i, live (datas (os_s o)) x j n -> rc_get (datas (os_s o')) x = None -> sees o x i ->
      exists w', i ∈ hview o' w' /\ owns (os_s o') w' (own_rng n, d_alloc n) /\ forall c, c ∈ kids n -> refs (os_s o') w' c;
    f_node : forall x j n j' n', live (datas (os_s o)) x j n -> live (datas (os_s o')) x j' n' -> nrng n' = nrng n /\ d_alloc n' = d_alloc n;
    f_own : forall w e c, owns (os_s o) w e -> in_rng c (fst e) = true -> is_Some (mem (os_s o') !! c) ->
      (exists w' e', owns (os_s o') w' e' /\ in_rng c (fst e') = true /\ hview o w ⊆ hview o' w') \/
      (exists w' x j n, refs (os_s o') w' x /\ live (datas (os_s o')) x j n /\ in_rng c (nrng n) = true /\ hview o w ⊆ hview o' w');
    f_alloc : forall w r a j v, owns (os_s o) w (r, Some a) -> live (allocs (os_s o')) a j v ->
      (exists w' r', owns (os_s o') w' (r', Some a) /\ hview o w ⊆ hview o' w') \/ hview o w ⊆ os_loc o' (LAlloc a) \/
      (exists w' x j n, refs (os_s o') w' x /\ live (datas (os_s o')) x j n /\ d_alloc n = Some a /\ hview o w ⊆ hview o' w');
    f_mem : forall c, is_Some (mem (os_s o') !! c) -> fst c < length (blocks (os_s o)) -> is_Some (mem (os_s o) !! c);
    f_allocs : forall a j v, live (allocs (os_s o')) a j v ->
      (exists j', live (allocs (os_s o)) a j' v) \/ length (blocks (os_s o)) <= p_blk (sa_ptr v);
    f_blk : length (blocks (os_s o)) <= length (blocks (os_s o'));
    f_ment : forall w' x' j' n', ments (os_s o') w' x' -> live (datas (os_s o')) x' j' n' ->
      (exists w x j n, ments (os_s o) w x /\ live (datas (os_s o)) x j n /\
        (forall c, in_rng c (nrng n') = true -> in_rng c (nrng n) = true) /\ mview o w ⊆ mview o' w') \/
      (forall i a, os_acc o !! i = Some a -> in_rng (ac_cell a) (nrng n') = true -> i ∈ mview o' w');
    f_owr : forall i a h e, os_acc o !! i = Some a -> ac_write a = true -> owns (os_s o') (HV h) e ->
      in_rng (ac_cell a) (fst e) = true -> i ∈ os_var o' h;
    f_bnd : forall w x, ments (os_s o') w x -> x < length (datas (os_s o'));
    f_new : forall k a, new !! k = Some a ->
      fst (ac_cell a) < length (blocks (os_s o')) /\
      (is_Some (mem (os_s o') !! ac_cell a) -> kept_cell o' (ac_cell a) (length (os_acc o) + k)) /\
      (sz <> 0%N -> forall al j v, live (allocs (os_s o')) al j v -> p_blk (sa_ptr v) = fst (ac_cell a) ->
        length (os_acc o) + k ∈ os_loc o' (LAlloc al) \/ kept_alloc o' al (length (os_acc o) + k)) /\
      (ac_write a = true -> forall x j n w, live (datas (os_s o')) x j n -> in_rng (ac_cell a) (nrng n) = true ->
        ments (os_s o') w x -> length (os_acc o) + k ∈ mview o' w) /\
      (ac_write a = true -> forall h e, owns (os_s o') (HV h) e -> in_rng (ac_cell a) (fst e) = true -> length (os_acc o) + k ∈ os_var o' h) /\
      (forall i b, os_acc o !! i = Some b -> ac_cell b = ac_cell a -> ac_write b = true \/ ac_write a = true -> i ∈ ac_seen a) /\
      (forall i, i < k -> length (os_acc o) + i ∈ ac_seen a)
  }.
  Lemma live_or_dead {A} (h : heap A) x : (exists j n, live h x j n) \/ rc_get h x = None.
  Proof. destruct (rc_get h x) as [n|] eqn:E; [left|by right]. apply rc_get_Some in E as [j Hj]. eauto. Qed.
  Lemma flow_inv o o' new T L T' L' : OI o -> DI sz (os_s o) T L -> DI sz (os_s o') T' L' -> flow o o' new -> OI o'.
  Proof.
    intros O D D' F. pose proof (D_inv _ _ _ _ D) as I. pose proof (D_inv _ _ _ _ D') as I'.
    assert (forall (Pn : dnode -> Prop) (Pe : rng * option nat -> Prop) i, (forall n n', nrng n' = nrng n -> d_alloc n' = d_alloc n -> Pn n -> Pn n') ->
      (forall x j n, live (datas (os_s o)) x j n -> Pn n -> rc_get (datas (os_s o')) x = None -> sees o x i -> kept_by o' Pn Pe i) ->
      (exists x j n, live (datas (os_s o)) x j n /\ Pn n /\ sees o x i) -> kept_by o' Pn Pe i) as Hdata.
    { intros Pn Pe i HP Hd (x & j & n & Hx & Hn & Hi). destruct (live_or_dead (datas (os_s o')) x) as [(j' & n' & Hx')|E]; [|by eapply Hd].
      destruct (f_node _ _ _ F _ _ _ _ _ Hx Hx') as [E1 E2]. left. exists x, j', n'. split; [done|]. split; [by eapply HP|].
      destruct Hi as [Hi|(w & Hw & Hi)]; [left; by apply (f_loc _ _ _ F)|].
      destruct (f_ref _ _ _ F _ _ Hw) as [(w' & Hw' & Hs)|Hs]; [eapply rc_get_live in Hx'; eauto| |left; by apply Hs].
      right. exists w'. split; [done|by apply Hs]. }
    split.
    - intros i a Ha Hm. rewrite (f_acc _ _ _ F) in Ha. apply lookup_app_Some in Ha as [Ha|[Hlt Ha]].
      2:{ destruct (f_new _ _ _ F _ _ Ha) as (_ & H & _). specialize (H Hm). by replace (length (os_acc o) + (i - length (os_acc o))) with i in H by lia. }
      pose proof (f_mem _ _ _ F _ Hm (O_blk _ O _ _ Ha)) as Hm0.
      destruct (O_item _ O _ _ Ha Hm0) as [Hk|(w & e & Hw & He & Hi)].
      + apply Hdata; [by intros n n' -> _| |done]. intros x j n Hx Hn Hd Hi.
        destruct (f_dead _ _ _ F _ _ _ _ Hx Hd Hi) as (w' & Hi' & Ho & Hc).
        destruct (nrng_own_or_kid _ _ Hn) as [Hown|(side & c & Hkid & Hh)].
        * right. eauto.
        * left. assert (refs (os_s o') w' c) as Hr. { apply Hc. unfold kids. destruct side; cbn in Hkid; rewrite Hkid; set_solver. }
          destruct (dinv_linked_live sz _ _ _ _ _ I _ _ _ _ _ Hx Hkid) as (j1 & n1 & Hc1).
          destruct (dinv_live_label sz _ _ _ _ _ I _ _ _ Hx) as [l Hl].
          destruct (di_link _ _ _ _ _ _ I _ _ _ _ _ _ Hx Hl Hkid) as [_ Hlc].
          destruct (di_geo _ _ _ _ _ _ I _ _ _ _ Hx Hl) as [E _]. destruct (di_geo _ _ _ _ _ _ I _ _ _ _ Hc1 Hlc) as [E1 _].
          destruct (dinv_ref_live sz _ _ _ _ _ I' c) as (j2 & n2 & _ & Hc2 & _); [by eapply hold_tot|].
          destruct (f_node _ _ _ F _ _ _ _ _ Hc1 Hc2) as [E2 _].
          exists c, j2, n2. split; [done|]. split; [|right; eauto]. by rewrite E2, E1, lrng_child, <- E.
      + destruct (f_own _ _ _ F _ _ _ Hw He Hm) as [(w' & e' & Hw' & He' & Hs)|(w' & x & j & n & Hw' & Hx & Hn & Hs)].
        * right. exists w', e'. split_and!; [done..|by apply Hs].
        * left. exists x, j, n. split_and!; [done..|]. right. exists w'. split; [done|by apply Hs].
    - intros Hsz i a al j v Ha Hal Hb. rewrite (f_acc _ _ _ F) in Ha. apply lookup_app_Some in Ha as [Ha|[Hlt Ha]].
      2:{ destruct (f_new _ _ _ F _ _ Ha) as (_ & _ & H & _). specialize (H Hsz _ _ _ Hal Hb). by replace (length (os_acc o) + (i - length (os_acc o))) with i in H by lia. }
      destruct (f_allocs _ _ _ F _ _ _ Hal) as [[j0 Hal0]|Hlt]; [|pose proof (O_blk _ O _ _ Ha); lia].
      destruct (O_alloc _ O Hsz _ _ _ _ _ Ha Hal0 Hb) as [Hi|[Hk|(w & [r o1] & Hw & He & Hi)]].
      + left. by apply (f_loc _ _ _ F).
      + right. apply Hdata; [by intros n n' _ ->| |done]. intros x j1 n Hx Hn Hd Hi.
        destruct (f_dead _ _ _ F _ _ _ _ Hx Hd Hi) as (w' & Hi' & Ho & Hc). right. exists w', (own_rng n, d_alloc n). done.
      + cbn in He. subst o1. destruct (f_alloc _ _ _ F _ _ _ _ _ Hw Hal) as [(w' & r' & Hw' & Hs)|[Hs|(w' & x & j1 & n & Hw' & Hx & Hn & Hs)]].
        * right. right. exists w', (r', Some al). split_and!; [done..|by apply Hs].
        * left. by apply Hs.
        * right. left. exists x, j1, n. split_and!; [done..|]. right. exists w'. split; [done|by apply Hs].
    - intros i a x j n w Ha Hwr Hx Hn Hw. rewrite (f_acc _ _ _ F) in Ha. apply lookup_app_Some in Ha as [Ha|[Hlt Ha]].
      2:{ destruct (f_new _ _ _ F _ _ Ha) as (_ & _ & _ & H & _). specialize (H Hwr _ _ _ _ Hx Hn Hw). by replace (length (os_acc o) + (i - length (os_acc o))) with i in H by lia. }
      destruct (f_ment _ _ _ F _ _ _ _ Hw Hx) as [(w0 & x0 & j0 & n0 & Hw0 & Hx0 & Hc & Hs)|H]; [|by eapply H].
      apply Hs. eapply (O_read _ O); eauto.
    - intros i a h e Ha Hwr Hw Hc. rewrite (f_acc _ _ _ F) in Ha. apply lookup_app_Some in Ha as [Ha|[Hlt Ha]]; [by eapply (f_owr _ _ _ F)|].
      destruct (f_new _ _ _ F _ _ Ha) as (_ & _ & _ & _ & H & _). specialize (H Hwr _ _ Hw Hc). by replace (length (os_acc o) + (i - length (os_acc o))) with i in H by lia.
    - intros i a Ha. rewrite (f_acc _ _ _ F) in Ha. apply lookup_app_Some in Ha as [Ha|[Hlt Ha]].
      + pose proof (O_blk _ O _ _ Ha). pose proof (f_blk _ _ _ F). lia.
      + by apply (f_new _ _ _ F _ _ Ha).
    - exact (f_bnd _ _ _ F).
    - intros i j (a & b & Ha & Hb & Hlt & Hc & Hwr & Hn). rewrite (f_acc _ _ _ F) in Ha, Hb.
      apply lookup_app_Some in Hb as [Hb|[Hlb Hb]].
      + rewrite lookup_app_l in Ha by (apply lookup_lt_Some in Hb; lia). apply (O_free _ O i j). exists a, b. done.
      + destruct (f_new _ _ _ F _ _ Hb) as (_ & _ & _ & _ & _ & H1 & H2). apply Hn.
        apply lookup_app_Some in Ha as [Ha|[Hla Ha]]; [by eapply H1|].
        specialize (H2 (i - length (os_acc o))). replace (length (os_acc o) + (i - length (os_acc o))) with i in H2 by lia. apply H2. lia.
  Qed.
End inv.
