(** What one atomic step of a thread does to what the thread has. *)
From Verif Require Import Base BaseLemmas Api SliceItemsModel Spec DataModel RcModel DataInv DataSteps GuardInv ArcModel ArcInv ArcConc ConcInv ConcGuard ConcWorld ConcChild ConcData ConcSafe ConcSpec ConcTree OrderModel OrderInv.
Local Open Scope nat_scope.
#[local] Arguments slo {A} F hs : simpl never.
#[local] Arguments thr {V A} F ts : simpl never.

Section steps.
  Context {V : Type} (sz : N) (acq : bool).
  Notation stack := (list (frame V)).
  Implicit Types (d : dworld V) (g : gdworld) (st : stack).
  Ltac step_inv H :=
    repeat (first
      [ match type of H with mbind _ _ = Ok _ => let x := fresh "x" in let Hx := fresh "Hx" in apply bind_inv in H as (x & Hx & H) end
      | match type of H with Ok _ = Ok _ => fail 1 | _ => idtac end; case_match; try done ]);
    subst; try (injection H as <- <- <-).
  Lemma stk_rel (F : frame V -> list nat) (l : list nat) : (forall x, F (FRel x) = [x]) -> stk F (FRel <$> l) = l.
  Proof. intros H. unfold stk. induction l as [|x l IH]; [done|]. cbn. rewrite H, IH. done. Qed.
  Lemma stk_rel0 {A} (F : frame V -> list A) (l : list nat) : (forall x, F (FRel x) = []) -> stk F (FRel <$> l) = [].
  Proof. intros H. unfold stk. induction l as [|x l IH]; [done|]. cbn. rewrite H, IH. done. Qed.
  Lemma stk_relopt {A} (F : frame V -> list A) o : (forall y, F (FRelG y) = []) -> stk F (rel_opt o) = [].
  Proof. intros H. destruct o; [|done]. cbn. by rewrite H. Qed.
  (** The steps of [forget_items], apart from the rest. *)
  Lemma mstep_ffg d g n a (k : stack) d' g' st' : mstep sz d g (FFg n a :: k) = Ok (d', g', st') ->
    (kids n = [] /\ g' = g /\
      ((exists side n0 a0 k0, k = KFg side n0 a0 :: k0 /\ alloc_release sz d a = Ok d' /\ st' = FFg (d_set_child side None n0) a0 :: k0) \/
       ((forall side n0 a0 k0, k <> KFg side n0 a0 :: k0) /\ d' = d /\ st' = FV (VFin (Some (XMut (MutS (SliceItems (d_ptr n) (d_len n)) a))) None) :: k))) \/
    (exists c ks side, kids n = c :: ks /\ g' = g /\ side = match d_left n with Some _ => false | None => true end /\
      exists h o, rc_try_unwrap (dw_datas d) c = Ok (h, o) /\ d' = dw_set_datas d h /\
        st' = match o with Some n' => FFg n' (d_alloc n') :: KFg side n a :: k | None => FRel c :: FFg (d_set_child side None n) a :: k end).
  Proof.
    cbn [mstep]. change (node_kids n) with (kids n). destruct (kids n) as [|c ks].
    - intros H. left. split; [done|].
      destruct k as [|f k]; [injection H as <- <- <-; split; [done|right]; split; [done|done]|].
      destruct f; try (injection H as <- <- <-; split; [done|right]; split; [done|done]).
      apply bind_inv in H as (d1 & Hd & [= <- <- <-]). split; [done|left]. eauto 10.
    - intros H. right. apply bind_inv in H as ([h o] & Hd & H). exists c, ks. eexists. split; [done|].
      destruct o; injection H as <- <- <-; (split; [done|]; split; [done|]); eauto.
  Qed.
  Lemma ffg_dec (f : frame V) : (exists n a, f = FFg n a) \/ forall n a, f <> FFg n a.
  Proof. destruct f; try (by right). left. eauto. Qed.
  Lemma kids_tail n c ks : kids n = c :: ks -> kids (d_set_child (match d_left n with Some _ => false | None => true end) None n) = ks.
  Proof. unfold kids. destruct n as [p l a [x|] [y|]]; cbn; intros [= <- <-]; done. Qed.
  Lemma get_kill {A} (h : heap A) x s v : live h x s v -> rc_get (<[x := None]> h) x = None.
  Proof. intros H. rewrite rc_get_insert by by eapply live_lt. by rewrite decide_True. Qed.

  (** *** References *)
  Lemma mstep_refs d g st d' g' st' x : mstep sz d g st = Ok (d', g', st') -> x ∈ stk fR st -> is_Some (rc_get (dw_datas d') x) ->
    x ∈ stk fR st' \/ LData x ∈ (sync acq d g st).2.
  Proof.
    intros H Hx Hl. destruct st as [|f k]; [done|]. destruct (ffg_dec f) as [(n & a & ->)|Hf].
    { rewrite stk_cons in Hx. cbn [fR] in Hx.
      destruct (mstep_ffg _ _ _ _ _ _ _ _ H) as [(E & _ & [(side & n0 & a0 & k0 & -> & _ & ->)|(_ & _ & ->)])|(c & ks & side & E & _ & Es & h & o & Hu & -> & ->)].
      - left. rewrite E in Hx. rewrite stk_cons in *. cbn [fR] in *. done.
      - left. rewrite E in Hx. rewrite stk_cons. cbn. done.
      - pose proof (kids_tail _ _ _ E) as Ek. rewrite <- Es in Ek. rewrite E in Hx. left.
        apply rc_unwrap_inv in Hu as [(s & v & Hv & -> & ->)|(v & Hv & -> & ->)]; rewrite !stk_cons; cbn [fR]; rewrite Ek; [set_solver|].
        assert (x <> c). { intros ->. cbn in Hl. rewrite (get_kill _ _ _ _ Hv) in Hl. by destruct Hl. }
        set_solver. }
    destruct f; try done; try (by destruct (Hf _ _ eq_refl)); cbn [mstep] in H.
    all: step_inv H.
    all: rewrite ?stk_cons, ?stk_app, ?(stk_relopt fR) in * by done.
    all: cbn [fR hR option_list kids app] in *.
    all: try (left; set_solver).
    - apply elem_of_cons in Hx as [->|Hx]; [right; left|left]. set_solver.
    - apply elem_of_cons in Hx as [->|Hx]; [right; left|left]. set_solver.
    - left. apply rc_unwrap_inv in Hx0 as [(s & v & Hv & -> & [=])|(v & Hv & -> & [= <-])].
      assert (x <> ar_data r). { intros ->. cbn in Hl. rewrite (get_kill _ _ _ _ Hv) in Hl. by destruct Hl. }
      set_solver.
  Qed.

  (** *** Datas that die *)
  Definition still {A} (h h' : heap A) : Prop := forall x j n, live h x j n -> rc_get h' x <> None.
  Lemma still_refl {A} (h : heap A) : still h h.
  Proof. intros x j n H. by rewrite (rc_get_live _ _ _ _ H). Qed.
  Lemma still_insert {A} (h : heap A) i o : still h (<[i := Some o]> h).
  Proof. intros x j n H. destruct (decide (i < length h)).
    - rewrite rc_get_insert by done. case_decide; [by destruct o|]. by rewrite (rc_get_live _ _ _ _ H).
    - rewrite list_insert_ge by lia. by rewrite (rc_get_live _ _ _ _ H).
  Qed.
  Lemma still_inc {A} (h h' : heap A) i : rc_inc h i = Ok h' -> still h h'.
  Proof. intros (s & v & _ & ->)%rc_inc_inv. apply still_insert. Qed.
  Lemma still_upgrade {A} (h h' : heap A) o r : rc_upgrade h o = (h', r) -> still h h'.
  Proof. intros [(i & s & v & _ & _ & -> & _)|(-> & _)]%rc_upgrade_inv; [apply still_insert|apply still_refl]. Qed.
  Lemma still_new {A} (h h' : heap A) o i f : rc_set (h ++ [Some o]) i f = Ok h' -> still h h'.
  Proof.
    intros (s & v & _ & ->)%rc_set_inv x j n H. eapply still_insert. unfold live. apply lookup_app_l_Some. exact H.
  Qed.
  Lemma alloc_unit d o d' : alloc_release sz d o = Ok d' \/ alloc_clone d o = Ok d' -> dw_datas d' = dw_datas d.
  Proof. intros [H|H]; [by eapply ConcGuard.alloc_release_datas|by eapply ConcGuard.alloc_clone_datas]. Qed.
  Lemma mstep_dead d g st d' g' st' x j n : mstep sz d g st = Ok (d', g', st') -> clean d st -> ptr_ok sz d (d_ptr n) ->
    live (dw_datas d) x j n -> rc_get (dw_datas d') x = None ->
    x ∈ stk fR st /\ j = 1 /\ LData x ∈ (sync acq d g st).1 /\ (own_rng n, d_alloc n) ∈ stk fO st' /\ forall c, c ∈ kids n -> c ∈ stk fR st'.
  Proof.
    intros H Hc Hp Hl Hn. destruct st as [|f k]; [done|]. destruct (ffg_dec f) as [(n1 & a & ->)|Hf].
    { destruct (mstep_ffg _ _ _ _ _ _ _ _ H) as [(E & _ & [(side & n0 & a0 & k0 & -> & Hd & ->)|(_ & -> & ->)])|(c & ks & side & E & _ & Es & h & o & Hu & -> & ->)].
      - rewrite (ConcGuard.alloc_release_datas _ _ _ _ Hd), (rc_get_live _ _ _ _ Hl) in Hn. done.
      - rewrite (rc_get_live _ _ _ _ Hl) in Hn. done.
      - cbn in Hn. apply rc_unwrap_inv in Hu as [(s & v & Hv & -> & ->)|(v & Hv & -> & ->)]; [by rewrite (rc_get_live _ _ _ _ Hl) in Hn|].
        assert (x = c) as ->. { rewrite rc_get_insert in Hn by by eapply live_lt. case_decide; [done|]. by rewrite (rc_get_live _ _ _ _ Hl) in Hn. }
        destruct (live_fun _ _ _ _ _ _ Hl Hv) as [-> <-]. cbn [sync]. change (node_kids n1) with (kids n1). rewrite E.
        unfold unique. rewrite (rc_count_live _ _ _ _ Hv). rewrite !stk_cons. cbn [fR fO]. rewrite E.
        split; [left|]. split; [done|]. split; [left|]. split; [left|]. intros y Hy. apply elem_of_app. by left. }
    destruct f; try done; try (by destruct (Hf _ _ eq_refl)); cbn [mstep] in H.
    all: step_inv H.
    all: try (cbn in Hn; by rewrite (rc_get_live _ _ _ _ Hl) in Hn).
    all: try (exfalso; cbn in Hn; first
      [ eapply still_inc in Hn; [done|eassumption..]
      | eapply still_upgrade in Hn; [done|eassumption..]
      | eapply still_new in Hn; [done|eassumption..] ]).
    all: try (exfalso; cbn in Hn; match goal with
      | K : alloc_release _ _ _ = Ok _ |- _ => rewrite (ConcGuard.alloc_release_datas _ _ _ _ K) in Hn
      | K : alloc_clone _ _ = Ok _ |- _ => rewrite (ConcGuard.alloc_clone_datas _ _ _ K) in Hn
      | K : mem_take _ _ _ = Ok _ |- _ => rewrite (ConcGuard.mem_take_datas _ _ _ _ _ K) in Hn
      end; by rewrite (rc_get_live _ _ _ _ Hl) in Hn).
    - apply rc_dec_inv in Hx as [(s & v & _ & _ & [=])|(v & Hv & -> & [= <-])]. cbn in Hn.
      assert (x = d0) as ->. { rewrite rc_get_insert in Hn by by eapply live_lt. case_decide; [done|]. by rewrite (rc_get_live _ _ _ _ Hl) in Hn. }
      destruct (live_fun _ _ _ _ _ _ Hl Hv) as [-> <-]. cbn [sync]. unfold unique. rewrite (rc_count_live _ _ _ _ Hv).
      destruct (node_own_rel sz d _ _ _ Hp H2) as [Er _]. rewrite !stk_app, !stk_cons, (stk_rel fR) by done. cbn [fR fO].
      split; [left|]. split; [done|]. split; [left|]. split; [|intros c Hk; apply elem_of_app; by left].
      apply elem_of_app. right. rewrite N2Nat.id, Er. left.
    - exfalso. apply rc_dec_inv in Hx as [(s & v & Hv & -> & _)|(v & Hv & -> & [=])]. exact (still_insert _ _ _ _ _ _ Hl Hn).
    - apply rc_unwrap_inv in Hx as [(s & v & _ & _ & [=])|(v & Hv & -> & [= <-])]. cbn in Hn.
      assert (x = ar_data r) as ->. { rewrite rc_get_insert in Hn by by eapply live_lt. case_decide; [done|]. by rewrite (rc_get_live _ _ _ _ Hl) in Hn. }
      destruct (live_fun _ _ _ _ _ _ Hl Hv) as [-> <-]. cbn [sync]. unfold unique. rewrite (rc_count_live _ _ _ _ Hv).
      rewrite !stk_cons. cbn [fR fO]. split; [left|]. split; [done|]. split; [left|]. split; [left|]. intros c Hk. apply elem_of_app. by left.
    - exfalso. apply rc_unwrap_inv in Hx as [(s & v & Hv & -> & _)|(v & Hv & -> & [=])]. exact (still_refl _ _ _ _ Hl Hn).
  Qed.

  (** *** References to buffers *)
  Lemma mstep_allocs d g st d' g' st' r a : mstep sz d g st = Ok (d', g', st') -> (r, Some a) ∈ stk fO st ->
    (exists r', (r', Some a) ∈ stk fO st') \/ LAlloc a ∈ (sync acq d g st).2 \/
    (exists x j n, x ∈ stk fR st' /\ live (dw_datas d') x j n /\ d_alloc n = Some a).
  Proof.
    intros H Hx. destruct st as [|f k]; [done|]. destruct (ffg_dec f) as [(n & a0 & ->)|Hf].
    { rewrite stk_cons in Hx. cbn [fO] in Hx.
      destruct (mstep_ffg _ _ _ _ _ _ _ _ H) as [(E & _ & [(side & n0 & a1 & k0 & -> & _ & ->)|(_ & _ & ->)])|(c & ks & side & E & _ & Es & h & o & Hu & -> & ->)].
      - cbn [sync]. change (node_kids n) with (kids n). rewrite E. rewrite stk_cons in *. cbn [fO] in *.
        apply elem_of_cons in Hx as [[= -> <-]|[[= -> <-]|Hx]%elem_of_cons]; [right; left; left|left..].
        + eexists. left.
        + exists r. by right.
      - left. rewrite stk_cons. cbn [fO hO app si_ptr ms_items si_len ms_alloc].
        apply elem_of_cons in Hx as [[= -> <-]|Hx]; [eexists; left|exists r; by right].
      - left. destruct o; rewrite !stk_cons; cbn [fO app]; apply elem_of_cons in Hx as [[= -> <-]|Hx].
        + eexists. right. left.
        + exists r. by do 2 right.
        + eexists. left.
        + exists r. by right. }
    destruct f; try done; try (by destruct (Hf _ _ eq_refl)); cbn [mstep] in H.
    all: step_inv H.
    all: rewrite ?stk_cons, ?stk_app, ?(stk_relopt fO), ?stk_rel0 in * by done.
    all: cbn [fO hO app] in *.
    all: try (left; exists r; by repeat (first [exact Hx|apply elem_of_app; right|right])).
    - apply elem_of_cons in Hx as [[= -> <-]|Hx]; [right; left; left|left]. eauto.
    - left. apply elem_of_cons in Hx as [[= -> <-]|Hx]; [eexists; left|exists r; by right].
    - apply elem_of_cons in Hx as [[= -> Ea]|Hx]; [right; right|left; eauto].
      match goal with K : rc_val _ _ = Ok _ |- _ => apply rc_val_inv in K as [s0 Hs0] end.
      match goal with K : rc_set _ _ _ = Ok _ |- _ => apply rc_set_inv in K as (s & v & _ & ->) end.
      exists (length (dw_datas d)), k0, n. split; [left|]. split; [|done]. cbn. unfold live.
      rewrite list_lookup_insert_ne by (apply live_lt in Hs0; lia). by rewrite list_lookup_middle.
  Qed.

  (** *** What is mentioned *)
  Lemma child_kid side n c : d_child side n = Some c -> c ∈ kids n.
  Proof. unfold kids. destruct side; cbn; intros ->; set_solver. Qed.
  Lemma mstep_ments d g st d' g' st' y : mstep sz d g st = Ok (d', g', st') -> y ∈ stk fM st' ->
    y ∈ stk fM st \/ exists x j n j' n', x ∈ stk fM st /\ live (dw_datas d) x j n /\ live (dw_datas d') x j' n' /\ y ∈ kids n'.
  Proof.
    intros H Hx. destruct st as [|f k]; [done|]. destruct (ffg_dec f) as [(n & a0 & ->)|Hf].
    { left. destruct (mstep_ffg _ _ _ _ _ _ _ _ H) as [(E & _ & [(side & n0 & a1 & k0 & -> & _ & ->)|(_ & _ & ->)])|(c & ks & side & E & _ & Es & h & o & Hu & -> & ->)].
      - exact Hx.
      - exact Hx.
      - destruct o; exact Hx. }
    destruct f; try done; try (by destruct (Hf _ _ eq_refl)); cbn [mstep] in H.
    all: step_inv H.
    all: rewrite ?stk_cons, ?stk_app, ?(stk_relopt fM), ?stk_rel0 in * by done.
    all: cbn [fM hM app option_list] in *.
    all: try (left; set_solver).
    - apply rc_val_inv in Hx0 as [s Hs]. apply child_kid in H1. assert (y = n \/ y ∈ d0 :: stk fM k) as [->|?] by set_solver; [right|by left].
      exists d0, s, x, s, x. split; [left|done].
    - match goal with K : rc_val _ _ = Ok _ |- _ => apply rc_val_inv in K as [s Hs] end.
      match goal with K : d_child _ _ = Some _ |- _ => apply child_kid in K end.
      assert (y = n0 \/ y ∈ d0 :: stk fM k) as [->|?] by set_solver; [right|by left].
      exists d0, s, x, s, x. split; [left|done].
    - match goal with K : rc_val _ _ = Ok _ |- _ => apply rc_val_inv in K as [s Hs] end.
      match goal with K : rc_set _ _ _ = Ok _ |- _ => apply rc_set_inv in K as (s1 & v & Hv & ->) end.
      apply elem_of_cons in Hx as [->|Hx]; [right|left; by right].
      exists d0, s, x, s1, (d_set_child side (Some (length (dw_datas d))) v). split; [left|]. split; [done|]. cbn. split.
      + unfold live. rewrite list_lookup_insert; [done|]. rewrite app_length. apply live_lt in Hs. cbn. lia.
      + apply (child_kid side). by destruct side.
    - left. match goal with K : rc_upgrade _ _ = _ |- _ => apply rc_upgrade_inv in K as [(i & s & v & -> & _ & _ & [= ->])|(_ & [=] & _)] end. done.
  Qed.

  (** *** Memory *)
  Inductive meff d (st : stack) d' (st' : stack) (ac : list loc) : Prop :=
  | M_keep : dw_mem d' = dw_mem d -> dw_blocks d' = dw_blocks d -> dw_trace d' = dw_trace d ->
      (forall a j v, live (dw_allocs d') a j v -> exists j', live (dw_allocs d) a j' v) -> meff d st d' st' ac
  | M_drop n p a k v : st = FItems (S n) p a :: k -> st' = FItems n (ptr_add sz p 1) a :: k -> is_Some (dw_blocks d !! p_blk p) ->
      dw_mem d' = delete (p_blk p, p_idx p) (dw_mem d) -> dw_blocks d' = dw_blocks d -> dw_allocs d' = dw_allocs d ->
      dw_trace d' = dw_trace d ++ [EDrop (p_blk p) (p_idx p) v] -> meff d st d' st' ac
  | M_free r a v blk : (r, Some a) ∈ stk fO st -> LAlloc a ∈ ac -> live (dw_allocs d) a 1 v -> dw_allocs d' = <[a := None]> (dw_allocs d) ->
      sz <> 0%N -> dw_mem d' = dw_mem d -> dw_blocks d !! p_blk (sa_ptr v) = Some blk ->
      dw_blocks d' = <[p_blk (sa_ptr v) := Block (b_base blk) (b_len blk) true]> (dw_blocks d) ->
      dw_trace d' = dw_trace d ++ [EFree (p_blk (sa_ptr v)) (p_addr (sa_ptr v)) (sa_len v)] -> meff d st d' st' ac.
  Lemma release_meff d a d' st st' r : alloc_release sz d a = Ok d' -> (r, a) ∈ stk fO st -> meff d st d' st' (sync_alloc d a).1.
  Proof.
    destruct a as [a|]; cbn; [|intros [= <-] _; apply M_keep; eauto].
    intros ([h o] & Hd & H)%bind_inv Hr. apply rc_dec_inv in Hd as [(s & v & Hv & -> & ->)|(v & Hv & -> & ->)].
    { injection H as <-. apply M_keep; try done. cbn. intros a' j v' [(-> & [= <- <-] & _)|[? ?]]%live_insert; eauto. }
    unfold salloc_drop in H. destruct ((sz =? 0) || (sa_len v =? 0))%N eqn:E0.
    { injection H as <-. apply M_keep; try done. cbn. intros a' j v' [(-> & [=] & _)|[? ?]]%live_insert; eauto. }
    cbn in H. destruct (dw_blocks d !! p_blk (sa_ptr v)) as [blk|] eqn:Eb; [|done]. destruct (b_freed blk || _ || _); [done|]. injection H as <-.
    apply orb_false_iff in E0 as [E0%N.eqb_neq _].
    eapply M_free; try done. unfold unique. rewrite (rc_count_live _ _ _ _ Hv). left.
  Qed.
  Lemma mstep_meff d g st d' g' st' : mstep sz d g st = Ok (d', g', st') -> meff d st d' st' (sync acq d g st).1.
  Proof.
    intros H. destruct st as [|f k]; [done|]. destruct (ffg_dec f) as [(n & a0 & ->)|Hf].
    { destruct (mstep_ffg _ _ _ _ _ _ _ _ H) as [(E & _ & [(side & n0 & a1 & k0 & -> & Hd & ->)|(_ & -> & ->)])|(c & ks & side & E & _ & Es & h & o & Hu & -> & ->)].
      - cbn [sync]. change (node_kids n) with (kids n). rewrite E. eapply release_meff; [done|]. left.
      - apply M_keep; eauto.
      - apply M_keep; eauto. }
    destruct f; try done; try (by destruct (Hf _ _ eq_refl)); cbn [mstep] in H.
    all: step_inv H.
    all: try (apply M_keep; cbn; eauto; fail).
    - eapply release_meff; [done|left].
    - match goal with K : mem_take _ _ _ = Ok _ |- _ => unfold mem_take in K; apply bind_inv in K as (w & Hw & [= <- <-]) end.
      eapply M_drop; try done. unfold mem_at in Hw. destruct (dw_blocks d !! p_blk p); [eauto|done].
    - match goal with K : alloc_clone _ _ = Ok _ |- _ => pose proof (alloc_clone_live _ _ _ K) as K1; rename K into K0 end.
      unfold alloc_clone in K0. destruct (if (_ =? 0)%N then _ else _) as [a|]; [|injection K0 as <-; by apply M_keep].
      apply bind_inv in K0 as (h & Hh & [= <-]). by apply M_keep.
  Qed.
End steps.
