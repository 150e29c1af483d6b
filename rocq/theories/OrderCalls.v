(** Beginning and ending a call keeps the invariant of OrderInv.v. *)
From Verif Require Import Base BaseLemmas Api SliceItemsModel Spec DataModel RcModel DataInv DataSteps DataFuns GuardInv ArcModel ArcInv ArcConc ConcInv ConcGuard ConcWorld ConcChild ConcData ConcSafe ConcSpec ConcTree SliceItemsProof OrderModel OrderInv OrderSteps OrderFlow.
Local Open Scope nat_scope.
#[local] Arguments slo {A} F hs : simpl never.
#[local] Arguments thr {V A} F ts : simpl never.

Section calls.
  Context {V : Type} (sz : N) (acq : bool).
  Notation stack := (list (frame V)).
  Implicit Types (s : cstate V) (o : ostate V) (e : sched (V:=V)).
  Notation datas s := (dw_datas (cs_d s)).
  Notation allocs s := (dw_allocs (cs_d s)).
  Notation mem s := (dw_mem (cs_d s)).
  Notation blocks s := (dw_blocks (cs_d s)).

  (** What is owned is covered by no data. *)
  Lemma owned_not_live s T L w (e : rng * option nat) c x j n : DI sz s T L -> owns s w e -> in_rng c (fst e) = true ->
    live (datas s) x j n -> in_rng c (nrng n) = true -> False.
  Proof.
    intros D Hw Hc Hx Hn. pose proof (D_inv _ _ _ _ D) as J. destruct (dinv_live_label sz _ _ _ _ _ J _ _ _ Hx) as [ly Hly].
    destruct (dinv_live_root sz _ _ _ _ _ J _ _ _ _ Hx Hly) as (z & lz & Hz & Hlz & Han).
    rewrite (proj1 (di_geo _ _ _ _ _ _ J _ _ _ _ Hx Hly)) in Hn. apply (in_rng_anc _ _ _ _ Han) in Hn.
    apply hold_tot in Hw. apply elem_of_Permutation in Hw as [O' EO].
    destruct (dinv_exclusive sz _ _ _ _ _ J _ _ _ EO Hc) as [_ H]. rewrite (H _ _ Hz Hlz) in Hn. done.
  Qed.
  Lemma owned_once s T L w w' (e e' : rng * option nat) c : DI sz s T L -> owns s w e -> owns s w' e' -> in_rng c (fst e) = true -> in_rng c (fst e') = true -> w = w'.
  Proof.
    intros D Hw Hw' Hc Hc'. destruct (decide (w = w')) as [|Hne]; [done|]. exfalso.
    destruct (hold_two _ _ _ _ _ _ _ Hw Hw' Hne) as [l El].
    destruct (dinv_exclusive sz _ _ _ _ _ (D_inv _ _ _ _ D) _ _ _ El Hc) as [H _]. rewrite (H e') in Hc'; [done|left].
  Qed.

  (** *** Values move, nothing else changes *)
  Section move.
    Context o e s' (T T' : trees) (L L' : list label).
    Notation s := (os_s o).
    Notation o' := (annotate acq o e s').
    Notation av := (aview acq o e s').
    Context (O : OI sz o) (I : DI sz s T L) (I' : DI sz s' T' L').
    Context (Ed : datas s' = datas s) (Eb : length (blocks s') = length (blocks s)).
    Context (Em : forall c, is_Some (mem s' !! c) <-> is_Some (mem s !! c)).
    Context (Ea : forall a j v, live (allocs s') a j v -> exists j', live (allocs s) a j' v).
    Context (RW : forall w x, refs s w x -> refs s' w x \/ (hview o w ⊆ av /\ exists w', refs s' w' x /\ av ⊆ hview o' w')).
    Context (AW : forall w r a, owns s w (r, Some a) -> owns s' w (r, Some a) \/ (hview o w ⊆ av /\ exists w' r', owns s' w' (r', Some a) /\ av ⊆ hview o' w')).
    Context (OW : forall w x, owns s w x -> owns s' w x \/ hview o w ⊆ av).
    Context (OB : forall w x, owns s' w x -> owns s w x \/ av ⊆ mview o' w).
    Context (MB : forall w x, ments s' w x -> ments s w x \/ (av ⊆ mview o' w /\ exists w0, ments s w0 x /\ mview o w0 ⊆ av)).
    Definition fresh_ok : Prop := forall k a, anew acq o e s' !! k = Some a ->
      fst (ac_cell a) < length (blocks (os_s o')) /\
      (is_Some (mem s' !! ac_cell a) -> kept_cell o' (ac_cell a) (length (os_acc o) + k)) /\
      (sz <> 0%N -> forall al j v, live (allocs s') al j v -> p_blk (sa_ptr v) = fst (ac_cell a) ->
        length (os_acc o) + k ∈ os_loc o' (LAlloc al) \/ kept_alloc o' al (length (os_acc o) + k)) /\
      (ac_write a = true -> forall x j n w, live (datas s') x j n -> in_rng (ac_cell a) (nrng n) = true ->
        ments s' w x -> length (os_acc o) + k ∈ mview o' w) /\
      (ac_write a = true -> forall h (e0 : rng * option nat), owns s' (HV h) e0 -> in_rng (ac_cell a) (fst e0) = true -> length (os_acc o) + k ∈ os_var o' h) /\
      (forall i b, os_acc o !! i = Some b -> ac_cell b = ac_cell a -> ac_write b = true \/ ac_write a = true -> i ∈ ac_seen a) /\
      (forall i, i < k -> length (os_acc o) + i ∈ ac_seen a).
    Lemma fresh_none : accesses s e s' = [] -> fresh_ok.
    Proof. intros E k a Ha. unfold anew in Ha. rewrite E in Ha. done. Qed.
    Lemma move_flow : fresh_ok -> flow sz o o' (anew acq o e s').
    Proof.
      intros Hnew. pose proof (D_inv _ _ _ _ I') as J'. split; cbn [os_s annotate].
      - apply an_loc.
      - apply an_acc.
      - intros w x Hw _. left. destruct (RW _ _ Hw) as [H|(H1 & w' & H2 & H3)]; [exists w; split; [done|apply an_hv]|].
        exists w'. split; [done|set_solver].
      - intros x j n i Hx Hd. cbn in Hd. rewrite Ed, (rc_get_live _ _ _ _ Hx) in Hd. done.
      - intros x j n j' n' Hx Hx'. cbn in Hx'. rewrite Ed in Hx'. by destruct (live_fun _ _ _ _ _ _ Hx Hx') as [_ <-].
      - intros w x c Hw Hc Hmc. left. destruct (OW _ _ Hw) as [H|Hv].
        { exists w, x. split; [done|]. split; [done|]. apply an_hv. }
        cbn in Hmc. apply (dinv_covered sz _ _ _ _ _ J') in Hmc as [(y & ly & Hy & Hl & Hcy)|(e' & He' & Hce)].
        + exfalso. destruct (dinv_ref_live sz _ _ _ _ _ J' y Hy) as (j & n & l' & Hn & Hl'). rewrite Hl in Hl'. injection Hl' as <-.
          rewrite <- (proj1 (di_geo _ _ _ _ _ _ J' _ _ _ _ Hn Hl)) in Hcy. rewrite Ed in Hn. exact (owned_not_live _ _ _ _ _ _ _ _ _ I Hw Hc Hn Hcy).
        + apply tot_hold in He' as [w' Hw']. destruct (OB _ _ Hw') as [Hp|Hv'].
          * rewrite <- (owned_once _ _ _ _ _ _ _ _ I Hw Hp Hc Hce) in Hw'. exists w, e'. split; [done|]. split; [done|]. apply an_hv.
          * exists w', e'. split; [done|]. split; [done|]. pose proof (mview_hview o' w'). set_solver.
      - intros w r a j v Hw Ha. left. destruct (AW _ _ _ Hw) as [H|(H1 & w' & r' & H2 & H3)]; [exists w, r; split; [done|apply an_hv]|].
        exists w', r'. split; [done|set_solver].
      - intros c Hc _. by apply Em.
      - intros a j v Ha. left. by eapply Ea.
      - cbn. lia.
      - intros w x j n Hw Hx. left. cbn in Hx. rewrite Ed in Hx. destruct (MB _ _ Hw) as [H|(H1 & w0 & H2 & H3)].
        + exists w, x, j, n. split_and!; [done..|]. apply an_mv.
        + exists w0, x, j, n. split_and!; [done..|]. set_solver.
      - intros i a h e0 Ha Hwr Hw Hc. destruct (OB _ _ Hw) as [Hp|Hv].
        { apply (an_mv acq o e s' (HV h)). by eapply (O_write _ _ O). }
        pose proof (own_cells sz _ _ _ _ _ I' (hold_tot _ _ _ _ _ Hw) Hc) as Hmc. apply Em in Hmc.
        apply (dinv_covered sz _ _ _ _ _ (D_inv _ _ _ _ I)) in Hmc as [(y & ly & Hy & Hl & Hcy)|(e' & He' & Hce)].
        + exfalso. destruct (dinv_ref_live sz _ _ _ _ _ (D_inv _ _ _ _ I) y Hy) as (j & n & l' & Hn & Hl'). rewrite Hl in Hl'. injection Hl' as <-.
          rewrite <- (proj1 (di_geo _ _ _ _ _ _ (D_inv _ _ _ _ I) _ _ _ _ Hn Hl)) in Hcy. rewrite <- Ed in Hn. exact (owned_not_live _ _ _ _ _ _ _ _ _ I' Hw Hc Hn Hcy).
        + apply tot_hold in He' as [w' Hw']. destruct (OW _ _ Hw') as [Hp|Hv'].
          * rewrite <- (owned_once _ _ _ _ _ _ _ _ I' Hw Hp Hc Hce) in Hw'. apply (an_mv acq o e s' (HV h)). by eapply (O_write _ _ O).
          * apply (Hv i), (Hv' i). by eapply (owner_sees sz o T L w' e').
      - intros w x Hw. cbn. rewrite Ed. destruct (MB _ _ Hw) as [H|(H1 & w0 & H2 & H3)]; by eapply (O_bnd _ _ O).
      - exact Hnew.
    Qed.
  End move.

  Lemma logged_refl (d : dworld V) : logged d d = [].
  Proof. unfold logged. by rewrite drop_all. Qed.
  Lemma responded_refl s : responded s s = false.
  Proof. unfold responded. by rewrite Nat.eqb_refl. Qed.
  Lemma accesses_refl s e : accesses s e s = [].
  Proof.
    destruct e as [t op|t|t i v|t]; cbn [accesses]; try (by rewrite logged_refl).
    - destruct op; rewrite ?logged_refl, ?responded_refl, ?Nat.eqb_refl; try done. by destruct (slot s h) as [[[] ?]|].
    - rewrite responded_refl. repeat case_match; done.
  Qed.
  (** Nothing happens. *)
  Lemma same_flow o e T L T' L' : OI sz o -> DI sz (os_s o) T L -> DI sz (os_s o) T' L' -> flow sz o (annotate acq o e (os_s o)) (anew acq o e (os_s o)).
  Proof.
    intros O I I'. eapply move_flow; [exact O|exact I|exact I'|done..| | | | | | |]; try (by left); [by eauto|]. apply fresh_none, accesses_refl.
  Qed.

  (** *** Starting a call *)
  Section start.
    Context o (t : nat) (op : cop V) s' (T T' : trees) (L L' : list label) (h : nat) (x : xhandle) (k : nat) (st' : stack) (hs' : option (xhandle * nat)).
    Notation s := (os_s o).
    Notation e := (SStart t op).
    Notation o' := (annotate acq o e s').
    Notation av := (aview acq o e s').
    Context (O : OI sz o) (I : DI sz s T L) (I' : DI sz s' T' L').
    Context (Ht : cs_t s !! t = Some []) (Hh : cs_h s !! h = Some (Some (x, k))).
    Context (Ew : cs_d s' = cs_d s) (Et : cs_t s' = <[t := st']> (cs_t s)) (Eh : cs_h s' = <[h := hs']> (cs_h s)) (Hst : st' <> []).
    Context (Hu : uses op = Some h) (Hacc : accesses s e s' = []).
    Context (HR : hs' = None -> forall y, y ∈ hR x -> y ∈ stk fR st') (HO' : hs' = None -> forall y, y ∈ hO x -> y ∈ stk fO st').
    Context (HM : forall y, y ∈ stk fM st' -> y ∈ hM x) (Hhs : (hs' = None /\ shares e = false) \/ exists k', hs' = Some (x, k')).
    Lemma start_vars : h ∈ vars_in s e s'.
    Proof.
      unfold vars_in, began. rewrite Ht, Et, list_lookup_insert by by eapply lookup_lt_Some.
      rewrite Hu. destruct st'; [done|]. left.
    Qed.
    Lemma start_in : hs' = None -> hview o (HV h) ⊆ av.
    Proof. intros E. apply an_in; [apply start_vars|]. destruct Hhs as [[_ ?]|[k' E']]; [done|congruence]. Qed.
    Lemma start_hold {A} (F : frame V -> list A) H w y : hold F H s w y ->
      hold F H s' w y \/ (w = HV h /\ hs' = None /\ y ∈ H x).
    Proof.
      destruct w as [t'|h']; cbn.
      - intros (st0 & Hs & Hy). left. exists st0. split; [|done]. rewrite Et. destruct (decide (t' = t)) as [->|]; [|by rewrite list_lookup_insert_ne].
        rewrite Ht in Hs. injection Hs as <-. by apply elem_of_nil in Hy.
      - intros (y0 & k0 & Hs & Hy). rewrite Eh. destruct (decide (h' = h)) as [->|]; [|left; exists y0, k0; by rewrite list_lookup_insert_ne].
        rewrite Hh in Hs. injection Hs as <- <-. destruct Hhs as [[-> _]|[k' ->]]; [by right|left]. exists x, k'.
        rewrite list_lookup_insert by by eapply lookup_lt_Some. done.
    Qed.
    Lemma start_back {A} (F : frame V -> list A) H w y : hold F H s' w y -> hold F H s w y \/ (w = HT t /\ y ∈ stk F st').
    Proof.
      destruct w as [t'|h']; cbn.
      - rewrite Et. destruct (decide (t' = t)) as [->|]; [|rewrite list_lookup_insert_ne by done; by left].
        rewrite list_lookup_insert by by eapply lookup_lt_Some. intros (? & [= <-] & ?). by right.
      - rewrite Eh. destruct (decide (h' = h)) as [->|]; [|rewrite list_lookup_insert_ne by done; by left].
        rewrite list_lookup_insert by by eapply lookup_lt_Some. intros (y0 & k0 & [= E] & Hy). left.
        destruct Hhs as [[-> _]|[k' ->]]; [done|]. injection E as <- <-. eauto.
    Qed.
    Lemma me_hold {A} (F : frame V -> list A) H y : y ∈ stk F st' -> hold F H s' (HT t) y.
    Proof. intros Hy. exists st'. rewrite Et, list_lookup_insert by by eapply lookup_lt_Some. done. Qed.
    Lemma start_flow : flow sz o o' (anew acq o e s').
    Proof.
      eapply move_flow; [exact O|exact I|exact I'|by rewrite Ew|by rewrite Ew|by rewrite Ew| | | | | | |by apply fresh_none].
      - rewrite Ew. eauto.
      - intros w y Hw. destruct (start_hold _ _ _ _ Hw) as [?|(-> & E & Hy)]; [by left|right]. split; [by apply start_in|].
        exists (HT t). split; [by apply me_hold, HR|apply (an_me acq o e s')].
      - intros w r a Hw. destruct (start_hold _ _ _ _ Hw) as [?|(-> & E & Hy)]; [by left|right]. split; [by apply start_in|].
        exists (HT t), r. split; [by apply me_hold, HO'|apply (an_me acq o e s')].
      - intros w y Hw. destruct (start_hold _ _ _ _ Hw) as [?|(-> & E & Hy)]; [by left|right]. by apply start_in.
      - intros w y Hw. destruct (start_back _ _ _ _ Hw) as [?|[-> Hy]]; [by left|right]. apply (an_me acq o e s').
      - intros w y Hw. destruct (start_back _ _ _ _ Hw) as [?|[-> Hy]]; [by left|right]. split; [apply (an_me acq o e s')|].
        exists (HV h). split; [exists x, k; split; [done|by apply HM]|]. apply an_min, start_vars.
    Qed.
  End start.

  (** *** Ending a call *)
  Definition ox {A} (H : xhandle -> list A) (x : option xhandle) : list A := match x with Some x => H x | None => [] end.
  Section ends.
    Context o e (T T' : trees) (L L' : list label) (t : nat) (st : stack) (h : option nat) (x : option xhandle) (r : option (Api.out V)).
    Notation s := (os_s o).
    Notation s' := (finish s t h x r).
    Notation o' := (annotate acq o e s').
    Notation av := (aview acq o e s').
    Context (O : OI sz o) (I : DI sz s T L) (I' : DI sz s' T' L').
    Context (Ht : cs_t s !! t = Some st) (Ee : actor e = t) (Hacc : accesses s e s' = []).
    Context (ER : stk fR st = ox hR x) (EO : stk fO st = ox hO x) (EM : stk fM st = ox hM x).
    Lemma ends_len : length (cs_h s') = length (cs_h s) + length (option_list x).
    Proof.
      unfold finish. cbn. rewrite app_length. f_equal; [|by destruct x].
      unfold end_borrow. destruct h as [h0|]; [|done]. destruct (cs_h s !! h0) as [[[]|]|]; rewrite ?insert_length; done.
    Qed.
    Lemma ends_keep {A} (F : frame V -> list A) H w y : hold F H s w y -> hold F H s' w y \/ (w = HT t /\ y ∈ stk F st).
    Proof.
      destruct w as [t'|h']; cbn.
      - intros (st0 & Hs & Hy). destruct (decide (t' = t)) as [->|]; [|left; exists st0; by rewrite list_lookup_insert_ne].
        right. rewrite Ht in Hs. by injection Hs as <-.
      - intros (y0 & k0 & Hs & Hy). left. destruct (end_borrow_keep _ h (match x with Some x => [Some (x, 0)] | None => [] end) _ _ _ Hs) as [k' Hk]. eauto.
    Qed.
    Lemma ends_new {A} (F : frame V -> list A) H y : y ∈ ox H x -> hold F H s' (HV (length (cs_h s))) y.
    Proof.
      destruct x as [x0|]; cbn; [|intros Hy; by apply elem_of_nil in Hy]. intros Hy. exists x0, 0. split; [|done].
      assert (length (end_borrow (cs_h s) h) = length (cs_h s)) as <-; [|by rewrite list_lookup_middle].
      unfold end_borrow. destruct h as [h0|]; [|done]. destruct (cs_h s !! h0) as [[[]|]|]; rewrite ?insert_length; done.
    Qed.
    Lemma ends_back {A} (F : frame V -> list A) H w y : hold F H s' w y ->
      hold F H s w y \/ (w = HV (length (cs_h s)) /\ y ∈ ox H x).
    Proof.
      destruct w as [t'|h']; cbn.
      - destruct (decide (t' = t)) as [->|]; [|rewrite list_lookup_insert_ne by done; by left].
        rewrite list_lookup_insert by by eapply lookup_lt_Some. intros (? & [= <-] & Hy). by apply elem_of_nil in Hy.
      - intros (y0 & k0 & Hs & Hy).
        assert (length (end_borrow (cs_h s) h) = length (cs_h s)) as El.
        { unfold end_borrow. destruct h as [h0|]; [|done]. destruct (cs_h s !! h0) as [[[]|]|]; rewrite ?insert_length; done. }
        apply lookup_app_Some in Hs as [Hs|[Hl Hs]].
        + left. unfold end_borrow in Hs. destruct h as [h0|]; [|eauto]. destruct (cs_h s !! h0) as [[[x1 k1]|]|] eqn:E; [|eauto..].
          apply list_lookup_insert_Some in Hs as [(-> & [= Ex _] & _)|[_ Hs]]; [subst|]; eauto.
        + right. destruct x as [x0|]; [|done]. rewrite El in *. destruct (h' - length (cs_h s)) as [|q] eqn:Eq; [|done].
          cbn in Hs. injection Hs as <- <-. split; [f_equal; lia|done].
    Qed.
    Lemma ends_thr : hview o (HT t) ⊆ av.
    Proof. rewrite <- Ee. apply an_thr. Qed.
    Lemma ends_out : x <> None -> av ⊆ mview o' (HV (length (cs_h s))).
    Proof.
      intros Hx. apply an_mout. unfold var_out. apply elem_of_app. left. rewrite ends_len. apply elem_of_seq. destruct x; [cbn; lia|done].
    Qed.
    Lemma ox_some {A} (H : xhandle -> list A) y : y ∈ ox H x -> x <> None.
    Proof. destruct x; [done|]. intros Hy. by apply elem_of_nil in Hy. Qed.
    Lemma ends_flow : flow sz o o' (anew acq o e s').
    Proof.
      eapply move_flow; [exact O|exact I|exact I'|done..| | | | | | |by apply fresh_none].
      - eauto.
      - intros w y Hw. destruct (ends_keep _ _ _ _ Hw) as [?|(-> & Hy)]; [by left|right]. rewrite ER in Hy. split; [apply ends_thr|].
        exists (HV (length (cs_h s))). split; [by apply ends_new|]. etrans; [by eapply ends_out, ox_some|apply mview_hview].
      - intros w rg a Hw. destruct (ends_keep _ _ _ _ Hw) as [?|(-> & Hy)]; [by left|right]. rewrite EO in Hy. split; [apply ends_thr|].
        exists (HV (length (cs_h s))), rg. split; [by apply ends_new|]. etrans; [by eapply ends_out, ox_some|apply mview_hview].
      - intros w y Hw. destruct (ends_keep _ _ _ _ Hw) as [?|(-> & Hy)]; [by left|right]. apply ends_thr.
      - intros w y Hw. destruct (ends_back _ _ _ _ Hw) as [?|[-> Hy]]; [by left|right]. by eapply ends_out, ox_some.
      - intros w y Hw. destruct (ends_back _ _ _ _ Hw) as [?|[-> Hy]]; [by left|right]. split; [by eapply ends_out, ox_some|].
        exists (HT t). split; [exists st; by rewrite EM|apply ends_thr].
    Qed.
  End ends.
  (** The slice is now in the hands of the caller of [get_mut]. *)
  Lemma vhold_flow o t r T L T' L' : OI sz o -> DI sz (os_s o) T L -> cs_t (os_s o) !! t = Some [FV (VHold r); KEnd None] ->
    let s' := set_thread (os_s o) t [FHold r; KEnd None] in
    DI sz s' T' L' -> flow sz o (annotate acq o (SStep t) s') (anew acq o (SStep t) s').
  Proof.
    intros O I Ht s' I'.
    assert (forall {A} (F : frame V -> list A) H w y, stk F [FV (VHold r); KEnd None] = stk F [FHold r; KEnd None] -> hold F H s' w y <-> hold F H (os_s o) w y) as Hh.
    { intros A F H [t'|h'] y E; cbn; [|done]. destruct (decide (t' = t)) as [->|]; [|by rewrite list_lookup_insert_ne].
      rewrite list_lookup_insert, Ht by by eapply lookup_lt_Some. split; intros (st & [= <-] & Hy); eexists; (split; [done|congruence]). }
    eapply move_flow; [exact O|exact I|exact I'|done..| | | | | | |].
    - eauto.
    - intros w x Hw. left. by apply Hh.
    - intros w rg a Hw. left. by apply Hh.
    - intros w x Hw. left. by apply Hh.
    - intros w x Hw. left. by apply Hh in Hw.
    - intros w x Hw. left. by apply Hh in Hw.
    - apply fresh_none. cbn. by rewrite logged_refl.
  Qed.

  (** *** Reading and writing a slice *)
  Lemma in_rng_cell c r : c ∈ rng_cells r -> in_rng c r = true.
  Proof.
    rewrite rng_cells_elem. destruct c as [b i]. cbn. intros [-> H]. unfold in_rng. cbn. rewrite !andb_true_iff, Nat.eqb_eq, N.leb_le, N.ltb_lt. lia.
  Qed.
  Lemma ent_alloc (d : dworld V) T L R Ow r a c al j v : sz <> 0%N -> dinv sz d T L R Ow -> ent_ok sz d r a -> in_rng c r = true ->
    live (dw_allocs d) al j v -> p_blk (sa_ptr v) = fst c -> a = Some al.
  Proof.
    intros Hsz J [_ H] [H1 H2]%in_rng_pos Hal Hb. destruct (H Hsz H1) as (a1 & j1 & v1 & -> & Ha & Hb1). f_equal.
    eapply (di_auniq _ _ _ _ _ _ J); [done..|]. congruence.
  Qed.
  Section touch.
    Context o (t : nat) (op : cop V) s' (T T' : trees) (L L' : list label) (h : nat) (x : xhandle) (k : nat).
    Notation s := (os_s o).
    Notation e := (SStart t op).
    Notation o' := (annotate acq o e s').
    Notation av := (aview acq o e s').
    Context (O : OI sz o) (I : DI sz s T L) (I' : DI sz s' T' L').
    Context (Ht : cs_t s !! t = Some []) (Hh : cs_h s !! h = Some (Some (x, k))).
    Context (Ed : datas s' = datas s) (Eb : blocks s' = blocks s) (Ea : allocs s' = allocs s).
    Context (Em : forall c, is_Some (mem s' !! c) <-> is_Some (mem s !! c)).
    Context (Et : cs_t s' = cs_t s) (Eh : cs_h s' = cs_h s).
    Context (Hin : h ∈ vars_in s e s') (Hout : h ∈ var_out s e s' \/ h ∈ bor_out s e s').
    Context (Hex : (shares e = false /\ h ∈ var_out s e s') \/ forall c wr, (c, wr) ∈ accesses s e s' -> wr = false).
    Context (Hacc : forall c wr, (c, wr) ∈ accesses s e s' ->
      (exists y j n, y ∈ hR x /\ y ∈ hM x /\ live (datas s) y j n /\ in_rng c (nrng n) = true /\ wr = false) \/
      (exists en, en ∈ hO x /\ in_rng c (fst en) = true)).
    Lemma touch_hold {A} (F : frame V -> list A) H w y : hold F H s' w y <-> hold F H s w y.
    Proof. unfold hold. by rewrite Et, Eh. Qed.
    Lemma touch_var {A} (F : frame V -> list A) H y : y ∈ H x -> hold F H s (HV h) y.
    Proof. intros Hy. exists x, k. done. Qed.
    Lemma touch_flow : flow sz o o' (anew acq o e s').
    Proof.
      pose proof (D_inv _ _ _ _ I) as J. pose proof (D_inv _ _ _ _ I') as J'.
      eapply move_flow; [exact O|exact I|exact I'|done|by rewrite Eb|done| | | | | | |].
      - rewrite Ea. eauto.
      - intros w y Hw. left. by apply touch_hold.
      - intros w rg a Hw. left. by apply touch_hold.
      - intros w y Hw. left. by apply touch_hold.
      - intros w y Hw. left. by apply touch_hold in Hw.
      - intros w y Hw. left. by apply touch_hold in Hw.
      - intros q a Ha. apply an_new in Ha as (c & wr & Ha & -> & Hk1 & Hk2). cbn [ac_cell ac_write ac_seen].
        pose proof (an_min acq o e s' h Hin) as Vin. pose proof (an_out acq o e s' h Hout) as Vout.
        apply elem_of_list_lookup_2 in Ha. pose proof Ha as Ha0. apply Hacc in Ha as [(y & j & n & HR & HM & Hy & Hc & ->)|(en & Hen & Hc)].
        + assert (is_Some (mem s !! c)) as [v Hv] by by eapply live_cells.
          split_and!.
          * cbn. rewrite Eb. by eapply dinv_mem_blk.
          * intros _. left. exists y, j, n. cbn. rewrite Ed. split_and!; [done..|]. right. exists (HV h).
            split; [by apply touch_hold, touch_var|by apply Vout].
          * intros Hsz al j1 v1 Hal Hb. right. left. exists y, j, n. cbn. rewrite Ed. split; [done|]. split.
            { rewrite Ea in Hal. eapply (ent_alloc (cs_d s)); [done|exact J|by eapply (di_nalloc _ _ _ _ _ _ J)|done..]. }
            right. exists (HV h). split; [by apply touch_hold, touch_var|by apply Vout].
          * done.
          * done.
          * intros i b Hb Ec [Hw|]; [|done]. apply Vin. eapply (O_read _ _ O i b y j n (HV h)); [done..|by rewrite Ec|]. by apply touch_var.
          * done.
        + assert (owns s (HV h) en) as Hw by by apply touch_var.
          assert (is_Some (mem s !! c)) as [v Hv] by (eapply own_cells; [exact I|by eapply hold_tot|done]).
          split_and!.
          * cbn. rewrite Eb. by eapply dinv_mem_blk.
          * intros _. right. exists (HV h), en. split_and!; [by apply touch_hold|done|by apply Vout].
          * intros Hsz al j1 v1 Hal Hb. right. right. exists (HV h), en. split_and!; [by apply touch_hold| |by apply Vout].
            rewrite Ea in Hal. eapply (ent_alloc (cs_d s)); [done|exact J|by eapply (di_oalloc _ _ _ _ _ _ J), hold_tot|done..].
          * intros _ y j n w Hy Hcy _. exfalso. rewrite Ed in Hy. exact (owned_not_live _ _ _ _ _ _ _ _ _ I Hw Hc Hy Hcy).
          * intros Hwr h' e0 Hw' Hc'. apply touch_hold in Hw'. pose proof (owned_once _ _ _ _ _ _ _ _ I Hw Hw' Hc Hc') as [= <-].
            destruct Hex as [[_ Hv0]|Hv0]; [|apply Hv0 in Ha0; congruence]. by apply (an_mout acq o e s' h Hv0).
          * intros i b Hb Ec Hwr. destruct Hex as [[Hs _]|Hv0].
            { apply (an_in acq o e s' h Hin Hs). eapply (owner_sees sz o T L (HV h) en i b); [done..|]. by rewrite Ec. }
            apply Hv0 in Ha0. subst wr. destruct Hwr as [Hwr|]; [|done]. apply Vin. eapply (O_write _ _ O i b h en); [done..|]. by rewrite Ec.
          * done.
    Qed.
  End touch.

  (** *** [split_off] of a unique slice *)
  Lemma mut_split_flow o t side h m d m1 m2 T L T' L' : OI sz o -> DI sz (os_s o) T L -> cs_t (os_s o) !! t = Some [] ->
    cs_h (os_s o) !! h = Some (Some (XMut m, 0)) -> mut_split_off sz side (cs_d (os_s o)) m = Ok (d, (m1, m2)) ->
    let s' := finish (set_world (set_slots (os_s o) (<[h := Some (XMut m1, 0)]> (cs_h (os_s o)))) d (cs_g (os_s o))) t None (Some (XMut m2)) None in
    DI sz s' T' L' -> flow sz o (annotate acq o (SStart t (CMutSplit side h)) s') (anew acq o (SStart t (CMutSplit side h)) s').
  Proof.
    intros O I Ht Hh Hm s' I'. set (s := os_s o) in *. set (e := SStart t (CMutSplit side h)).
    assert (dw_datas d = datas s /\ dw_blocks d = blocks s /\ dw_mem d = mem s /\ dw_trace d = dw_trace (cs_d s) /\ ms_alloc m1 = ms_alloc m /\
      (forall a j v, live (dw_allocs d) a j v -> exists j', live (allocs s) a j' v)) as (E1 & E2 & E3 & E4 & E5 & E6).
    { unfold mut_split_off in Hm. destruct (if side then _ else _) as [self new]. apply bind_inv in Hm as (d1 & Hd & [= <- <- <-]).
      unfold alloc_clone in Hd. destruct (if (0 <? si_len new)%N then _ else _) as [a|]; [|injection Hd as <-; split_and!; eauto].
      apply bind_inv in Hd as (hp & Hd & [= <-]). cbn. split_and!; [done..|].
      intros a' j v Hv. apply rc_inc_inv in Hd as (j0 & v0 & H0 & ->). apply live_insert in Hv as [(-> & [= <- <-] & _)|[_ Hv]]; eauto. }
    assert (length (cs_out s') <> length (cs_out s)) as Hr by (cbn; rewrite app_length; cbn; lia).
    assert (began s t s' = true) as Hb.
    { unfold began. rewrite Ht. cbn. rewrite list_lookup_insert by by eapply lookup_lt_Some. unfold responded.
      cbn in Hr. by apply negb_true_iff, Nat.eqb_neq. }
    assert (hview o (HV h) ⊆ aview acq o e s') as Vin. { apply an_in; [|done]. cbn. fold s. rewrite Hb. left. }
    assert (aview acq o e s' ⊆ mview (annotate acq o e s') (HV h)) as Vout.
    { apply an_mout. unfold var_out. apply elem_of_app. right. cbn. fold s. rewrite Hb. left. }
    assert (aview acq o e s' ⊆ mview (annotate acq o e s') (HV (length (cs_h s)))) as Vnew.
    { apply an_mout. unfold var_out. apply elem_of_app. left. apply elem_of_seq. cbn. fold s. rewrite app_length, insert_length. cbn. lia. }
    assert (forall {A} (F : frame V -> list A) H w y, hold F H s w y -> hold F H s' w y \/ (w = HV h /\ y ∈ H (XMut m))) as Hk.
    { intros A F H [t'|h'] y; cbn.
      - intros (st & Hs & Hy). left. exists st. split; [|done]. destruct (decide (t' = t)) as [->|]; [|by rewrite list_lookup_insert_ne].
        rewrite Ht in Hs. injection Hs as <-. by apply elem_of_nil in Hy.
      - intros (y0 & k0 & Hs & Hy). destruct (decide (h' = h)) as [->|]; [right; by simplify_eq|left]. exists y0, k0. split; [|done].
        apply lookup_app_l_Some. by rewrite list_lookup_insert_ne. }
    assert (forall {A} (F : frame V -> list A) H w y, hold F H s' w y -> hold F H s w y \/ (w = HV h /\ y ∈ H (XMut m1)) \/ (w = HV (length (cs_h s)) /\ y ∈ H (XMut m2))) as Hbk.
    { intros A F H [t'|h'] y; cbn.
      - destruct (decide (t' = t)) as [->|]; [|rewrite list_lookup_insert_ne by done; by left].
        rewrite list_lookup_insert by by eapply lookup_lt_Some. intros (? & [= <-] & Hy). by apply elem_of_nil in Hy.
      - intros (y0 & k0 & Hs & Hy). apply lookup_app_Some in Hs as [Hs|[Hl Hs]].
        + apply list_lookup_insert_Some in Hs as [(-> & [= <- <-] & _)|[_ Hs]]; [right; by left|left; eauto].
        + right. right. rewrite insert_length in *. destruct (h' - length (cs_h s)) as [|q] eqn:Eq; [|done].
          cbn in Hs. injection Hs as <- <-. split; [f_equal; lia|done]. }
    eapply move_flow; [exact O|exact I|exact I'|exact E1|cbn; by rewrite E2|cbn; by rewrite E3|exact E6| | | | | |].
    - intros w x Hw. destruct (Hk _ _ _ _ _ Hw) as [?|[_ Hx]]; [by left|]. by apply elem_of_nil in Hx.
    - intros w r a Hw. destruct (Hk _ _ _ _ _ Hw) as [?|[-> Hx]]; [by left|]. right. split; [done|].
      cbn in Hx. apply elem_of_list_singleton in Hx. injection Hx as -> Hx. exists (HV h). eexists. split; [|etrans; [exact Vout|apply mview_hview]].
      exists (XMut m1), 0. split; [apply lookup_app_l_Some, list_lookup_insert; by eapply lookup_lt_Some|]. cbn. rewrite E5, <- Hx. left.
    - intros w x Hw. destruct (Hk _ _ _ _ _ Hw) as [?|[-> Hx]]; [by left|by right].
    - intros w x Hw. destruct (Hbk _ _ _ _ _ Hw) as [?|[[-> _]|[-> _]]]; [by left|by right..].
    - intros w x Hw. destruct (Hbk _ _ _ _ _ Hw) as [?|[[_ Hx]|[_ Hx]]]; [by left|by apply elem_of_nil in Hx..].
    - apply fresh_none. cbn. unfold logged. cbn. by rewrite E4, drop_all.
  Qed.
End calls.
