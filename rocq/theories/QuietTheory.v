(** Which calls run destructors of items: dropping a variable, and a
    [split_into_parts] that panics. No other call does. *)
From Verif Require Import Base Api BaseLemmas SliceItemsModel BinPartsModel DataModel RcModel Spec SliceItemsProof
  DataInv DataSteps GuardInv RelInv Refine Observe Facts SpecTheory Frame Views RcTheory ShareTheory Conserve ConserveTheory IterTheory LeakTheory.
From Verif Require Import PanicModel PanicObserve ArcModel ArcInv ArcRelInv ArcSpec ArcRefine ArcObserve ArcFacts ArcTheory ArcConserve ArcLeak.

Section spec.
  Context {V : Type} (sz : N) (vclone : V -> V).
  Implicit Types (a : astate V) (o : op V).

  Lemma cov_get a c : c ∈ all_cells (as_trees a) (as_h a) <-> exists h x, a_get a h = Some x /\ c ∈ hcells (as_trees a) x.
  Proof.
    unfold all_cells, a_get. rewrite elem_of_list_bind. split.
    - intros (x & Hc & Hx). unfold live_handles in Hx. apply elem_of_list_omap in Hx as (y & Hy & E). cbn in E. subst y. apply elem_of_list_lookup in Hy as [h Hh].
      exists h, x. by rewrite Hh.
    - intros (h & x & Hh & Hc). exists x. split; [done|]. unfold live_handles. apply elem_of_list_omap. exists (Some x). split; [|done].
      destruct (as_h a !! h) as [[y|]|] eqn:E; try done. injection Hh as ->. by eapply elem_of_list_lookup_2.
  Qed.
  Lemma cov_in T hs h x c : hs !! h = Some (Some x) -> c ∈ hcells T x -> c ∈ all_cells T hs.
  Proof. intros Hh Hc. apply (cov_get (AS [] T (∅ : gmap (nat * N) V) hs)). exists h, x. unfold a_get. cbn. by rewrite Hh. Qed.
  Lemma cov_snoc T hs x c : c ∈ all_cells T (hs ++ [Some x]) <-> c ∈ all_cells T hs \/ c ∈ hcells T x.
  Proof. unfold all_cells, live_handles. rewrite omap_app, bind_app, elem_of_app. cbn. rewrite app_nil_r. done. Qed.
  (** Replacing a variable by one or two that cover the same. *)
  Lemma cov_upd T hs h x (y : option ahandle) c : hs !! h = Some (Some x) -> c ∈ all_cells T hs ->
    c ∈ all_cells T (<[h := y]> hs) \/ c ∈ hcells T x.
  Proof.
    intros Hh Hc. apply (cov_get (AS [] T (∅ : gmap (nat * N) V) hs)) in Hc as (h' & z & Hz & Hc). unfold a_get in Hz. cbn in *.
    destruct (decide (h' = h)) as [->|Hne]; [rewrite Hh in Hz; injection Hz as ->; by right|left].
    destruct (hs !! h') as [[z'|]|] eqn:E; try done. injection Hz as ->. eapply cov_in; [|done]. by rewrite list_lookup_insert_ne.
  Qed.
  Lemma cov_upd_in T hs h x y c : hs !! h = Some (Some x) -> c ∈ hcells T y -> c ∈ all_cells T (<[h := Some y]> hs).
  Proof. intros Hh Hc. eapply cov_in; [|done]. apply list_lookup_insert. by eapply lookup_lt_Some. Qed.
  Lemma cov_two T hs h x y z c : hs !! h = Some (Some x) -> (c ∈ hcells T x -> c ∈ hcells T y \/ c ∈ hcells T z) -> c ∈ all_cells T hs ->
    c ∈ all_cells T (<[h := Some y]> hs ++ [Some z]).
  Proof.
    intros Hh Hx Hc. apply cov_snoc. destruct (cov_upd _ _ _ _ (Some y) _ Hh Hc) as [H|H]; [by left|]. destruct (Hx H) as [H'|H']; [left|by right].
    by eapply cov_upd_in.
  Qed.
  Lemma cov_move T hs h x z c : hs !! h = Some (Some x) -> (c ∈ hcells T x -> c ∈ hcells T z) -> c ∈ all_cells T hs ->
    c ∈ all_cells T (<[h := None]> hs ++ [Some z]).
  Proof. intros Hh Hx Hc. apply cov_snoc. destruct (cov_upd _ _ _ _ None _ Hh Hc) as [H|H]; [by left|right; by apply Hx]. Qed.
  Lemma get_lookup a h x : a_get a h = Some x -> as_h a !! h = Some (Some x).
  Proof. unfold a_get. by destruct (as_h a !! h) as [[y|]|]; [intros [= ->]| |]. Qed.
  Lemma collect_keeps (T : trees) (hs : list (option ahandle)) (m : gmap (nat * N) V) (c : nat * N) : is_Some (m !! c) -> c ∈ all_cells T hs -> is_Some (collect T hs m !! c).
  Proof. intros [v Hv] Hc. exists v. unfold collect. by apply map_filter_lookup_Some. Qed.
  Lemma half_cov r c side : c ∈ rng_cells r -> c ∈ rng_cells (half (negb side) r) \/ c ∈ rng_cells (half side r).
  Proof. rewrite (half_cells r), elem_of_app. destruct side; cbn; tauto. Qed.

  (** Calls that destroy nothing keep every item, or hand one out. *)
  Lemma spec_kept a o c : (is_Some (as_mem a !! c) -> c ∈ all_cells (as_trees a) (as_h a)) ->
    (forall h x l, a_get a h = Some x -> l ∈ strong_labels x -> (l_tree l < length (as_trees a))%nat) ->
    ~ destroys o (snd (spec_step sz vclone a o)) ->
    is_Some (as_mem a !! c) -> is_Some (as_mem (fst (spec_step sz vclone a o)) !! c) \/ exists v, snd (spec_step sz vclone a o) = RVal v.
  Proof.
    intros Hcov Htr Hd Hc. pose proof (Hcov Hc) as Ha.
    assert (forall x, is_Some (as_mem (fst (a_new a (as_h a) x)) !! c)) as Hnew.
    { intros x. cbn. apply collect_keeps; [done|]. apply cov_snoc. by left. }
    assert (forall (s : astate V) (r : list (nat * N)) (i : N) (v : V), is_Some (as_mem s !! c) -> is_Some (as_mem (fst (a_replace s r i v)) !! c)) as Hrep.
    { intros s r i v Hs. unfold a_replace. destruct (r !! N.to_nat i) as [c'|]; [|done]. destruct (as_mem s !! c'); [|done]. cbn.
      destruct (decide (c' = c)) as [->|]; [rewrite lookup_insert; eauto|by rewrite lookup_insert_ne]. }
    assert (forall base vals, is_Some (as_mem (fst (a_alloc a base vals)) !! c)) as Hall.
    { intros base vals. cbn. apply lookup_union_is_Some. by right. }
    assert (forall r, forall z, z ∈ all_cells (as_trees a) (as_h a) -> z ∈ all_cells (as_trees a ++ [r]) (as_h a)) as Htrees.
    { intros r z Hz. apply cov_get in Hz as (h & x & Hx & Hz). apply (cov_get (AS [] (as_trees a ++ [r]) (∅ : gmap (nat * N) V) (as_h a))).
      exists h, x. split; [done|]. cbn [as_trees].
      assert (forall l, l ∈ strong_labels x -> lrng (as_trees a ++ [r]) l = lrng (as_trees a) l) as Hl.
      { intros l Hl. apply lrng_snoc. by eapply Htr. }
      destruct x as [l|l|q|r0|r0|rs]; cbn in *; try done.
      - rewrite Hl; [done|]. by apply elem_of_list_singleton.
      - apply elem_of_list_bind in Hz as (y & Hy & Hq). apply elem_of_list_bind. exists y. split; [|done]. rewrite Hl; [done|]. apply elem_of_list_fmap. eauto. }
    destruct o as [base vals|base vals| |h|h base|side h|side h|h n|h|h i v|h|h|h|h|h|h|h i v|h|b h|to h i|h]; cbn [spec_step] in *.
    - left. destruct (_ <? _)%N; [|done]. cbn. apply collect_keeps; [by apply (Hall base vals)|]. apply cov_snoc. left. by apply Htrees.
    - left. destruct (_ <? _)%N; [|done]. cbn. apply collect_keeps; [by apply (Hall base vals)|]. apply cov_snoc. by left.
    - left. apply Hnew.
    - left. destruct (a_get a h) as [[]|]; try done; apply Hnew.
    - left. destruct (a_get a h) as [[]|]; try done. cbn. apply collect_keeps; [by apply (Hall base)|]. apply cov_snoc. by left.
    - left. destruct (a_get a h) as [[]|]; try done; apply Hnew.
    - left. destruct (a_get a h) as [[l|l|q|r0|r0|rs]|] eqn:Eh; try done; apply get_lookup in Eh; cbn; apply collect_keeps; try done.
      + eapply cov_two; [done| |done]. cbn. rewrite !lrng_lhalf. apply half_cov.
      + eapply cov_two; [done| |done]. cbn. apply half_cov.
    - left. destruct (negb _); [done|]. destruct (a_get a h) as [[l|l|q|r0|r0|rs]|] eqn:Eh; try done; apply get_lookup in Eh; destruct (log2_exact n) as [k|]; try (by cbn in Hd; exfalso; apply Hd); cbn; apply collect_keeps; try done.
      + eapply cov_move; [done| |done]. cbn. by rewrite app_nil_r.
      + eapply cov_move; [done| |done]. cbn. by rewrite leaves_all_cells.
    - left. destruct (a_get a h) as [[]|]; try done; destruct (_ && _); done.
    - left. destruct (a_get a h) as [[]|]; try done; destruct (_ && _); [by apply Hrep|done].
    - left. destruct (a_get a h) as [[l|l|q|r0|r0|rs]|] eqn:Eh; try done; apply get_lookup in Eh. destruct (sole_owner _ _); [|done]. cbn. apply collect_keeps; [done|].
      by eapply cov_move.
    - left. destruct (a_get a h) as [[l|l|q|r0|r0|rs]|] eqn:Eh; try done; apply get_lookup in Eh. cbn. apply collect_keeps; [done|].
      eapply cov_move; [done| |by apply Htrees]. cbn [hcells as_trees]. by rewrite lrng_new.
    - left. destruct (a_get a h) as [[]|]; try done; apply Hnew.
    - left. destruct (a_get a h) as [[|[]| | | |]|]; try done. destruct (alive _ _); [apply Hnew|done].
    - by destruct (Hd I).
    - left. by destruct (a_get a h) as [[]|].
    - left. destruct (a_get a h) as [[]|]; try done; by apply Hrep.
    - left. destruct (a_get a h) as [[l|l|q|r0|r0|rs]|] eqn:Eh; try done; apply get_lookup in Eh. cbn. apply collect_keeps; [done|]. by eapply cov_move.
    - destruct (a_get a h) as [[l|l|q|r0|r0|rs]|] eqn:Eh; try (by left); apply get_lookup in Eh.
      + left. assert (forall l' q', (forall z, z ∈ hcells (as_trees a) (AParts q) -> z ∈ rng_cells (lrng (as_trees a) l') \/ z ∈ hcells (as_trees a) (AParts q')) ->
          is_Some (as_mem (fst (a_new a (<[h:=Some (AParts q')]> (as_h a)) (ARc l'))) !! c)) as Hpop.
        { intros l' q' Hq. cbn. apply collect_keeps; [done|]. eapply cov_two; [done| |done]. intros Hz. destruct (Hq c Hz); [by right|by left]. }
        destruct (if b then last q else head q) as [[l j]|] eqn:Eq; [|done].
        destruct (if b then pop_back _ _ _ _ else pop_front _ _ _ _) as [l' q'] eqn:Ep. apply Hpop. intros z. destruct b.
        * apply pop_back_cells in Ep. apply last_Some in Eq as [q0 ->]. rewrite removelast_last in Ep. cbn [hcells]. rewrite bind_app. cbn. rewrite app_nil_r.
          unfold qcells in Ep. rewrite Ep. rewrite elem_of_app. tauto.
        * apply pop_front_cells in Ep. destruct q as [|y q0]; [done|]. injection Eq as ->. cbn [tail] in Ep. cbn [hcells]. cbn [mbind list_bind fst].
          unfold qcells in Ep. rewrite Ep. rewrite elem_of_app. tauto.
      + destruct (_ =? _)%N; [by left|]. match goal with |- context [as_mem a !! (rg_blk r0, ?i)] => destruct (as_mem a !! (rg_blk r0, i)) end; [right; eauto|by left].
      + left. destruct (if b then last rs else head rs) as [r|] eqn:Eq; [|done]. cbn. apply collect_keeps; [done|]. eapply cov_two; [done| |done]. cbn. destruct b.
        * apply last_Some in Eq as [q0 ->]. rewrite removelast_last, bind_app. cbn. rewrite app_nil_r, elem_of_app. tauto.
        * destruct rs as [|y q0]; [done|]. injection Eq as ->. cbn. rewrite elem_of_app. tauto.
    - left. destruct (a_get a h) as [[l|l|q|r0|r0|rs]|] eqn:Eh; try done; apply get_lookup in Eh. destruct (N.ltb_spec (rg_len r0) i) as [Hi|Hi]; [done|].
      assert (forall z, z ∈ rng_cells r0 -> z ∈ rng_cells (Rng (rg_blk r0) (rg_lo r0) i) \/ z ∈ rng_cells (Rng (rg_blk r0) (rg_lo r0 + i) (rg_len r0 - i))) as Hz.
      { intros z. rewrite !rng_cells_elem. cbn. lia. }
      destruct to; cbn; (apply collect_keeps; [done|]; eapply cov_two; [done| |done]; cbn; intros H; destruct (Hz c H); tauto).
    - left. by destruct (a_get a h) as [[]|].
  Qed.
End spec.

(** *** Calls that move items in or out run no destructors *)
Section code.
  Context {V : Type} (sz : N).
  Implicit Types d : dworld V.
  Definition dtr d : list ((nat * N) * V) := drops (dw_trace d).
  Lemma salloc_drop_dtr d a d' : salloc_drop sz d a = Ok d' -> dtr d' = dtr d.
  Proof.
    unfold salloc_drop. destruct (_ || _); [by intros [= ->]|]. destruct (dw_blocks d !! _) as [blk|]; [|done]. destruct (_ || _); [done|]. intros [= <-].
    unfold dtr, dw_log. cbn [dw_trace dw_set_blocks]. rewrite drops_app. cbn. by rewrite app_nil_r.
  Qed.
  Lemma alloc_release_dtr d o d' : alloc_release sz d o = Ok d' -> dtr d' = dtr d.
  Proof.
    destruct o as [a|]; cbn [alloc_release]; [|by intros [= ->]]. destruct (rc_dec (dw_allocs d) a) as [[h r]| | |]; cbn [mbind res_bind]; try done.
    destruct r; [|by intros [= <-]]. intros E. by rewrite (salloc_drop_dtr _ _ _ E).
  Qed.
  Lemma mem_take_dtr d p d' v : mem_take sz d p = Ok (d', v) -> dtr d' = dtr d.
  Proof. unfold mem_take. destruct (mem_at sz d p); cbn [mbind res_bind]; try done. by intros [= <- _]. Qed.
  Lemma mem_replace_dtr d p x d' v : mem_replace sz d p x = Ok (d', v) -> dtr d' = dtr d.
  Proof. unfold mem_replace. destruct (mem_at sz d p); cbn [mbind res_bind]; try done. by intros [= <- _]. Qed.
  Lemma new_block_dtr d base (vals : list V) d' p len : new_block d base vals = (d', p, len) -> dtr d' = dtr d.
  Proof. unfold new_block. by intros [= <- <- <-]. Qed.
  Lemma from_boxed_dtr d p len d' n : data_from_boxed_slice d p len = (d', n) -> dtr d' = dtr d.
  Proof. unfold data_from_boxed_slice, data_new, alloc_new, rc_new. destruct (_ =? _)%N; cbn; by intros [= <- _]. Qed.
  Lemma split_alloc_dtr d p len d' it al : split_alloc_from_items sz d p len = (d', it, al) -> dtr d' = dtr d.
  Proof. unfold split_alloc_from_items, alloc_new, rc_new. destruct (_ || _); cbn; by intros [= <- <- <-]. Qed.
  Lemma iter_next_dtr back d m d' m' o : iter_next sz back d m = Ok (d', m', o) -> dtr d' = dtr d.
  Proof.
    unfold iter_next. destruct (if back then _ else _) as [[it q]| | |]; cbn [mbind res_bind]; try done.
    assert (forall d1 i1, (match q with None => Ok (d, None) | Some p => '(d, v) ← mem_take sz d p; Ok (d, Some v) end) = Ok (d1, i1) -> dtr d1 = dtr d) as Hq.
    { intros d1 i1. destruct q as [p|]; [|by intros [= <- _]]. destruct (mem_take sz d p) as [[d2 v]| | |] eqn:E; cbn [mbind res_bind]; try done.
      intros [= <- _]. by eapply mem_take_dtr. }
    match goal with |- (?m ≫= _) = _ -> _ => destruct m as [[d1 i1]| | |]; cbn [mbind res_bind]; try done end. specialize (Hq _ _ eq_refl).
    destruct (sit_len sz it); cbn [mbind res_bind]; try done. destruct (_ =? _)%N; [|by intros [= <- _ _]].
    destruct (alloc_release sz d1 _) eqn:Ea; cbn [mbind res_bind]; try done. intros [= <- _ _]. by rewrite (alloc_release_dtr _ _ _ Ea).
  Qed.
End code.

(** *** Only dropping runs destructors: the single-threaded API *)
Section rc.
  Context {V : Type} (cf : cfg V).
  Notation sz := (c_sz cf).
  Notation sstep := (spec_step (c_sz cf) (c_clone cf)).
  Implicit Types (w : world V) (o : op V) (h : nat) (ops : list (op V)).

  Lemma ret_replace_dtr s hs p len i v w' r : ret_replace sz s hs p len i v = Ok (w', r) -> dtr (w_d w') = dtr (fst s).
  Proof.
    unfold ret_replace, ret. destruct (_ <? _)%N; [|by intros [= <- _]]. destruct (mem_replace sz (fst s) _ v) as [[d old]| | |] eqn:E; cbn [mbind res_bind]; try done.
    intros [= <- _]. by eapply mem_replace_dtr.
  Qed.
  Lemma mut_fresh_dtr s base (vals : list V) s' m : mut_from_boxed_slice sz s base vals = (s', m) -> dtr (fst s') = dtr (fst s).
  Proof.
    unfold mut_from_boxed_slice. destruct (new_block (fst s) base vals) as [[d1 p] len] eqn:E1. destruct (split_alloc_from_items sz d1 p len) as [[d2 it] al] eqn:E2.
    intros [= <- _]. cbn. by rewrite (split_alloc_dtr _ _ _ _ _ _ _ E2), (new_block_dtr _ _ _ _ _ _ E1).
  Qed.
  Definition moves o (r : out V) : Prop := match o, r with
    | OFromVec _ _, _ | OMutFromVec _ _, _ | OMutClone _ _, _ | OReplace _ _ _, _ | OGetMutReplace _ _ _, _ => True
    | ONext _ _, RVal _ => True | _, _ => False end.
  Lemma moves_quiet w o w' r : rstep cf w o = Ok (w', r) -> moves o r -> dtr (w_d w') = dtr (w_d w).
  Proof.
    unfold rstep. destruct o; intros E H; try done; cbn [step] in E.
    - destruct (_ <? _)%N; [|by injection E as <- _]. unfold rcs_from_boxed_slice in E. cbn [fst snd] in E. destruct (new_block (w_d w) base vals) as [[d1 p] len] eqn:E1.
      destruct (data_from_boxed_slice d1 p len) as [d2 n] eqn:E2. unfold rcs_from_unique_data in E. destruct (img_new _) as [[g i]| | |]; try done. injection E as <- _. cbn.
      by rewrite (from_boxed_dtr _ _ _ _ _ E2), (new_block_dtr _ _ _ _ _ _ E1).
    - destruct (_ <? _)%N; [|by injection E as <- _]. destruct (mut_from_boxed_slice sz _ base vals) as [s' m] eqn:E1. injection E as <- _. cbn. by rewrite (mut_fresh_dtr _ _ _ _ _ E1).
    - destruct (get_h w h) as [[]|]; try (by injection E as <- _). unfold mut_clone in E. destruct (mem_read _ _ _ _) as [vs| | |]; try done. cbn [mbind res_bind] in E.
      destruct (mut_from_boxed_slice sz _ base _) as [s' m'] eqn:E1. injection E as <- _. cbn. by rewrite (mut_fresh_dtr _ _ _ _ _ E1).
    - destruct (get_h w h) as [[]|]; try (by injection E as <- _). destruct (rcs_get_mut _ _) as [[[p len]|]| | |]; try done; cbn [mbind res_bind] in E; [|by injection E as <- _].
      by eapply ret_replace_dtr in E.
    - destruct (get_h w h) as [[]|]; try (by injection E as <- _).
      + by eapply ret_replace_dtr in E.
      + destruct (sit_as_slice _ _) as [[p len]| | |]; try done. by eapply ret_replace_dtr in E.
      + destruct (sip_as_slice _ _) as [[p len]| | |]; try done. by eapply ret_replace_dtr in E.
    - destruct (get_h w h) as [[]|]; try (by injection E as <- <-).
      + destruct (if back then _ else _) as [[[s1 it1] o1]| | |]; try done; cbn [mbind res_bind] in E. by destruct o1; injection E as <- <-.
      + destruct (iter_next sz _ _ _) as [[[d1 m1] o1]| | |] eqn:E1; try done. injection E as <- _. by eapply iter_next_dtr in E1.
      + destruct (mparts_next _ _ _ _) as [[[s1 it1] o1]| | |]; try done; cbn [mbind res_bind] in E. by destruct o1; injection E as <- <-.
  Qed.
  Lemma rval_moves (a : astate V) o v : snd (sstep a o) = RVal v -> moves o (RVal v).
  Proof. destruct o; cbn; repeat case_match; try done. Qed.
  Lemma dtr_dropped w w' : dtr (w_d w') = dtr (w_d w) <-> dropped_cells w' = dropped_cells w /\ dropped w' = dropped w.
  Proof.
    unfold dropped, dropped_cells, dtr. rewrite !drops_cells, !drops_vals. split; [by intros ->|]. generalize (drops (dw_trace (w_d w))), (drops (dw_trace (w_d w'))).
    intros l l'. revert l. induction l' as [|[c v] l' IH]; intros [|[c1 v1] l]; cbn; try done; try (by intros [? ?]). intros [[= -> H1] [= -> H2]]. f_equal. by apply IH.
  Qed.
  Lemma rel_mem w (a : astate V) : Refine.rel sz w a -> as_mem a = dw_mem (w_d w).
  Proof. by intros (P & _ & _ & _ & H & _). Qed.
  Lemma only_drops ops w o w' r : reach cf ops w -> rstep cf w o = Ok (w', r) -> ~ destroys o r -> dtr (w_d w') = dtr (w_d w).
  Proof.
    intros R E Hd. pose proof (reach_rel _ _ _ R) as Rl. destruct (step_rel cf _ _ _ _ _ Rl E) as [Hr Rl'].
    assert (moves o r \/ put cf w o r = [] /\ got r = []) as [Hm|[Hp Hg]].
    { destruct (got r) as [|v l] eqn:Eg; [|left; destruct r; try done; by eapply rval_moves].
      destruct (put cf w o r) as [|v l] eqn:Ep; [by right|left]. unfold put in Ep. by destruct o. }
    { by eapply moves_quiet. }
    destruct (step_drops _ _ _ _ _ _ R E Hp Hg) as (nd & H1 & H2 & H3 & H4 & _). apply dtr_dropped.
    enough (nd = []) as -> by (by rewrite H1, H2, !app_nil_r). apply elem_of_nil_inv. intros [c v] Hc. apply H4 in Hc as [Hc Hn].
    assert (is_Some (as_mem (hist cf ops) !! c)) as Hs. { unfold item in Hc. rewrite <- (rel_mem _ _ Rl) in Hc. by exists v. }
    subst r. destruct (spec_kept sz (c_clone cf) (hist cf ops) o c) as [Hk|[v' Hk]]; try done.
    - intros _. apply cov_get. by apply (fact_alive sz w _ Rl).
    - intros h x l Hx Hl. eapply (fact_tree sz w _ Rl); [done|by left].
    - unfold item in Hn. rewrite <- (rel_mem _ _ Rl') in Hn. rewrite Hn in Hk. by destruct Hk.
    - by rewrite Hk in Hg.
  Qed.
End rc.

(** *** The thread-safe API used by one thread *)
Section arc.
  Context {V : Type} (cf : cfg V).
  Notation sz := (c_sz cf).
  Notation sstep := (arc_spec_step (c_sz cf) (c_clone cf)).
  Implicit Types (w : aworld V) (o : op V) (h : nat) (ops : list (op V)).

  Lemma xret_replace_dtr s hs p len i v w' r : xret_replace sz s hs p len i v = Ok (w', r) -> dtr (aw_d w') = dtr (fst s).
  Proof.
    unfold xret_replace, xret. destruct (_ <? _)%N; [|by intros [= <- _]]. destruct (mem_replace sz (fst s) _ v) as [[d old]| | |] eqn:E; cbn [mbind res_bind]; try done.
    intros [= <- _]. by eapply mem_replace_dtr.
  Qed.
  Lemma xmut_fresh_dtr s base (vals : list V) s' m : arc_mut_from_boxed_slice sz s base vals = (s', m) -> dtr (fst s') = dtr (fst s).
  Proof.
    unfold arc_mut_from_boxed_slice. destruct (new_block (fst s) base vals) as [[d1 p] len] eqn:E1. destruct (split_alloc_from_items sz d1 p len) as [[d2 it] al] eqn:E2.
    intros [= <- _]. cbn. by rewrite (split_alloc_dtr _ _ _ _ _ _ _ E2), (new_block_dtr _ _ _ _ _ _ E1).
  Qed.
  Lemma rel_lens w sk : ArcRefine.rel sz w sk -> length (gd_metas (aw_g w)) = length (dw_datas (aw_d w)).
  Proof. intros (P & LI & (_ & _ & (L & D & A & _) & _) & _). cbn in A, D. rewrite (ai_lenm _ _ _ _ _ A). apply (di_len _ _ _ _ _ _ D). Qed.
  (** A new slice's guard needs no parent. *)
  Lemma guard_fresh (d d' : dworld V) g x s r : length (gd_metas g) = x -> arc_from_data sz (d, gd_new_data g None) x = Ok (s, r) -> fst s = d.
  Proof.
    intros <-. unfold arc_from_data, guard_for. cbn [fst snd guard_of]. destruct (rc_val _ _); cbn [mbind res_bind]; try done.
    cbn [gd_new_data gd_metas gd_boxes gd_guards gd_weak]. rewrite list_lookup_middle by done. cbn [am_box am_parent]. rewrite list_lookup_middle by done. cbn [rc_upgrade mbind res_bind fst snd].
    destruct (gd_new_guard _ _ _ _) as [[g' i]| | |]; cbn [mbind res_bind]; try done. by intros [= <- _].
  Qed.
  Lemma xmoves_quiet w sk o w' r : ArcRefine.rel sz w sk -> xstep cf w o = Ok (w', r) -> moves o r -> dtr (aw_d w') = dtr (aw_d w).
  Proof.
    intros Rl. unfold xstep. destruct o; intros E H; try done; cbn [astep] in E.
    - destruct (_ <? _)%N; [|by injection E as <- _]. unfold arc_from_boxed_slice in E. cbn [fst snd] in E. destruct (new_block (aw_d w) base vals) as [[d1 p] len] eqn:E1.
      destruct (data_from_boxed_slice d1 p len) as [d2 n] eqn:E2.
      assert (length (gd_metas (aw_g w)) = n) as Hn.
      { rewrite (rel_lens _ _ Rl). injection E1 as <- _ _. unfold data_from_boxed_slice, data_new, alloc_new, rc_new in E2. by destruct (_ =? _)%N; injection E2 as _ <-. }
      destruct (arc_from_data _ _ _) as [[s' x]| | |] eqn:E3; try done. apply guard_fresh in E3; [|done|done]. injection E as <- _. cbn.
      by rewrite E3, (from_boxed_dtr _ _ _ _ _ E2), (new_block_dtr _ _ _ _ _ _ E1).
    - destruct (_ <? _)%N; [|by injection E as <- _]. destruct (arc_mut_from_boxed_slice sz _ base vals) as [s' m] eqn:E1. injection E as <- _. cbn. by rewrite (xmut_fresh_dtr _ _ _ _ _ E1).
    - destruct (xget w h) as [[]|]; try (by injection E as <- _). unfold arc_mut_clone in E. destruct (mem_read _ _ _ _) as [vs| | |]; try done. cbn [mbind res_bind] in E.
      destruct (arc_mut_from_boxed_slice sz _ base _) as [s' m'] eqn:E1. injection E as <- _. cbn. by rewrite (xmut_fresh_dtr _ _ _ _ _ E1).
    - destruct (xget w h) as [[]|]; try (by injection E as <- _). destruct (arc_get_mut _ _) as [[s1 [[p len]|]]| | |] eqn:E1; try done; cbn [mbind res_bind] in E; apply arc_get_mut_fst in E1; cbn in E1.
      + apply xret_replace_dtr in E. by rewrite E, E1.
      + injection E as <- _. cbn. by rewrite E1.
    - destruct (xget w h) as [[]|]; try (by injection E as <- _).
      + by eapply xret_replace_dtr in E.
      + destruct (sit_as_slice _ _) as [[p len]| | |]; try done. by eapply xret_replace_dtr in E.
      + destruct (sip_as_slice _ _) as [[p len]| | |]; try done. by eapply xret_replace_dtr in E.
    - destruct (xget w h) as [[]|]; try (by injection E as <- <-).
      + destruct (if back then _ else _) as [[[s1 it1] o1]| | |]; try done; cbn [mbind res_bind] in E. by destruct o1; injection E as <- <-.
      + destruct (iter_next sz _ _ _) as [[[d1 m1] o1]| | |] eqn:E1; try done. injection E as <- _. by eapply iter_next_dtr in E1.
      + destruct (mparts_next _ _ _ _) as [[[s1 it1] o1]| | |]; try done; cbn [mbind res_bind] in E. by destruct o1; injection E as <- <-.
  Qed.
  Lemma xdtr_dropped w w' : dtr (aw_d w') = dtr (aw_d w) <-> xdropped_cells w' = xdropped_cells w /\ xdropped w' = xdropped w.
  Proof.
    unfold xdropped, xdropped_cells, dtr. rewrite !drops_cells, !drops_vals. split; [by intros ->|]. generalize (drops (dw_trace (aw_d w))), (drops (dw_trace (aw_d w'))).
    intros l l'. revert l. induction l' as [|[c v] l' IH]; intros [|[c1 v1] l]; cbn; try done; try (by intros [? ?]). intros [[= -> H1] [= -> H2]]. f_equal. by apply IH.
  Qed.
  Lemma arc_step_drops ops w o w' r : xreach cf ops w -> xstep cf w o = Ok (w', r) -> xput cf w o r = [] -> got r = [] ->
    exists nd : list ((nat * N) * V), xdropped_cells w' = xdropped_cells w ++ nd.*1 /\ xdropped w' = xdropped w ++ nd.*2 /\
      NoDup nd.*1 /\ (forall c v, (c, v) ∈ nd <-> xitem w c = Some v /\ xitem w' c = None) /\
      (forall c v, xitem w' c = Some v -> xitem w c = Some v).
  Proof.
    intros Hr E Hp Hg. apply (arc_step_cons cf _ _ _ _ _ (xreach_rel _ _ _ Hr)) in E as (nb & ins & outs & mid & taken & (nd & T & M & B & F & D & N & L) & Ev & Eg & Ei & Eo).
    rewrite Hp in Ev. rewrite Hg in Eg. apply fmap_nil_inv in Ev, Eg. subst. rewrite !app_nil_r in M.
    exists (drops nd). unfold xdropped, xdropped_cells. rewrite T, !omap_snoc, <- drops_cells, <- drops_vals.
    assert (NoDup ((map_to_list (dw_mem (aw_d w'))).*1 ++ (drops nd).*1)) as Hn.
    { rewrite <- fmap_app, <- M. apply NoDup_fst_map_to_list. }
    apply NoDup_app in Hn as (_ & Hn1 & Hn2). split_and!; try done.
    { by rewrite drops_cells. }
    - intros c v. unfold xitem. split.
      + intros Hc. assert ((c, v) ∈ map_to_list (dw_mem (aw_d w))) as H1 by (rewrite M; apply elem_of_app; by right).
        apply elem_of_map_to_list in H1. split; [done|]. destruct (dw_mem (aw_d w') !! c) as [v'|] eqn:E'; [|done]. exfalso.
        apply (Hn1 c); apply elem_of_list_fmap; [exists (c, v'); split; [done|by apply elem_of_map_to_list]|by exists (c, v)].
      + intros [H1 H2]. apply elem_of_map_to_list in H1. rewrite M in H1. apply elem_of_app in H1 as [H1|H1]; [|done].
        apply elem_of_map_to_list in H1. congruence.
    - intros c v H1. unfold xitem in *. apply elem_of_map_to_list. rewrite M. apply elem_of_app. left. by apply elem_of_map_to_list.
  Qed.
  Lemma xrval_moves sk o v : snd (sstep sk o) = RVal v -> moves o (RVal v).
  Proof.
    destruct sk as [a K]. unfold arc_spec_step. cbn [fst snd]. destruct (arc_spec_base _ _ a K o) as [a' r] eqn:E. cbn [snd]. intros ->.
    destruct o; try done; cbn in E; repeat case_match; by simplify_eq.
  Qed.
  Lemma base_plain (a : astate V) K o : ~ get_muts o -> arc_spec_base sz (c_clone cf) a K o = spec_step sz (c_clone cf) a o.
  Proof. by destruct o; intros H; try done; exfalso; apply H. Qed.
  Lemma sstep_plain sk o : ~ get_muts o -> fst (fst (sstep sk o)) = fst (spec_step sz (c_clone cf) (fst sk) o) /\ snd (sstep sk o) = snd (spec_step sz (c_clone cf) (fst sk) o).
  Proof. intros H. unfold arc_spec_step. rewrite base_plain by done. by destruct (spec_step _ _ _ _). Qed.
  Lemma arc_only_drops ops w o w' r : xreach cf ops w -> xstep cf w o = Ok (w', r) -> ~ destroys o r -> dtr (aw_d w') = dtr (aw_d w).
  Proof.
    intros R E Hd. pose proof (xreach_rel _ _ _ R) as Rl. destruct (xstep_rel cf _ _ _ _ _ Rl E) as [Hr Rl'].
    assert (moves o r \/ xput cf w o r = [] /\ got r = []) as [Hm|[Hp Hg]].
    { destruct (got r) as [|v l] eqn:Eg; [|left; destruct r; try done; by eapply xrval_moves].
      destruct (xput cf w o r) as [|v l] eqn:Ep; [by right|left]. unfold xput in Ep. by destruct o. }
    { by eapply xmoves_quiet. }
    assert (get_muts o \/ ~ get_muts o) as [Hgm|Hgm] by (destruct o; cbn; tauto).
    { destruct o; try done.
      - unfold xstep in E. cbn [astep] in E. destruct (xget w h) as [[]|]; try (by injection E as <- _).
        destruct (arc_get_mut _ _) as [[s1 [[p len]|]]| | |] eqn:E1; try done; cbn [mbind res_bind] in E; apply arc_get_mut_fst in E1; cbn in E1.
        + unfold xret_slice in E. destruct (mem_read _ _ _ _); try done. injection E as <- _. cbn. by rewrite E1.
        + injection E as <- _. cbn. by rewrite E1.
      - by eapply xmoves_quiet. }
    destruct (sstep_plain (xhist cf ops) o Hgm) as [Hs1 Hs2].
    destruct (arc_step_drops _ _ _ _ _ R E Hp Hg) as (nd & H1 & H2 & H3 & H4 & _). apply xdtr_dropped.
    enough (nd = []) as -> by (by rewrite H1, H2, !app_nil_r). apply elem_of_nil_inv. intros [c v] Hc. apply H4 in Hc as [Hc Hn].
    assert (is_Some (as_mem (fst (xhist cf ops)) !! c)) as Hs. { unfold xitem in Hc. rewrite <- (xrel_mem _ _ _ Rl) in Hc. by exists v. }
    subst r. destruct (spec_kept sz (c_clone cf) (fst (xhist cf ops)) o c) as [Hk|[v' Hk]]; try done.
    - intros _. apply cov_get. by apply (xfact_alive sz w _ (rel_pi _ _ _ Rl)).
    - intros h x l Hx Hl. eapply (xfact_tree sz w _ (rel_pi _ _ _ Rl)); [done|by left].
    - by rewrite <- Hs2.
    - unfold xitem in Hn. rewrite <- (xrel_mem _ _ _ Rl'), Hs1 in Hn. rewrite Hn in Hk. by destruct Hk.
    - by rewrite Hs2, Hk in Hg.
  Qed.
  Lemma arc_drop_exact ops w h w' r : xreach cf ops w -> xstep cf w (ODrop h) = Ok (w', r) ->
    exists nd : list ((nat * N) * V), xdropped_cells w' = xdropped_cells w ++ nd.*1 /\ xdropped w' = xdropped w ++ nd.*2 /\ NoDup nd.*1 /\
      forall c v, (c, v) ∈ nd <-> xitem w c = Some v /\ c ∈ x_cells cf w h /\ (forall h', h' <> h -> c ∉ x_cells cf w h').
  Proof.
    intros R E. pose proof (xreach_rel _ _ _ R) as Rl. destruct (xstep_rel cf _ _ _ _ _ Rl E) as [Hr Rl'].
    destruct (sstep_plain (xhist cf ops) (ODrop h)) as [Hs1 Hs2]; [by intros []|].
    destruct (arc_step_drops _ _ _ _ _ R E eq_refl) as (nd & H1 & H2 & H3 & H4 & _).
    { rewrite Hr, Hs2. cbn. by destruct (a_get _ h). }
    exists nd. split_and!; try done. intros c v. rewrite H4. unfold xitem. rewrite <- (xrel_mem _ _ _ Rl'), <- (xrel_mem _ _ _ Rl), Hs1.
    rewrite (xcells _ _ _ h Rl). set (a := fst (xhist cf ops)) in *. cbn [spec_step].
    assert (forall h' x, a_get a h' = Some x -> c ∈ hcells (as_trees a) x -> c ∈ x_cells cf w h') as Hin.
    { intros h' x Hx Hc. rewrite (xcells _ _ _ h' Rl). fold a. by rewrite Hx. }
    assert (forall h', c ∈ x_cells cf w h' -> exists x, a_get a h' = Some x /\ c ∈ hcells (as_trees a) x) as Hout.
    { intros h'. rewrite (xcells _ _ _ h' Rl). fold a. destruct (a_get a h') as [x|]; [eauto|by intros ?%elem_of_nil]. }
    destruct (a_get a h) as [x|] eqn:Ex; cbn [fst].
    - cbn [a_set as_mem]. unfold collect. rewrite map_filter_lookup_None. cbn [fst]. split.
      + intros [Hc Hn]. destruct Hn as [Hn|Hn]; [congruence|]. specialize (Hn v Hc).
        assert (forall h', h' <> h -> c ∉ x_cells cf w h') as Ho.
        { intros h' Hne Hc'. apply Hout in Hc' as (x' & Hx' & Hc'). apply Hn. eapply (cov_in (V := V) _ _ h'); [|done]. rewrite list_lookup_insert_ne by done. by apply get_lookup. }
        split_and!; try done. destruct (proj1 (xfact_alive sz w _ (rel_pi _ _ _ Rl) c)) as (h' & x' & Hx' & Hc'); [by exists v|].
        fold a in Hx', Hc'. destruct (decide (h' = h)) as [->|Hne]; [by simplify_eq|]. exfalso. by eapply Ho, Hin.
      + intros (Hc & Hx & Ho). split; [done|]. right. intros y Hy Hcov.
        apply (cov_get (AS [] (as_trees a) (∅ : gmap (nat * N) V) (<[h:=None]> (as_h a)))) in Hcov as (h' & x' & Hx' & Hc'). cbn [as_trees] in Hc'.
        unfold a_get in Hx'. cbn [as_h] in Hx'. destruct (decide (h' = h)) as [->|Hne].
        * apply get_lookup in Ex. rewrite list_lookup_insert in Hx' by (by eapply lookup_lt_Some). done.
        * rewrite list_lookup_insert_ne in Hx' by done. by eapply Ho, Hin.
    - split; [intros [? ?]; congruence|]. intros (_ & Hc & _). by apply elem_of_nil in Hc.
  Qed.
End arc.
