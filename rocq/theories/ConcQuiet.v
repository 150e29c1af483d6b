(** Guards live no longer than the slices that need them; [get_mut] sees the [WeakSlice]s. *)
From Verif Require Import Base BaseLemmas Api SliceItemsModel Spec DataModel RcModel DataInv DataSteps GuardInv ArcModel ArcInv ArcConc ConcInv ConcGuard ConcWorld ConcChild ConcData ConcSafe ConcSpec ConcTheory ConcConserve ConcShare ConcTree ConcCov ConcCalm ConcHold.
Local Open Scope nat_scope.
#[local] Arguments slo {A} F hs : simpl never.
#[local] Arguments thr {V A} F ts : simpl never.

Section quiet.
  Context {V : Type} (sz : N).
  Notation stack := (list (frame V)).
  Implicit Types (s : cstate V) (t : nat) (es : list (sched (V:=V))).

  (** ** Guards *)
  Lemma below_trans_half g x y z : data_parent g y = Some x -> y = z \/ below g y z -> below g x z.
  Proof.
    intros Hp [<-|Hb]; [by constructor|]. induction Hb as [z Hz|q z Hz Hb IH].
    - eapply below_more; [done|]. by constructor.
    - by eapply below_more.
  Qed.
  Lemma guard_slice s D : GI s D -> quiescent s -> forall m y n x, length (gd_guards (cs_g s)) - y <= m ->
    rc_get (gd_guards (cs_g s)) y = Some n -> D !! y = Some x ->
    exists h r, cget s h = Some (XArc r) /\ (ar_data r = x \/ below (cs_g s) x (ar_data r)).
  Proof.
    intros G Q. pose proof (G_inv _ _ G) as I. rewrite !quiescent_tot in I by done.
    induction m as [|m IH]; intros y n x Hm Hy Hx; destruct (rc_get_Some _ _ _ Hy) as [c Hl]; pose proof (live_lt _ _ _ _ Hl) as Hlt; [lia|].
    destruct c as [|c]; [by destruct (gi_pos _ _ _ _ _ I _ _ Hl)|].
    pose proof (gi_cnt _ _ _ _ _ I y) as E. rewrite (rc_count_live _ _ _ _ Hl) in E.
    destruct (decide (y ∈ slo hG (cs_h s))) as [Hin|Hn].
    - apply slo_elem in Hin as (h & v & k & Hh & Hv). destruct v as [r| | | | |]; try by apply elem_of_nil in Hv.
      apply elem_of_list_singleton in Hv as ->. exists h, r. split; [by eapply cget_of|]. left.
      pose proof (G_slot _ _ G _ _ _ Hh) as Hr. cbn in Hr. unfold rok in Hr. congruence.
    - apply cnt_zero in Hn. destruct (hsum_pos (fun n => cnt y (a_pars n)) (gd_guards (cs_g s))) as (j & c' & n' & Hj & Hp); [lia|].
      apply cnt_pos in Hp. unfold a_pars in Hp. destruct (a_parent n') as [p|] eqn:Ep; [|by apply elem_of_nil in Hp].
      apply elem_of_list_singleton in Hp as <-. pose proof (rc_get_live _ _ _ _ Hj) as Hg.
      destruct (lookup_lt_is_Some_2 D j) as [x' Hx']; [rewrite (gi_len _ _ _ _ _ I); by eapply live_lt|].
      destruct (gi_par _ _ _ _ _ I _ _ _ _ Hg Ep Hx') as (Hlt' & mt & z & Hmt & Hz & HD).
      assert (z = x) as -> by congruence.
      destruct (IH j n' x') as (h & r & Hh & Hr); [lia|done|done|]. exists h, r. split; [done|]. right.
      eapply below_trans_half; [|destruct Hr as [Hr|Hr]; [by left|right; exact Hr]]. unfold data_parent. by rewrite Hmt.
  Qed.
  Theorem guard_needed n es s x y : creach sz n es s -> quiescent s -> installed s x = Some y ->
    exists h r, cget s h = Some (XArc r) /\ (ar_data r = x \/ below (cs_g s) x (ar_data r)).
  Proof.
    intros Hr Q Hi. destruct (GI_reach _ _ _ _ Hr) as [D G]. destruct (proj1 (installed_iff _ _ G x y) Hi) as [[m Hm] HD].
    by eapply guard_slice.
  Qed.
  Theorem guards_gone n es s : creach sz n es s -> quiescent s -> (forall h r, cget s h <> Some (XArc r)) ->
    forall y, ~ galive s y.
  Proof.
    intros Hr Q Hn y Hy. destruct (one_guard _ _ _ _ _ Hr Hy) as (x & Hx & _).
    destruct (guard_needed _ _ _ _ _ Hr Q Hx) as (h & r & Hh & _). by eapply Hn.
  Qed.

  (** ** [WeakSlice]s and [get_mut] *)
  Definition past (st : stack) (r : arcslice) : Prop :=
    exists f k, st = f :: k /\ match f with FGm3 r' | FGm4 r' | FGm5 r' | FV (VHold r') | FHold r' => r' = r | _ => False end.
  Definition downs s (y : nat) : Prop := exists t r k, cs_t s !! t = Some (FDown r :: k) /\ ar_guard r = y.
  Definition noweak s (y : nat) : Prop := y ∉ tot hW fW s /\ ~ downs s y.
  Definition NW s : Prop := forall t st r, cs_t s !! t = Some st -> past st r -> noweak s (ar_guard r).

  Ltac mdes H := repeat (first
      [ match type of H with mbind _ _ = Ok _ => let x := fresh "x" in let Hx := fresh "Hx" in apply bind_inv in H as (x & Hx & H) end
      | match type of H with Ok _ = Ok _ => fail 1 | _ => idtac end; case_match; try done ]);
    subst; try (injection H as <- <- <-).
  Lemma rel_opt_fW (o : option nat) : stk fW (rel_opt (V:=V) o) = [].
  Proof. by destruct o. Qed.
  Lemma rels_fW (l : list nat) : stk fW (FRel (V:=V) <$> l) = [].
  Proof. by induction l. Qed.
  Lemma mstep_fW d g (st : stack) d' g' st' i : mstep sz d g st = Ok (d', g', st') -> i ∈ stk fW st' ->
    i ∈ stk fW st \/ (exists x k, st = FCloneW x (Some i) :: k) \/ exists r k, st = FDown r :: k /\ ar_guard r = i.
  Proof.
    intros H Hi. destruct st as [|f k]; [done|]. destruct f; try done; cbn [mstep] in H; mdes H.
    all: repeat rewrite ?stk_cons, ?stk_app, ?rels_fW, ?rel_opt_fW in Hi; repeat rewrite ?stk_cons; cbn [fW app hW option_list] in *.
    all: rewrite ?elem_of_app, ?elem_of_cons in *.
    all: try (by left); try tauto.
    - destruct g0 as [y|]; cbn in Hi; rewrite ?elem_of_list_singleton, ?elem_of_nil in Hi; [|tauto]. destruct Hi as [<-|Hi]; [right; left; eauto|by left].
    - assert (i = ar_guard r \/ i ∈ stk fW k) as [->|?] by set_solver; [|by left]. right. right. eauto.
  Qed.
  Lemma finish_fW s t h (x : option xhandle) o i : i ∈ tot hW fW (finish s t h x o) -> i ∈ tot hW fW s \/ exists y, x = Some y /\ i ∈ hW y.
  Proof.
    intros Hi. apply elem_of_app in Hi as [Hi|Hi]; cbn in Hi.
    - rewrite slo_app in Hi. apply elem_of_app in Hi as [Hi|Hi].
      + left. apply elem_of_app. left. destruct h as [h|]; cbn in Hi; [|done]. destruct (cs_h s !! h) as [[[y k]|]|] eqn:Hh; [|done..].
        by rewrite (slo_borrow _ _ _ _ _ _ Hh) in Hi.
      + rewrite slo_one in Hi. destruct x as [x|]; [eauto|by apply elem_of_nil in Hi].
    - left. apply elem_of_app. right. apply thr_elem in Hi as (t' & st & Ht & Hst). apply list_lookup_insert_Some in Ht as [(-> & <- & _)|[_ Ht]]; [by apply elem_of_nil in Hst|].
      apply thr_elem. eauto.
  Qed.
  Lemma thread_fW s t (st' : stack) i : i ∈ tot hW fW (set_thread s t st') -> i ∈ tot hW fW s \/ i ∈ stk fW st'.
  Proof.
    intros Hi. apply elem_of_app in Hi as [Hi|Hi]; cbn in Hi; [left; apply elem_of_app; by left|].
    apply thr_elem in Hi as (t' & st & Ht & Hst). apply list_lookup_insert_Some in Ht as [(-> & <- & _)|[_ Ht]]; [by right|].
    left. apply elem_of_app. right. apply thr_elem. eauto.
  Qed.
  Lemma slots_fW s h o x k i : cs_h s !! h = Some (Some (x, k)) -> (forall y j, o = Some (y, j) -> forall i, i ∈ hW y -> i ∈ hW x) ->
    i ∈ tot hW fW (set_slots s (<[h := o]> (cs_h s))) -> i ∈ tot hW fW s.
  Proof.
    intros Hh Ho Hi. apply elem_of_app in Hi as [Hi|Hi]; cbn in Hi; apply elem_of_app; [left|by right].
    rewrite (slo_upd hW _ _ _ _ Hh) in Hi. rewrite (slo_perm hW _ _ _ Hh). apply elem_of_app in Hi as [Hi|Hi]; apply elem_of_app; [left|by right].
    destruct o as [[y j]|]; [by eapply Ho|by apply elem_of_nil in Hi].
  Qed.
  Lemma slot_fW s h x k i : slot s h = Some (x, k) -> i ∈ hW x -> i ∈ tot hW fW s.
  Proof. intros Hh%slot_Some Hi. apply elem_of_app. left. apply slo_elem. eauto. Qed.
  Lemma cstart_fW s t o s' i : cstart sz s t o = Ok s' -> i ∈ tot hW fW s' -> i ∈ tot hW fW s.
  Proof.
    intros H Hi. unfold cstart in H. destruct (cs_t s !! t) as [[|f st]|] eqn:Ht; [|by injection H as <-..].
    destruct o; repeat (first
      [ match type of H with mbind _ _ = Ok _ => let x := fresh "x" in let Hx := fresh "Hx" in apply bind_inv in H as (x & Hx & H) end
      | match type of H with Ok _ = Ok _ => fail 1 | _ => idtac end; case_match; try done ]); subst; injection H as <-; try done.
    all: try (apply finish_fW in Hi as [Hi|(y & Hy & Hi)]; [|injection Hy as <-; by apply elem_of_nil in Hi]; try done).
    all: try (apply thread_fW in Hi as [Hi|Hi]; [|cbn in Hi; rewrite ?elem_of_app, ?elem_of_nil in Hi; try tauto; try (by eapply slot_fW; [done|]; cbn; tauto)]; try done).
    all: match goal with H : slot _ _ = Some _ |- _ => pose proof (slot_Some _ _ _ H) as Hh end.
    all: eapply slots_fW; [exact Hh| |exact Hi]; intros ? ? [=]; subst; done.
  Qed.
  Lemma cstep_fW s D e s' i : GI s D -> cstep sz s e = Ok s' -> i ∈ tot hW fW s' -> i ∈ tot hW fW s \/
    exists r k, cs_t s !! actor e = Some (FDown r :: k) /\ ar_guard r = i.
  Proof.
    intros G H Hi. destruct e as [t o|t|t j v|t]; cbn [cstep actor] in *.
    - left. by eapply cstart_fW.
    - apply tstep_log in H as [st [(Ht & st' & Ht' & Et & Hc)| ->]]; [|by left].
      destruct Hc as [(d & g & Hm & ->)|[(-> & x & o & h & -> & ->)|(r & -> & -> & ->)]].
      + destruct (thread_fW s t st' i Hi) as [?|Hs]; [by left|].
        destruct (mstep_fW _ _ _ _ _ _ _ Hm Hs) as [Hi'|[(x & k & ->)|(r & k & -> & <-)]].
        * left. apply elem_of_app. right. apply thr_elem. eauto.
        * left. destruct (G_run _ _ G t _ Ht) as [b Hr]. destruct (rest_borrow s D t _ G b (XWeak x (Some i)) Hr) as (_ & _ & Hw).
          { inversion Hr as [| | | | | | | |? ? ? Hf0|? ? ? ? Hf0| ? ? ? Hf0| | | | |? ? Hf0|? ? Hf0| |? ? Hf0| |]; subst; try done; try (by destruct Hf0). }
          specialize (Hw i). unfold rW in Hw. rewrite elem_of_app in Hw. apply elem_of_app.
          destruct Hw as [?|Hw]; [left|by left|right]. apply thr_delete_elem in Hw as (t' & st & _ & Ht1 & Hst). apply thr_elem. eauto.
        * right. eauto.
      + left. apply finish_fW in Hi as [Hi|(y & -> & Hi)]; [done|]. apply elem_of_app. right. apply thr_elem. eexists t, _. split; [done|].
        rewrite stk_cons. apply elem_of_app. by left.
      + left. apply thread_fW in Hi as [Hi|Hi]; [done|by apply elem_of_nil in Hi].
    - left. unfold hold_write in H. destruct (cs_t s !! t) as [st|] eqn:Ht; [|by injection H as <-].
      repeat (case_match; try (by injection H as <-)). subst. apply bind_inv in H as (m & _ & H).
      destruct (_ <? _)%N; [|by injection H as <-]. apply bind_inv in H as ([d old] & Hd & [= <-]). done.
    - left. unfold hold_end in H. destruct (cs_t s !! t) as [st|] eqn:Ht; [|by injection H as <-].
      repeat (case_match; try (by injection H as <-)). subst. injection H as <-.
      apply finish_fW in Hi as [Hi|(y & [= <-] & Hi)]; [done|by apply elem_of_nil in Hi].
  Qed.

  (** Where a thread past the count of [WeakSlice]s, or about to make one, comes from. *)
  Definition nodown (f : frame V) : Prop := match f with FDown _ => False | _ => True end.
  Definition dtail (st : stack) : Prop :=
    Forall nodown (tail st) \/ exists y r h, st = [FWait y true; FDown r; KEnd h].
  Lemma nodown_pre (l k : stack) : Forall nodown l -> Forall nodown k ->
    dtail (l ++ k) /\ forall r k', l ++ k <> FDown r :: k'.
  Proof.
    intros Hl Hk. assert (Forall nodown (l ++ k)) as H by by apply Forall_app. split.
    - left. destruct H; [constructor|done].
    - intros r k' E. rewrite E in H. by apply Forall_inv in H.
  Qed.
  Lemma nodown_rel (l : list nat) : Forall nodown (FRel (V:=V) <$> l).
  Proof. by apply Forall_fmap, Forall_forall. Qed.
  Lemma nodown_relg (o : option nat) : Forall nodown (rel_opt (V:=V) o).
  Proof. destruct o; by repeat constructor. Qed.
  Lemma mstep_down d g (st : stack) d' g' st' : mstep sz d g st = Ok (d', g', st') -> dtail st ->
    dtail st' /\ forall r k', st' = FDown r :: k' ->
      exists y h n, st = [FWait y true; FDown r; KEnd h] /\ rc_get (gd_guards g) y = Some n /\ a_gate true n = false.
  Proof.
    intros H [Hk|(y & r & h & ->)].
    - assert (exists l k', Forall nodown l /\ Forall nodown k' /\ st' = l ++ k') as (l & k' & Hl & Hk' & ->).
      { destruct st as [|f k]; [done|]. cbn in Hk. destruct f; try done; cbn [mstep] in H.
        all: repeat (first
          [ match type of H with mbind _ _ = Ok _ => let x := fresh "x" in let Hx := fresh "Hx" in apply bind_inv in H as (x & Hx & H) end
          | match type of H with Ok _ = Ok _ => fail 1 | _ => idtac end; case_match; try done ]).
        all: subst; injection H as <- <- <-.
        all: repeat match goal with H : Forall _ (_ :: _) |- _ => apply Forall_cons in H as [? ?] end.
        all: match goal with
          | |- context[(FRel <$> ?l) ++ _] => exists (FRel <$> l)
          | |- context[rel_opt ?o ++ _] => exists (rel_opt o)
          | |- _ => exists []
          end; eexists; (split; [first [apply nodown_rel|apply nodown_relg|constructor]|]); (split; [|reflexivity]); repeat (constructor; [exact Logic.I|]); done. }
      destruct (nodown_pre l k' Hl Hk') as [H1 H2]. split; [done|]. intros r k0 E. by destruct (H2 _ _ E).
    - cbn in H. apply bind_inv in H as (n & (c & Hn)%rc_val_inv & H). destruct (a_down n) eqn:E; injection H as <- <- <-.
      + split; [right; eauto|]. intros r' k' [=].
      + split; [left; by repeat constructor|]. intros r' k' [= <- <-]. exists y, h, n. split; [done|]. split; [by eapply rc_get_live|]. cbn. by rewrite E.
  Qed.
  Lemma mstep_past d g (st : stack) d' g' st' r : mstep sz d g st = Ok (d', g', st') -> Forall plain (tail st) -> past st' r ->
    past st r \/ exists k, st = FGm2 r :: k /\ gd_weak_count g (ar_guard r) = 1 /\ st' = FGm3 r :: k.
  Proof.
    intros H Hp Hpa. destruct st as [|f k]; [done|]. cbn in Hp. destruct f; try done; cbn [mstep] in H.
    all: repeat (first
      [ match type of H with mbind _ _ = Ok _ => let x := fresh "x" in let Hx := fresh "Hx" in apply bind_inv in H as (x & Hx & H) end
      | match type of H with Ok _ = Ok _ => fail 1 | _ => idtac end; case_match; try done ]); injection H as <- <- <-.
    all: destruct Hpa as (f' & k' & E & Hf); try (injection E as <- <-; cbn in Hf; try done; subst).
    all: try (by left; eexists _, _).
    all: try (exfalso; assert (Forall plain (f' :: k')) as HF; [rewrite <- E; repeat (first [apply Forall_app; split | apply Forall_rel; done | apply Forall_relg; done | apply Forall_cons; split | done])
      | apply Forall_inv in HF; destruct f'; try done; by destruct v]).
    right. eexists. split; [done|]. split; [by apply Nat.eqb_eq|done].
  Qed.

  Definition ND s : Prop := forall t st, cs_t s !! t = Some st -> dtail st.
  (** How the stack of a thread changes. *)
  Definition heads (st st' : stack) : Prop :=
    dtail st' /\ (forall r k, st' <> FDown r :: k) /\ (forall r, past st' r -> st = [FV (VHold r); KEnd None]).
  Ltac nohead := split; [first [by left; repeat constructor|right; by do 3 eexists]|split; [intros ? ?; done|by intros ? (? & ? & [= <- <-] & ?)]].
  Lemma heads_nil st : heads st [].
  Proof. split; [left; constructor|]. split; [done|]. by intros r (f & k & [=] & _). Qed.
  Lemma cstart_heads s t o s' : cstart sz s t o = Ok s' -> cs_t s' = cs_t s \/
    exists st', cs_t s !! t = Some [] /\ cs_t s' = <[t := st']> (cs_t s) /\ heads [] st'.
  Proof.
    intros Hs. unfold cstart in Hs. destruct (cs_t s !! t) as [[|f st]|] eqn:Ht; [|injection Hs as <-; by left..].
    destruct o; repeat (first
      [ match type of Hs with mbind _ _ = Ok _ => let x := fresh "x" in let Hx := fresh "Hx" in apply bind_inv in Hs as (x & Hx & Hs) end
      | match type of Hs with Ok _ = Ok _ => fail 1 | _ => idtac end; case_match; try done ]); subst; injection Hs as <-; try (by left); right;
      eexists; (split; [done|]); (split; [reflexivity|]); first [apply heads_nil|nohead].
  Qed.
  Lemma cstep_heads s e s' t st' : cstep sz s e = Ok s' -> cs_t s' !! t = Some st' -> cs_t s !! t = Some st' \/
    t = actor e /\ exists st, cs_t s !! t = Some st /\
      (heads st st' \/ exists d g, e = SStep t /\ mstep sz (cs_d s) (cs_g s) st = Ok (d, g, st')).
  Proof.
    intros Hs Ht'. assert (forall t0 st0 st1, cs_t s' = <[t0 := st1]> (cs_t s) -> cs_t s !! t0 = Some st0 -> t0 = actor e ->
      (heads st0 st1 \/ exists d g, e = SStep t0 /\ mstep sz (cs_d s) (cs_g s) st0 = Ok (d, g, st1)) ->
      cs_t s !! t = Some st' \/ t = actor e /\ exists st, cs_t s !! t = Some st /\
      (heads st st' \/ exists d g, e = SStep t /\ mstep sz (cs_d s) (cs_g s) st = Ok (d, g, st'))) as Hc.
    { intros t0 st0 st1 Et Ht0 Ha Hc. rewrite Et in Ht'. apply list_lookup_insert_Some in Ht' as [(-> & -> & _)|[_ ?]]; [|by left].
      right. split; [done|]. exists st0. done. }
    destruct e as [t0 o|t0|t0 j v|t0]; cbn [cstep actor] in *.
    - apply cstart_heads in Hs as [E|(st1 & Ht0 & E & Hh)]; [left; by rewrite <- E|]. eapply Hc; eauto.
    - apply tstep_log in Hs as [st [(Ht & st1 & Ht1 & Et & Hx)| ->]]; [|by left]. eapply Hc; [done..|].
      destruct Hx as [(d & g & Hm & _)|[(-> & _)|(r & -> & -> & _)]]; [right; eauto|left; apply heads_nil|left].
      split; [left; by repeat constructor|]. split; [done|]. intros r' (f & k & [= <- <-] & Hf). cbn in Hf. by subst.
    - left. unfold hold_write in Hs. destruct (cs_t s !! t0) as [st|] eqn:Ht; [|by injection Hs as <-].
      repeat (case_match; try (by injection Hs as <-)). subst. apply bind_inv in Hs as (m & _ & Hs).
      destruct (_ <? _)%N; [|by injection Hs as <-]. apply bind_inv in Hs as ([d old] & Hd & [= <-]). done.
    - unfold hold_end in Hs. destruct (cs_t s !! t0) as [st|] eqn:Ht; [|left; by injection Hs as <-].
      repeat (case_match; try (by left; injection Hs as <-)). subst. injection Hs as <-. eapply Hc; [done|done|done|left; apply heads_nil].
  Qed.
  Lemma ND_cstep s e s' : cstep sz s e = Ok s' -> ND s -> ND s'.
  Proof.
    intros Hs H t st' Ht'. destruct (cstep_heads _ _ _ _ _ Hs Ht') as [Ht|(_ & st & Ht & [Hh|(d & g & _ & Hm)])]; [by eapply H|apply Hh|].
    eapply mstep_down; [done|]. by eapply H.
  Qed.
  Lemma ND_reach n es s : creach sz n es s -> ND s.
  Proof.
    revert s. induction es as [|e es IH] using rev_ind; intros s Hr.
    - injection Hr as <-. intros t st Ht. cbn in Ht. apply lookup_replicate in Ht as [-> _]. left. constructor.
    - apply crun_app in Hr as (s1 & Hr & Hs). cbn in Hs. apply bind_inv in Hs as (s2 & Hs & [= <-]). eapply ND_cstep; [done|]. by apply IH.
  Qed.
  Lemma past_shape s D t (st : stack) r : GI s D -> cs_t s !! t = Some st -> past st r ->
    rok D r /\ ((ar_guard r, true) ∈ thr fL (cs_t s) \/ hold st (ar_data r)).
  Proof.
    intros G Ht (f & k & -> & Hf). destruct (G_run _ _ G t _ Ht) as [b Hr].
    assert ((ar_guard r, true) ∈ stk fL (f :: k) -> (ar_guard r, true) ∈ thr fL (cs_t s)) as HL. { intros H. apply thr_elem. eauto. }
    assert (rok D r /\ ((ar_guard r, true) ∈ stk fL (f :: k) \/ hold (f :: k) (ar_data r))) as [? [?|?]]; [|by auto..].
    inversion Hr as [| | | | |? v q ? Hv| | |? ? ? Hf0|? ? ? ? Hf0| ? ? ? Hf0| | | |? Ho|? ? Hf0 Ho|? ? Hf0 Ho| |? ? Hf0| |? Ho]; subst; try done; try (by destruct f); try (by destruct Hf0 as [-> | ->]).
    - destruct v as [| |r'|]; try done. cbn in Hf. subst. destruct Hv as [_ Hv]. split; [done|]. right. eexists _, _. split; [done|by left].
    - destruct Hf0 as [-> | ->]; cbn in Hf; [done|subst]. split; [done|]. left. cbn. left.
    - destruct Hf0 as [-> | ->]; cbn in Hf; subst; (split; [done|]); left; cbn; right; left.
    - cbn in Hf. subst. split; [done|]. right. eexists _, _. split; [done|by right].
  Qed.
  Lemma NW_step s D T L e s' : WI sz s D T L -> cstep sz s e = Ok s' -> ND s -> HM s -> calm_down s -> NW s -> NW s'.
  Proof.
    intros W Hs HN HH Hcd H t st' r Ht' Hpa. pose proof (W_G _ _ _ _ _ W) as G. pose proof (G_inv _ _ G) as GV.
    assert (exists st, cs_t s !! t = Some st /\ (past st r \/ t = actor e /\ exists k, st = FGm2 r :: k /\ gd_weak_count (cs_g s) (ar_guard r) = 1)) as (st & Ht & Hst).
    { destruct (cstep_heads _ _ _ _ _ Hs Ht') as [Ht|(Ea & st & Ht & [Hh|(d & g & _ & Hm)])]; [by eauto| |].
      - exists st. split; [done|]. left. destruct Hh as (_ & _ & Hh). rewrite (Hh r Hpa). by eexists _, _.
      - exists st. split; [done|]. destruct (mstep_past _ _ _ _ _ _ _ Hm (W_T _ _ _ _ _ W _ _ Ht) Hpa) as [?|(k & -> & Hc & _)]; [by left|]. right. eauto. }
    assert (noweak s (ar_guard r)) as [Hw Hd].
    { destruct Hst as [Hst|(Ea & k & -> & Hc)]; [by eapply H|]. split.
      - apply cnt_zero. unfold gd_weak_count in Hc. destruct (gd_weak (cs_g s) !! ar_guard r) as [c|] eqn:Ec; [|done].
        pose proof (gi_wcnt _ _ _ _ _ GV _ _ Ec). lia.
      - intros (t1 & r1 & k1 & Ht1 & E1). apply (Hcd t r t1 r1); [by eexists|by eexists|done]. }
    split.
    - intros Hi. destruct (cstep_fW _ _ _ _ _ G Hs Hi) as [?|(r1 & k1 & H1 & H2)]; [done|]. apply Hd. by do 3 eexists.
    - intros (t1 & r1 & k1 & Ht1 & E1).
      destruct (cstep_heads _ _ _ _ _ Hs Ht1) as [Ht2|(Ea & st1 & Ht2 & [Hh|(d & g & _ & Hm)])].
      + apply Hd. by do 3 eexists.
      + by destruct (proj1 (proj2 Hh) r1 k1).
      + destruct (mstep_down _ _ _ _ _ _ Hm (HN _ _ Ht2)) as [_ Hh]. destruct (Hh _ _ eq_refl) as (y & h & m & -> & Hy & Hg).
        destruct (G_run _ _ G _ _ Ht2) as [b Hr].
        assert (y = ar_guard r1 /\ b = Some (XArc r1)) as [-> ->].
        { inversion Hr as [| | | | | | | |? ? ? Hf0|? ? ? ? Hf0| ? ? ? Hf0| | | | |? ? Hf0|? ? Hf0| |? ? Hf0| |]; subst; try done; try (by destruct Hf0). }
        destruct Hst as [Hst|(Ea' & k & -> & _)]; [|by rewrite Ea, <- Ea', Ht in Ht2].
        destruct (past_shape _ _ _ _ _ G Ht Hst) as [Hok [HL|Hho]].
        * destruct (ginv_latch _ _ _ _ _ GV _ _ HL) as (c & m' & Hm' & Hg'). apply rc_get_live in Hm'. rewrite <- E1 in Hm'. congruence.
        * pose proof (HH _ _ _ Ht Hho) as [Ha _]. apply (Ha (ar_data r)); [|by left].
          destruct (run_borrow _ _ _ Hr) as (h' & Ho & EB). cbn in EB. destruct h' as [h'|]; [|done]. destruct Ho as (x & c & Hx & [= <-]).
          unfold rR. apply elem_of_app. left. apply slo_elem. exists h', (XArc r1), c. split; [done|]. cbn.
          pose proof (G_slot _ _ G _ _ _ Hx) as Hok1. cbn in Hok1. unfold rok in *. rewrite E1 in Hok1. rewrite Hok in Hok1. injection Hok1 as ->. left.
  Qed.
  Theorem no_weak n es s t r k : always sz calm n es -> always sz calm_get n es -> always sz calm_down n es -> creach sz n es s ->
    (cs_t s !! t = Some (FV (VHold r) :: k) \/ cs_t s !! t = Some (FHold r :: k)) -> forall od, ~ has s (XWeak od (Some (ar_guard r))).
  Proof.
    intros Hc Hg Hd Hr Ht.
    assert (NW s) as HN.
    { clear Ht. revert s Hr. induction es as [|e es IH] using rev_ind; intros s Hr.
      - injection Hr as <-. intros t0 st r0 Ht. cbn in Ht. apply lookup_replicate in Ht as [-> _]. by intros (f & k0 & [=] & _).
      - apply crun_app in Hr as (s1 & Hr & Hs). cbn in Hs. apply bind_inv in Hs as (s2 & Hs & [= <-]).
        destruct (hold_inv sz n es s1) as (D & T & L & W & _ & HH); [by eapply always_app|by eapply always_app|done|].
        eapply (NW_step s1); try done; [by eapply ND_reach| |].
        + eapply (always_last sz calm_down); [by eapply always_app|done].
        + apply IH; [by eapply always_app..|done]. }
    assert (exists st, cs_t s !! t = Some st /\ past st r) as (st & Hst & Hp). { destruct Ht as [Ht|Ht]; (eexists; split; [done|]); by eexists _, _. }
    destruct (HN _ _ _ Hst Hp) as [Hw _]. intros od Hh. apply Hw. apply elem_of_app. destruct Hh as [(h & Hh)|(t' & st' & Ht' & Hx)].
    - left. apply cget_slot in Hh as [c Hh]. apply slo_elem. eexists h, _, c. split; [done|]. cbn. left.
    - right. apply thr_elem. exists t', st'. split; [done|]. apply elem_of_list_bind in Hx as (f & Hf & Hin). apply stk_elem. exists f. split; [done|].
      destruct f; cbn in Hf; rewrite ?elem_of_list_singleton, ?elem_of_nil in Hf; try done. destruct v as [| | |[x|] o]; cbn in Hf; rewrite ?elem_of_list_singleton, ?elem_of_nil in Hf; try done.
      subst. cbn. left.
  Qed.
End quiet.
