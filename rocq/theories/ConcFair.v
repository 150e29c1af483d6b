(** Calls come to an end whenever the scheduler is fair. *)
From Verif Require Import Base BaseLemmas Api SliceItemsModel Spec BinPartsModel DataModel RcModel DataInv DataSteps ArcModel ArcInv ArcConc ConcInv ConcGuard ConcWorld ConcSpec LiveSpec ConcTheory ConcShare SoloFuel ConcSolo ConcHold ConcAlone ConcEnd ConcWind ConcLive.
Local Open Scope nat_scope.
#[local] Arguments thr {_ _} _ _ : simpl never.

Section fairness.
  Context {V : Type} (sz : N).
  Notation stack := (list (frame V)).
  Implicit Types (s : cstate V) (t : nat) (es : list (sched (V:=V))).

  (** ** The measure of a state *)
  Definition total (w : frame V -> nat) (ts : list stack) : nat := sum_list_with (sm w) ts.
  Definition key s : nat * list nat :=
    (total asks (cs_t s),
     vec (fun x => total (req x) (cs_t s)) (fun x => total (stg (cs_g s) x) (cs_t s)) (length (gd_metas (cs_g s)))
         (total todo (cs_t s) + pot (cs_d s) (cs_g s))).
  Lemma total_insert w ts t st st' : ts !! t = Some st -> total w (<[t := st']> ts) + sm w st = total w ts + sm w st'.
  Proof. apply sum_insert. Qed.
  Lemma sm_ext w w' (st : stack) : (forall f, w f = w' f) -> sm w st = sm w' st.
  Proof. intros H. induction st as [|f st IH]; [done|]. by rewrite !sm_cons, H, IH. Qed.
  Lemma total_ext w w' ts : (forall f, w f = w' f) -> total w ts = total w' ts.
  Proof. intros H. unfold total. induction ts as [|st ts IH]; [done|]. cbn. by rewrite IH, (sm_ext _ _ st H). Qed.
  Lemma stg_ext g g' y : gd_metas g' !! y = gd_metas g !! y -> forall f : frame V, stg g' y f = stg g y f.
  Proof.
    intros H f. unfold stg. case_decide as Hf; [|done]. destruct f; cbn in *; try done; injection Hf as ->; unfold cur; by rewrite H.
  Qed.
  Lemma key_down d g ts d' g' t st st' h h' o o' l l' : ts !! t = Some st -> down d g st d' g' st' ->
    key_lt (key (CS d' g' h' (<[t := st']> ts) o' l')) (key (CS d g h ts o l)).
  Proof.
    intros Ht H. pose proof (fun w => total_insert w ts t st st' Ht) as HT.
    unfold key_lt, key. cbn [fst snd cs_t cs_g cs_d]. destruct H as [Ha|x Ha Hl Hx Hm Hy Hr|x Ha Hm Hx Hy Hr Hs|Ha Hm Hy Ht'].
    - left. specialize (HT asks). lia.
    - right. split; [specialize (HT asks); lia|]. rewrite Hl. apply vec_lt with x; [done| |].
      + intros y Hlt. destruct (Hy y Hlt) as [E1 E2]. rewrite (total_ext _ _ _ (stg_ext g g' y (Hm y ltac:(lia)))).
        pose proof (HT (req y)). pose proof (HT (stg g y)). lia.
      + left. specialize (HT (req x)). lia.
    - right. split; [specialize (HT asks); lia|]. rewrite Hm.
      assert (forall y, total (stg g' y) (<[t := st']> ts) = total (stg g y) (<[t := st']> ts)) as E by (intros y; apply total_ext, stg_ext; by rewrite Hm).
      apply vec_lt with x; [done| |].
      + intros y Hlt. destruct (Hy y Hlt) as [E1 E2]. rewrite E. pose proof (HT (req y)). pose proof (HT (stg g y)). lia.
      + right. rewrite E. pose proof (HT (req x)). pose proof (HT (stg g x)). lia.
    - right. split; [specialize (HT asks); lia|]. rewrite Hm.
      assert (forall y, total (stg g' y) (<[t := st']> ts) = total (stg g y) (<[t := st']> ts)) as E by (intros y; apply total_ext, stg_ext; by rewrite Hm).
      apply vec_eq.
      + intros y Hlt. destruct (Hy y Hlt) as [E1 E2]. rewrite E. pose proof (HT (req y)). pose proof (HT (stg g y)). lia.
      + specialize (HT todo). lia.
  Qed.

  Lemma reach_aged n es s : creach sz n es s -> meta_aged (cs_g s).
  Proof. intros [D G]%GI_reach x m y. apply (gi_meta _ _ _ _ _ (G_inv _ _ G)). Qed.
  Lemma wait_closed s t y down (k : stack) n : cs_t s !! t = Some (FWait y down :: k) -> (forall y down, ~ waits s t y down) ->
    rc_val (gd_guards (cs_g s)) y = Ok n -> a_gate down n = false.
  Proof.
    intros Ht Hw Hn. destruct (a_gate down n) eqn:E; [|done]. destruct (Hw y down). split; [eauto|]. exists n. split; [|done].
    unfold rc_val in Hn. destruct (rc_get _ _); [|done]. by injection Hn as ->.
  Qed.
  Lemma step_key s t s' : meta_aged (cs_g s) -> busy s t -> tstep sz s t = Ok s' -> key_lt (key s') (key s).
  Proof.
    intros Ha (Ht & Hf & Hw) Hs. apply lookup_lt_is_Some in Ht as [st Ht]. destruct s as [d g h ts o l]. cbn [cs_g cs_t] in *.
    destruct (tstep_cases sz (CS d g h ts o l) t st Ht) as [[-> E]|[(r & -> & E)|[(x & v & b & -> & E)|[(r & -> & E)|E]]]].
    - destruct Hf. by left.
    - destruct Hf. right. by exists r.
    - rewrite E in Hs. injection Hs as <-. unfold finish, put_out, set_thread, set_slots. cbn [cs_d cs_g cs_h cs_t cs_out cs_log].
      eapply key_down; [done|]. apply (down_plain d g d g [FV (VFin x v); KEnd b] [] []); [by repeat constructor..|done|done|cbn; lia].
    - rewrite E in Hs. injection Hs as <-. unfold set_thread. cbn [cs_d cs_g cs_h cs_t cs_out cs_log].
      eapply key_down; [done|]. apply (down_plain d g d g [FV (VHold r); KEnd None] [FHold r; KEnd None] []); [by repeat constructor..|done|done|cbn; lia].
    - rewrite E in Hs. cbn [cs_d cs_g cs_h cs_t cs_out cs_log] in Hs. destruct (mstep sz d g st) as [[[d' g'] st']| | |] eqn:Em; try done.
      cbn [mbind res_bind] in Hs. injection Hs as <-. eapply key_down; [done|]. eapply mstep_down; [done..|].
      intros y dn k n -> Hn. eapply (wait_closed (CS d g h ts o l)); done.
  Qed.
  (** A thread that is not busy stays where it is. *)
  Lemma gate_dec s y down : {gate_closed s y down} + {~ gate_closed s y down}.
  Proof.
    unfold gate_closed. destruct (rc_get (gd_guards (cs_g s)) y) as [n|]; [|right; by intros (? & ? & _)].
    destruct (a_gate down n) eqn:E; [left; eauto|]. right. intros (n' & [= <-] & E'). congruence.
  Qed.
  Lemma shape (st : stack) : st = [] \/ (exists r, st = [FHold r; KEnd None]) \/ (exists y down k, st = FWait y down :: k) \/
    (st <> [] /\ (forall r, st <> [FHold r; KEnd None]) /\ forall y down k, st <> FWait y down :: k).
  Proof.
    destruct st as [|f k]; [by left|]. right. destruct f; try (right; right; done).
    - right. left. eauto.
    - destruct k as [|f k]; [right; right; done|]. destruct f; try (right; right; done). destruct h; [right; right; done|].
      destruct k; [|right; right; done]. left. eauto.
  Qed.
  Lemma busy_cases s t : t < length (cs_t s) -> busy s t \/ free s t \/ exists y down, waits s t y down.
  Proof.
    intros Hlt. pose proof Hlt as [st Ht]%lookup_lt_is_Some.
    destruct (shape st) as [->|[(r & ->)|[(y & down & k & ->)|(H1 & H2 & H3)]]].
    - right; left. by left.
    - right; left. right. by exists r.
    - destruct (gate_dec s y down) as [Hg|Hg]; [right; right; exists y, down; split; [eauto|done]|].
      left. split; [done|]. unfold free, idle, holds_mut. rewrite Ht. split; [by intros [H|[r H]]|].
      intros y' down' [[k' Hk] Hg']. rewrite Ht in Hk. by injection Hk as <- <- <-.
    - left. split; [done|]. unfold free, idle, holds_mut. rewrite Ht. split; [intros [H|[r H]]; injection H as H; naive_solver|].
      intros y' down' [[k' Hk] Hg']. rewrite Ht in Hk. injection Hk as Hk. naive_solver.
  Qed.
  Lemma waits_not_free s t y down : waits s t y down -> ~ free s t.
  Proof. intros [[k Ht] _]. unfold free, idle, holds_mut. rewrite Ht. by intros [H|[r H]]. Qed.
  Lemma busy_dec s t : busy s t \/ ~ busy s t.
  Proof.
    destruct (decide (t < length (cs_t s))) as [Hlt|Hlt]; [|right; by intros [H _]].
    destruct (busy_cases s t Hlt) as [H|[H|(y & down & H)]]; [by left|right; by intros (_ & H' & _)|right; intros (_ & _ & H'); by eapply H'].
  Qed.
  Lemma rest_step s t : ~ busy s t -> tstep sz s t = Ok s.
  Proof.
    intros Hb. destruct (decide (t < length (cs_t s))) as [Hlt|Hlt].
    2: { unfold tstep. by rewrite (lookup_ge_None_2 (cs_t s) t) by lia. }
    destruct (busy_cases s t Hlt) as [H|[[H|[r H]]|(y & down & [k Ht] & n & Hn & Hg)]]; [done|..].
    - unfold tstep. by rewrite H.
    - unfold tstep. by rewrite H.
    - destruct (tstep_cases sz s t _ Ht) as [[? _]|[(r & ? & _)|[(x & v & b & ? & _)|[(r & ? & _)|E]]]]; try done. rewrite E. cbn [mstep].
      unfold rc_val. rewrite Hn. cbn [mbind res_bind]. rewrite Hg. cbn [mbind res_bind step_log]. rewrite app_nil_r, list_insert_id by done. by destruct s.
  Qed.

  (** ** Bounded work *)
  Definition reached n s : Prop := exists es, creach sz n es s.
  Lemma reached_step n s t s' : reached n s -> tstep sz s t = Ok s' -> reached n s'.
  Proof.
    intros [es Hr] Hs. exists (es ++ [SStep t]). apply crun_app. exists s. split; [done|]. cbn [crun cstep]. by rewrite Hs.
  Qed.
  Lemma reached_aged n s : reached n s -> meta_aged (cs_g s).
  Proof. intros [es Hr]. by eapply reach_aged. Qed.
  Lemma reached_len n s : reached n s -> length (cs_t s) = n.
  Proof. intros [es Hr]. by eapply reach_len. Qed.
  Theorem work_bounded n es s : creach sz n es s -> exists b, forall ts k s', works sz s ts k s' -> k <= b.
  Proof.
    intros Hr0. assert (reached n s) as Hr by by exists es. clear Hr0 es. remember (key s) as q eqn:Eq.
    revert s Hr Eq. induction (key_acc q) as [q _ IH]. intros s Hr ->.
    (* a bound for all that follows a step of one of the threads *)
    assert (forall m, m <= n -> exists b, forall t s1 ts k s', t < m -> busy s t -> tstep sz s t = Ok s1 -> works sz s1 ts k s' -> k <= b) as Hm.
    { induction m as [|m IHm]; intros Hmn; [exists 0; intros; lia|]. destruct IHm as [b Hb]; [lia|].
      destruct (busy_dec s m) as [Hbu|Hbu].
      2: { exists b. intros t s1 ts k s' Ht. destruct (decide (t = m)) as [->|Hne]; [done|]. intros H1 H2 H3. eapply (Hb t); [lia|done..]. }
      destruct (tstep sz s m) as [s2| | |] eqn:Es.
      2-4: exists b; intros t s1 ts k s' Ht Hbt Hst Hw; destruct (decide (t = m)) as [->|]; [congruence|]; eapply (Hb t); [lia|done..].
      destruct (IH (key s2)) with (s := s2) as [b2 Hb2]; [by eapply step_key; [eapply reached_aged|..]|by eapply reached_step|done|].
      exists (max b b2). intros t s1 ts k s' Ht Hbt Hst Hw. destruct (decide (t = m)) as [->|Hne].
      - assert (s1 = s2) as -> by congruence. specialize (Hb2 _ _ _ Hw). lia.
      - assert (k <= b) by (eapply Hb; [|done..]; lia). lia. }
    destruct (Hm n) as [b Hb]; [lia|]. exists (S b). intros ts k s' Hw. clear IH Hm. induction Hw as [s|s t s1 ts k s' Hbu Hs Hw IHw|s t s1 ts k s' Hbu Hs Hw IHw].
    - lia.
    - assert (k <= b); [|lia]. eapply Hb; [|done..]. rewrite <- (reached_len _ _ Hr). apply Hbu.
    - rewrite (rest_step _ _ Hbu) in Hs. injection Hs as <-. by apply IHw.
  Qed.

  (** ** Nobody waits for nobody *)
  Theorem waits_for n es s t y down : creach sz n es s -> waits s t y down -> exists t', has_latch s t' y down /\ busy s t'.
  Proof.
    intros [D G]%GI_reach [Hk (m & Hm & Hg)]. pose proof (latch_gate _ _ G y down) as E. rewrite Hm, Hg, latches_lcnt in E.
    assert ((y, down) ∈ thr fL (cs_t s)) as (t' & st & Ht' & Hin)%thr_elem.
    { destruct (filter (fun z => z = (y, down)) (thr fL (cs_t s))) as [|z l] eqn:Ef; [unfold lcnt2 in E; by rewrite Ef in E|].
      assert (z ∈ filter (fun z => z = (y, down)) (thr fL (cs_t s))) as Hz by (rewrite Ef; left). by apply elem_of_list_filter in Hz as [-> Hz]. }
    exists t'. split.
    - exists st. split; [done|]. unfold stk in Hin. apply elem_of_list_bind in Hin as (f & Hf & Hin). destruct f; cbn in Hf; try by apply elem_of_nil in Hf.
      apply elem_of_list_singleton in Hf. by injection Hf as -> ->.
    - assert (t' < length (cs_t s)) as Hlt by (by eapply lookup_lt_Some). destruct (busy_cases s t' Hlt) as [H|[[H|[r H]]|(y' & down' & [k H] & H')]]; [done|exfalso..].
      + unfold idle in H. assert (st = []) as -> by congruence. by apply elem_of_nil in Hin.
      + unfold holds_mut in H. assert (st = [FHold r; KEnd None]) as -> by congruence. cbn in Hin. by apply elem_of_nil in Hin.
      + assert (st = FWait y' down' :: k) as -> by congruence. destruct (G_run _ _ G t' _ Ht') as [b Hrun]. destruct (run_wait _ _ _ _ _ Hrun) as [_ E'].
        rewrite stk_cons, E' in Hin. by apply elem_of_nil in Hin.
  Qed.
  Lemma all_free n s : reached n s -> (forall t, t < n -> ~ busy s t) -> forall t, t < n -> free s t.
  Proof.
    intros Hr Hb t Ht. pose proof (reached_len _ _ Hr) as Hl. destruct (busy_cases s t) as [H|[H|(y & down & H)]]; [lia|by apply Hb in H|done|].
    destruct Hr as [es Hr]. destruct (waits_for _ _ _ _ _ _ Hr H) as (t' & _ & Hbu). destruct (Hb t'); [|done]. destruct Hbu. lia.
  Qed.
  Lemma some_busy n s : (forall t, t < n -> ~ busy s t) \/ exists t, t < n /\ busy s t.
  Proof.
    induction n as [|n [IH|(t & Ht & IH)]]; [left; intros; lia| |right; exists t; split; [lia|done]].
    destruct (busy_dec s n) as [H|H]; [right; exists n; split; [lia|done]|left]. intros t Ht. destruct (decide (t = n)) as [->|]; [done|]. apply IH. lia.
  Qed.

  (** ** Fair schedulers *)
  Lemma turns_S f m : @turns V f (S m) = SStep (f 0) :: turns (fun i => f (S i)) m.
  Proof. unfold turns. cbn [seq fmap list_fmap]. f_equal. rewrite <- seq_shift. rewrite <- list_fmap_compose. done. Qed.
  Theorem fair_ends n s f : reached n s -> fair n f -> (forall m, exists s', crun sz s (turns f m) = Ok s') ->
    exists m s', crun sz s (turns f m) = Ok s' /\ forall t, t < n -> free s' t.
  Proof.
    remember (key s) as q eqn:Eq. revert s f Eq. induction (key_acc q) as [q _ IH]. intros s f -> Hr Hf Hok.
    destruct (some_busy n s) as [Hb|(t & Ht & Hb)].
    { exists 0, s. split; [done|]. by apply all_free. }
    destruct (Hf t 0 Ht) as (j & _ & Hj).
    (* up to turn [j] some busy thread has had its turn *)
    assert (forall j f, fair n f -> (forall m, exists s', crun sz s (turns f m) = Ok s') -> f j = t ->
      exists m s', crun sz s (turns f m) = Ok s' /\ forall t, t < n -> free s' t) as Hgo; [|by eapply Hgo].
    clear j f Hf Hok Hj. induction j as [|j IHj]; intros f Hf Hok Hj.
    all: assert (fair n (fun i => f (S i))) as Hf' by
      (intros t' i Ht'; destruct (Hf t' (S i) Ht') as (j' & Hj' & E); destruct j' as [|j']; [lia|]; exists j'; split; [lia|done]).
    all: destruct (tstep sz s (f 0)) as [s1| | |] eqn:Es; [|destruct (Hok 1) as [s' H]; rewrite turns_S in H; cbn in H; by rewrite Es in H..].
    all: assert (forall m, exists s', crun sz s1 (turns (fun i => f (S i)) m) = Ok s') as Hok'
      by (intros m; destruct (Hok (S m)) as [s' H]; rewrite turns_S in H; cbn [crun cstep] in H; rewrite Es in H; by exists s').
    all: assert (forall m s', crun sz s1 (turns (fun i => f (S i)) m) = Ok s' -> crun sz s (turns f (S m)) = Ok s') as Hback
      by (intros m s' H; rewrite turns_S; cbn [crun cstep]; by rewrite Es).
    - subst t. destruct (IH (key s1)) with (s := s1) (f := fun i => f (S i)) as (m & s' & H1 & H2);
        [by eapply step_key; [eapply reached_aged|..]|done|by eapply reached_step|done..|]. exists (S m), s'. auto.
    - destruct (busy_dec s (f 0)) as [Hb0|Hb0].
      + destruct (IH (key s1)) with (s := s1) (f := fun i => f (S i)) as (m & s' & H1 & H2);
          [by eapply step_key; [eapply reached_aged|..]|done|by eapply reached_step|done..|]. exists (S m), s'. auto.
      + rewrite (rest_step _ _ Hb0) in Es. injection Es as <-. destruct (IHj (fun i => f (S i))) as (m & s' & H1 & H2); [done..|]. exists (S m), s'. auto.
  Qed.

  (** ** One thread on its own *)
  Lemma stay s t s' t' : tstep sz s t = Ok s' -> t' <> t -> cs_t s' !! t' = cs_t s !! t'.
  Proof.
    intros Hs Hne. destruct (cs_t s !! t) as [st|] eqn:Ht.
    2: { unfold tstep in Hs. rewrite Ht in Hs. by injection Hs as <-. }
    destruct (tstep_cases sz s t st Ht) as [[-> E]|[(r & -> & E)|[(x & v & b & -> & E)|[(r & -> & E)|E]]]]; rewrite E in Hs.
    1-4: injection Hs as <-; try done.
    1-2: cbn; by rewrite list_lookup_insert_ne.
    destruct (mstep _ _ _ _) as [[[d' g'] st']| | |]; try done. cbn [mbind res_bind] in Hs. injection Hs as <-. cbn. by rewrite list_lookup_insert_ne.
  Qed.
  Lemma solo_ends n s t : reached n s -> t < n -> (forall m, exists s', crun sz s (replicate m (SStep t)) = Ok s') ->
    exists m s', crun sz s (replicate m (SStep t)) = Ok s' /\ (free s' t \/ exists y down, waits s' t y down) /\ forall t', t' <> t -> cs_t s' !! t' = cs_t s !! t'.
  Proof.
    remember (key s) as q eqn:Eq. revert s Eq. induction (key_acc q) as [q _ IH]. intros s -> Hr Ht Hok.
    destruct (busy_cases s t) as [Hb|Hb]; [by rewrite (reached_len _ _ Hr)| |by exists 0, s].
    destruct (tstep sz s t) as [s1| | |] eqn:Es; [|destruct (Hok 1) as [s' H]; cbn in H; by rewrite Es in H..].
    destruct (IH (key s1)) with (s := s1) as (m & s' & H1 & H2 & H3);
      [by eapply step_key; [eapply reached_aged|..]|done|by eapply reached_step|done| |].
    { intros m. destruct (Hok (S m)) as [s' H]. cbn [replicate crun cstep] in H. rewrite Es in H. by exists s'. }
    exists (S m), s'. split; [cbn [replicate crun cstep]; by rewrite Es|]. split; [done|].
    intros t' Hne. rewrite H3 by done. by eapply stay.
  Qed.

  (** ** As stated in PropLive.v *)
  Lemma creach_split n es es' s s' : creach sz n es s -> creach sz n (es ++ es') s' <-> crun sz s es' = Ok s'.
  Proof.
    intros Hr. split.
    - intros (s1 & H1 & H2)%crun_app. unfold creach in Hr. rewrite Hr in H1. by injection H1 as <-.
    - intros H. apply crun_app. by exists s.
  Qed.
  Theorem solo_rest n es s t : creach sz n es s -> t < n -> (forall m, exists s', creach sz n (es ++ replicate m (SStep t)) s') ->
    exists m s', creach sz n (es ++ replicate m (SStep t)) s' /\ (free s' t \/ exists y down, waits s' t y down) /\ forall t', t' <> t -> cs_t s' !! t' = cs_t s !! t'.
  Proof.
    intros Hr Ht Hok. destruct (solo_ends n s t) as (m & s' & H1 & H2 & H3); [by exists es|done| |].
    { intros m. destruct (Hok m) as [s' H]. exists s'. by apply (creach_split _ _ _ _ _ Hr). }
    exists m, s'. split; [by apply (creach_split _ _ _ _ _ Hr)|]. done.
  Qed.
  Theorem solo_rest_calm n es s t : always sz calm n es -> creach sz n es s -> uncontended s t -> t < n ->
    exists m s', creach sz n (es ++ replicate m (SStep t)) s' /\ (free s' t \/ exists y down, waits s' t y down) /\ forall t', t' <> t -> cs_t s' !! t' = cs_t s !! t'.
  Proof.
    intros Hc Hr Hu Ht. apply (solo_rest n es s t); [done..|]. intros m.
    destruct (calm_after sz n es s t (replicate m (SStep t)) Hc Hr Hu) as [Ha _]; [by apply Forall_replicate|].
    destruct (calm_inv sz n _ Ha) as (s2 & _ & _ & _ & Hr2 & _). eauto.
  Qed.
  Theorem fair_rest n es s f : creach sz n es s -> fair n f -> (forall m, exists s', creach sz n (es ++ turns f m) s') ->
    exists m s', creach sz n (es ++ turns f m) s' /\ forall t, t < n -> free s' t.
  Proof.
    intros Hr Hf Hok. destruct (fair_ends n s f) as (m & s' & H1 & H2); [by exists es|done| |].
    { intros m. destruct (Hok m) as [s' H]. exists s'. by apply (creach_split _ _ _ _ _ Hr). }
    exists m, s'. split; [by apply (creach_split _ _ _ _ _ Hr)|]. done.
  Qed.
  Theorem fair_calm n es f : (forall m, always sz calm n (es ++ turns f m)) -> fair n f ->
    exists m s', creach sz n (es ++ turns f m) s' /\ forall t, t < n -> free s' t.
  Proof.
    intros Hc Hf. assert (forall m, exists s', creach sz n (es ++ turns f m) s') as Hok.
    { intros m. destruct (calm_inv sz n _ (Hc m)) as (s2 & _ & _ & _ & Hr2 & _). eauto. }
    destruct (Hok 0) as [s Hr]. rewrite app_nil_r in Hr. by eapply fair_rest.
  Qed.
  Theorem fair_plain n es f : no_into_mut es \/ no_upgrade es -> fair n f ->
    exists m s', creach sz n (es ++ turns f m) s' /\ forall t, t < n -> free s' t.
  Proof.
    intros Hn Hf. assert (forall m, exists s', creach sz n (es ++ turns f m) s') as Hok.
    { intros m. destruct Hn as [Hn|Hn].
      - apply share_safe. apply Forall_app; split; [done|]. apply Forall_fmap, Forall_true. done.
      - destruct (calm_inv sz n (es ++ turns f m)) as (s2 & _ & _ & _ & Hr2 & _); [|eauto].
        apply no_upgrade_calm. apply Forall_app; split; [done|]. apply Forall_fmap, Forall_true. done. }
    destruct (Hok 0) as [s Hr]. rewrite app_nil_r in Hr. by eapply fair_rest.
  Qed.
  Theorem winds_down n es s : always sz calm n es -> creach sz n es s ->
    exists es' s', Forall goes_on es' /\ always sz calm n (es ++ es') /\ creach sz n (es ++ es') s' /\ quiescent s'.
  Proof. apply wind_down. Qed.
End fairness.
