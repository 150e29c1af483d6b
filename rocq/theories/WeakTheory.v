(** What the library guarantees when loads may be stale. *)
From Verif Require Import Base BaseLemmas Api SliceItemsModel Spec DataModel RcModel DataInv DataSteps GuardInv ArcModel ArcInv ArcConc ConcInv ConcGuard ConcWorld ConcChild ConcData ConcSafe ConcSpec ConcTheory ConcTree ConcConserve ConcShare ConcQuiet OrderModel WeakModel WeakInv.
Local Open Scope nat_scope.

Section theory.
  Context {V : Type} (sz : N) (acq : bool).
  Notation stack := (list (frame V)).
  Implicit Types (s : cstate V) (t : nat) (d : dworld V) (g : gdworld) (o : wstate V) (es : list (wsched V)).

  Lemma wrun_app o es es' o' : wrun sz acq o (es ++ es') = Ok o' <-> exists o1, wrun sz acq o es = Ok o1 /\ wrun sz acq o1 es' = Ok o'.
  Proof.
    revert o. induction es as [|e es IH]; intros o; cbn.
    - split; [eauto|]. by intros (? & [= ->] & ?).
    - split.
      + intros (o1 & Hs & Hr)%bind_inv. apply IH in Hr as (o2 & H1 & H2). exists o2. split; [|done]. by rewrite Hs.
      + intros (o1 & (o2 & Hs & Hr)%bind_inv & H). rewrite Hs. cbn. apply IH. eauto.
  Qed.
  Lemma wreach_snoc n es o e o' : wreach sz acq n es o -> wstep sz acq o e = Ok o' -> wreach sz acq n (es ++ [e]) o'.
  Proof. intros H1 H2. apply wrun_app. exists o. split; [done|]. cbn. by rewrite H2. Qed.
  Lemma wreach_ind (P : wstate V -> Prop) n es o : P (init_wstate n) -> (forall o D e o', WI sz o D -> P o -> wstep sz acq o e = Ok o' -> e ∈ es -> P o') ->
    wreach sz acq n es o -> P o /\ exists D, WI sz o D.
  Proof.
    intros H0 HP Hr. assert (forall es1 es2 o1, es = es1 ++ es2 -> wreach sz acq n es1 o1 -> P o1 /\ exists D, WI sz o1 D) as H.
    { intros es1. induction es1 as [|e es1 IH] using rev_ind; intros es2 o1 Ees H1.
      - injection H1 as <-. split; [done|]. eexists. apply WI_init.
      - apply wrun_app in H1 as (o2 & H1 & H2). cbn in H2. apply bind_inv in H2 as (o3 & H2 & [= <-]).
        destruct (IH (e :: es2) o2) as (HPo & D & I); [by rewrite <- app_assoc in Ees|done|].
        split.
        + eapply HP; [done..|]. rewrite Ees, !elem_of_app. left. right. by apply elem_of_list_singleton.
        + destruct (WI_step _ _ _ _ _ _ I H2) as [X I']. eauto. }
    eapply (H es []); [by rewrite app_nil_r|done].
  Qed.
  Theorem weak_WI n es o : wreach sz acq n es o -> exists D, WI sz o D.
  Proof. intros Hr. by apply (wreach_ind (fun _ => True) n es o) in Hr as [_ ?]. Qed.

  (** ** Nothing is stale if all loads see the present *)
  Lemma now_step o e o' : wstep sz acq o (WNow e) = Ok o' -> cstep sz (ws_s o) e = Ok (ws_s o').
  Proof. unfold wstep. by intros (s' & Hs & [= <-])%bind_inv. Qed.
  Lemma now_ok o e s' : cstep sz (ws_s o) e = Ok s' -> exists o', wstep sz acq o (WNow e) = Ok o' /\ ws_s o' = s'.
  Proof. unfold wstep. intros ->. cbn. by eexists. Qed.
  Lemma wrun_now o (es : list (sched (V:=V))) s' : crun sz (ws_s o) es = Ok s' -> exists o', wrun sz acq o (WNow <$> es) = Ok o' /\ ws_s o' = s'.
  Proof.
    revert o. induction es as [|e es IH]; intros o H; cbn in H.
    - injection H as <-. by exists o.
    - apply bind_inv in H as (s1 & Hs & H). destruct (now_ok _ _ _ Hs) as (o1 & H1 & <-). destruct (IH _ H) as (o' & H2 & <-).
      exists o'. split; [|done]. cbn [fmap list_fmap wrun]. by rewrite H1.
  Qed.
  Lemma wrun_back o (es : list (sched (V:=V))) o' : wrun sz acq o (WNow <$> es) = Ok o' -> crun sz (ws_s o) es = Ok (ws_s o').
  Proof.
    revert o. induction es as [|e es IH]; intros o H; cbn [fmap list_fmap wrun] in H.
    - by injection H as <-.
    - apply bind_inv in H as (o1 & Hs & H). cbn. rewrite (now_step _ _ _ Hs). by apply IH.
  Qed.
  Theorem weak_now n (es : list (sched (V:=V))) s : creach sz n es s <-> exists o, wreach sz acq n (WNow <$> es) o /\ ws_s o = s.
  Proof.
    split.
    - intros H. by apply (wrun_now (init_wstate n)) in H.
    - intros (o & H & <-). by apply (wrun_back (init_wstate n)).
  Qed.
  (** A load of the present value is what the machine of ArcConc.v does. *)
  Theorem loaded_now d g (st : stack) l d' g' st' : loads d st = Some l -> mstep sz d g st = Ok (d', g', st') ->
    d' = d /\ g' = g /\ forall v, peek d g l = Some v -> loaded st v = Some st'.
  Proof.
    intros Hl Hm. destruct st as [|f k]; [done|]. destruct f; try done; cbn in Hl; cbn [mstep] in Hm.
    - injection Hl as <-. apply bind_inv in Hm as (n & Hn & Hm). unfold rc_val, rc_get in Hn. cbn.
      destruct (gd_guards g !! g0) as [[[k0 m]|]|]; try done. injection Hn as ->.
      destruct (a_gate down n) eqn:Eg; injection Hm as <- <- <-; (split_and!; [done..|]); intros v [= <-]; first [done|by cbn; rewrite Eg].
    - unfold rc_val in Hm. destruct (rc_get (dw_datas d) d0) as [n|] eqn:En; [|done]. cbn in Hm. destruct (_ <=? _)%N; [done|]. injection Hl as <-.
      cbn. unfold rc_get in En. destruct (dw_datas d !! d0) as [[[k0 m]|]|]; try done. injection En as ->.
      destruct (d_child side n) as [c|] eqn:Ec; injection Hm as <- <- <-; (split_and!; [done..|]); intros v [= <-]; first [done|by cbn; rewrite Ec].
    - injection Hl as <-. apply bind_inv in Hm as (n & _ & Hm). cbn. destruct (gd_metas g !! d0) as [m|]; [|done]. injection Hm as <- <- <-.
      split_and!; [done..|]. by intros v [= <-].
    - injection Hl as <-. unfold gd_weak_count in Hm. cbn. destruct (gd_weak g !! ar_guard r) as [c|];
        (destruct (_ =? 1) eqn:E; injection Hm as <- <- <-; (split_and!; [done..|]); intros v [= <-]; first [done|by cbn; rewrite E]).
    - injection Hl as <-. unfold rc_count in Hm. cbn. destruct (gd_guards g !! ar_guard r) as [[[c n]|]|];
        (destruct (_ =? 1) eqn:E; injection Hm as <- <- <-; (split_and!; [done..|]); intros v [= <-]; first [done|by cbn; rewrite E]).
    - injection Hl as <-. unfold rc_count in Hm. cbn. destruct (dw_datas d !! ar_data r) as [[[c n]|]|];
        (destruct (_ =? 1) eqn:E; injection Hm as <- <- <-; (split_and!; [done..|]); intros v [= <-]; first [done|by cbn; rewrite E]).
    - injection Hl as <-. unfold rc_count in Hm. cbn. destruct (gd_guards g !! ar_guard r) as [[[c n]|]|];
        (destruct (_ =? 1) eqn:E; injection Hm as <- <- <-; (split_and!; [done..|]); intros v [= <-]; first [done|by cbn; rewrite E]).
  Qed.

  (** ** What needs no assumption *)
  Theorem weak_once n es o : wreach sz acq n es o -> NoDup (cdropped (ws_s o)) /\ NoDup (cfreed (ws_s o)) /\
    (forall c, c ∈ cdropped (ws_s o) -> citem (ws_s o) c = None) /\
    (forall c, c ∈ buffer_cells (ws_s o) <-> is_Some (citem (ws_s o) c) \/ c ∈ cdropped (ws_s o)).
  Proof. intros Hr. destruct (weak_WI _ _ _ Hr) as [D I]. by eapply K_all_once, W_k. Qed.
  Lemma conserved_step o D e o' : WI sz o D -> wstep sz acq o e = Ok o' ->
    ccontents (ws_s o) ++ match e with WNow e => cput (ws_s o) e (ws_s o') | WOld _ _ => [] end ++ cdropped_items (ws_s o) ++ cgot (ws_s o) ≡ₚ
    ccontents (ws_s o') ++ cdropped_items (ws_s o') ++ cgot (ws_s o').
  Proof.
    intros I Hs. apply wstep_cases in Hs. destruct Hs as [e s' o' Hs <- _|t j|t j l v st st' o' _ Ht Hl Hv Hst _ Es _].
    - eapply KI_cstep; [apply I|done].
    - done.
    - by rewrite Es.
  Qed.
  Lemma conserved_run o D es o' : WI sz o D -> wrun sz acq o es = Ok o' ->
    ccontents (ws_s o) ++ wput_run sz acq o es ++ cdropped_items (ws_s o) ++ cgot (ws_s o) ≡ₚ
    ccontents (ws_s o') ++ cdropped_items (ws_s o') ++ cgot (ws_s o').
  Proof.
    revert o D. induction es as [|e es IH]; intros o D I H; cbn in H |- *.
    - by injection H as <-.
    - apply bind_inv in H as (o1 & Hs & H). rewrite Hs. destruct (WI_step _ _ _ _ _ _ I Hs) as [X I']. rewrite <- (IH _ _ I' H).
      pose proof (conserved_step _ _ _ _ I Hs) as Hc.
      transitivity ((ccontents (ws_s o) ++ match e with WNow e => cput (ws_s o) e (ws_s o1) | WOld _ _ => [] end ++ cdropped_items (ws_s o) ++ cgot (ws_s o)) ++ wput_run sz acq o1 es); [solve_Permutation|].
      rewrite Hc. solve_Permutation.
  Qed.
  Theorem weak_conserved n es o : wreach sz acq n es o ->
    wput_run sz acq (init_wstate n) es ≡ₚ ccontents (ws_s o) ++ cdropped_items (ws_s o) ++ cgot (ws_s o).
  Proof.
    intros H. pose proof (conserved_run _ _ _ _ (WI_init sz n) H) as Hc. cbn in Hc. by rewrite app_nil_r in Hc.
  Qed.
  Theorem weak_one_guard n es o y : wreach sz acq n es o -> galive (ws_s o) y ->
    exists x, installed (ws_s o) x = Some y /\ forall x', installed (ws_s o) x' = Some y -> x' = x.
  Proof.
    intros (D & [I _ _ _])%weak_WI Hy. destruct (lookup_lt_is_Some_2 D y) as [x Hx].
    { rewrite (gi_len _ _ _ _ _ (G_inv _ _ I)). destruct Hy as [m Hm]. by eapply rc_get_lt. }
    exists x. split; [by apply (installed_iff _ _ I)|]. intros x' [_ H]%(installed_iff _ _ I). congruence.
  Qed.
  Theorem weak_installed n es o x y : wreach sz acq n es o -> has_guard (ws_s o) x y -> installed (ws_s o) x = Some y.
  Proof.
    intros (D & [I _ _ _])%weak_WI [H1 H2]%(has_guard_D _ _ I). apply (installed_iff _ _ I). split; [|done]. by eapply tot_guard.
  Qed.
  Theorem weak_guards_agree n es o x y y' : wreach sz acq n es o -> has_guard (ws_s o) x y -> has_guard (ws_s o) x y' -> y = y'.
  Proof. intros Hr H1%(weak_installed _ _ _ _ _ Hr) H2%(weak_installed _ _ _ _ _ Hr). congruence. Qed.
  Theorem weak_guard_needed n es o x y : wreach sz acq n es o -> quiescent (ws_s o) -> installed (ws_s o) x = Some y ->
    exists h r, cget (ws_s o) h = Some (XArc r) /\ (ar_data r = x \/ below (cs_g (ws_s o)) x (ar_data r)).
  Proof.
    intros (D & [I _ _ _])%weak_WI Q Hi. destruct (proj1 (installed_iff _ _ I x y) Hi) as [[m Hm] HD]. by eapply guard_slice.
  Qed.
  Theorem weak_closed n es o y down : wreach sz acq n es o ->
    latches (ws_s o) y down <= 1 /\ (latches (ws_s o) y down = 1 <-> gate_closed (ws_s o) y down).
  Proof.
    intros (D & [I _ _ _])%weak_WI. rewrite (latch_gate _ _ I). unfold gate_closed. destruct (rc_get _ _) as [m|].
    - destruct (a_gate down m) eqn:E; (split; [lia|]); split; try done; [eauto|intros (? & [= <-] & ?); congruence].
    - split; [lia|]. split; [done|]. by intros (? & ? & _).
  Qed.

  (** ** Halves *)
  Lemma stale_half d (B : nat -> nat -> Prop) (st st' : stack) x side h log : stale d B st st' -> half_st x side h log st -> half_st x side h log st'.
  Proof.
    intros Hs Hh. destruct Hh as [y|f Hf|p a c Hc|c Hc|pre c Hc|c y Hc|]; try (by inversion Hs; subst; match goal with H : _ \/ _ |- _ => by destruct H as [?|[?|?]] end).
    - inversion Hs; subst; try (by constructor). match goal with H : _ \/ _ |- _ => by destruct H as [?|[?|?]] end.
    - inversion Hs; subst; try done; try (by constructor); try (match goal with H : _ \/ _ |- _ => by destruct H as [?|[?|?]]; subst end).
    - destruct pre as [|f pre]; [by inversion Hs; match goal with H : _ \/ _ |- _ => by destruct H as [?|[?|?]] end|]. cbn in Hs. inversion Hs; subst; try done.
      all: rewrite ?app_comm_cons; by constructor.
  Qed.
  Lemma wstep_log o e o' : wstep sz acq o e = Ok o' -> exists l, cs_log (ws_s o') = cs_log (ws_s o) ++ l.
  Proof.
    intros Hs. apply wstep_cases in Hs. destruct Hs as [e s' o' Hs <- _|t j|t j l v st st' o' _ Ht Hl Hv Hst _ Es _].
    - by eapply cstep_log.
    - exists []. by rewrite app_nil_r.
    - exists []. by rewrite app_nil_r, Es.
  Qed.
  Lemma wrun_log o es o' : wrun sz acq o es = Ok o' -> exists l, cs_log (ws_s o') = cs_log (ws_s o) ++ l.
  Proof.
    revert o. induction es as [|e es IH]; intros o H; cbn in H.
    - injection H as <-. exists []. by rewrite app_nil_r.
    - apply bind_inv in H as (o1 & Hs & H). destruct (IH _ H) as [l ->]. destruct (wstep_log _ _ _ Hs) as [l' ->]. exists (l' ++ l). by rewrite app_assoc.
  Qed.
  Lemma whalf_run o D es o' t x side h : WI sz o D -> wrun sz acq o es = Ok o' -> Forall (fun e => forall op, e <> WNow (SStart t op)) es ->
    (exists st, cs_t (ws_s o) !! t = Some st /\ half_st x side h (cs_log (ws_s o)) st) ->
    exists st, cs_t (ws_s o') !! t = Some st /\ half_st x side h (cs_log (ws_s o')) st.
  Proof.
    revert o D. induction es as [|e es IH]; intros o D I; cbn; [by intros [= <-]|].
    intros (o1 & Hs & Hr)%bind_inv Hf Hst. apply Forall_cons in Hf as [He Hf]. destruct (WI_step _ _ _ _ _ _ I Hs) as [X I'].
    apply (IH o1 _ I'); [done..|]. clear IH Hr I'. apply wstep_cases in Hs. destruct Hs as [e s' o1 Hs <- _|t' j|t' j l v st st' o1 _ Ht Hl Hv Hld _ Es _].
    - eapply (half_run sz (ws_s o) [e]); [cbn; by rewrite Hs| |done]. constructor; [|done]. intros [op ->]. by eapply He.
    - done.
    - rewrite Es. cbn. destruct Hst as (st0 & Ht0 & Hst). destruct (decide (t' = t)) as [->|Hne].
      + rewrite list_lookup_insert by (by eapply lookup_lt_Some). eexists. split; [done|]. rewrite Ht in Ht0. injection Ht0 as <-.
        eapply stale_half; [|done]. by eapply loaded_stale.
      + rewrite list_lookup_insert_ne by done. eauto.
  Qed.
  Lemma whalved_log n es o t x side c : wreach sz acq n es o -> whalved sz acq n es t x side c -> (x, side, c) ∈ cs_log (ws_s o).
  Proof.
    intros Hr (es1 & h & es2 & es3 & o1 & o2 & r & y & q & -> & H1 & Hi & Hh & <- & Hf & H2 & Ht).
    assert (wrun sz acq o2 es3 = Ok o) as H3.
    { unfold wreach in Hr, H2. rewrite app_comm_cons, app_assoc in Hr. apply wrun_app in Hr as (o2' & H2' & H3). congruence. }
    destruct (wrun_log _ _ _ H3) as [l ->]. apply elem_of_app. left.
    unfold wreach in H2. apply wrun_app in H2 as (o1' & H1' & H2). assert (o1' = o1) as -> by (unfold wreach in H1; congruence).
    cbn [wrun] in H2. apply bind_inv in H2 as (o3 & Hs & H2). destruct (weak_WI _ _ _ H1) as [D I]. destruct (WI_step _ _ _ _ _ _ I Hs) as [X I'].
    destruct (whalf_run _ _ _ _ t (ar_data r) side h I' H2 Hf) as (st & Ht' & Hst).
    - apply now_step in Hs. unfold cstep, cstart in Hs. unfold idle in Hi. rewrite Hi in Hs. unfold cget in Hh. destruct (slot (ws_s o1) h) as [[x k]|]; [|done]. injection Hh as ->.
      injection Hs as <-. cbn. rewrite list_lookup_insert by by eapply lookup_lt_Some. eexists. split; [done|]. constructor.
    - rewrite Ht in Ht'. injection Ht' as <-. inversion Hst as [|? Hf0| |? ?|pre ? ? Hp|? ? ?|]; subst; try done.
      destruct pre as [|? [|? [|? ?]]]; by inversion Hp.
  Qed.
  Theorem weak_halves_agree n es o t t' x side c c' : wreach sz acq n es o ->
    whalved sz acq n es t x side c -> whalved sz acq n es t' x side c' -> c = c'.
  Proof.
    intros Hr H1%(whalved_log _ _ _ _ _ _ _ Hr) H2%(whalved_log _ _ _ _ _ _ _ Hr). destruct (weak_WI _ _ _ Hr) as [D [_ I _ _]].
    eapply (ci_agree _ _ I); apply elem_of_app; left; done.
  Qed.
  Theorem weak_halves_geometry n es o t x side c rx rc : wreach sz acq n es o -> whalved sz acq n es t x side c ->
    data_rng (ws_s o) x = Some rx -> data_rng (ws_s o) c = Some rc -> rc = half side rx.
  Proof.
    intros Hr Hh Hx Hc. destruct (weak_WI _ _ _ Hr) as [D [_ I _ _]]. pose proof (whalved_log _ _ _ _ _ _ _ Hr Hh) as Hl.
    unfold data_rng in *. destruct (rc_get _ x) as [nx|] eqn:Ex; [|done]. destruct (rc_get _ c) as [nc|] eqn:Ec; [|done].
    injection Hx as <-. injection Hc as <-. pose proof (ci_ok _ _ I (x, side, c)) as Ho. cbn in Ho.
    specialize (Ho ltac:(apply elem_of_app; by left) _ Ex). destruct (small side nx) eqn:Es.
    - subst c. rewrite Ex in Ec. injection Ec as <-. symmetry. by apply small_half.
    - destruct (ci_kid _ _ I _ _ _ _ Ex Ho) as [_ Hk]. destruct (Hk _ Ec) as [Hg _].
      change (nrng nc = half side (nrng nx)). rewrite <- (node_sub_half sz), <- Hg. done.
  Qed.

  (** ** Programs without [into_mut], and programs without halves *)
  Definition nokid (n : dnode) : Prop := node_kids n = [].
  Definition nk (f : frame V) : Prop :=
    match f with
    | FChild _ _ | FChildInc _ _ _ | FChildAlloc _ _ | FChildCas _ _ _ _ | FChildLost _ _ _ _ _ | FChildUndo _ _ _ _ _ | FChildUnwrap _ _ _ _ _ | KFg _ _ _ => False
    | FFg n _ => nokid n
    | _ => True
    end.
  Definition heap_nk (h : heap dnode) : Prop := forall x n, rc_get h x = Some n -> nokid n.
  Definition NK s : Prop := Forall (Forall nk) (cs_t s) /\ heap_nk (dw_datas (cs_d s)).
  Lemma mstep_nk d g (st : stack) d' g' st' : mstep sz d g st = Ok (d', g', st') -> Forall nk st -> heap_nk (dw_datas d) -> Forall nk st'.
  Proof.
    intros H HF Hh. destruct st as [|f k]; [done|]. pose proof (Forall_inv HF) as Hf. pose proof (Forall_inv_tail HF) as Hk. clear HF.
    destruct f; try done; cbn [mstep] in H.
    all: repeat (first
      [ match type of H with mbind _ _ = Ok _ => let x := fresh "x" in let Hx := fresh "Hx" in apply bind_inv in H as (x & Hx & H) end
      | match type of H with Ok _ = Ok _ => fail 1 | _ => idtac end; case_match; try done ]).
    all: subst; try (injection H as <- <- <-); try done.
    all: repeat match goal with H : Forall _ (_ :: _) |- _ => apply Forall_cons in H as [? ?] end.
    all: repeat (first [apply Forall_app; split | apply Forall_rel; done | apply Forall_relg; done | apply Forall_cons; split | done]).
    - cbn. apply Hh with (ar_data r). unfold rc_try_unwrap in Hx. unfold rc_get. destruct (dw_datas d !! ar_data r) as [[[c n]|]|]; try done.
      repeat (case_match; try done); by injection Hx as <- <-.
    - by cbn in Hf; unfold nokid in Hf; congruence.
    - by cbn in Hf; unfold nokid in Hf; congruence.
    - by cbn in Hf; unfold nokid in Hf; congruence.
  Qed.
  Lemma cstart_nk s t op s' : (forall side h, op <> CCloneHalf side h) -> cstart sz s t op = Ok s' ->
    cs_t s' = cs_t s \/ exists st', cs_t s' = <[t := st']> (cs_t s) /\ Forall nk st'.
  Proof.
    intros H1 Hs. unfold cstart in Hs. destruct (cs_t s !! t) as [[|f st]|] eqn:Ht; [|injection Hs as <-; by left..].
    destruct op; try (by destruct (H1 side h)); repeat (first
      [ match type of Hs with mbind _ _ = Ok _ => let x := fresh "x" in let Hx := fresh "Hx" in apply bind_inv in Hs as (x & Hx & Hs) end
      | match type of Hs with Ok _ = Ok _ => fail 1 | _ => idtac end; case_match; try done ]); subst; injection Hs as <-;
      first [by left|right; eexists; (split; [reflexivity|by repeat constructor])].
  Qed.
  Lemma NK_cstep s e s' : (forall t side h, e <> SStart t (CCloneHalf side h)) -> cstep sz s e = Ok s' -> NK s -> NK s'.
  Proof.
    intros H1 Hs [Nt Nh]. split.
    - destruct e as [t op|t|t i v|t]; cbn [cstep] in Hs.
      + destruct (cstart_nk s t op s') as [->|(st' & -> & Hst)]; [intros ? ? ->; by eapply H1|done|done|by apply Forall_insert].
      + destruct (cs_t s !! t) as [st|] eqn:Ht; [|unfold tstep in Hs; rewrite Ht in Hs; by injection Hs as <-].
        destruct (tstep_cases sz s t st Ht) as [(-> & Hc)|[(r & -> & Hc)|[(x & o & h & -> & Hc)|[(r & -> & Hc)|Hc]]]]; rewrite Hc in Hs; clear Hc.
        * by injection Hs as <-.
        * by injection Hs as <-.
        * injection Hs as <-. cbn. apply Forall_insert; [done|constructor].
        * injection Hs as <-. cbn. apply Forall_insert; [done|by repeat constructor].
        * apply bind_inv in Hs as ([[d g] st'] & Hm & [= <-]). cbn. apply Forall_insert; [done|]. eapply mstep_nk; [done| |done].
          by eapply Forall_lookup_1 in Nt.
      + unfold hold_write in Hs. repeat (first
          [ match type of Hs with mbind _ _ = Ok _ => let x := fresh "x" in let Hx := fresh "Hx" in apply bind_inv in Hs as (x & Hx & Hs) end
          | match type of Hs with Ok _ = Ok _ => fail 1 | _ => idtac end; case_match; try done ]); injection Hs as <-; done.
      + unfold hold_end in Hs. repeat (case_match; try (injection Hs as <-; done)). injection Hs as <-. cbn. apply Forall_insert; [done|constructor].
    - intros x n Hn. apply cstep_quiet in Hs as [([E|(k & m & E & E1 & E2)] & _)|(t & st & d & g & st' & -> & Ht & Hm & ->)].
      + rewrite E in Hn. by eapply Nh.
      + rewrite E in Hn. destruct (decide (x < length (dw_datas (cs_d s)))) as [Hx|Hx].
        * unfold rc_get in Hn. rewrite lookup_app_l in Hn by done. by apply Nh in Hn.
        * unfold rc_get in Hn. rewrite lookup_app_r in Hn by lia. destruct (x - _) as [|i]; [|done]. injection Hn as <-. unfold nokid, node_kids. by rewrite E1, E2.
      + cbn in Hn. apply mstep_nodes in Hm as [[_ Hk]|(y & side & k' & n' & k & j & m & -> & _)]; [by eapply Nh, Hk|].
        eapply Forall_lookup_1 in Nt; [|exact Ht]. by apply Forall_inv in Nt.
  Qed.
  Lemma nk_stale d (B : nat -> nat -> Prop) (st st' : stack) : Forall nk st -> stale d B st st' -> Forall nk st'.
  Proof. intros HF Hs. destruct Hs; try done; apply Forall_cons in HF as [? HF]; try (by constructor); done. Qed.

  Definition tame es : Prop := no_into_mut (calls es) \/ no_halves (calls es).
  Definition TI (im : bool) o : Prop := (exists T L, DI sz (ws_s o) T L) /\ if im then Forall (Forall noim) (cs_t (ws_s o)) else NK (ws_s o).
  Definition allowed (im : bool) (e : wsched V) : Prop :=
    match e with WNow e => if im then (forall t h, e <> SStart t (CIntoMut h)) else (forall t side h, e <> SStart t (CCloneHalf side h)) | WOld _ _ => True end.
  Lemma TI_clean im o e : TI im o -> cclean (ws_s o) e.
  Proof.
    intros [_ H]. destruct e as [|t| |]; try done. cbn. destruct (cs_t (ws_s o) !! t) as [st|] eqn:Ht; [|done].
    destruct im; [|destruct H as [H _]]; (eapply Forall_lookup_1 in H; [|exact Ht]); (destruct st as [|f k]; [done|]); apply Forall_inv in H; destruct f; try done.
    cbn in H. unfold nokid in H. cbn. by rewrite H.
  Qed.
  Lemma TI_init im n : TI im (init_wstate n).
  Proof.
    split; [eexists _, _; apply DI_init|]. destruct im; cbn.
    - apply Forall_replicate. constructor.
    - split; [apply Forall_replicate; constructor|]. intros x m Hm. by apply rc_get_lt in Hm; cbn in Hm; lia.
  Qed.
  Lemma TI_step im o D e : WI sz o D -> TI im o -> allowed im e -> exists o', wstep sz acq o e = Ok o' /\ TI im o'.
  Proof.
    intros I HT Ha. pose proof (TI_clean im o) as Hc. destruct HT as [(T & L & HD) HT].
    assert (forall e, exists s', cstep sz (ws_s o) e = Ok s' /\ exists T' L', DI sz s' T' L') as Hok.
    { intros e0. destruct (DI_cstep sz (ws_s o) D T L e0) as (s' & T' & L' & Hs & HD'); [apply I|apply I|done| |eauto 6].
      apply Hc. split; [eauto|done]. }
    destruct e as [e|t j].
    - destruct (Hok e) as (s' & Hs & HD'). destruct (now_ok o e s' Hs) as (o' & Ho & <-). exists o'. split; [done|]. split; [done|].
      destruct im.
      + eapply (cstep_noim sz (ws_s o) e); [|done|done]. destruct e as [t [] | | |]; try done. by eapply Ha.
      + by eapply NK_cstep.
    - assert (exists o', wstep sz acq o (WOld t j) = Ok o') as [o' Ho].
      { unfold wstep. destruct (cs_t _ !! t) as [st|]; [|eauto]. destruct (next_load o t) as [l|]; [|eauto].
        destruct (Hok (SStep t)) as (s' & Hs & _). rewrite Hs. cbn [mbind res_bind]. case_decide; [|eauto].
        destruct (value o j l) as [v|]; [|eauto]. destruct (loaded st v); eauto. }
      exists o'. split; [done|]. apply wstep_cases in Ho. inversion Ho as [|t0 j0|t0 j0 l v st st' o0 _ Ht Hl Hv Hst _ Es _]; subst.
      + split; eauto.
      + pose proof (loaded_stale sz _ _ _ _ _ _ _ I Hl Hv Hst) as Hstale. unfold TI. rewrite Es. split.
        * exists T, L. by eapply DI_stale.
        * destruct im.
          -- eapply frames_stale; [done|done|apply noim_stale|done].
          -- destruct HT as [HT Hh]. split; [|done]. eapply frames_stale; [done|done|apply nk_stale|done].
  Qed.
  Lemma tame_allowed es : tame es -> exists im, Forall (allowed im) es.
  Proof.
    intros [H|H]; [exists true|exists false]; apply Forall_forall; intros e He; (destruct e as [e|]; [|done]);
      apply (Forall_forall _ (calls es)) with (x:=e) in H; try done; apply elem_of_list_omap; by exists (WNow e).
  Qed.
  Theorem tame_run n es : tame es -> exists o D T L, wreach sz acq n es o /\ WI sz o D /\ DI sz (ws_s o) T L.
  Proof.
    intros [im H]%tame_allowed. assert (exists o D, wreach sz acq n es o /\ WI sz o D /\ TI im o) as (o & D & H1 & H2 & (T & L & H3) & _); [|eauto 8].
    induction es as [|e es IH] using rev_ind.
    - exists (init_wstate n), []. split_and!; [done|apply WI_init|apply TI_init].
    - apply Forall_app in H as [H He%Forall_inv]. destruct (IH H) as (o & D & Hr & I & HT).
      destruct (TI_step im o D e I HT He) as (o' & Hs & HT'). destruct (WI_step _ _ _ _ _ _ I Hs) as [X I'].
      exists o', (D ++ X). split_and!; [|done..]. by eapply wreach_snoc.
  Qed.
  Lemma tame_DI n es o : tame es -> wreach sz acq n es o -> (exists T L, DI sz (ws_s o) T L) /\ KI (ws_s o).
  Proof.
    intros Ht Hr. destruct (tame_run n es Ht) as (o' & D & T & L & Hr' & I & HD). unfold wreach in *. rewrite Hr in Hr'. injection Hr' as <-.
    split; [eauto|apply I].
  Qed.
  Theorem weak_safe n es : tame es -> exists o, wreach sz acq n es o.
  Proof. intros (o & D & T & L & Hr & _)%(tame_run n). eauto. Qed.
  Theorem weak_covered n es o x c : tame es -> wreach sz acq n es o -> has (ws_s o) x -> c ∈ xcells (ws_s o) x ->
    is_Some (citem (ws_s o) c) /\ c ∉ cdropped (ws_s o) /\ (sz <> 0%N -> fst c ∉ cfreed (ws_s o)).
  Proof. intros Ht Hr. destruct (tame_DI _ _ _ Ht Hr) as [(T & L & I) K]. by eapply K_covered. Qed.
  Theorem weak_range n es o r : tame es -> wreach sz acq n es o -> has (ws_s o) (XArc r) -> exists rg, data_rng (ws_s o) (ar_data r) = Some rg.
  Proof.
    intros Ht Hr Hx. destruct (tame_DI _ _ _ Ht Hr) as [(T & L & I) K]. destruct (has_data _ _ _ _ I _ Hx) as (j & m & Hm).
    eexists. by eapply data_rng_live.
  Qed.
  Theorem weak_quiescent n es o c : tame es -> wreach sz acq n es o -> quiescent (ws_s o) -> c ∈ buffer_cells (ws_s o) ->
    c ∈ cdropped (ws_s o) <-> forall h, c ∉ ccells (ws_s o) h.
  Proof. intros Ht Hr. destruct (tame_DI _ _ _ Ht Hr) as [(T & L & I) K]. by eapply K_quiescent. Qed.
  Theorem weak_gone n es o : tame es -> wreach sz acq n es o -> quiescent (ws_s o) ->
    (forall h x, cget (ws_s o) h = Some x -> exists (od og : option nat), x = XWeak od og) ->
    dw_mem (cs_d (ws_s o)) = ∅ /\ cdropped (ws_s o) ≡ₚ buffer_cells (ws_s o) /\
    Forall (fun x => x = None) (dw_datas (cs_d (ws_s o))) /\ Forall (fun x => x = None) (dw_allocs (cs_d (ws_s o))) /\
    (sz <> 0%N -> forall b blk, dw_blocks (cs_d (ws_s o)) !! b = Some blk -> b_len blk <> 0%N -> b ∈ cfreed (ws_s o)).
  Proof. intros Ht Hr. destruct (tame_DI _ _ _ Ht Hr) as [(T & L & I) K]. by eapply K_gone. Qed.
  Theorem weak_mut n es o h m c : tame es -> wreach sz acq n es o -> cget (ws_s o) h = Some (XMut m) -> c ∈ ccells (ws_s o) h ->
    (forall h', h' <> h -> c ∉ ccells (ws_s o) h') /\ (forall t st x, cs_t (ws_s o) !! t = Some st -> x ∈ st ≫= carried -> c ∉ xcells (ws_s o) x).
  Proof. intros Ht Hr. destruct (tame_DI _ _ _ Ht Hr) as [(T & L & I) _]. by apply (mut_alone _ _ _ _ I). Qed.
End theory.
