(** Every step of a thread that is not waiting brings the calls under way
    closer to their end. *)
From Verif Require Import Base BaseLemmas Api SliceItemsModel Spec BinPartsModel DataModel RcModel DataInv DataSteps ArcModel ArcInv ArcConc ConcInv ConcGuard ConcWorld ConcSpec SoloFuel ConcSolo.
Local Open Scope nat_scope.

(** ** Lists in lexicographic order *)
Inductive lexl : list nat -> list nat -> Prop :=
| lexl_head a' a l' l : a' < a -> length l' = length l -> lexl (a' :: l') (a :: l)
| lexl_tail a l' l : lexl l' l -> lexl (a :: l') (a :: l).
Lemma lexl_len l' l : lexl l' l -> length l' = length l.
Proof. induction 1; cbn; lia. Qed.
Lemma lexl_acc n : forall l, length l = n -> Acc lexl l.
Proof.
  induction n as [|n IH]; intros l Hl.
  - destruct l; [|done]. constructor. intros l' H. inversion H.
  - destruct l as [|a l]; [done|]. injection Hl as Hl. revert l Hl. induction (lt_wf a) as [a _ IHa].
    intros l Hl. pose proof (IH l Hl) as Hacc. induction Hacc as [l _ IHl]. constructor. intros l' H.
    inversion H as [a' ? k' ? Ha Hk|? k' ? Hk]; subst.
    + apply IHa; [done|]. by rewrite Hk.
    + apply IHl; [done|]. by apply lexl_len in Hk as ->.
Qed.
Definition key_lt (p q : nat * list nat) : Prop := fst p < fst q \/ (fst p = fst q /\ lexl (snd p) (snd q)).
Lemma key_acc p : Acc key_lt p.
Proof.
  destruct p as [c l]. revert l. induction (lt_wf c) as [c _ IHc]. intros l. pose proof (lexl_acc _ l eq_refl) as Hacc.
  induction Hacc as [l _ IHl]. constructor. intros [c' l'] [H|[H1 H2]]; cbn in *; [by apply IHc|]. subst c'. by apply IHl.
Qed.
Fixpoint vec (F G : nat -> nat) (L z : nat) : list nat :=
  match L with O => [z] | S L => F L :: G L :: vec F G L z end.
Lemma vec_len F G L z : length (vec F G L z) = 1 + 2 * L.
Proof. induction L as [|L IH]; [done|]. cbn. rewrite IH. lia. Qed.
Lemma vec_lt F G F' G' L z z' x : x < L -> (forall y, x < y -> F' y = F y /\ G' y = G y) -> (F' x < F x \/ (F' x = F x /\ G' x < G x)) ->
  lexl (vec F' G' L z') (vec F G L z).
Proof.
  induction L as [|L IH]; intros Hx Hy Hd; [lia|]. cbn. destruct (decide (x = L)) as [->|Hne].
  - destruct Hd as [H|[-> H]].
    + apply lexl_head; [done|]. cbn. by rewrite !vec_len.
    + apply lexl_tail, lexl_head; [done|]. by rewrite !vec_len.
  - destruct (Hy L) as [-> ->]; [lia|]. apply lexl_tail, lexl_tail, IH; [lia|done..].
Qed.
Lemma vec_eq F G F' G' L z z' : (forall y, y < L -> F' y = F y /\ G' y = G y) -> z' < z -> lexl (vec F' G' L z') (vec F G L z).
Proof.
  intros H Hz. induction L as [|L IH]; cbn; [by apply lexl_head|]. destruct (H L) as [-> ->]; [lia|].
  apply lexl_tail, lexl_tail, IH. intros y Hy. apply H. lia.
Qed.

(** ** Sums over lists and over heaps *)
Lemma sum_insert {A} (w : A -> nat) l i x y : l !! i = Some x -> sum_list_with w (<[i := y]> l) + w x = sum_list_with w l + w y.
Proof.
  revert i. induction l as [|z l IH]; intros i H; [done|]. destruct i as [|i].
  - injection H as ->. cbn. lia.
  - pose proof (IH i H) as Hi. change (<[S i := y]> (z :: l)) with (z :: <[i := y]> l). cbn [sum_list_with]. lia.
Qed.
Section heaps.
  Context {A : Type} (w : A -> nat).
  Implicit Types h : heap A.
  Definition hval (o : option (nat * A)) : nat := match o with Some (_, v) => w v | None => 0 end.
  Definition hpot h : nat := sum_list_with hval h.
  Lemma rc_inc_pot h i h' : rc_inc h i = Ok h' -> hpot h' = hpot h.
  Proof.
    unfold rc_inc. destruct (h !! i) as [[[c v]|]|] eqn:E; try done. injection 1 as <-.
    pose proof (sum_insert hval _ _ _ (Some (S c, v)) E) as H. cbn in H. unfold hpot. lia.
  Qed.
  Lemma rc_dec_pot h i h' r : rc_dec h i = Ok (h', r) -> hpot h' + match r with Some v => w v | None => 0 end = hpot h.
  Proof.
    unfold rc_dec. destruct (h !! i) as [[[c v]|]|] eqn:E; try done. destruct c as [|[|c]]; try done; injection 1 as <- <-.
    - pose proof (sum_insert hval _ _ _ None E) as H. cbn in H. unfold hpot. lia.
    - pose proof (sum_insert hval _ _ _ (Some (S c, v)) E) as H. cbn in H. unfold hpot. lia.
  Qed.
  Lemma rc_unwrap_pot h i h' r : rc_try_unwrap h i = Ok (h', r) -> hpot h' + match r with Some v => w v | None => 0 end = hpot h.
  Proof.
    unfold rc_try_unwrap. destruct (h !! i) as [[[c v]|]|] eqn:E; try done. destruct c as [|[|c]]; try done; injection 1 as <- <-; [|lia].
    pose proof (sum_insert hval _ _ _ None E) as H. cbn in H. unfold hpot. lia.
  Qed.
  Lemma rc_upgrade_pot h o h' r : rc_upgrade h o = (h', r) -> hpot h' = hpot h.
  Proof.
    destruct o as [i|]; cbn; [|by injection 1 as <- <-]. destruct (h !! i) as [[[c v]|]|] eqn:E; injection 1 as <- <-; try done.
    pose proof (sum_insert hval _ _ _ (Some (S c, v)) E) as H. cbn in H. unfold hpot. lia.
  Qed.
  Lemma rc_set_pot h i f h' : (forall v, w (f v) = w v) -> rc_set h i f = Ok h' -> hpot h' = hpot h.
  Proof.
    intros Hf. unfold rc_set. destruct (h !! i) as [[[c v]|]|] eqn:E; try done. injection 1 as <-.
    pose proof (sum_insert hval _ _ _ (Some (c, f v)) E) as H. cbn in H. rewrite Hf in H. unfold hpot. lia.
  Qed.
End heaps.

(** ** Weights *)
Section weights.
  Context {V : Type} (sz : N).
  Notation stack := (list (frame V)).
  Implicit Types (d : dworld V) (g : gdworld) (k st : stack).

  (** What a stack has yet to ask [DataGuard::guard] for. *)
  Definition asks (f : frame V) : nat :=
    match f with
    | FUpgrade _ => 2
    | KFromData | FChild _ _ | FChildInc _ _ _ | FChildAlloc _ _ | FChildCas _ _ _ _ | FChildLost _ _ _ _ _
    | FChildUndo _ _ _ _ _ | FChildUnwrap _ _ _ _ _ => 1
    | _ => 0
    end.
  (** The data whose guard is being got, and how far this has come. *)
  Definition getting (f : frame V) : option nat :=
    match f with
    | FGuard x | FGuardUp x _ | FGuardPar x _ | KGuardPar x _ _ | FGuardCas x _ _ | FGuardLost x _ _ => Some x
    | _ => None
    end.
  Definition cur g (x b : nat) : bool := match gd_metas g !! x with Some m => am_box m =? b | None => false end.
  Definition stage g (f : frame V) : nat :=
    match f with
    | FGuard _ => 12
    | FGuardUp _ _ => 11
    | FGuardPar x b => if cur g x b then 6 else 10
    | KGuardPar x b _ => if cur g x b then 5 else 9
    | FGuardCas x b _ => if cur g x b then 4 else 8
    | FGuardLost x b _ => if cur g x b then 7 else 11
    | _ => 0
    end.
  Definition req (x : nat) (f : frame V) : nat := if decide (getting f = Some x) then 1 else 0.
  Definition stg g (x : nat) (f : frame V) : nat := if decide (getting f = Some x) then stage g f else 0.
  (** What else there is to do. *)
  Definition nkids (n : dnode) : nat := length (node_kids n).
  Definition todo (f : frame V) : nat :=
    match f with
    | FRel _ | FRelG _ => 3
    | FItems n _ _ => S n
    | FRelW _ | FWait _ _ => 1
    | FChild _ _ => 10 | FChildInc _ _ _ => 9 | FChildAlloc _ _ => 9 | FChildCas _ _ _ _ => 8
    | FChildLost _ _ _ _ _ => 7 | FChildUndo _ _ _ _ _ => 6 | FChildUnwrap _ _ _ _ _ => 5
    | FGuard _ => 4 | FGuardUp _ _ => 3 | FGuardPar _ _ => 2 | KGuardPar _ _ _ => 10 | FGuardCas _ _ _ => 1 | FGuardLost _ _ _ => 10
    | KFromData => 1 | KSlice _ => 1
    | FCloneD _ => 3 | FCloneG _ => 2 | FCloneW _ _ => 2 | FDown _ => 2 | FUpgrade _ => 2
    | FGm1 _ => 10 | FGm2 _ => 8 | FGm3 _ => 7 | FGm4 _ => 5 | FGm5 _ => 4
    | FIm1 _ => 20 | FIm2 _ => 18 | FIm3 _ => 17
    | FFg n _ => 2 + 4 * nkids n
    | KFg side n _ => 2 + 4 * nkids (d_set_child side None n)
    | KImG _ => 4
    | FOpen _ _ => 1
    | FHold _ => 0
    | FV _ => 1
    | KEnd _ => 0
    end.
  Definition sm (w : frame V -> nat) (st : stack) : nat := sum_list_with w st.
  Definition dval (n : dnode) : nat := 10 + N.to_nat (d_len n).
  Definition gval (n : aguard) : nat := 5.
  Definition dpot d : nat := hpot dval (dw_datas d).
  Definition gpot g : nat := hpot gval (gd_guards g).
  Definition pot d g : nat := dpot d + gpot g.

  Lemma sm_cons w f st : sm w (f :: st) = w f + sm w st.
  Proof. done. Qed.
  Lemma sm_app w st st' : sm w (st ++ st') = sm w st + sm w st'.
  Proof. apply sum_list_with_app. Qed.
  (** ** One step *)
  Inductive down d g st d' g' st' : Prop :=
  | down_asks : sm asks st' < sm asks st -> down d g st d' g' st'
  | down_got x : sm asks st' = sm asks st -> length (gd_metas g') = length (gd_metas g) -> x < length (gd_metas g) ->
      (forall y, y <> x -> gd_metas g' !! y = gd_metas g !! y) ->
      (forall y, x < y -> sm (req y) st' = sm (req y) st /\ sm (stg g y) st' = sm (stg g y) st) ->
      sm (req x) st' < sm (req x) st -> down d g st d' g' st'
  | down_stage x : sm asks st' = sm asks st -> gd_metas g' = gd_metas g -> x < length (gd_metas g) ->
      (forall y, x < y -> sm (req y) st' = sm (req y) st /\ sm (stg g y) st' = sm (stg g y) st) ->
      sm (req x) st' = sm (req x) st -> sm (stg g x) st' < sm (stg g x) st -> down d g st d' g' st'
  | down_todo : sm asks st' = sm asks st -> gd_metas g' = gd_metas g ->
      (forall y, y < length (gd_metas g) -> sm (req y) st' = sm (req y) st /\ sm (stg g y) st' = sm (stg g y) st) ->
      sm todo st' + pot d' g' < sm todo st + pot d g -> down d g st d' g' st'.

  Lemma req_other y f : getting f <> Some y -> req y f = 0 /\ forall g, stg g y f = 0.
  Proof. intros H. unfold req, stg. split; [|intros g]; by rewrite decide_False. Qed.
  Lemma req_self f x : getting f = Some x -> req x f = 1 /\ forall g, stg g x f = stage g f.
  Proof. intros H. unfold req, stg. split; [|intros g]; by rewrite decide_True. Qed.
  (** Frames that get no guard. *)
  Lemma sm_none l : Forall (fun f => getting f = None) l -> forall y, sm (req y) l = 0 /\ forall g, sm (stg g y) l = 0.
  Proof.
    induction 1 as [|f l Hf _ IH]; intros y; [done|]. destruct (req_other y f) as [E1 E2]; [by rewrite Hf|]. destruct (IH y) as [E3 E4].
    split; [by rewrite sm_cons, E1, E3|]. intros g. by rewrite sm_cons, E2, E4.
  Qed.
  (** A step that replaces the top of the stack by frames that get no guard. *)
  Lemma down_plain d g d' g' l l' k : Forall (fun f => getting f = None) l -> Forall (fun f => getting f = None) l' ->
    sm asks l' = sm asks l -> gd_metas g' = gd_metas g -> sm todo l' + pot d' g' < sm todo l + pot d g ->
    down d g (l ++ k) d' g' (l' ++ k).
  Proof.
    intros Hl Hl' Ha Hm Ht. apply down_todo; [by rewrite !sm_app, Ha|done| |rewrite !sm_app; lia].
    intros y _. destruct (sm_none l Hl y) as [E1 E2], (sm_none l' Hl' y) as [E3 E4]. by rewrite !sm_app, E1, E2, E3, E4.
  Qed.
  Lemma down_asking d g d' g' l l' k : sm asks l' < sm asks l -> down d g (l ++ k) d' g' (l' ++ k).
  Proof. intros H. apply down_asks. rewrite !sm_app. lia. Qed.

  Lemma alloc_release_datas d o d' : alloc_release sz d o = Ok d' -> dw_datas d' = dw_datas d.
  Proof.
    destruct o as [a|]; cbn [alloc_release]; [|by injection 1 as <-].
    destruct (rc_dec (dw_allocs d) a) as [[h r]| | |]; try done. cbn [mbind res_bind]. destruct r as [v|]; [|by injection 1 as <-].
    unfold salloc_drop. repeat case_match; try done; by injection 1 as <-.
  Qed.
  Lemma alloc_clone_datas d o d' : alloc_clone d o = Ok d' -> dw_datas d' = dw_datas d.
  Proof.
    destruct o as [a|]; cbn [alloc_clone]; [|by injection 1 as <-].
    destruct (rc_inc (dw_allocs d) a) as [h| | |]; try done. by injection 1 as <-.
  Qed.
  Lemma try_close_pot g y down g' ok : gate_try_close g y down = Ok (g', ok) -> gd_metas g' = gd_metas g /\ gpot g' = gpot g.
  Proof.
    unfold gate_try_close. destruct (rc_val _ _) as [n| | |]; try done. cbn [mbind res_bind].
    destruct (rc_set _ _ _) as [gs| | |] eqn:E; try done. cbn [mbind res_bind]. injection 1 as <- _. split; [done|].
    apply (rc_set_pot gval) in E; done.
  Qed.
  Lemma open_pot g y down g' : gate_open g y down = Ok g' -> gd_metas g' = gd_metas g /\ gpot g' = gpot g.
  Proof.
    unfold gate_open. destruct (rc_set _ _ _) as [gs| | |] eqn:E; try done. cbn [mbind res_bind]. injection 1 as <-. split; [done|].
    apply (rc_set_pot gval) in E; done.
  Qed.
  Lemma weak_dec_pot g o g' : gd_weak_dec g o = Ok g' -> gd_metas g' = gd_metas g /\ gpot g' = gpot g.
  Proof. unfold gd_weak_dec. repeat case_match; try done; by injection 1 as <-. Qed.
  Lemma weak_inc_pot g o g' : gd_weak_inc g o = Ok g' -> gd_metas g' = gd_metas g /\ gpot g' = gpot g.
  Proof. unfold gd_weak_inc. repeat case_match; try done; by injection 1 as <-. Qed.
  Lemma own_le n : N.to_nat (snd (node_own sz n)) <= N.to_nat (d_len n).
  Proof.
    pose proof (shr1_le (d_len n)). unfold node_own, left_sub, right_sub. destruct (d_left n), (d_right n); cbn [snd]; lia.
  Qed.
  Lemma kids_todo n : sm todo (FRel <$> node_kids n) <= 6 /\ nkids n <= 2.
  Proof. unfold nkids, node_kids. destruct (d_left n), (d_right n); cbn; lia. Qed.
  Lemma kids_one n c l : node_kids n = c :: l -> nkids n = S (nkids (d_set_child (match d_left n with Some _ => false | None => true end) None n)).
  Proof. unfold nkids, node_kids. destruct n as [p len a [x|] [y|]]; cbn; intros; done. Qed.
  Lemma relopt_todo o : sm todo (@rel_opt V o) <= 3 /\ sm asks (@rel_opt V o) = 0 /\ Forall (fun f => getting f = None) (@rel_opt V o).
  Proof. destruct o; cbn; split_and!; try lia; repeat constructor. Qed.

  (** A step of a thread that is getting the guard of [x]. *)
  Lemma sm_below l x : Forall (fun f => match getting f with Some p => p < x | None => True end) l ->
    forall y, x <= y -> sm (req y) l = 0 /\ forall g, sm (stg g y) l = 0.
  Proof.
    induction 1 as [|f l Hf _ IH]; intros y Hy; [done|].
    destruct (req_other y f) as [E1 E2]; [intros E; rewrite E in Hf; lia|]. destruct (IH y Hy) as [E3 E4].
    split; [by rewrite sm_cons, E1, E3|]. intros g. by rewrite sm_cons, E2, E4.
  Qed.
  Lemma asks_get f x : getting f = Some x -> asks f = 0.
  Proof. by destruct f. Qed.
  Lemma down_guard d g d' g' x f f' l k : getting f = Some x -> getting f' = Some x -> gd_metas g' = gd_metas g -> sm asks l = 0 ->
    Forall (fun f => match getting f with Some p => p < x | None => True end) l ->
    (x < length (gd_metas g) -> stage g f' < stage g f) ->
    (length (gd_metas g) <= x -> Forall (fun f => getting f = None) l /\ sm todo l + todo f' + pot d' g' < todo f + pot d g) ->
    down d g (f :: k) d' g' (l ++ f' :: k).
  Proof.
    intros Hf Hf' Hm Ha Hl H1 H2. pose proof (asks_get _ _ Hf) as Ea. pose proof (asks_get _ _ Hf') as Ea'.
    assert (forall y, y <> x -> req y f = 0 /\ req y f' = 0 /\ stg g y f = 0 /\ stg g y f' = 0) as Ho.
    { intros y Hy. destruct (req_other y f) as [E1 E2]; [by rewrite Hf; intros [= ->]|].
      destruct (req_other y f') as [E3 E4]; [by rewrite Hf'; intros [= ->]|]. auto. }
    destruct (decide (x < length (gd_metas g))) as [Hx|Hx].
    - apply down_stage with x; [by rewrite sm_app, !sm_cons, Ha, Ea, Ea'|done|done| | |].
      + intros y Hy. destruct (sm_below l x Hl y) as [E1 E2]; [lia|]. destruct (Ho y) as (E3 & E4 & E5 & E6); [lia|].
        by rewrite !sm_app, !sm_cons, E1, E2, E3, E4, E5, E6.
      + destruct (sm_below l x Hl x) as [E1 E2]; [lia|]. destruct (req_self _ _ Hf) as [E3 _], (req_self _ _ Hf') as [E4 _].
        by rewrite !sm_app, !sm_cons, E1, E3, E4.
      + destruct (sm_below l x Hl x) as [E1 E2]; [lia|]. destruct (req_self _ _ Hf) as [_ E3], (req_self _ _ Hf') as [_ E4].
        rewrite !sm_app, !sm_cons, E2, E3, E4. specialize (H1 Hx). lia.
    - destruct H2 as [Hn Ht]; [lia|]. apply down_todo; [by rewrite sm_app, !sm_cons, Ha, Ea, Ea'|done| |rewrite !sm_app, !sm_cons; lia].
      intros y Hy. destruct (sm_none l Hn y) as [E1 E2]. destruct (Ho y) as (E3 & E4 & E5 & E6); [lia|].
      by rewrite !sm_app, !sm_cons, E1, E2, E3, E4, E5, E6.
  Qed.
  Lemma down_done d g d' g' x f v l k : getting f = Some x -> length (gd_metas g') = length (gd_metas g) ->
    (forall y, y <> x -> gd_metas g' !! y = gd_metas g !! y) -> sm asks l = 0 -> Forall (fun f => getting f = None) l ->
    (length (gd_metas g) <= x -> gd_metas g' = gd_metas g /\ sm todo l + 1 + pot d' g' < todo f + pot d g) ->
    down d g (f :: k) d' g' (l ++ FV v :: k).
  Proof.
    intros Hf Hm1 Hm2 Ha Hl H2. pose proof (asks_get _ _ Hf) as Ea.
    assert (forall y, y <> x -> req y f = 0 /\ stg g y f = 0) as Ho.
    { intros y Hy. destruct (req_other y f) as [E1 E2]; [by rewrite Hf; intros [= ->]|]. auto. }
    assert (forall y, req y (FV v) = 0 /\ stg g y (FV v) = 0) as Hv. { intros y. by destruct (req_other y (FV v)). }
    destruct (decide (x < length (gd_metas g))) as [Hx|Hx].
    - apply down_got with x; [by rewrite sm_app, !sm_cons, Ha, Ea|done..| |].
      + intros y Hy. destruct (sm_none l Hl y) as [E1 E2]. destruct (Ho y) as (E3 & E5); [lia|]. destruct (Hv y) as [E4 E6].
        by rewrite !sm_app, !sm_cons, E1, E2, E3, E4, E5, E6.
      + destruct (sm_none l Hl x) as [E1 E2]. destruct (req_self _ _ Hf) as [E3 _]. destruct (Hv x) as [E4 _].
        rewrite !sm_app, !sm_cons, E1, E3, E4. lia.
    - destruct H2 as [Hn Ht]; [lia|]. apply down_todo; [by rewrite sm_app, !sm_cons, Ha, Ea|done| |rewrite !sm_app, !sm_cons; cbn; lia].
      intros y Hy. destruct (sm_none l Hl y) as [E1 E2]. destruct (Ho y) as (E3 & E5); [lia|]. destruct (Hv y) as [E4 E6].
      by rewrite !sm_app, !sm_cons, E1, E2, E3, E4, E5, E6.
  Qed.

  Lemma down_kpar d g x b p y k : down d g (FV (VGuard y) :: KGuardPar x b p :: k) d g (FRel p :: FGuardCas x b (Some y) :: k).
  Proof.
    assert (forall z, req z (FV (VGuard y)) = 0 /\ forall g, stg g z (FV (VGuard y)) = 0) as Hv by (intros z; by apply req_other).
    assert (forall z, req z (FRel p) = 0 /\ forall g, stg g z (FRel p) = 0) as Hr by (intros z; by apply req_other).
    assert (forall z, z <> x -> req z (KGuardPar x b p) = 0 /\ req z (FGuardCas x b (Some y)) = 0 /\
      stg g z (KGuardPar x b p) = 0 /\ stg g z (FGuardCas x b (Some y)) = 0) as Ho.
    { intros z Hz. destruct (req_other z (KGuardPar x b p)) as [E1 E2]; [cbn; congruence|].
      destruct (req_other z (FGuardCas x b (Some y))) as [E3 E4]; [cbn; congruence|]. auto. }
    assert (forall z, z <> x -> sm (req z) (FRel p :: FGuardCas x b (Some y) :: k) = sm (req z) (FV (VGuard y) :: KGuardPar x b p :: k) /\
      sm (stg g z) (FRel p :: FGuardCas x b (Some y) :: k) = sm (stg g z) (FV (VGuard y) :: KGuardPar x b p :: k)) as Hs.
    { intros z Hz. destruct (Hv z) as [E1 E2], (Hr z) as [E3 E4], (Ho z Hz) as (E5 & E6 & E7 & E8).
      by rewrite !sm_cons, E1, E2, E3, E4, E5, E6, E7, E8. }
    destruct (decide (x < length (gd_metas g))) as [Hx|Hx].
    - destruct (req_self (KGuardPar x b p) x eq_refl) as [E1 E2], (req_self (FGuardCas x b (Some y)) x eq_refl) as [E3 E4], (Hv x) as [E5 E6], (Hr x) as [E7 E8].
      apply down_stage with x; [done..| | |].
      + intros z Hz. apply Hs. lia.
      + by rewrite !sm_cons, E1, E3, E5, E7.
      + rewrite !sm_cons, E2, E4, E6, E8. cbn [stage]. destruct (cur g x b); lia.
    - apply down_todo; [done..| |cbn; lia]. intros z Hz. apply Hs. lia.
  Qed.
  Ltac bnd H := match type of H with mbind ?f ?x = Ok _ => let r := fresh "r" in let E := fresh "E" in
    destruct x as [r| | |] eqn:E; [|discriminate H..]; cbn [mbind res_bind] in H; repeat (match type of r with prod _ _ => let r' := fresh "r" in destruct r as [r r'] end) end.
  Ltac plain l l' k := lazymatch goal with |- down ?d ?g _ ?d' ?g' _ =>
    apply (down_plain d g d' g' l l' k); [by repeat constructor|by repeat constructor|done|done|unfold pot; cbn [sm sum_list_with todo]; try lia] end.
  Ltac asking l l' k := lazymatch goal with |- down ?d ?g _ ?d' ?g' _ => apply (down_asking d g d' g' l l' k); cbn; lia end.
  Lemma mstep_down d g st d' g' st' : meta_aged g -> mstep sz d g st = Ok (d', g', st') ->
    (forall y dn k n, st = FWait y dn :: k -> rc_val (gd_guards g) y = Ok n -> a_gate dn n = false) ->
    down d g st d' g' st'.
  Proof.
    intros Hag H Hw. destruct st as [|f k]; [done|].
    destruct f as [x|n p a|x|o|x dn|x side|x side c|x side|x side k' n'|x side c k' n'|x side c k' n'|x side c k' n'
      |x|x b|x b|x b p|x b pg|x b pg| |x|r0|r0|x0 y0|r0|o|r0|r0|r0|r0|r0|r0|r0|r0|n a|side n a|r0|y dn|r0|v|h]; cbn [mstep] in H.
    - (* FRel *) bnd H. apply (rc_dec_pot dval) in E. destruct r0 as [n|]; cbn match in E.
      + pose proof (own_le n) as Hl. destruct (node_own sz n) as [q len] eqn:En. cbn [snd] in Hl. injection H as <- <- <-.
        destruct (kids_todo n) as [Hk _].
        change (FItems (N.to_nat len) q (d_alloc n) :: k) with ([FItems (N.to_nat len) q (d_alloc n)] ++ k). rewrite (app_assoc _ _ k).
        apply (down_plain d g _ g [FRel x] _ k); [by repeat constructor| | |done|].
        * apply Forall_app; split; [|by repeat constructor]. apply Forall_fmap, Forall_true. done.
        * rewrite sm_app. unfold node_kids. by destruct (d_left n), (d_right n).
        * rewrite sm_app. unfold pot, dpot in *. cbn [sm sum_list_with todo dw_datas dw_set_datas]. unfold dval at 2 in E. lia.
      + injection H as <- <- <-. plain [@FRel V x] (@nil (frame V)) k. unfold dpot. cbn [dw_datas dw_set_datas]. lia.
    - (* FItems *) destruct n as [|n].
      + bnd H. injection H as <- <- <-. apply alloc_release_datas in E. plain [@FItems V 0 p a] (@nil (frame V)) k. unfold dpot. rewrite E. lia.
      + unfold mem_take in H. destruct (mem_at sz d p) as [v| | |]; try discriminate H. cbn [mbind res_bind] in H. injection H as <- <- <-.
        plain [@FItems V (S n) p a] [@FItems V n (ptr_add sz p 1) a] k. unfold dpot. cbn [dw_datas dw_log dw_set_mem]. lia.
    - (* FRelG *) bnd H. apply (rc_dec_pot gval) in E. destruct r0 as [n|]; cbn match in E; injection H as <- <- <-.
      + destruct (relopt_todo (a_parent n)) as (H1 & H2 & H3).
        apply (down_plain d g _ _ [FRelG x] _ k); [by repeat constructor|done|done|done|].
        unfold pot, gpot. cbn [sm sum_list_with todo gd_guards gd_set_guards]. unfold gval at 2 in E. unfold sm in *. lia.
      + plain [@FRelG V x] (@nil (frame V)) k. unfold gpot. cbn [gd_guards gd_set_guards]. lia.
    - (* FRelW *) bnd H. injection H as <- <- <-. apply weak_dec_pot in E as [E1 E2]. plain [@FRelW V o] (@nil (frame V)) k.
    - (* FWait *) bnd H. rewrite (Hw _ _ _ _ eq_refl E) in H. injection H as <- <- <-. plain [@FWait V x dn] (@nil (frame V)) k.
    - (* FChild *) bnd H. case_match.
      + bnd H. injection H as <- <- <-. asking [@FChild V x side] [@FV V (VData x)] k.
      + destruct (d_child side r) as [c|]; injection H as <- <- <-.
        * plain [@FChild V x side] [@FChildInc V x side c] k.
        * plain [@FChild V x side] [@FChildAlloc V x side] k.
    - bnd H. injection H as <- <- <-. asking [@FChildInc V x side c] [@FV V (VData c)] k.
    - bnd H. destruct (node_sub sz side r) as [q len]. bnd H. injection H as <- <- <-. apply alloc_clone_datas in E0.
      match goal with |- down _ _ _ _ _ (?f :: _) => plain [@FChildAlloc V x side] [f] k end. unfold dpot. rewrite E0. lia.
    - bnd H. destruct (d_child side r) as [c|].
      + injection H as <- <- <-. plain [@FChildCas V x side k' n'] [@FChildLost V x side c k' n'] k.
      + bnd H. injection H as <- <- <-. match goal with |- down _ _ _ _ _ (?f :: _) => asking [@FChildCas V x side k' n'] [f] k end.
    - bnd H. apply (rc_inc_pot dval) in E. injection H as <- <- <-. plain [@FChildLost V x side c k' n'] [@FChildUndo V x side c k' n'] k.
      unfold dpot. cbn [dw_datas dw_set_datas]. lia.
    - destruct k' as [|[|k'']]; try discriminate H. injection H as <- <- <-. plain [@FChildUndo V x side c (S (S k'')) n'] [@FChildUnwrap V x side c (S k'') n'] k.
    - case_match; try discriminate H. injection H as <- <- <-.
      asking [@FChildUnwrap V x side c k' n'] [@FItems V 0 (d_ptr n') (d_alloc n'); FV (VData c)] k.
    - (* FGuard *) bnd H. destruct (gd_metas g !! x) as [m|] eqn:Em; [|discriminate H]. injection H as <- <- <-.
      apply (down_guard d g d g x (FGuard x) (FGuardUp x (am_box m)) [] k); [done..|constructor|cbn; lia|].
      intros Hx. apply lookup_lt_Some in Em. lia.
    - (* FGuardUp *) destruct (gd_boxes g !! b) as [[wk|]|]; [|discriminate H..]. destruct (rc_upgrade (gd_guards g) wk) as [gs o] eqn:E.
      apply (rc_upgrade_pot gval) in E. destruct o as [y|]; injection H as <- <- <-.
      + apply (down_done d g d _ x (FGuardUp x b) (VGuard y) [] k); [done..|constructor|]. intros _. split; [done|].
        unfold pot, gpot. cbn [sm sum_list_with todo gd_guards gd_set_guards]. lia.
      + apply (down_guard d g d g x (FGuardUp x b) (FGuardPar x b) [] k); [done..|constructor| |].
        * intros _. cbn. destruct (cur g x b); lia.
        * intros _. split; [constructor|]. cbn. lia.
    - (* FGuardPar *) destruct (gd_metas g !! x) as [m|] eqn:Em; [|discriminate H]. pose proof (lookup_lt_Some _ _ _ Em) as Hx.
      destruct (rc_upgrade (dw_datas d) (am_parent m)) as [hs o] eqn:E. destruct o as [q|]; injection H as <- <- <-.
      + assert (q < x).
        { destruct (am_parent m) as [q'|] eqn:Eq; cbn in E; [|discriminate E]. repeat case_match; try discriminate E. injection E as _ <-. by eapply Hag. }
        apply (down_guard d g _ g x (FGuardPar x b) (KGuardPar x b q) [FGuard q] k); [done..|by repeat constructor| |lia].
        intros _. cbn. destruct (cur g x b); lia.
      + apply (down_guard d g d g x (FGuardPar x b) (FGuardCas x b None) [] k); [done..|constructor| |lia].
        intros _. cbn. destruct (cur g x b); lia.
    - discriminate H.
    - (* FGuardCas *) bnd H. destruct (gd_metas g !! x) as [m|] eqn:Em; [|discriminate H]. pose proof (lookup_lt_Some _ _ _ Em) as Hx.
      destruct (am_box m =? b) eqn:Eb.
      + unfold gd_new_guard in H. destruct (rc_new (gd_guards g) _) as [gs y]. rewrite Em, Eb in H. cbn [mbind res_bind] in H. injection H as <- <- <-.
        apply (down_done d g d _ x (FGuardCas x b pg) (VGuard y) [] k); [done| | |done|constructor|lia]; cbn [gd_metas].
        * by rewrite insert_length.
        * intros y' Hy. by rewrite list_lookup_insert_ne.
      + injection H as <- <- <-. apply (down_guard d g d g x (FGuardCas x b pg) (FGuardLost x (am_box m) pg) [] k); [done..|constructor| |lia].
        intros _. cbn. unfold cur. rewrite Em, Eb, Nat.eqb_refl. lia.
    - (* FGuardLost *) destruct (gd_boxes g !! b) as [[wk|]|]; [|discriminate H..]. destruct (rc_upgrade (gd_guards g) wk) as [gs o] eqn:E.
      destruct (relopt_todo pg) as (H1 & H2 & H3). apply (rc_upgrade_pot gval) in E. destruct o as [y|]; injection H as <- <- <-.
      + apply (down_done d g d _ x (FGuardLost x b pg) (VGuard y) (rel_opt pg) k); [done..|]. intros _. split; [done|].
        unfold pot, gpot. cbn [todo gd_guards gd_set_guards]. lia.
      + apply (down_guard d g d g x (FGuardLost x b pg) (FGuardPar x b) (rel_opt pg) k); [done..| | |].
        * eapply Forall_impl; [exact H3|]. intros f ->. done.
        * intros _. cbn. destruct (cur g x b); lia.
        * intros _. split; [done|]. cbn [todo]. lia.
    - discriminate H.
    - discriminate H.
    - bnd H. apply (rc_inc_pot dval) in E. injection H as <- <- <-. plain [@FCloneD V r0] [@FCloneG V r0] k. unfold dpot. cbn [dw_datas dw_set_datas]. lia.
    - bnd H. apply (rc_inc_pot gval) in E. injection H as <- <- <-. match goal with |- down _ _ _ _ _ (?f :: _) => plain [@FCloneG V r0] [f] k end.
      unfold gpot. cbn [gd_guards gd_set_guards]. lia.
    - bnd H. apply weak_inc_pot in E as [E1 E2]. injection H as <- <- <-. match goal with |- down _ _ _ _ _ (?f :: _) => plain [@FCloneW V x0 y0] [f] k end.
    - bnd H. bnd H. apply weak_inc_pot in E0 as [E1 E2]. injection H as <- <- <-. match goal with |- down _ _ _ _ _ (?f :: _) => plain [@FDown V r0] [f] k end.
    - destruct (rc_upgrade (dw_datas d) o) as [hs o'] eqn:E. destruct o' as [x|]; injection H as <- <- <-.
      + asking [@FUpgrade V o] [@FV V (VData x); KFromData] k.
      + match goal with |- down _ _ _ _ _ (?f :: _) => asking [@FUpgrade V o] [f] k end.
    - bnd H. apply try_close_pot in E as [E1 E2]. destruct r1; injection H as <- <- <-.
      + plain [@FGm1 V r0] [@FGm2 V r0; FOpen (ar_guard r0) true] k.
      + match goal with |- down _ _ _ _ _ (?f :: _) => plain [@FGm1 V r0] [f] k end.
    - case_match; injection H as <- <- <-; match goal with |- down _ _ _ _ _ (?f :: _) => plain [@FGm2 V r0] [f] k end.
    - bnd H. apply try_close_pot in E as [E1 E2]. destruct r1; injection H as <- <- <-.
      + plain [@FGm3 V r0] [@FGm4 V r0; FOpen (ar_guard r0) false] k.
      + match goal with |- down _ _ _ _ _ (?f :: _) => plain [@FGm3 V r0] [f] k end.
    - case_match; injection H as <- <- <-; match goal with |- down _ _ _ _ _ (?f :: _) => plain [@FGm4 V r0] [f] k end.
    - case_match; injection H as <- <- <-; match goal with |- down _ _ _ _ _ (?f :: _) => plain [@FGm5 V r0] [f] k end.
    - bnd H. apply try_close_pot in E as [E1 E2]. destruct r1; injection H as <- <- <-.
      + plain [@FIm1 V r0] [@FIm2 V r0; FOpen (ar_guard r0) false] k.
      + match goal with |- down _ _ _ _ _ (?f :: _) => plain [@FIm1 V r0] [f] k end.
    - case_match; injection H as <- <- <-; match goal with |- down _ _ _ _ _ (?f :: _) => plain [@FIm2 V r0] [f] k end.
    - destruct k as [|f k]; [discriminate H|]. destruct f; try discriminate H. bnd H. apply (rc_unwrap_pot dval) in E.
      destruct r1 as [n|]; cbn match in E; injection H as <- <- <-.
      + destruct (kids_todo n) as [_ Hk].
        match goal with |- down _ _ (_ :: ?o :: _) _ _ _ => plain [@FIm3 V r0; o] [FFg n (d_alloc n); o; KImG r0] k end.
        unfold dpot. cbn [dw_datas dw_set_datas]. unfold dval at 2 in E. lia.
      + match goal with |- down _ _ (_ :: ?o :: _) _ _ (?f :: _) => plain [@FIm3 V r0; o] [f; o] k end.
        unfold dpot. cbn [dw_datas dw_set_datas]. lia.
    - (* FFg *) destruct (node_kids n) as [|c l] eqn:En.
      + assert (nkids n = 0) as Hn by (unfold nkids; by rewrite En).
        assert (down d g (FFg n a :: k) d g (FV (VFin (Some (XMut (MutS (SliceItems (d_ptr n) (d_len n)) a))) None) :: k)) as Hd.
        { match goal with |- down _ _ _ _ _ (?f :: _) => plain [@FFg V n a] [f] k end. }
        destruct k as [|f k]; [by injection H as <- <- <-|]. destruct f; try (by injection H as <- <- <-).
        bnd H. injection H as <- <- <-. apply alloc_release_datas in E. rename n0 into n1, a0 into a1.
        plain [@FFg V n a; KFg side n1 a1] [@FFg V (d_set_child side None n1) a1] k. unfold dpot. rewrite E. lia.
      + bnd H. apply (rc_unwrap_pot dval) in E. pose proof (kids_one _ _ _ En) as Hk. destruct r0 as [n'|]; cbn match in E; injection H as <- <- <-.
        * destruct (kids_todo n') as [_ Hk']. match goal with |- down _ _ _ _ _ (?f :: ?f' :: _) => plain [@FFg V n a] [f; f'] k end.
          unfold dpot. cbn [dw_datas dw_set_datas]. unfold dval at 2 in E. lia.
        * match goal with |- down _ _ _ _ _ (?f :: ?f' :: _) => plain [@FFg V n a] [f; f'] k end.
          unfold dpot. cbn [dw_datas dw_set_datas]. lia.
    - discriminate H.
    - discriminate H.
    - discriminate H.
    - discriminate H.
    - (* FV *) destruct k as [|f k]; [destruct v; discriminate H|]. destruct f; try (destruct v; discriminate H); rename H into H0.
      + (* KGuardPar *) destruct v as [|y| |]; try discriminate H0. cbn in H0. injection H0 as <- <- <-. rename d0 into x.
        apply (down_kpar d g x).
      + destruct v as [x| | |]; try discriminate H0. cbn in H0. injection H0 as <- <- <-. asking [@FV V (VData x); KFromData] [@FGuard V x; KSlice x] k.
      + destruct v as [|y| |]; try discriminate H0. cbn in H0. injection H0 as <- <- <-. rename d0 into x.
        plain [@FV V (VGuard y); KSlice x] [@FV V (VFin (Some (XArc (ArcS x y))) None)] k.
      + destruct v; cbn in H0; injection H0 as <- <- <-; match goal with |- down _ _ (?a :: ?b :: _) _ _ (?c :: ?e :: _) => plain [a; b] [c; e] k end.
      + assert (exists g1, gate_open g g0 down0 = Ok g1 /\ d' = d /\ g' = g1 /\ st' = FV v :: k) as (g1 & E & -> & -> & ->).
        { destruct v; cbn in H0; bnd H0; injection H0 as <- <- <-; eauto. }
        apply open_pot in E as [E1 E2]. match goal with |- down _ _ (?a :: ?b :: _) _ _ _ => plain [a; b] [@FV V v] k end.
    - discriminate H.
  Qed.
End weights.
