(** Racing [clone_left]/[clone_right]: everybody gets the same child. Holds
    after every schedule, whatever the threads do. *)
From Verif Require Import Base BaseLemmas Api SliceItemsModel Spec DataModel RcModel DataInv DataSteps GuardInv ArcModel ArcInv ArcConc ConcInv ConcGuard ConcWorld.
Local Open Scope nat_scope.
#[local] Arguments slo {A} F hs : simpl never.
#[local] Arguments thr {V A} F ts : simpl never.

Section heap.
  Context {A : Type}.
  Implicit Types h : heap A.
  (** No entry appears, changes its value or comes back. *)
  Definition hkeep h h' : Prop := length h' = length h /\ forall i n, rc_get h' i = Some n -> rc_get h i = Some n.
  Lemma hkeep_refl h : hkeep h h.
  Proof. by split. Qed.
  Lemma hkeep_insert h i s s' v : live h i s v -> hkeep h (<[i := Some (s', v)]> h).
  Proof.
    intros Hv. split; [apply insert_length|]. intros j n. rewrite rc_get_insert by by eapply live_lt.
    destruct (decide (j = i)) as [->|]; [|done]. cbn. intros [= <-]. by eapply rc_get_live.
  Qed.
  Lemma hkeep_kill h i s v : live h i s v -> hkeep h (<[i := None]> h).
  Proof.
    intros Hv. split; [apply insert_length|]. intros j n. rewrite rc_get_insert by by eapply live_lt.
    by destruct (decide (j = i)).
  Qed.
  Lemma hkeep_inc h i h' : rc_inc h i = Ok h' -> hkeep h h'.
  Proof. intros (s & v & Hv & ->)%rc_inc_inv. by eapply hkeep_insert. Qed.
  Lemma hkeep_dec h i h' r : rc_dec h i = Ok (h', r) -> hkeep h h'.
  Proof.
    intros [(s & v & Hv & -> & _)|(v & Hv & -> & _)]%rc_dec_inv; [by eapply hkeep_insert|by eapply hkeep_kill].
  Qed.
  Lemma hkeep_unwrap h i h' r : rc_try_unwrap h i = Ok (h', r) -> hkeep h h'.
  Proof.
    intros [(s & v & Hv & -> & _)|(v & Hv & -> & _)]%rc_unwrap_inv; [apply hkeep_refl|by eapply hkeep_kill].
  Qed.
  Lemma hkeep_upgrade h o h' r : rc_upgrade h o = (h', r) -> hkeep h h'.
  Proof.
    intros [(i & s & v & -> & Hv & -> & _)|(-> & _ & _)]%rc_upgrade_inv; [by eapply hkeep_insert|apply hkeep_refl].
  Qed.
End heap.

Section child.
  Context {V : Type} (sz : N).
  Notation stack := (list (frame V)).
  Implicit Types (s : cstate V) (t : nat) (d : dworld V).

  (** Everything but the publication of a child. *)
  Lemma mstep_nodes d g (st : stack) d' g' st' : mstep sz d g st = Ok (d', g', st') ->
    hkeep (dw_datas d) (dw_datas d') \/
    exists x side k' n' k (j : nat) n, st = FChildCas x side k' n' :: k /\ live (dw_datas d) x j n /\ d_child side n = None /\
      dw_datas d' = <[x := Some (j, d_set_child side (Some (length (dw_datas d))) n)]> (dw_datas d ++ [Some (k', n')]) /\
      st' = FV (VData (length (dw_datas d))) :: k.
  Proof.
    intros Hs. unfold mstep in Hs. destruct st as [|f k]; [done|].
    destruct f; try done.
    - left. apply bind_inv in Hs as ([h r] & Hd & Hs). apply hkeep_dec in Hd. destruct r as [n|].
      + destruct (node_own sz n). by injection Hs as <- <- <-.
      + by injection Hs as <- <- <-.
    - left. destruct k0 as [|j].
      + apply bind_inv in Hs as (d1 & Hd & [= <- <- <-]). rewrite (alloc_release_datas _ _ _ _ Hd). apply hkeep_refl.
      + apply bind_inv in Hs as ([d1 v] & Hd & [= <- <- <-]). cbn. rewrite (mem_take_datas _ _ _ _ _ Hd). apply hkeep_refl.
    - left. apply bind_inv in Hs as ([h r] & Hd & Hs). destruct r; injection Hs as <- <- <-; apply hkeep_refl.
    - left. apply bind_inv in Hs as (g1 & Hd & [= <- <- <-]). apply hkeep_refl.
    - left. apply bind_inv in Hs as (n & Hd & Hs). destruct (a_gate down n); injection Hs as <- <- <-; apply hkeep_refl.
    - left. apply bind_inv in Hs as (n & Hn & Hs). destruct (_ <=? _)%N.
      + apply bind_inv in Hs as (h & Hd & [= <- <- <-]). by eapply hkeep_inc.
      + destruct (d_child side n); injection Hs as <- <- <-; apply hkeep_refl.
    - left. apply bind_inv in Hs as (h & Hd & [= <- <- <-]). by eapply hkeep_inc.
    - left. apply bind_inv in Hs as (n & Hn & Hs). destruct (node_sub sz side n) as [p len].
      apply bind_inv in Hs as (d1 & Hd & [= <- <- <-]). rewrite (alloc_clone_datas _ _ _ Hd). apply hkeep_refl.
    - apply bind_inv in Hs as (m & (s & Hm)%rc_val_inv & Hs). destruct (d_child side m) as [c|] eqn:Ec.
      + left. injection Hs as <- <- <-. apply hkeep_refl.
      + right. apply bind_inv in Hs as (h1 & Hi & [= <- <- <-]). apply rc_set_inv in Hi as (s' & v & Hv & ->).
        unfold live in Hv. rewrite lookup_app_l in Hv by by eapply live_lt. destruct (live_fun _ _ _ _ _ _ Hm Hv) as [<- <-].
        by exists d0, side, k0, n, k, s, m.
    - left. apply bind_inv in Hs as (h & Hd & [= <- <- <-]). by eapply hkeep_inc.
    - left. destruct k0 as [|[|j]]; try done. injection Hs as <- <- <-. apply hkeep_refl.
    - left. destruct (_ =? 1); [|done]. injection Hs as <- <- <-. apply hkeep_refl.
    - left. apply bind_inv in Hs as (n & _ & Hs). destruct (gd_metas g !! d0); [|done]. injection Hs as <- <- <-. apply hkeep_refl.
    - left. destruct (gd_boxes g !! b) as [[wk|]|]; try done. destruct (rc_upgrade _ _) as [gs [y|]]; injection Hs as <- <- <-; apply hkeep_refl.
    - left. destruct (gd_metas g !! d0); [|done]. destruct (rc_upgrade _ _) as [h [p|]] eqn:E; injection Hs as <- <- <-; [|apply hkeep_refl].
      by eapply hkeep_upgrade.
    - left. apply bind_inv in Hs as (n & _ & Hs). destruct (gd_metas g !! d0); [|done]. destruct (_ =? _).
      + apply bind_inv in Hs as ([g1 y] & _ & [= <- <- <-]). apply hkeep_refl.
      + injection Hs as <- <- <-. apply hkeep_refl.
    - left. destruct (gd_boxes g !! b) as [[wk|]|]; try done. destruct (rc_upgrade _ _) as [gs [y|]]; injection Hs as <- <- <-; apply hkeep_refl.
    - left. apply bind_inv in Hs as (h & Hd & [= <- <- <-]). by eapply hkeep_inc.
    - left. apply bind_inv in Hs as (h & Hd & [= <- <- <-]). apply hkeep_refl.
    - left. apply bind_inv in Hs as (h & Hd & [= <- <- <-]). apply hkeep_refl.
    - left. apply bind_inv in Hs as (n & _ & Hs). apply bind_inv in Hs as (h & Hd & [= <- <- <-]). apply hkeep_refl.
    - left. destruct (rc_upgrade _ _) as [h [p|]] eqn:E; injection Hs as <- <- <-; [|apply hkeep_refl]. by eapply hkeep_upgrade.
    - left. apply bind_inv in Hs as ([g1 ok] & _ & Hs). destruct ok; injection Hs as <- <- <-; apply hkeep_refl.
    - left. destruct (_ =? 1); injection Hs as <- <- <-; apply hkeep_refl.
    - left. apply bind_inv in Hs as ([g1 ok] & _ & Hs). destruct ok; injection Hs as <- <- <-; apply hkeep_refl.
    - left. destruct (_ =? 1); injection Hs as <- <- <-; apply hkeep_refl.
    - left. destruct (_ =? 1); injection Hs as <- <- <-; apply hkeep_refl.
    - left. apply bind_inv in Hs as ([g1 ok] & _ & Hs). destruct ok; injection Hs as <- <- <-; apply hkeep_refl.
    - left. destruct (_ =? 1); injection Hs as <- <- <-; apply hkeep_refl.
    - left. destruct k as [|[] k]; try done. apply bind_inv in Hs as ([h o] & Hd & Hs). apply hkeep_unwrap in Hd.
      destruct o; by injection Hs as <- <- <-.
    - left. destruct (node_kids n) as [|c ks].
      + destruct k as [|[] k]; try (injection Hs as <- <- <-; apply hkeep_refl).
        apply bind_inv in Hs as (d1 & Hd & [= <- <- <-]). rewrite (alloc_release_datas _ _ _ _ Hd). apply hkeep_refl.
      + apply bind_inv in Hs as ([h o] & Hd & Hs). apply hkeep_unwrap in Hd. destruct o; by injection Hs as <- <- <-.
    - left. destruct v; (destruct k as [|[] k]; try done;
        (lazymatch type of Hs with Ok _ = _ => injection Hs as <- <- <- | _ => apply bind_inv in Hs as (? & _ & Hs); injection Hs as <- <- <- end); apply hkeep_refl).
  Qed.

  (** ** Claims: who got, or is about to get, which child *)
  Definition claim := (nat * bool * nat)%type.
  Definition fC (f : frame V) : list claim :=
    match f with
    | FChildInc x side c | FChildLost x side c _ _ | FChildUndo x side c _ _ | FChildUnwrap x side c _ _ => [(x, side, c)]
    | _ => []
    end.
  Definition fP (f : frame V) : list (nat * bool) :=
    match f with FChildAlloc x side | FChildCas x side _ _ => [(x, side)] | _ => [] end.
  Definition fN (f : frame V) : list (nat * bool * dnode) :=
    match f with FChildCas x side _ n => [(x, side, n)] | _ => [] end.
  Definition small (side : bool) (n : dnode) : bool := (d_len n <=? (if side then 1 else 0))%N.
  Definition holds (h : heap dnode) (cl : claim) : Prop :=
    let '(x, side, c) := cl in
    forall n, rc_get h x = Some n -> if small side n then c = x else d_child side n = Some c.
  Definition geo (n' n : dnode) (side : bool) : Prop :=
    (d_ptr n', d_len n') = node_sub sz side n /\ d_alloc n' = if (d_len n' =? 0)%N then None else d_alloc n.

  Definition claims s : list claim := cs_log s ++ thr fC (cs_t s).
  Record CI s : Prop := {
    ci_lt : forall x side c, (x, side, c) ∈ claims s -> x < length (dw_datas (cs_d s));
    ci_ok : forall cl, cl ∈ claims s -> holds (dw_datas (cs_d s)) cl;
    ci_agree : forall x side c c', (x, side, c) ∈ claims s -> (x, side, c') ∈ claims s -> c = c';
    ci_pend : forall x side, (x, side) ∈ thr fP (cs_t s) -> x < length (dw_datas (cs_d s)) /\
      forall n, rc_get (dw_datas (cs_d s)) x = Some n -> small side n = false;
    ci_new : forall x side n', (x, side, n') ∈ thr fN (cs_t s) ->
      x < length (dw_datas (cs_d s)) /\ d_left n' = None /\ d_right n' = None /\
      forall n, rc_get (dw_datas (cs_d s)) x = Some n -> geo n' n side;
    ci_kid : forall x n side c, rc_get (dw_datas (cs_d s)) x = Some n -> d_child side n = Some c ->
      x < c < length (dw_datas (cs_d s)) /\
      forall m, rc_get (dw_datas (cs_d s)) c = Some m -> geo m n side
  }.

  (** What a step adds. *)
  Definition CL (st st' : stack) d d' : Prop :=
    (forall x side c, (x, side, c) ∈ step_log st st' ++ stk fC st' ->
      (x, side, c) ∈ stk fC st \/
      (x < length (dw_datas d) /\ exists n, rc_get (dw_datas d') x = Some n /\ if small side n then c = x else d_child side n = Some c)) /\
    (forall x side, (x, side) ∈ stk fP st' -> (x, side) ∈ stk fP st \/
      exists n, rc_get (dw_datas d') x = Some n /\ small side n = false) /\
    (forall x side n', (x, side, n') ∈ stk fN st' -> (x, side, n') ∈ stk fN st \/
      (d_left n' = None /\ d_right n' = None /\ exists n, rc_get (dw_datas d') x = Some n /\ geo n' n side)).
  Lemma d_child_same side c n : d_child side (d_set_child side c n) = c.
  Proof. by destruct side. Qed.
  Lemma d_child_other side side' c n : side <> side' -> d_child side (d_set_child side' c n) = d_child side n.
  Proof. by destruct side, side'. Qed.
  Lemma small_set side side' c n : small side (d_set_child side' c n) = small side n.
  Proof. by destruct side'. Qed.
  Lemma node_sub_set side side' c n : node_sub sz side (d_set_child side' c n) = node_sub sz side n.
  Proof. by destruct side, side'. Qed.
  Lemma mstep_claims d g (st : stack) d' g' st' : mstep sz d g st = Ok (d', g', st') ->
    (forall x side, (x, side) ∈ stk fP st -> forall n, rc_get (dw_datas d) x = Some n -> small side n = false) ->
    CL st st' d d'.
  Proof.
    intros Hs HP. unfold mstep in Hs. destruct st as [|f k]; [done|].
    assert (forall st', stk fC st' = stk fC k -> stk fP st' = stk fP k -> stk fN st' = stk fN k ->
      step_log (f :: k) st' = [] -> CL (f :: k) st' d d') as Hplain.
    { intros st1 E1 E2 E3 E4. unfold CL. rewrite E4, E1, E2, E3. cbn [app]. rewrite !stk_cons.
      split_and!; intros; left; apply elem_of_app; by right. }
    destruct f; try done.
    - apply bind_inv in Hs as ([h r] & Hd & Hs). destruct r as [n|].
      + destruct (node_own sz n). injection Hs as <- <- <-. apply Hplain; try done; by rewrite stk_app, stk_nil.
      + injection Hs as <- <- <-. by apply Hplain.
    - destruct k0 as [|j].
      + apply bind_inv in Hs as (d1 & Hd & [= <- <- <-]). by apply Hplain.
      + apply bind_inv in Hs as ([d1 v] & Hd & [= <- <- <-]). by apply Hplain.
    - apply bind_inv in Hs as ([h r] & Hd & Hs). destruct r as [n|]; injection Hs as <- <- <-; [|by apply Hplain].
      apply Hplain; try done; rewrite stk_relopt; by destruct (a_parent n).
    - apply bind_inv in Hs as (g1 & Hd & [= <- <- <-]). by apply Hplain.
    - apply bind_inv in Hs as (n & Hd & Hs). destruct (a_gate down n); injection Hs as <- <- <-; by apply Hplain.
    - (* FChild *)
      apply bind_inv in Hs as (n & (j & Hn)%rc_val_inv & Hs). pose proof (live_lt _ _ _ _ Hn) as Hlt. destruct (_ <=? _)%N eqn:Esm.
      + apply bind_inv in Hs as (h & Hd & [= <- <- <-]). apply rc_inc_inv in Hd as (s' & v & Hv & ->).
        destruct (live_fun _ _ _ _ _ _ Hn Hv) as [<- <-].
        unfold CL. split_and!.
        * intros x side' c [[= -> -> ->]%elem_of_list_singleton|Hc]%elem_of_app.
          -- right. split; [done|]. exists n. cbn. rewrite rc_get_insert, decide_True by done. split; [done|]. unfold small. by rewrite Esm.
          -- left. done.
        * intros x side' Hc. by left.
        * intros x side' n' Hc. by left.
      + destruct (d_child side n) as [c0|] eqn:Ec; injection Hs as <- <- <-; unfold CL; split_and!.
        * intros x side' c [Hc|Hc]%elem_of_app; [by apply elem_of_nil in Hc|]. rewrite stk_cons in Hc.
          apply elem_of_app in Hc as [[= -> -> ->]%elem_of_list_singleton|Hc]; [right|by left].
          split; [done|]. exists n. split; [by eapply rc_get_live|]. unfold small. by rewrite Esm.
        * intros x side' Hc. by left.
        * intros x side' n' Hc. by left.
        * intros x side' c Hc. by left.
        * intros x side' Hc. rewrite stk_cons in Hc. apply elem_of_app in Hc as [[= -> ->]%elem_of_list_singleton|Hc]; [right|by left].
          exists n. split; [by eapply rc_get_live|done].
        * intros x side' n' Hc. by left.
    - (* FChildInc *)
      apply bind_inv in Hs as (h & Hd & [= <- <- <-]). unfold CL. split_and!; intros; by left.
    - (* FChildAlloc *)
      apply bind_inv in Hs as (n & (j & Hn)%rc_val_inv & Hs). destruct (node_sub sz side n) as [p len] eqn:Esub.
      apply bind_inv in Hs as (d1 & Hd & [= <- <- <-]). apply alloc_clone_datas in Hd. unfold CL. split_and!.
      + intros; by left.
      + intros; by left.
      + intros x side' n' Hc. rewrite stk_cons in Hc. apply elem_of_app in Hc as [[= -> -> ->]%elem_of_list_singleton|Hc]; [right|by left].
        split_and!; [done..|]. exists n. rewrite Hd. split; [by eapply rc_get_live|]. by split.
    - (* FChildCas *)
      apply bind_inv in Hs as (m & (s & Hm)%rc_val_inv & Hs). pose proof (live_lt _ _ _ _ Hm) as Hlt. destruct (d_child side m) as [c|] eqn:Ec.
      + injection Hs as <- <- <-. unfold CL. split_and!.
        * intros x side' c' Hc. cbn [step_log app] in Hc. rewrite stk_cons in Hc.
          apply elem_of_app in Hc as [[= -> -> ->]%elem_of_list_singleton|Hc]; [|left; rewrite stk_cons; apply elem_of_app; by right].
          right. split; [done|]. exists m. split; [by eapply rc_get_live|]. rewrite (HP d0 side); [done|left|by eapply rc_get_live].
        * intros x side' Hc. left. rewrite stk_cons. apply elem_of_app. by right.
        * intros x side' n' Hc. left. rewrite stk_cons. apply elem_of_app. by right.
      + apply bind_inv in Hs as (h1 & Hi & [= <- <- <-]). apply rc_set_inv in Hi as (s' & v & Hv & ->).
        unfold live in Hv. rewrite lookup_app_l in Hv by done. destruct (live_fun _ _ _ _ _ _ Hm Hv) as [<- <-].
        unfold CL. split_and!.
        * intros x side' c' [[= -> -> ->]%elem_of_list_singleton|Hc]%elem_of_app.
          -- right. split; [done|]. exists (d_set_child side (Some (length (dw_datas d))) m). cbn.
             rewrite rc_get_insert, decide_True by (rewrite ?app_length; cbn; lia). split; [done|].
             rewrite small_set, (HP d0 side), d_child_same; [done|left|by eapply rc_get_live].
          -- by left.
        * intros x side' Hc. left. rewrite stk_cons. apply elem_of_app. by right.
        * intros x side' n' Hc. left. rewrite stk_cons. apply elem_of_app. by right.
    - (* FChildLost *)
      apply bind_inv in Hs as (h & Hd & [= <- <- <-]). unfold CL. split_and!; intros; by left.
    - destruct k0 as [|[|j]]; try done. injection Hs as <- <- <-. unfold CL. split_and!; intros; by left.
    - destruct (_ =? 1); [|done]. injection Hs as <- <- <-. unfold CL. split_and!; intros; by left.
    - apply bind_inv in Hs as (n & _ & Hs). destruct (gd_metas g !! d0); [|done]. injection Hs as <- <- <-. by apply Hplain.
    - destruct (gd_boxes g !! b) as [[wk|]|]; try done. destruct (rc_upgrade _ _) as [gs [y|]]; injection Hs as <- <- <-; by apply Hplain.
    - destruct (gd_metas g !! d0); [|done]. destruct (rc_upgrade _ _) as [h [p|]] eqn:E; injection Hs as <- <- <-; by apply Hplain.
    - apply bind_inv in Hs as (n & _ & Hs). destruct (gd_metas g !! d0); [|done]. destruct (_ =? _).
      + apply bind_inv in Hs as ([g1 y] & _ & [= <- <- <-]). by apply Hplain.
      + injection Hs as <- <- <-. by apply Hplain.
    - destruct (gd_boxes g !! b) as [[wk|]|]; try done. destruct (rc_upgrade _ _) as [gs [y|]]; injection Hs as <- <- <-;
        apply Hplain; try done; rewrite stk_relopt; by destruct pg.
    - apply bind_inv in Hs as (h & Hd & [= <- <- <-]). by apply Hplain.
    - apply bind_inv in Hs as (h & Hd & [= <- <- <-]). by apply Hplain.
    - apply bind_inv in Hs as (h & Hd & [= <- <- <-]). by apply Hplain.
    - apply bind_inv in Hs as (n & _ & Hs). apply bind_inv in Hs as (h & Hd & [= <- <- <-]). by apply Hplain.
    - destruct (rc_upgrade _ _) as [h [p|]] eqn:E; injection Hs as <- <- <-; by apply Hplain.
    - apply bind_inv in Hs as ([g1 ok] & _ & Hs). destruct ok; injection Hs as <- <- <-; by apply Hplain.
    - destruct (_ =? 1); injection Hs as <- <- <-; by apply Hplain.
    - apply bind_inv in Hs as ([g1 ok] & _ & Hs). destruct ok; injection Hs as <- <- <-; by apply Hplain.
    - destruct (_ =? 1); injection Hs as <- <- <-; by apply Hplain.
    - destruct (_ =? 1); injection Hs as <- <- <-; by apply Hplain.
    - apply bind_inv in Hs as ([g1 ok] & _ & Hs). destruct ok; injection Hs as <- <- <-; by apply Hplain.
    - destruct (_ =? 1); injection Hs as <- <- <-; by apply Hplain.
    - destruct k as [|[] k]; try done. apply bind_inv in Hs as ([h o] & Hd & Hs).
      destruct o; injection Hs as <- <- <-; by apply Hplain.
    - destruct (node_kids n) as [|c ks].
      + destruct k as [|[] k]; try (injection Hs as <- <- <-; by apply Hplain).
        apply bind_inv in Hs as (d1 & Hd & [= <- <- <-]). by apply Hplain.
      + apply bind_inv in Hs as ([h o] & Hd & Hs). destruct o; injection Hs as <- <- <-; by apply Hplain.
    - destruct v; (destruct k as [|[] k]; try done;
        (lazymatch type of Hs with Ok _ = _ => injection Hs as <- <- <- | _ => apply bind_inv in Hs as (? & _ & Hs); injection Hs as <- <- <- end); by apply Hplain).
  Qed.

  (** ** Preservation *)
  Lemma geo_set n' n side side' c : geo n' n side -> geo n' (d_set_child side' c n) side.
  Proof. unfold geo. rewrite node_sub_set. by destruct side'. Qed.
  Lemma geo_set' n' n side side' c : geo n' n side -> geo (d_set_child side' c n') n side.
  Proof. unfold geo. by destruct side'. Qed.
  Section cas.
    Context (h : heap dnode) (x : nat) (side : bool) (j k : nat) (n n' : dnode).
    Notation h' := (<[x := Some (j, d_set_child side (Some (length h)) n)]> (h ++ [Some (k, n')])).
    Context (Hx : live h x j n).
    Lemma cas_get i m : rc_get h' i = Some m ->
      (i = x /\ m = d_set_child side (Some (length h)) n) \/ (i = length h /\ m = n') \/ (i <> x /\ rc_get h i = Some m).
    Proof.
      pose proof (live_lt _ _ _ _ Hx) as Hlt. rewrite rc_get_insert by (rewrite app_length; cbn; lia).
      destruct (decide (i = x)) as [->|]; [cbn; intros [= <-]; by left|]. rewrite rc_get_snoc.
      destruct (decide (i = length h)) as [->|]; [cbn; intros [= <-]; right; by left|]. intros Hm. right; by right.
    Qed.
  End cas.

  Lemma CI_same s s' : CI s ->
    (hkeep (dw_datas (cs_d s)) (dw_datas (cs_d s')) \/
     exists k n, dw_datas (cs_d s') = dw_datas (cs_d s) ++ [Some (k, n)] /\ d_left n = None /\ d_right n = None) ->
    cs_log s' = cs_log s ->
    (forall x, x ∈ thr fC (cs_t s') -> x ∈ thr fC (cs_t s)) ->
    (forall x, x ∈ thr fP (cs_t s') -> x ∈ thr fP (cs_t s)) ->
    (forall x, x ∈ thr fN (cs_t s') -> x ∈ thr fN (cs_t s)) -> CI s'.
  Proof.
    intros I Hh El HC HP HN.
    assert (forall x, x ∈ claims s' -> x ∈ claims s) as Hcl.
    { intros x. unfold claims. rewrite El, !elem_of_app. intros [H|H%HC]; auto. }
    set (h := dw_datas (cs_d s)) in *. set (h' := dw_datas (cs_d s')) in *.
    assert (length h <= length h' /\ forall i n, rc_get h' i = Some n -> i < length h -> rc_get h i = Some n) as [Hlen Hget].
    { destruct Hh as [[E H]|(k & n & -> & _)]; [rewrite E; split; [lia|eauto]|]. rewrite app_length. split; [lia|].
      intros i m. rewrite rc_get_snoc. case_decide; [lia|done]. }
    split.
    - intros x side c Hx%Hcl. apply (ci_lt _ I) in Hx. fold h in Hx. fold h'. lia.
    - intros [[x side] c] Hx%Hcl n Hn. apply (ci_ok _ I _ Hx), Hget; [done|]. by apply (ci_lt _ I) in Hx.
    - intros x side c c' H1%Hcl H2%Hcl. by eapply (ci_agree _ I).
    - intros x side Hx%HP. destruct (ci_pend _ I _ _ Hx) as [H1 H2]. fold h in H1, H2. fold h'. split; [lia|].
      intros n Hn. apply H2. by apply Hget.
    - intros x side n' Hx%HN. destruct (ci_new _ I _ _ _ Hx) as (H1 & H2 & H3 & H4). split_and!; [by fold h'; fold h in H1; lia|done..|].
      intros n Hn. by apply H4, Hget.
    - intros x n side c Hx Hc.
      assert (x < length h) as Hlt.
      { destruct Hh as [[E H]|(k & m & E & E1 & E2)].
        - rewrite <- E. by eapply rc_get_lt.
        - fold h' in Hx. rewrite E, rc_get_snoc in Hx. case_decide; [|by eapply rc_get_lt].
          cbn in Hx. injection Hx as <-. destruct side; cbn in Hc; congruence. }
      destruct (ci_kid _ I x n side c) as [H1 H2]; [by apply Hget|done|]. fold h in H1, H2. fold h'. split; [lia|].
      intros m Hm. apply H2. apply Hget; [done|]. lia.
  Qed.

  Lemma CI_mstep s t st d g st' o :
    CI s -> cs_t s !! t = Some st -> mstep sz (cs_d s) (cs_g s) st = Ok (d, g, st') ->
    CI (CS d g (cs_h s) (<[t := st']> (cs_t s)) o (cs_log s ++ step_log st st')).
  Proof.
    intros I Ht Hm.
    assert (forall A (F : frame V -> list A) x, x ∈ stk F st -> x ∈ thr F (cs_t s)) as Hin.
    { intros A F x Hx. apply thr_elem. eauto. }
    destruct (mstep_claims _ _ _ _ _ _ Hm) as (HC & HP & HN).
    { intros x side Hx. by apply (ci_pend _ I), Hin. }
    pose proof (mstep_nodes _ _ _ _ _ _ Hm) as Hn.
    set (h := dw_datas (cs_d s)) in *. set (h' := dw_datas d) in *.
    set (s' := CS _ _ _ _ _ _).
    (* membership in the new sums *)
    assert (forall A (F : frame V -> list A) x, x ∈ thr F (cs_t s') -> x ∈ thr F (cs_t s) \/ x ∈ stk F st') as Hthr.
    { intros A F x Hx. unfold s' in Hx. cbn in Hx. rewrite (thr_upd F _ _ _ _ Ht), elem_of_app in Hx.
      destruct Hx as [Hx|Hx]; [by right|left]. rewrite (thr_perm F _ _ _ Ht), elem_of_app. by right. }
    assert (forall x side c, (x, side, c) ∈ claims s' -> (x, side, c) ∈ claims s \/
      (x < length h /\ exists n, rc_get h' x = Some n /\ if small side n then c = x else d_child side n = Some c)) as Hcl.
    { intros x side c Hx. unfold claims in Hx. cbn in Hx. rewrite !elem_of_app in Hx.
      assert ((x, side, c) ∈ claims s \/ (x, side, c) ∈ step_log st st' ++ stk fC st') as [H|H].
      { unfold claims. rewrite !elem_of_app. destruct Hx as [[Hx|Hx]|Hx]; [auto..|]. apply Hthr in Hx. tauto. }
      - by left.
      - destruct (HC _ _ _ H) as [H1|H1]; [|by right]. left. apply elem_of_app. right. by apply Hin. }
    (* the heap *)
    assert (length h <= length h') as Hlen.
    { destruct Hn as [[E _]|(x & side & k' & n' & k & j & n & _ & _ & _ & E & _)]; [lia|]. rewrite E, insert_length, app_length. lia. }
    assert (forall cl, cl ∈ claims s -> holds h' cl) as Hold.
    { intros [[x side] c] Hx n Hxn. pose proof (ci_ok _ I _ Hx) as Hok. cbn in Hok. fold h in Hok.
      pose proof (ci_lt _ I _ _ _ Hx) as Hlt. fold h in Hlt.
      destruct Hn as [[_ E]|(x0 & side0 & k' & n' & k & j & n0 & -> & Hx0 & Hd0 & E & _)]; [by apply Hok, E|].
      fold h' in E. rewrite E in Hxn. apply (cas_get _ _ _ _ _ _ _ Hx0) in Hxn as [[-> ->]|[[-> ->]|[_ Hxn]]]; [|lia|by apply Hok].
      specialize (Hok n0 (rc_get_live _ _ _ _ Hx0)). rewrite small_set. destruct (small side n0) eqn:Esm; [done|].
      destruct (decide (side = side0)) as [->|]; [congruence|]. by rewrite d_child_other. }
    assert (forall x side, x < length h -> (forall n, rc_get h x = Some n -> small side n = false) ->
      forall n, rc_get h' x = Some n -> small side n = false) as Hsm.
    { intros x side Hlt H n Hxn.
      destruct Hn as [[_ E]|(x0 & side0 & k' & n' & k & j & n0 & -> & Hx0 & Hd0 & E & _)]; [by apply H, E|].
      fold h' in E. rewrite E in Hxn. apply (cas_get _ _ _ _ _ _ _ Hx0) in Hxn as [[-> ->]|[[-> ->]|[_ Hxn]]]; [|lia|by apply H].
      rewrite small_set. apply H. by eapply rc_get_live. }
    assert (forall x side n', x < length h -> (forall n, rc_get h x = Some n -> geo n' n side) ->
      forall n, rc_get h' x = Some n -> geo n' n side) as Hgeo.
    { intros x side m Hlt H n Hxn.
      destruct Hn as [[_ E]|(x0 & side0 & k' & n' & k & j & n0 & -> & Hx0 & Hd0 & E & _)]; [by apply H, E|].
      fold h' in E. rewrite E in Hxn. apply (cas_get _ _ _ _ _ _ _ Hx0) in Hxn as [[-> ->]|[[-> ->]|[_ Hxn]]]; [|lia|by apply H].
      apply geo_set, H. by eapply rc_get_live. }
    split; cbn.
    - intros x side c Hx. destruct (Hcl _ _ _ Hx) as [H|[H _]]; [apply (ci_lt _ I) in H; fold h in H|]; fold h'; lia.
    - intros [[x side] c] Hx. destruct (Hcl _ _ _ Hx) as [H|(H & n & H1 & H2)]; [by apply Hold|].
      intros m Hxm. fold h' in Hxm. rewrite H1 in Hxm. by injection Hxm as <-.
    - intros x side c c' H1 H2. destruct (Hcl _ _ _ H1) as [A1|(_ & n1 & A1 & A2)], (Hcl _ _ _ H2) as [B1|(_ & n2 & B1 & B2)].
      + by eapply (ci_agree _ I).
      + pose proof (Hold _ A1 _ B1) as A2. cbn in A2. destruct (small side n2); congruence.
      + pose proof (Hold _ B1 _ A1) as B2. cbn in B2. destruct (small side n1); congruence.
      + rewrite A1 in B1. injection B1 as <-. destruct (small side n1); congruence.
    - intros x side Hx. destruct (Hthr _ _ _ Hx) as [H|H].
      + destruct (ci_pend _ I _ _ H) as [H1 H2]. fold h in H1, H2. fold h'. split; [lia|]. by apply Hsm.
      + destruct (HP _ _ H) as [H1%Hin|(n & H1 & H2)].
        * destruct (ci_pend _ I _ _ H1) as [H3 H2]. fold h in H3, H2. fold h'. split; [lia|]. by apply Hsm.
        * fold h' in H1 |- *. split; [by eapply rc_get_lt|]. intros m Hm'. congruence.
    - intros x side n' Hx.
      assert ((x, side, n') ∈ thr fN (cs_t s) \/ (d_left n' = None /\ d_right n' = None /\ exists n, rc_get h' x = Some n /\ geo n' n side)) as [H|(H1 & H2 & n & H3 & H4)].
      { destruct (Hthr _ _ _ Hx) as [H|H]; [by left|]. destruct (HN _ _ _ H) as [H1%Hin|H1]; [by left|by right]. }
      + destruct (ci_new _ I _ _ _ H) as (H1 & H2 & H3 & H4). fold h in H1, H4. fold h'. split_and!; [lia|done..|]. by apply Hgeo.
      + fold h'. split_and!; [by eapply rc_get_lt|done..|]. intros m Hm'. congruence.
    - intros x n side c Hx Hc. fold h' in Hx |- *.
      destruct Hn as [[E1 E2]|(x0 & side0 & k' & n' & k & j & n0 & -> & Hx0 & Hd0 & E & _)].
      + destruct (ci_kid _ I x n side c) as [H1 H2]; [by apply E2|done|]. fold h in H1, H2. split; [lia|]. eauto.
      + fold h' in E. pose proof (live_lt _ _ _ _ Hx0) as Hlt0. fold h in Hlt0.
        assert (length h' = S (length h)) as El by (rewrite E, insert_length, app_length; cbn; lia).
        destruct (ci_new _ I x0 side0 n') as (_ & HL & HR & HN'); [apply Hin; left|].
        specialize (HN' _ (rc_get_live _ _ _ _ Hx0)).
        assert (forall c m n1 side1, c < length h -> (forall m, rc_get h c = Some m -> geo m n1 side1) -> rc_get h' c = Some m -> geo m n1 side1) as Hg.
        { intros c1 m n1 side1 Hc1 Hg Hm1. rewrite E in Hm1.
          apply (cas_get _ _ _ _ _ _ _ Hx0) in Hm1 as [[-> ->]|[[-> ->]|[_ Hm1]]]; [|lia|by apply Hg].
          apply geo_set', Hg. by eapply rc_get_live. }
        rewrite E in Hx. apply (cas_get _ _ _ _ _ _ _ Hx0) in Hx as [[-> ->]|[[-> ->]|[Hne Hx]]].
        * destruct (decide (side = side0)) as [->|Hs].
          -- rewrite d_child_same in Hc. injection Hc as <-. split; [lia|]. intros m Hm1. rewrite E in Hm1.
             apply (cas_get _ _ _ _ _ _ _ Hx0) in Hm1 as [[? _]|[[_ ->]|[_ Hm1]]]; [lia|by apply geo_set|].
             apply rc_get_lt in Hm1. lia.
          -- rewrite d_child_other in Hc by done.
             destruct (ci_kid _ I x0 n0 side c) as [H1 H2]; [by eapply rc_get_live|done|]. fold h in H1, H2.
             split; [lia|]. intros m Hm1. apply geo_set. eapply Hg; [|done..]. lia.
        * destruct side; cbn in Hc; congruence.
        * destruct (ci_kid _ I x n side c Hx Hc) as [H1 H2]. fold h in H1, H2. split; [lia|].
          intros m Hm1. eapply Hg; [|done..]. lia.
  Qed.

  Lemma thr_quiet {A} (F : frame V -> list A) ts t st' x : stk F st' = [] -> x ∈ thr F (<[t := st']> ts) -> x ∈ thr F ts.
  Proof.
    intros E (t' & st & Ht & Hx)%thr_elem. apply thr_elem.
    apply list_lookup_insert_Some in Ht as [(<- & <- & _)|[_ Ht]]; [|eauto]. rewrite E in Hx. by apply elem_of_nil in Hx.
  Qed.
  (** What is neither a step inside a call nor matters here. *)
  Definition quiet s s' : Prop :=
    (dw_datas (cs_d s') = dw_datas (cs_d s) \/
     exists k n, dw_datas (cs_d s') = dw_datas (cs_d s) ++ [Some (k, n)] /\ d_left n = None /\ d_right n = None) /\
    cs_log s' = cs_log s /\
    exists t st', cs_t s' = <[t := st']> (cs_t s) /\ stk fC st' = [] /\ stk fP st' = [] /\ stk fN st' = [].
  Lemma quiet_same s s' : dw_datas (cs_d s') = dw_datas (cs_d s) -> cs_log s' = cs_log s -> cs_t s' = cs_t s -> quiet s s'.
  Proof.
    intros E1 E2 E3. split_and!; [by left|done|]. exists (length (cs_t s)), []. split_and!; [|done..].
    by rewrite list_insert_ge.
  Qed.
  Lemma quiet_thread s s' t st' : dw_datas (cs_d s') = dw_datas (cs_d s) -> cs_log s' = cs_log s -> cs_t s' = <[t := st']> (cs_t s) ->
    stk fC st' = [] -> stk fP st' = [] -> stk fN st' = [] -> quiet s s'.
  Proof. intros. split_and!; [by left|done|]. by exists t, st'. Qed.
  Lemma data_from_boxed_slice_leaf d p len d' n : data_from_boxed_slice d p len = (d', n) ->
    exists k m, dw_datas d' = dw_datas d ++ [Some (k, m)] /\ d_left m = None /\ d_right m = None.
  Proof.
    unfold data_from_boxed_slice, data_new, alloc_new. destruct (_ =? 0)%N; cbn; intros [= <- <-]; cbn; eauto 10.
  Qed.
  Lemma cstart_quiet s t o s' : cstart sz s t o = Ok s' -> quiet s s'.
  Proof.
    intros Hs. unfold cstart in Hs. destruct (cs_t s !! t) as [[|f st]|] eqn:Ht; [|injection Hs as <-; by apply quiet_same..].
    destruct o as [base vals|base vals|h|side h|h|h|h|h|h|h|h|side h|h i v].
    - destruct (_ <? _)%N; [|injection Hs as <-; by apply quiet_same]. destruct (new_block _ _ _) as [[d p] len] eqn:E1.
      destruct (data_from_boxed_slice _ _ _) as [d2 n] eqn:E2. injection Hs as <-.
      destruct (data_from_boxed_slice_leaf _ _ _ _ _ E2) as (k & m & E3 & E4). rewrite (new_block_datas _ _ _ _ _ _ E1) in E3.
      split_and!; [right; eauto|done|]. by eexists t, _.
    - destruct (_ <? _)%N; [|injection Hs as <-; by apply quiet_same]. destruct (new_block _ _ _) as [[d p] len] eqn:E1.
      destruct (split_alloc_from_items _ _ _ _) as [[d2 it] al] eqn:E2. injection Hs as <-.
      assert (dw_datas d2 = dw_datas (cs_d s)) as E3.
      { rewrite <- (new_block_datas _ _ _ _ _ _ E1). unfold split_alloc_from_items in E2.
        destruct (_ || _)%N; by injection E2 as <- _ _. }
      by eapply quiet_thread.
    - destruct (slot s h) as [[[r|d g| | | |] k]|]; injection Hs as <-; try (by apply quiet_same); by eapply quiet_thread.
    - destruct (slot s h) as [[[r|d g| | | |] k]|]; injection Hs as <-; try (by apply quiet_same); by eapply quiet_thread.
    - destruct (slot s h) as [[[r|d g| | | |] [|k]]|]; injection Hs as <-; try (by apply quiet_same); by eapply quiet_thread.
    - destruct (slot s h) as [[[r|d g| | | |] [|k]]|]; injection Hs as <-; try (by apply quiet_same); by eapply quiet_thread.
    - destruct (slot s h) as [[[r|d g| |m| |] [|k]]|]; try (injection Hs as <-; by apply quiet_same).
      cbn in Hs. injection Hs as <-. split_and!; [right; cbn; eauto 10|done|]. by eexists t, _.
    - destruct (slot s h) as [[[r|d g| | | |] k]|]; injection Hs as <-; try (by apply quiet_same); by eapply quiet_thread.
    - destruct (slot s h) as [[[r|d g| | | |] k]|]; injection Hs as <-; try (by apply quiet_same); by eapply quiet_thread.
    - destruct (slot s h) as [[[r|d g| |m| |] [|k]]|]; injection Hs as <-; try (by apply quiet_same); by eapply quiet_thread.
    - destruct (slot s h) as [[[r|d g| |m| |] k]|]; try (injection Hs as <-; by apply quiet_same).
      + apply bind_inv in Hs as (n & _ & Hs). apply bind_inv in Hs as (vs & _ & [= <-]). by apply quiet_same.
      + apply bind_inv in Hs as (vs & _ & [= <-]). by apply quiet_same.
    - destruct (slot s h) as [[[r|d g| |m| |] [|k]]|]; try (injection Hs as <-; by apply quiet_same).
      apply bind_inv in Hs as ([d [m1 m2]] & Hd & [= <-]). apply mut_split_datas in Hd. by eapply quiet_thread.
    - destruct (slot s h) as [[[r|d g| |m| |] [|k]]|]; try (injection Hs as <-; by apply quiet_same).
      destruct (_ <? _)%N; [|injection Hs as <-; by apply quiet_same]. apply bind_inv in Hs as ([d old] & Hd & [= <-]).
      apply mem_replace_datas in Hd. by apply quiet_same.
  Qed.
  Lemma cstep_quiet s e s' : cstep sz s e = Ok s' -> quiet s s' \/
    exists t st d g st', e = SStep t /\ cs_t s !! t = Some st /\ mstep sz (cs_d s) (cs_g s) st = Ok (d, g, st') /\
      s' = CS d g (cs_h s) (<[t := st']> (cs_t s)) (cs_out s) (cs_log s ++ step_log st st').
  Proof.
    intros Hs. destruct e as [t o|t|t i v|t]; cbn in Hs.
    - left. by eapply cstart_quiet.
    - destruct (cs_t s !! t) as [st|] eqn:Ht; [|left; unfold tstep in Hs; rewrite Ht in Hs; injection Hs as <-; by apply quiet_same].
      destruct (tstep_cases sz s t st Ht) as [(-> & Hc)|[(r & -> & Hc)|[(x & o & h & -> & Hc)|[(r & -> & Hc)|Hc]]]];
        rewrite Hc in Hs; clear Hc; [left; injection Hs as <-..|right].
      + by apply quiet_same.
      + by apply quiet_same.
      + by eapply quiet_thread.
      + by eapply quiet_thread.
      + apply bind_inv in Hs as ([[d g] st'] & Hm & [= <-]). eauto 10.
    - left. unfold hold_write in Hs. destruct (cs_t s !! t) as [st|] eqn:Ht; [|injection Hs as <-; by apply quiet_same].
      repeat (case_match; try (injection Hs as <-; by apply quiet_same)). subst. apply bind_inv in Hs as (n & _ & Hs).
      destruct (_ <? _)%N; [|injection Hs as <-; by apply quiet_same]. apply bind_inv in Hs as ([d old] & Hd & [= <-]).
      apply mem_replace_datas in Hd. by apply quiet_same.
    - left. unfold hold_end in Hs. destruct (cs_t s !! t) as [st|] eqn:Ht; [|injection Hs as <-; by apply quiet_same].
      repeat (case_match; try (injection Hs as <-; by apply quiet_same)). subst. injection Hs as <-. by eapply quiet_thread.
  Qed.
  Lemma CI_init n : CI (init_cstate n).
  Proof.
    assert (forall A (F : frame V -> list A), thr F (replicate n []) = []) as E.
    { intros A F. unfold thr. induction n; [done|]. cbn. done. }
    split; unfold claims; cbn [init_cstate cs_d cs_t cs_log dw_datas app]; rewrite ?E; intros; try (by apply elem_of_nil in H).
    by rewrite ?lookup_nil in *.
  Qed.
  Lemma CI_cstep s e s' : CI s -> cstep sz s e = Ok s' -> CI s'.
  Proof.
    intros I Hs. destruct (cstep_quiet _ _ _ Hs) as [(H1 & H2 & t & st' & H3 & H4 & H5 & H6)|(t & st & d & g & st' & -> & Ht & Hm & ->)].
    - apply (CI_same s); try done.
      + destruct H1 as [->|H1]; [left; apply hkeep_refl|by right].
      + intros x. rewrite H3. by apply thr_quiet.
      + intros x. rewrite H3. by apply thr_quiet.
      + intros x. rewrite H3. by apply thr_quiet.
    - by eapply CI_mstep.
  Qed.
  Theorem CI_crun s es s' : CI s -> crun sz s es = Ok s' -> CI s'.
  Proof.
    revert s. induction es as [|e es IH]; intros s I Hs; cbn in Hs; [by injection Hs as <-|].
    apply bind_inv in Hs as (s1 & H1 & Hs). eapply IH; [|exact Hs]. by eapply CI_cstep.
  Qed.
  Corollary CI_reach n es s : crun sz (init_cstate n) es = Ok s -> CI s.
  Proof. apply CI_crun, CI_init. Qed.
End child.
