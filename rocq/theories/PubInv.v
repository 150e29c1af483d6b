(** Why accesses to the crate's objects are ordered: whoever has a pointer knows
    that the object was made, and the one who destroys it knows all who used it. *)
From Verif Require Import Base BaseLemmas Api SliceItemsModel BinPartsModel DataModel RcModel Spec DataInv DataSteps GuardInv ArcModel ArcConc ConcInv ConcGuard ConcWorld ConcData ConcSafe ConcSpec OrderModel OrderInv OrderSteps PubModel PubCount PubEvents.
Local Open Scope nat_scope.
#[local] Arguments slo {A} F hs : simpl never.
#[local] Arguments thr {V A} F ts : simpl never.

Definition no_box (x : xhandle) : list nat := [].
Section inv.
  Context {V : Type} (sz : N) (acq : bool).
  Implicit Types (s : cstate V) (p : pstate V) (e : sched (V:=V)) (v : view) (w : holder).
  Notation datas s := (dw_datas (cs_d s)).
  Notation guards s := (gd_guards (cs_g s)).
  Notation metas s := (gd_metas (cs_g s)).
  Notation boxes s := (gd_boxes (cs_g s)).
  Notation hasP := (hold fP hM).
  Notation hasQ := (hold fQ hQ).
  Notation hasX := (hold fX no_box).
  Notation refs := (hold fR hR).
  Notation grefs := (hold fG hG).

  (** ** What an event does *)
  (** Whoever is [w'] after the event knows at least what [w] knew before. *)
  Definition src s e s' w w' : Prop :=
    w = w' \/ (w = HT (actor e) /\ exists h, w' = HV h /\ h ∈ var_out s e s') \/
    (w' = HT (actor e) /\ exists h, w = HV h /\ h ∈ vars_in s e s').
  (** One of those who are [w'] after the event knows what one of [w] knew before. *)
  Definition rsrc s e s' w w' : Prop :=
    w = w' \/ (w = HT (actor e) /\ exists h, w' = HV h /\ (h ∈ var_out s e s' \/ h ∈ bor_out s e s')) \/
    (w' = HT (actor e) /\ exists h, w = HV h /\ h ∈ vars_in s e s' /\ shares e = false).
  (** Thread [t] borrows a variable whose value refers to [x]. *)
  Definition pend (H : xhandle -> list nat) s (t x : nat) : Prop :=
    exists st h y k, cs_t s !! t = Some st /\ h ∈ stk fB st /\ cs_h s !! h = Some (Some (y, k)) /\ x ∈ H y.
  Definition bound s (o : obj) : Prop :=
    match o with BNode x => x < length (datas s) | BGuard y => y < length (guards s) | BBox b => b < length (boxes s) end.
  Definition alive s (o : obj) : Prop :=
    match o with BNode x => is_Some (rc_get (datas s) x) | BGuard y => is_Some (rc_get (guards s) y) | BBox _ => True end.
  #[local] Instance alive_dec s o : Decision (alive s o).
  Proof. destruct o; cbn; apply _. Defined.
  (** A pointer to [o] that the actor has, or finds in something it knows. *)
  Definition ment s e s' (o : obj) : Prop :=
    let t := actor e in
    match o with
    | BNode x => (exists w, src s e s' w (HT t) /\ hasP s w x) \/ exists x0 m, hasP s (HT t) x0 /\ metas s !! x0 = Some m /\ am_parent m = Some x
    | BGuard y => (exists w, src s e s' w (HT t) /\ hasQ s w y) \/ exists b, hasX s (HT t) b /\ boxes s !! b = Some (Some (Some y))
    | BBox b => hasX s (HT t) b
    end.
  Definition refd s w (o : obj) : Prop :=
    match o with BNode x => refs s w x | BGuard y => grefs s w y | BBox _ => False end.
  Definition pendo s t (o : obj) : Prop :=
    match o with BNode x => pend hR s t x | BGuard y => pend hG s t y | BBox _ => False end.
  Definition counter (o : obj) (l : loc) : Prop :=
    match o with BNode x => l = LData x | BGuard y => l = LGuard y | BBox _ => False end.
  Definition count s (o : obj) : nat :=
    match o with BNode x => rc_count (datas s) x | BGuard y => rc_count (guards s) y | BBox _ => 0 end.
  (** Guard [z] refers to [o]. *)
  Definition gpar s (z : nat) (o : obj) : Prop :=
    exists n y, rc_get (guards s) z = Some n /\ a_parent n = Some y /\ o = BGuard y.
  Record eff s e s' : Prop := {
    e_P : forall w' x, hasP s' w' x -> (exists w, src s e s' w w' /\ hasP s w x) \/
      (w' = HT (actor e) /\
        ((exists x0 side n, rc_get (datas s) x0 = Some n /\ d_child side n = Some x /\ LChild x0 side ∈ (syncs acq s e).1) \/
         (exists x0 m, hasP s (HT (actor e)) x0 /\ metas s !! x0 = Some m /\ am_parent m = Some x) \/
         (BNode x, Init) ∈ touches s e s'));
    e_Q : forall w' y, hasQ s' w' y -> (exists w, src s e s' w w' /\ hasQ s w y) \/
      (w' = HT (actor e) /\
        ((exists b, hasX s (HT (actor e)) b /\ boxes s !! b = Some (Some (Some y))) \/
         (exists z, hasQ s (HT (actor e)) z /\ gpar s z (BGuard y)) \/
         (BGuard y, Init) ∈ touches s e s'));
    e_X : forall w' b, hasX s' w' b -> hasX s w' b \/
      (w' = HT (actor e) /\ exists x m, hasP s (HT (actor e)) x /\ metas s !! x = Some m /\ am_box m = b /\ LBox x ∈ (syncs acq s e).1);
    e_link : forall x side n' c, rc_get (datas s') x = Some n' -> d_child side n' = Some c ->
      (exists n, rc_get (datas s) x = Some n /\ d_child side n = Some c) \/ ((BNode c, Init) ∈ touches s e s' /\ LChild x side ∈ (syncs acq s e).2);
    e_mbox : forall x m', metas s' !! x = Some m' -> (exists m, metas s !! x = Some m /\ am_box m = am_box m') \/
      ((BBox (am_box m'), Init) ∈ touches s e s' /\ (LBox x ∈ (syncs acq s e).2 \/ (BNode x, Init) ∈ touches s e s'));
    e_mpar : forall x m' y, metas s' !! x = Some m' -> am_parent m' = Some y ->
      (exists m, metas s !! x = Some m /\ am_parent m = Some y) \/ ((BNode x, Init) ∈ touches s e s' /\ hasP s (HT (actor e)) y);
    e_boxc : forall b y, boxes s' !! b = Some (Some (Some y)) -> boxes s !! b = Some (Some (Some y)) \/
      ((BBox b, Init) ∈ touches s e s' /\ (BGuard y, Init) ∈ touches s e s');
    e_gpar : forall z y, gpar s' z (BGuard y) -> gpar s z (BGuard y) \/ ((BGuard z, Init) ∈ touches s e s' /\ hasQ s (HT (actor e)) y);
    e_ment : forall o h, (o, h) ∈ touches s e s' -> h <> Init -> ment s e s' o;
    e_init : forall o, (o, Init) ∈ touches s e s' -> ~ bound s o /\ bound s' o;
    e_once : forall o i j, touches s e s' !! i = Some (o, Init) -> touches s e s' !! j = Some (o, Init) -> i = j;
    e_len : forall o, bound s o -> bound s' o;
    e_dead : forall o, bound s o -> ~ alive s o -> ~ alive s' o;
    e_use : forall o, (o, Use) ∈ touches s e s' -> alive s o /\
      (refd s' (HT (actor e)) o \/ (exists l, counter o l /\ l ∈ (syncs acq s e).2) \/ pendo s' (actor e) o \/
       (exists h, (h ∈ var_out s e s' \/ h ∈ bor_out s e s') /\ refd s' (HV h) o) \/ match o with BBox _ => True | _ => False end);
    e_end : forall o, (o, End) ∈ touches s e s' -> touches s e s' = [(o, End)] /\ refd s (HT (actor e)) o /\ count s o = 1 /\
      (exists l, counter o l /\ l ∈ (syncs acq s e).1) /\ ~ alive s' o;
    e_ref : forall w o, refd s w o -> alive s' o -> (exists w', rsrc s e s' w w' /\ refd s' w' o) \/
      (w = HT (actor e) /\ ((exists l, counter o l /\ l ∈ (syncs acq s e).2) \/ exists z, (BGuard z, Init) ∈ touches s e s' /\ gpar s' z o));
    e_pend : forall t o, pendo s t o -> alive s' o -> pendo s' t o \/ exists w', rsrc s e s' (HT t) w' /\ refd s' w' o;
    e_gkid : forall z o, gpar s z o -> gpar s' z o \/ (hasQ s (HT (actor e)) z /\ refd s' (HT (actor e)) o)
  }.

  (** ** The invariant *)
  Definition pview p w : view := match w with HT t => ps_thr p t | HV h => ps_var p h end.
  Definition rview p w : view := match w with HT t => ps_thr p t | HV h => ps_var p h ∪ ps_bor p h end.
  Definition ini p (o : obj) (i : nat) : Prop := exists a, ps_acc p !! i = Some a /\ oa_obj a = o /\ oa_how a = Init.
  Definition knows p v (o : obj) : Prop := exists i, ini p o i /\ i ∈ v.
  (** The maker of [o'] knew about [o]. *)
  Definition after p (o' o : obj) : Prop := exists i a, ps_acc p !! i = Some a /\ oa_obj a = o' /\ oa_how a = Init /\ knows p (oa_seen a) o.
  Definition pclosed (l : list oaccess) v : Prop := forall i, i ∈ v -> exists a, l !! i = Some a /\ oa_seen a ⊆ v.
  (** One of those who keep [o] there knows about access [i], or the one who drops
      the last reference will. *)
  Definition kept p (o : obj) (i : nat) : Prop :=
    (exists l, counter o l /\ i ∈ ps_loc p l) \/ (exists w, refd (ps_s p) w o /\ i ∈ rview p w) \/
    (exists t, pendo (ps_s p) t o /\ i ∈ ps_thr p t) \/
    (exists z j a, gpar (ps_s p) z o /\ ps_acc p !! j = Some a /\ oa_obj a = BGuard z /\ oa_how a = Init /\ i ∈ oa_seen a).
  Definition published p : Prop := forall j b, ps_acc p !! j = Some b -> oa_how b <> Init -> exists i, ini p (oa_obj b) i /\ i ∈ oa_seen b /\ i < j.
  Definition counted (o : obj) : Prop := match o with BBox _ => False | _ => True end.
  Definition destroyed p : Prop := forall i j a b, ps_acc p !! i = Some a -> ps_acc p !! j = Some b -> oa_obj a = oa_obj b ->
    oa_how a <> Peek -> oa_how b = End -> i <> j -> i < j /\ i ∈ oa_seen b.
  Record PI p : Prop := {
    P_view : forall w, pclosed (ps_acc p) (pview p w);
    P_bor : forall h, pclosed (ps_acc p) (ps_bor p h);
    P_loc : forall l, pclosed (ps_acc p) (ps_loc p l);
    P_acc : forall j b, ps_acc p !! j = Some b -> pclosed (ps_acc p) (oa_seen b) /\ j ∈ oa_seen b;
    P_node : forall w x, hasP (ps_s p) w x -> knows p (pview p w) (BNode x);
    P_guard : forall w y, hasQ (ps_s p) w y -> knows p (pview p w) (BGuard y);
    P_box : forall w b, hasX (ps_s p) w b -> knows p (pview p w) (BBox b);
    P_link : forall x side n c, rc_get (datas (ps_s p)) x = Some n -> d_child side n = Some c -> knows p (ps_loc p (LChild x side)) (BNode c);
    P_mbox : forall x m, metas (ps_s p) !! x = Some m -> after p (BNode x) (BBox (am_box m)) \/ knows p (ps_loc p (LBox x)) (BBox (am_box m));
    P_mpar : forall x m y, metas (ps_s p) !! x = Some m -> am_parent m = Some y -> after p (BNode x) (BNode y);
    P_boxc : forall b y, boxes (ps_s p) !! b = Some (Some (Some y)) -> after p (BBox b) (BGuard y);
    P_gpar : forall z y, gpar (ps_s p) z (BGuard y) -> after p (BGuard z) (BGuard y);
    P_uniq : forall o i j, ini p o i -> ini p o j -> i = j;
    P_bnd : forall o i, ini p o i -> bound (ps_s p) o;
    P_use : forall i a, ps_acc p !! i = Some a -> oa_how a = Use -> counted (oa_obj a) -> alive (ps_s p) (oa_obj a) -> kept p (oa_obj a) i;
    P_end : forall i a, ps_acc p !! i = Some a -> oa_how a = End -> ~ alive (ps_s p) (oa_obj a);
    P_pub : published p;
    P_des : destroyed p
  }.

  Lemma PI_init n : PI (init_pstate n).
  Proof.
    assert (forall A (F : frame V -> list A) H w x, hold F H (init_cstate n) w x -> False) as Hno.
    { intros A F H [t|h] x; cbn; [|intros (y & k & Hy & _); done].
      intros (st & Ht & Hx). apply lookup_replicate in Ht as [-> _]. by apply elem_of_nil in Hx. }
    split; intros; try done; try (by exfalso; eapply Hno); try (by set_solver).
    - intros i Hi. by destruct w; apply elem_of_empty in Hi.
    - destruct H as (? & ? & ? & _). done.
    - destruct H as (? & ? & _). done.
    - destruct H as (? & ? & _). done.
  Qed.

  Lemma pclosed_app l l' v : pclosed l v -> pclosed (l ++ l') v.
  Proof. intros H i Hi. destruct (H i Hi) as (a & Ha & Hs). exists a. split; [by apply lookup_app_l_Some|done]. Qed.
  Lemma pclosed_union l v v' : pclosed l v -> pclosed l v' -> pclosed l (v ∪ v').
  Proof. intros H H' i [Hi|Hi]%elem_of_union; [destruct (H i Hi) as (a & Ha & Hs)|destruct (H' i Hi) as (a & Ha & Hs)]; exists a; (split; [done|set_solver]). Qed.
  Lemma pclosed_gather {A} l (f : A -> view) (xs : list A) : (forall x, pclosed l (f x)) -> pclosed l (gather f xs).
  Proof.
    intros H i (x & Hx & Hi)%elem_of_gather. destruct (H x i Hi) as (a & Ha & Hs). exists a. split; [done|].
    intros j Hj. apply elem_of_gather. eauto.
  Qed.
  Lemma pclosed_spread {A} `{EqDecision A} l xs v (f : A -> view) x : pclosed l (f x) -> pclosed l v -> pclosed l (spread xs v f x).
  Proof. intros H H'. unfold spread. case_decide; [by apply pclosed_union|done]. Qed.

  (** Only one has a reference, if the count says so. *)
  Definition solo s : Prop := forall t o, refd s (HT t) o -> count s o = 1 ->
    (forall w, refd s w o -> w = HT t) /\ (forall t', ~ pendo s t' o) /\ forall z, ~ gpar s z o.

  Section step.
    Context p e s' (I : PI p) (F : eff (ps_s p) e s') (So : solo (ps_s p)).
    Notation s := (ps_s p).
    Notation t := (actor e).
    Notation l := (touches s e s').
    Notation A := (ps_acc p).
    Definition pids : view := set_seq (length A) (length l).
    Definition pv : view := ps_thr p t ∪ gather (ps_var p) (vars_in s e s') ∪ gather (ps_bor p) (bor_in s e s').
    Definition pre : view := if ends l then pv else pv ∪ pids.
    Definition post : view := pre ∪ gather (ps_loc p) (syncs acq s e).1 ∪ pids.
    Definition pnew : list oaccess := (fun a => OAcc t a.1 a.2 (if decide (a.2 = End) then post else pre)) <$> l.
    Notation p' := (pannotate acq p e s').
    Lemma p_eq : p' = PS s' (spread [t] post (ps_thr p)) (spread (var_out s e s') post (ps_var p)) (spread (bor_out s e s') post (ps_bor p)) (spread (syncs acq s e).2 pre (ps_loc p)) (A ++ pnew).
    Proof. reflexivity. Qed.
    Lemma p_acc : ps_acc p' = A ++ pnew. Proof. reflexivity. Qed.
    Lemma pv_pre : pv ⊆ pre. Proof. unfold pre. destruct (ends l); set_solver. Qed.
    Lemma pre_post : pre ⊆ post. Proof. unfold post. set_solver. Qed.
    Lemma pids_post : pids ⊆ post. Proof. unfold post. set_solver. Qed.
    Lemma ac_post a : a ∈ (syncs acq s e).1 -> ps_loc p a ⊆ post.
    Proof. intros Ha i Hi. unfold post. apply elem_of_union. left. apply elem_of_union. right. apply elem_of_gather. eauto. Qed.
    Lemma ends_true : ends l = true -> exists o, l = [(o, End)].
    Proof.
      unfold ends. intros H. apply existsb_exists in H as ([o h] & Hin & E). cbn in E. apply bool_decide_eq_true in E as ->.
      apply elem_of_list_In in Hin. exists o. by apply (e_end _ _ _ F).
    Qed.
    Lemma ends_false : (forall o, l <> [(o, End)]) -> ends l = false.
    Proof. intros H. destruct (ends l) eqn:E; [|done]. apply ends_true in E as [o E]. by destruct (H o). Qed.
    Lemma no_end o h : (o, h) ∈ l -> h <> End -> ends l = false.
    Proof. intros Hin Hh. apply ends_false. intros o' E. rewrite E in Hin. apply elem_of_list_singleton in Hin as [= _ ->]. done. Qed.
    Lemma pids_pre o h : (o, h) ∈ l -> h <> End -> pids ⊆ pre.
    Proof. intros Hin Hh. unfold pre. rewrite (no_end _ _ Hin Hh). set_solver. Qed.
    Lemma thr_pre : ps_thr p t ⊆ pre. Proof. pose proof pv_pre. unfold pv in *. set_solver. Qed.
    Lemma src_pre w : src s e s' w (HT t) -> pview p w ⊆ pre.
    Proof.
      intros [->|[(-> & h & [=] & _)|(_ & h & -> & Hh)]]; [apply thr_pre|]. intros i Hi. apply pv_pre. unfold pv. apply elem_of_union. left. apply elem_of_union. right.
      apply elem_of_gather. eauto.
    Qed.
    Lemma thr_post t' : ps_thr p t' ⊆ ps_thr p' t'. Proof. rewrite p_eq. apply spread_mono. Qed.
    Lemma post_thr : post ⊆ ps_thr p' t. Proof. rewrite p_eq. cbn. apply spread_in. left. Qed.
    Lemma post_var h : h ∈ var_out s e s' -> post ⊆ ps_var p' h. Proof. rewrite p_eq. cbn. apply spread_in. Qed.
    Lemma post_bor h : h ∈ var_out s e s' \/ h ∈ bor_out s e s' -> post ⊆ rview p' (HV h).
    Proof. cbn [rview]. intros [H|H]; [etrans; [by apply post_var|apply union_subseteq_l]|]. etrans; [|apply union_subseteq_r]. rewrite p_eq. cbn. by apply spread_in. Qed.
    Lemma pview_mono w : pview p w ⊆ pview p' w.
    Proof. rewrite p_eq. destruct w; cbn; apply spread_mono. Qed.
    Lemma src_view w w' : src s e s' w w' -> pview p w ⊆ pview p' w'.
    Proof.
      intros H. pose proof H as H0. destruct H as [->|[(-> & h & -> & Hh)|(-> & h & -> & Hh)]]; [apply pview_mono| |].
      - pose proof (post_var _ Hh). pose proof thr_pre. pose proof pre_post. cbn. set_solver.
      - pose proof (src_pre _ H0). pose proof post_thr. pose proof pre_post. cbn in *. set_solver.
    Qed.
    Lemma rview_mono w : rview p w ⊆ rview p' w.
    Proof. rewrite p_eq. destruct w; cbn; [apply spread_mono|]. apply union_mono; apply spread_mono. Qed.
    Lemma rsrc_view w w' : rsrc s e s' w w' -> rview p w ⊆ rview p' w'.
    Proof.
      intros [->|[(-> & h & -> & Hh)|(-> & h & -> & Hh & Hs)]]; [apply rview_mono| |].
      - etrans; [apply thr_pre|]. etrans; [apply pre_post|]. by apply post_bor.
      - cbn [rview]. etrans; [|apply post_thr]. etrans; [|apply pre_post]. etrans; [|apply pv_pre]. unfold pv, bor_in. rewrite Hs.
        intros i [Hi|Hi]%elem_of_union; apply elem_of_union; [left|right; apply elem_of_gather; eauto]. apply elem_of_union. right. apply elem_of_gather. eauto.
    Qed.
    Lemma loc_mono a : ps_loc p a ⊆ ps_loc p' a. Proof. rewrite p_eq. apply spread_mono. Qed.
    Lemma rl_loc a : a ∈ (syncs acq s e).2 -> pre ⊆ ps_loc p' a. Proof. rewrite p_eq. cbn. apply spread_in. Qed.
    Lemma pids_at k a : l !! k = Some a -> length A + k ∈ pids.
    Proof. intros H. unfold pids. apply elem_of_set_seq. apply lookup_lt_Some in H. lia. Qed.
    Lemma pnew_at k a : l !! k = Some a -> ps_acc p' !! (length A + k) = Some (OAcc t a.1 a.2 (if decide (a.2 = End) then post else pre)).
    Proof. intros H. rewrite p_acc, lookup_app_r by lia. replace (_ - _) with k by lia. unfold pnew. by rewrite list_lookup_fmap, H. Qed.
    Lemma old_at i a : A !! i = Some a -> ps_acc p' !! i = Some a.
    Proof. intros H. rewrite p_acc. by apply lookup_app_l_Some. Qed.
    Lemma acc_inv i a : ps_acc p' !! i = Some a -> A !! i = Some a \/
      exists k, i = length A + k /\ l !! k = Some (oa_obj a, oa_how a) /\ oa_seen a = (if decide (oa_how a = End) then post else pre).
    Proof.
      rewrite p_acc. intros [H|[Hle H]]%lookup_app_Some; [by left|right]. unfold pnew in H. rewrite list_lookup_fmap in H.
      destruct (l !! (i - length A)) as [[o h]|] eqn:E; [|done]. injection H as <-. exists (i - length A). split_and!; [lia|done|done].
    Qed.
    Lemma ini_mono o i : ini p o i -> ini p' o i.
    Proof. intros (a & Ha & ? & ?). exists a. split; [by apply old_at|done]. Qed.
    Lemma knows_mono v v' o : v ⊆ v' -> knows p v o -> knows p' v' o.
    Proof. intros Hv (i & Hi & Hin). exists i. split; [by apply ini_mono|set_solver]. Qed.
    Lemma after_mono o o' : after p o o' -> after p' o o'.
    Proof. intros (i & a & Ha & ? & ? & Hk). exists i, a. split; [by apply old_at|]. split_and!; [done..|]. by eapply knows_mono. Qed.
    (** Something made in this step *)
    Lemma ini_new o k : l !! k = Some (o, Init) -> ini p' o (length A + k).
    Proof. intros H. eexists. split; [by apply pnew_at|]. done. Qed.
    Lemma knows_new o v : (o, Init) ∈ l -> pids ⊆ v -> knows p' v o.
    Proof. intros [k Hk]%elem_of_list_lookup Hv. exists (length A + k). split; [by apply ini_new|]. apply Hv. by eapply pids_at. Qed.
    Lemma after_new o o' : (o, Init) ∈ l -> knows p' pre o' -> after p' o o'.
    Proof.
      intros [k Hk]%elem_of_list_lookup H. exists (length A + k). eexists. split; [by apply pnew_at|]. cbn. done.
    Qed.
    Lemma init_pids o : (o, Init) ∈ l -> pids ⊆ pre. Proof. intros H. by eapply pids_pre. Qed.
    (** Pointers found in what is known *)
    Lemma knows_after v o o' : pclosed A v -> knows p v o -> after p o o' -> knows p v o'.
    Proof.
      intros C (i & Hi & Hin) (j & b & Hb & Eo & Eh & k & Hk & Hkin). assert (i = j) as <-. { eapply (P_uniq _ I); [exact Hi|]. exists b. done. }
      destruct (C _ Hin) as (a & Ha & Hs). rewrite Hb in Ha. injection Ha as <-. exists k. split; [done|]. by apply Hs.
    Qed.
    Lemma pv_closed : pclosed A pv.
    Proof. repeat apply pclosed_union; [apply (P_view _ I (HT t))| |]; apply pclosed_gather; intros h; [apply (P_view _ I (HV h))|apply (P_bor _ I)]. Qed.
    Lemma knows_pre o : knows p (ps_thr p t) o -> knows p' pre o.
    Proof. apply knows_mono, thr_pre. Qed.
    Lemma ment_pre o : ment s e s' o -> knows p pre o.
    Proof.
      assert (forall v o, v ⊆ pre -> knows p v o -> knows p pre o) as Hm. { intros v o' Hv (i & ? & ?). exists i. split; [done|set_solver]. }
      destruct o as [x|y|b]; cbn.
      - intros [(w & Hw & Hx)|(x0 & m & Hx0 & Hm0 & Hp)].
        + eapply Hm; [by apply (src_pre w)|]. by apply (P_node _ I).
        + eapply Hm; [apply thr_pre|]. eapply knows_after; [apply (P_view _ I (HT t))|by apply (P_node _ I (HT t) x0)|]. by eapply (P_mpar _ I).
      - intros [(w & Hw & Hx)|(b & Hb & Hy)].
        + eapply Hm; [by apply (src_pre w)|]. by apply (P_guard _ I).
        + eapply Hm; [apply thr_pre|]. eapply knows_after; [apply (P_view _ I (HT t))|by apply (P_box _ I (HT t) b)|]. by apply (P_boxc _ I).
      - intros Hb. eapply Hm; [apply thr_pre|]. by apply (P_box _ I (HT t) b).
    Qed.
    Lemma pids_closed v : pids ⊆ v -> (forall k a, l !! k = Some a -> (if decide (a.2 = End) then post else pre) ⊆ v) ->
      forall i, i ∈ pids -> exists a, ps_acc p' !! i = Some a /\ oa_seen a ⊆ v.
    Proof.
      intros Hv H i Hi. unfold pids in Hi. apply elem_of_set_seq in Hi as [H1 H2]. destruct (lookup_lt_is_Some_2 l (i - length A)) as [a Ha]; [lia|].
      eexists. split; [|shelve]. replace i with (length A + (i - length A)) by lia. by apply pnew_at. Unshelve. cbn. by eapply H.
    Qed.
    Lemma pre_closed : pclosed (ps_acc p') pre.
    Proof.
      intros i Hi. assert (i ∈ pv -> exists a, ps_acc p' !! i = Some a /\ oa_seen a ⊆ pre) as Hold.
      { intros Hv. destruct (pv_closed _ Hv) as (a & Ha & Hs). exists a. split; [by apply old_at|]. pose proof pv_pre. set_solver. }
      destruct (ends l) eqn:E; [apply Hold; unfold pre in Hi; by rewrite E in Hi|].
      assert (pre = pv ∪ pids) as Ep by (unfold pre; by rewrite E). rewrite Ep in Hi. apply elem_of_union in Hi as [Hi|Hi]; [by apply Hold|].
      clear Hold. revert i Hi. apply pids_closed; [set_solver|]. intros k [o h] Hk. cbn. rewrite decide_False; [done|]. intros ->.
      apply elem_of_list_lookup_2 in Hk. apply (e_end _ _ _ F) in Hk as [El _]. unfold ends in E. rewrite El in E. done.
    Qed.
    Lemma post_closed : pclosed (ps_acc p') post.
    Proof.
      intros i Hi. unfold post in Hi. apply elem_of_union in Hi as [[Hi|Hi]%elem_of_union|Hi].
      - destruct (pre_closed _ Hi) as (a & Ha & Hs). exists a. split; [done|]. pose proof pre_post. set_solver.
      - assert (pclosed A (gather (ps_loc p) (syncs acq s e).1)) as C by (apply pclosed_gather, (P_loc _ I)).
        destruct (C _ Hi) as (a & Ha & Hs). exists a. split; [by apply old_at|]. unfold post. set_solver.
      - revert i Hi. apply pids_closed; [apply pids_post|]. intros k a _. case_decide; [done|apply pre_post].
    Qed.
    Lemma knows_post o : knows p' post o -> knows p' (ps_thr p' t) o.
    Proof. intros (i & ? & ?). exists i. split; [done|by apply post_thr]. Qed.
    Lemma kept_step o i : counted o -> alive s' o -> kept p o i -> kept p' o i.
    Proof.
      intros Hc Hl [(a & Ha & Hi)|[(w & Hw & Hi)|[(t' & Ht & Hi)|(z & j & a & Hz & Ha & Eo & Eh & Hi)]]].
      - left. exists a. split; [done|]. by apply loc_mono.
      - destruct (e_ref _ _ _ F _ _ Hw Hl) as [(w' & Hsrc & Hw')|(-> & [(a & Ha & Hin)|(z & Hz & Hg)])].
        + right. left. exists w'. split; [by rewrite p_eq|]. by eapply rsrc_view.
        + left. exists a. split; [done|]. eapply rl_loc; [done|]. by apply thr_pre.
        + right. right. right. apply elem_of_list_lookup in Hz as [k Hk]. exists z, (length A + k). eexists. split; [by rewrite p_eq|].
          split; [by apply pnew_at|]. cbn. split_and!; [done..|]. by apply thr_pre.
      - destruct (e_pend _ _ _ F _ _ Ht Hl) as [Hp|(w' & Hsrc & Hw')].
        + right. right. left. exists t'. split; [by rewrite p_eq|]. by apply thr_post.
        + right. left. exists w'. split; [by rewrite p_eq|]. by eapply rsrc_view.
      - destruct (e_gkid _ _ _ F _ _ Hz) as [Hz'|[Hq Hr]].
        + right. right. right. exists z, j, a. split; [by rewrite p_eq|]. split; [by apply old_at|]. done.
        + right. left. exists (HT t). split; [by rewrite p_eq|]. destruct (P_guard _ I _ _ Hq) as (j' & Hj' & Hin).
          assert (j' = j) as ->. { eapply (P_uniq _ I); [exact Hj'|]. exists a. done. }
          destruct (P_view _ I (HT t) _ Hin) as (a' & Ha' & Hs). rewrite Ha in Ha'. injection Ha' as <-. apply (pview_mono (HT t)). by apply Hs.
    Qed.
    Lemma kept_end o i : refd s (HT t) o -> count s o = 1 -> (exists a, counter o a /\ a ∈ (syncs acq s e).1) -> kept p o i -> i ∈ post.
    Proof.
      intros Hr Hc (a0 & Ha0 & Hin0) [(a & Ha & Hi)|[(w & Hw & Hi)|[(t' & Ht & Hi)|(z & j & a & Hz & _)]]]; destruct (So _ _ Hr Hc) as (S1 & S2 & S3).
      - assert (a = a0) as -> by (destruct o; cbn in *; congruence). by eapply ac_post.
      - rewrite (S1 _ Hw) in Hi. apply pre_post, thr_pre, Hi.
      - by destruct (S2 t').
      - by destruct (S3 z).
    Qed.
    Lemma count_alive o : counted o -> count s o = 1 -> alive s o.
    Proof.
      destruct o as [x|y|b]; cbn; try done; intros _; unfold rc_count, rc_get;
        [destruct (datas s !! x) as [[[c n]|]|]|destruct (guards s !! y) as [[[c n]|]|]]; try done; intros _; by eexists.
    Qed.
    Lemma refd_counted w o : refd s w o -> counted o.
    Proof. by destruct o. Qed.
    Lemma PI_step : PI p'.
    Proof.
      assert (ps_s p' = s') as Es by reflexivity.
      assert (forall w, pclosed (ps_acc p') (pview p' w)) as Cv.
      { intros w. rewrite p_eq. destruct w as [t1|h]; cbn; apply pclosed_spread; try apply post_closed; apply pclosed_app;
          [apply (P_view _ I (HT t1))|apply (P_view _ I (HV h))]. }
      assert (published p') as Hpub.
      { intros j b Hb Hh. destruct (acc_inv _ _ Hb) as [Ho|(k & -> & Hk & Ev)].
        - destruct (P_pub _ I _ _ Ho Hh) as (i & Hi & Hin & Hlt). exists i. split; [by apply ini_mono|done].
        - apply elem_of_list_lookup_2 in Hk. pose proof (e_ment _ _ _ F _ _ Hk Hh) as Hm. apply ment_pre in Hm as (i & Hi & Hin).
          exists i. split; [by apply ini_mono|]. split.
          + rewrite Ev. case_decide; [by apply pre_post|done].
          + destruct Hi as (a & Ha%lookup_lt_Some & _). lia. }
      assert (forall o i, ini p' o i -> ini p o i \/ exists k, i = length A + k /\ l !! k = Some (o, Init)) as Hini.
      { intros o i (a & Ha & <- & Eh). destruct (acc_inv _ _ Ha) as [Ho|(k & -> & Hk & _)]; [left; by exists a|right]. rewrite Eh in Hk. eauto. }
      split; rewrite ?Es.
      - exact Cv.
      - intros h. rewrite p_eq. cbn. apply pclosed_spread; [apply pclosed_app, (P_bor _ I)|apply post_closed].
      - intros a. rewrite p_eq. cbn. apply pclosed_spread; [apply pclosed_app, (P_loc _ I)|apply pre_closed].
      - intros j b Hb. destruct (acc_inv _ _ Hb) as [Ho|(k & -> & Hk & Ev)].
        + destruct (P_acc _ I _ _ Ho) as [H1 H2]. split; [by apply pclosed_app|done].
        + rewrite Ev. case_decide as Hd.
          * split; [apply post_closed|]. apply pids_post. by eapply pids_at.
          * split; [apply pre_closed|]. eapply pids_pre; [by eapply elem_of_list_lookup_2|done|]. by eapply pids_at.
      - intros w' x Hx. destruct (e_P _ _ _ F _ _ Hx) as [(w & Hw & Hx0)|(-> & [(x0 & side & n & Hn & Hd & Hac)|[(x0 & m & Hx0 & Hm & Hp)|Hi]])].
        + eapply knows_mono; [by apply src_view|]. by apply (P_node _ I).
        + apply knows_post. eapply knows_mono; [by apply ac_post|]. by eapply (P_link _ I).
        + eapply (knows_mono (ps_thr p t)); [apply thr_post|]. eapply knows_after; [apply (P_view _ I (HT t))|by apply (P_node _ I (HT t) x0)|]. by eapply (P_mpar _ I).
        + apply knows_post. apply knows_new; [done|apply pids_post].
      - intros w' x Hx. destruct (e_Q _ _ _ F _ _ Hx) as [(w & Hw & Hx0)|(-> & [(b & Hb & Hy)|[(z & Hz & Hg)|Hi]])].
        + eapply knows_mono; [by apply src_view|]. by apply (P_guard _ I).
        + eapply (knows_mono (ps_thr p t)); [apply thr_post|]. eapply knows_after; [apply (P_view _ I (HT t))|by apply (P_box _ I (HT t) b)|]. by eapply (P_boxc _ I).
        + eapply (knows_mono (ps_thr p t)); [apply thr_post|]. eapply knows_after; [apply (P_view _ I (HT t))|by apply (P_guard _ I (HT t) z)|]. by eapply (P_gpar _ I).
        + apply knows_post. apply knows_new; [done|apply pids_post].
      - intros w' b Hb. destruct (e_X _ _ _ F _ _ Hb) as [Hb0|(-> & x & m & Hx & Hm & <- & Hac)].
        + eapply knows_mono; [apply pview_mono|]. by apply (P_box _ I).
        + destruct (P_mbox _ I _ _ Hm) as [Ha|Hk].
          * eapply (knows_mono (ps_thr p t)); [apply thr_post|]. eapply knows_after; [apply (P_view _ I (HT t))|by apply (P_node _ I (HT t) x)|done].
          * apply knows_post. eapply knows_mono; [by apply ac_post|done].
      - intros x side n' c Hn Hd. destruct (e_link _ _ _ F _ _ _ _ Hn Hd) as [(n & Hn0 & Hd0)|[Hi Hrl]].
        + eapply knows_mono; [apply loc_mono|]. by eapply (P_link _ I).
        + apply knows_new; [done|]. etrans; [by eapply init_pids|by apply rl_loc].
      - intros x m' Hm. destruct (e_mbox _ _ _ F _ _ Hm) as [(m & Hm0 & <-)|[Hi [Hrl|Hx]]].
        + destruct (P_mbox _ I _ _ Hm0) as [Ha|Hk]; [left; by apply after_mono|right]. eapply knows_mono; [apply loc_mono|done].
        + right. apply knows_new; [done|]. etrans; [by eapply init_pids|by apply rl_loc].
        + left. apply after_new; [done|]. apply knows_new; [done|by eapply init_pids].
      - intros x m' y Hm Hp. destruct (e_mpar _ _ _ F _ _ _ Hm Hp) as [(m & Hm0 & Hp0)|[Hi Hy]].
        + apply after_mono. by eapply (P_mpar _ I).
        + apply after_new; [done|]. apply knows_pre. by apply (P_node _ I (HT t)).
      - intros b y Hb. destruct (e_boxc _ _ _ F _ _ Hb) as [Hb0|[H1 H2]].
        + apply after_mono. by apply (P_boxc _ I).
        + apply after_new; [done|]. apply knows_new; [done|by eapply init_pids].
      - intros z y Hz. destruct (e_gpar _ _ _ F _ _ Hz) as [Hz0|[H1 H2]].
        + apply after_mono. by apply (P_gpar _ I).
        + apply after_new; [done|]. apply knows_pre. by apply (P_guard _ I (HT t)).
      - assert (forall o i k, ini p o i -> l !! k = Some (o, Init) -> False) as Hf.
        { intros o i k Hi Hk%elem_of_list_lookup_2. apply (e_init _ _ _ F) in Hk as [Hk _]. apply Hk. by eapply (P_bnd _ I). }
        intros o i j Hi Hj. destruct (Hini _ _ Hi) as [Hi0|(k & -> & Hk)], (Hini _ _ Hj) as [Hj0|(k' & -> & Hk')].
        + by eapply (P_uniq _ I).
        + by destruct (Hf _ _ _ Hi0 Hk').
        + by destruct (Hf _ _ _ Hj0 Hk).
        + f_equal. by eapply (e_once _ _ _ F).
      - intros o i Hi. destruct (Hini _ _ Hi) as [Hi0|(k & -> & Hk%elem_of_list_lookup_2)].
        + apply (e_len _ _ _ F). by eapply (P_bnd _ I).
        + by apply (e_init _ _ _ F).
      - intros i a Ha Hu Hc Hl. destruct (acc_inv _ _ Ha) as [Ho|(k & -> & Hk & Ev)].
        + apply kept_step; [done..|]. apply (P_use _ I); [done..|].
          destruct (decide (alive s (oa_obj a))) as [|Hn]; [done|]. exfalso. revert Hl. apply (e_dead _ _ _ F); [|done].
          destruct (P_pub _ I _ _ Ho) as (j & Hj & _); [congruence|]. by eapply (P_bnd _ I).
        + pose proof (pids_at _ _ Hk) as Hin. apply elem_of_list_lookup_2 in Hk. rewrite Hu in Hk.
          assert (length A + k ∈ pre) as Hpre. { eapply pids_pre; [exact Hk|done|done]. }
          destruct (e_use _ _ _ F _ Hk) as (_ & [Hr|[(a0 & Hc0 & Hrl)|[Hp|[(h & Hh & Hr)|Hx]]]]).
          * right. left. exists (HT t). split; [done|]. apply post_thr, pre_post, Hpre.
          * left. exists a0. split; [done|]. by eapply rl_loc.
          * right. right. left. exists t. split; [done|]. apply post_thr, pre_post, Hpre.
          * right. left. exists (HV h). split; [done|]. apply post_bor; [done|]. apply pre_post, Hpre.
          * by destruct (oa_obj a).
      - intros i a Ha He. destruct (acc_inv _ _ Ha) as [Ho|(k & -> & Hk & Ev)].
        + apply (e_dead _ _ _ F); [|by eapply (P_end _ I)]. destruct (P_pub _ I _ _ Ho) as (j & Hj & _); [congruence|]. by eapply (P_bnd _ I).
        + rewrite He in Hk. apply elem_of_list_lookup_2 in Hk. by apply (e_end _ _ _ F) in Hk as (_ & _ & _ & _ & Hk).
      - exact Hpub.
      - intros i j a b Ha Hb Eo Hh He Hne.
        assert (forall h, (oa_obj b, h) ∈ l -> h <> Init -> h <> Peek -> alive s (oa_obj b)) as Hal.
        { intros [] Hin ? ?; try done; [by apply (e_use _ _ _ F) in Hin as [? _]|].
          apply (e_end _ _ _ F) in Hin as (_ & H1 & H2 & _). apply count_alive; [by eapply refd_counted|done]. }
        destruct (acc_inv _ _ Hb) as [Hob|(k & -> & Hk & Ev)].
        + destruct (acc_inv _ _ Ha) as [Hoa|(k' & -> & Hk' & Ev')]; [by eapply (P_des _ I)|]. exfalso.
          apply elem_of_list_lookup_2 in Hk'. rewrite Eo in Hk'. destruct (decide (oa_how a = Init)) as [E|E].
          * rewrite E in Hk'. apply (e_init _ _ _ F) in Hk' as [Hk' _]. apply Hk'.
            destruct (P_pub _ I _ _ Hob) as (j' & Hj & _); [congruence|]. by eapply (P_bnd _ I).
          * eapply (P_end _ I _ _ Hob He). by eapply Hal.
        + pose proof Hk as Hk0. rewrite He in Hk0. apply elem_of_list_lookup_2 in Hk0.
          destruct (e_end _ _ _ F _ Hk0) as (El & Hr & Hc & Hac & _).
          destruct (acc_inv _ _ Ha) as [Hoa|(k' & -> & Hk' & Ev')].
          2:{ exfalso. rewrite El in Hk, Hk'. apply list_lookup_singleton_Some in Hk as [Ek _], Hk' as [Ek' _]; subst. done. }
          split; [apply lookup_lt_Some in Hoa; lia|]. rewrite Ev, decide_True by done.
          destruct (oa_how a) eqn:Eh; [..|done|].
          * assert (ini p (oa_obj b) i) as Hi by by exists a.
            pose proof (e_ment _ _ _ F _ _ Hk0 ltac:(done)) as Hm. apply ment_pre in Hm as (i' & Hi' & Hin).
            rewrite (P_uniq _ I _ _ _ Hi Hi'). by apply pre_post.
          * eapply kept_end; [exact Hr|exact Hc|exact Hac|]. rewrite <- Eo. apply (P_use _ I); [done|done|..]; rewrite Eo; [by eapply refd_counted|].
            by eapply Hal.
          * exfalso. eapply (P_end _ I _ _ Hoa Eh). rewrite Eo. by eapply Hal.
    Qed.
  End step.
End inv.
