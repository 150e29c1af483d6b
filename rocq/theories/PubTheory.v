(** What holds of every execution about the accesses to the crate's objects. *)
From Verif Require Import Base BaseLemmas Api SliceItemsModel BinPartsModel DataModel RcModel Spec DataInv DataSteps GuardInv ArcModel ArcConc ConcInv ConcGuard ConcWorld ConcSpec OrderModel OrderInv PubModel PubCount PubEvents PubInv PubSteps PubFlow.
Local Open Scope nat_scope.

Section theory.
  Context {V : Type} (sz : N) (acq : bool).
  Implicit Types (s : cstate V) (p : pstate V) (e : sched (V:=V)).

  (** ** What happens before is an order *)
  Record PB p : Prop := {
    B_own : forall i a, ps_acc p !! i = Some a -> i ∈ ps_thr p (oa_thread a);
    B_prog : forall i j a b, ps_acc p !! i = Some a -> ps_acc p !! j = Some b -> oa_thread a = oa_thread b -> i < j -> i ∈ oa_seen b;
    B_past : forall i j a b, ps_acc p !! i = Some a -> ps_acc p !! j = Some b -> i ∈ oa_seen b -> i < j \/ oa_thread a = oa_thread b
  }.
  Lemma pnew_inv p e s' i a : ps_acc (pannotate acq p e s') !! i = Some a -> ps_acc p !! i = Some a \/
    (oa_thread a = actor e /\ exists k, i = length (ps_acc p) + k /\ touches (ps_s p) e s' !! k = Some (oa_obj a, oa_how a) /\
      oa_seen a = (if decide (oa_how a = End) then post acq p e s' else pre p e s')).
  Proof.
    intros H. destruct (acc_inv _ _ _ _ _ _ H) as [|(k & -> & Hk & Es)]; [by left|right]. split; [|eauto].
    rewrite (pnew_at acq p e s' k _ Hk) in H. by injection H as <-.
  Qed.
  Lemma PB_init n : PB (init_pstate n).
  Proof. split; intros; done. Qed.
  Lemma PB_step p e s' : PI p -> eff acq (ps_s p) e s' -> solo (ps_s p) -> PB p -> PB (pannotate acq p e s').
  Proof.
    intros I F So [Bo Bp Bt]. split.
    - intros i a H. destruct (pnew_inv _ _ _ _ _ H) as [Ho|(Et & k & -> & Hk & _)]; [by apply thr_post, Bo|].
      rewrite Et. apply post_thr. apply (pids_post acq p e s' I F So). by eapply pids_at.
    - intros i j a b Hi Hj Et Hlt. destruct (pnew_inv _ _ _ _ _ Hj) as [Hj'|(Etb & k & -> & Hk & Es)].
      + destruct (pnew_inv _ _ _ _ _ Hi) as [Hi'|(_ & k & -> & _)]; [by eapply Bp|]. apply lookup_lt_Some in Hj'. lia.
      + rewrite Es. destruct (pnew_inv _ _ _ _ _ Hi) as [Hi'|(_ & k' & -> & Hk' & _)].
        * assert (i ∈ pre p e s') as Hp by (apply (thr_pre acq p e s' I F So); rewrite <- Etb, <- Et; by apply Bo).
          case_decide; [by apply (pre_post acq p e s' I F So)|done].
        * case_decide as Eh; [apply (pids_post acq p e s' I F So); by eapply pids_at|].
          apply (pids_pre acq p e s' I F So (oa_obj b) (oa_how b)); [by eapply elem_of_list_lookup_2|done|by eapply pids_at].
    - intros i j a b Hi Hj Hin. destruct (pnew_inv _ _ _ _ _ Hj) as [Hj'|(Etb & k & -> & Hk & Es)].
      + destruct (pnew_inv _ _ _ _ _ Hi) as [Hi'|(_ & k & -> & _)]; [by eapply Bt|].
        destruct (P_acc _ I _ _ Hj') as [Hc _]. destruct (Hc _ Hin) as (c & Hc' & _). apply lookup_lt_Some in Hc'. lia.
      + destruct (pnew_inv _ _ _ _ _ Hi) as [Hi'|(Eta & _)]; [left; apply lookup_lt_Some in Hi'; lia|right; congruence].
  Qed.

  (** ** Runs *)
  Lemma prun_app p es1 es2 : prun sz acq p (es1 ++ es2) = p1 ← prun sz acq p es1; prun sz acq p1 es2.
  Proof. revert p. induction es1 as [|e es1 IH]; intros p; [done|]. cbn. destruct (pstep sz acq p e); cbn; auto. Qed.
  Theorem pub_inv n es p : preach sz acq n es p -> PI p /\ PB p /\ NI (ps_s p) /\ exists D, GI (ps_s p) D.
  Proof.
    revert p. induction es as [|e es IH] using rev_ind; intros p Hr.
    - injection Hr as <-. split_and!; [apply PI_init|apply PB_init|apply NI_init|exists []; apply GI_init].
    - unfold preach in Hr. rewrite prun_app in Hr. apply bind_inv in Hr as (p1 & H1 & Hr). cbn in Hr.
      apply bind_inv in Hr as (p2 & H2 & [= <-]). unfold pstep in H2. apply bind_inv in H2 as (s' & Hs & [= <-]).
      destruct (IH _ H1) as (I & B & N & D & G). pose proof (cstep_evt sz acq _ _ _ Hs) as E.
      pose proof (eff_evt sz acq _ _ _ _ G N E) as F. pose proof (solo_state _ _ G N) as So. split_and!.
      + by apply PI_step.
      + by apply PB_step.
      + by eapply NI_evt.
      + destruct (GI_cstep sz _ _ _ _ G Hs) as [X G']. eauto.
  Qed.
  (** The number of the access that made the object *)
  Theorem published_before n es p : preach sz acq n es p -> forall j b, ps_acc p !! j = Some b -> oa_how b <> Init ->
    exists i a, ps_acc p !! i = Some a /\ oa_obj a = oa_obj b /\ oa_how a = Init /\ i < j /\ pbefore p i j.
  Proof.
    intros Hr j b Hb Hh. destruct (pub_inv _ _ _ Hr) as (I & _). destruct (P_pub _ I _ _ Hb Hh) as (i & (a & Ha & Ho & Hi) & Hin & Hlt).
    exists i, a. split_and!; try done. by exists b.
  Qed.
  Theorem made_once n es p : preach sz acq n es p -> forall i j a b, ps_acc p !! i = Some a -> ps_acc p !! j = Some b -> oa_obj a = oa_obj b ->
    oa_how a = Init -> oa_how b = Init -> i = j.
  Proof.
    intros Hr i j a b Ha Hb Eo Hi Hj. destruct (pub_inv _ _ _ Hr) as (I & _). eapply (P_uniq _ I (oa_obj b)); by eexists.
  Qed.
  Theorem destroyed_after n es p : preach sz acq n es p -> forall i j a b, ps_acc p !! i = Some a -> ps_acc p !! j = Some b -> oa_obj a = oa_obj b ->
    oa_how b = End -> oa_how a <> Peek -> i <> j -> i < j /\ pbefore p i j.
  Proof.
    intros Hr i j a b Ha Hb Eo Hj Hi Hn. destruct (pub_inv _ _ _ Hr) as (I & _).
    destruct (P_des _ I _ _ _ _ Ha Hb Eo Hi Hj Hn) as [Hlt Hin]. split; [done|by exists b].
  Qed.
  Theorem pub_order n es p : preach sz acq n es p ->
    (forall i j a b, ps_acc p !! i = Some a -> ps_acc p !! j = Some b -> oa_thread a = oa_thread b -> i < j -> pbefore p i j) /\
    (forall i j k, pbefore p i j -> pbefore p j k -> pbefore p i k) /\
    (forall i j, pbefore p i j -> i < j \/ exists a b, ps_acc p !! i = Some a /\ ps_acc p !! j = Some b /\ oa_thread a = oa_thread b).
  Proof.
    intros Hr. destruct (pub_inv _ _ _ Hr) as (I & B & _). split_and!.
    - intros i j a b Ha Hb Et Hlt. exists b. split; [done|]. by eapply (B_prog _ B).
    - intros i j k (b & Hb & Hi) (c & Hc & Hj). exists c. split; [done|]. destruct (P_acc _ I _ _ Hc) as [Hcl _].
      destruct (Hcl _ Hj) as (b' & Hb' & Hs). rewrite Hb in Hb'. injection Hb' as <-. by apply Hs.
    - intros i j (b & Hb & Hi). destruct (P_acc _ I _ _ Hb) as [Hcl _]. destruct (Hcl _ Hi) as (a & Ha & _).
      destruct (B_past _ B _ _ _ _ Ha Hb Hi) as [|Et]; [by left|right; eauto].
  Qed.
End theory.
