(** Who holds references to which datas, and which guards cover them. *)
From Verif Require Import Base BaseLemmas Api SliceItemsModel Spec DataModel RcModel DataInv DataSteps GuardInv ArcModel ArcInv ArcConc ConcInv ConcGuard ConcWorld ConcChild ConcData ConcSafe ConcSpec ConcTree.
Local Open Scope nat_scope.
#[local] Arguments slo {A} F hs : simpl never.
#[local] Arguments thr {V A} F ts : simpl never.

Section cov.
  Context {V : Type} (sz : N).
  Notation stack := (list (frame V)).
  Implicit Types (s : cstate V) (t : nat).
  Notation datas s := (dw_datas (cs_d s)).

  (** ** What a thread borrows *)
  Definition bor (hs : list (option (xhandle * nat))) (st : stack) : option xhandle :=
    match stk fB st with
    | h :: _ => match hs !! h with Some (Some (x, _)) => Some x | _ => None end
    | [] => None
    end.
  Lemma run_bor E b (st : stack) : run E b st -> b = bor (ge_h E) st.
  Proof.
    intros (h & Ho & Eb)%run_borrow. unfold bor. rewrite Eb. destruct h as [h|]; cbn in *; [|done].
    destruct Ho as (x & k & Hh & ->). by rewrite Hh.
  Qed.
  Definition bG (b : option xhandle) : list nat := match b with Some x => hG x | None => [] end.

  (** ** Frames *)
  Definition upk (f : frame V) : Prop := match f with KFromData | KSlice _ => True | _ => False end.
  Definition newf (st : stack) (f : frame V) : Prop :=
    (forall x, chframe f x -> exists f0 k, st = f0 :: k /\ chframe f0 x) /\
    (upk f -> Exists upk st \/ exists o k, st = FUpgrade o :: k) /\
    (nofg f \/ (exists r k, st = FIm3 r :: k) \/ exists n a k, st = FFg n a :: k).
  Lemma newf_plain (st : stack) f : (forall x, ~ chframe f x) -> ~ upk f -> nofg f -> newf st f.
  Proof. intros H1 H2 H3. split_and!; [intros x Hx; by destruct (H1 x)|done|by left]. Qed.
  Lemma newf_ch f0 (k : stack) f : (forall x, chframe f x -> chframe f0 x) -> ~ upk f -> nofg f -> newf (f0 :: k) f.
  Proof. intros H1 H2 H3. split_and!; [eauto|done|by left]. Qed.
  Definition frames_ok (st st' : stack) : Prop := forall f, f ∈ st' -> f ∈ st \/ newf st f.
  Lemma fok_tail f0 (k st' : stack) : Forall (fun f => newf (f0 :: k) f) st' -> frames_ok (f0 :: k) (st' ++ k).
  Proof.
    intros H f [Hf|Hf]%elem_of_app; [right|left; by right]. rewrite Forall_forall in H. by apply H.
  Qed.
  Lemma fok_tail2 f0 f1 (k st' : stack) : Forall (fun f => newf (f0 :: f1 :: k) f) st' -> frames_ok (f0 :: f1 :: k) (st' ++ k).
  Proof.
    intros H f [Hf|Hf]%elem_of_app; [right|left; by do 2 right]. rewrite Forall_forall in H. by apply H.
  Qed.
  Ltac newf_tac := first
    [ apply newf_plain; [intros ? Hf; exact Hf|intros Hf; exact Hf|exact Logic.I]
    | apply newf_ch; [intros ? Hf; exact Hf|intros Hf; exact Hf|exact Logic.I] ].
  Ltac all_new := repeat (apply Forall_cons; split; [newf_tac|]); by apply Forall_nil.
  Ltac fk l := apply (fok_tail _ _ l); all_new.
  Ltac fk2 l := apply (fok_tail2 _ _ _ l); all_new.
  Lemma mstep_frames (d : dworld V) g (st : stack) d' g' st' : mstep sz d g st = Ok (d', g', st') -> frames_ok st st'.
  Proof.
    intros Hs. unfold mstep in Hs. destruct st as [|f k]; [done|].
    destruct f; try done.
    - apply bind_inv in Hs as ([h r] & Hd & Hs). destruct r as [n|].
      + destruct (node_own sz n) as [p len]. injection Hs as <- <- <-.
        change ((FRel <$> node_kids n) ++ FItems (N.to_nat len) p (d_alloc n) :: k)
          with ((FRel <$> node_kids n) ++ [FItems (N.to_nat len) p (d_alloc n)] ++ k : stack).
        rewrite app_assoc. apply fok_tail, Forall_app. split; [|all_new]. apply Forall_fmap, Forall_forall. intros c _. cbn. newf_tac.
      + injection Hs as <- <- <-. fk ([] : stack).
    - destruct k0 as [|j].
      + apply bind_inv in Hs as (d1 & Hd & [= <- <- <-]). fk ([] : stack).
      + apply bind_inv in Hs as ([d1 v] & Hd & [= <- <- <-]). fk ([FItems j (ptr_add sz p 1) a] : stack).
    - apply bind_inv in Hs as ([h r] & Hd & Hs). destruct r as [n|]; injection Hs as <- <- <-; [|fk ([] : stack)].
      apply fok_tail. destruct (a_parent n); [all_new|by apply Forall_nil].
    - apply bind_inv in Hs as (g1 & Hd & [= <- <- <-]). fk ([] : stack).
    - apply bind_inv in Hs as (n & Hd & Hs). destruct (a_gate down n); injection Hs as <- <- <-; [intros f Hf; by left|fk ([] : stack)].
    - apply bind_inv in Hs as (n & Hn & Hs). destruct (_ <=? _)%N.
      + apply bind_inv in Hs as (h & Hd & [= <- <- <-]). fk ([FV (VData d0)] : stack).
      + destruct (d_child side n) as [c|]; injection Hs as <- <- <-; [fk ([FChildInc d0 side c] : stack)|fk ([FChildAlloc d0 side] : stack)].
    - apply bind_inv in Hs as (h & Hd & [= <- <- <-]). fk ([FV (VData c)] : stack).
    - apply bind_inv in Hs as (n & Hn & Hs). destruct (node_sub sz side n) as [p len].
      apply bind_inv in Hs as (d1 & Hd & [= <- <- <-]). eapply (fok_tail _ _ [_] : _). all_new.
    - apply bind_inv in Hs as (m & (s & Hm)%rc_val_inv & Hs). destruct (d_child side m) as [c|] eqn:Ec.
      + injection Hs as <- <- <-. fk ([FChildLost d0 side c k0 n] : stack).
      + apply bind_inv in Hs as (h1 & Hi & [= <- <- <-]). fk ([FV (VData (length (dw_datas d)))] : stack).
    - apply bind_inv in Hs as (h & Hd & [= <- <- <-]). fk ([FChildUndo d0 side c k0 n] : stack).
    - destruct k0 as [|[|j]]; try done. injection Hs as <- <- <-. fk ([FChildUnwrap d0 side c (S j) n] : stack).
    - destruct (_ =? 1); [|done]. injection Hs as <- <- <-. fk ([FItems 0 (d_ptr n) (d_alloc n); FV (VData c)] : stack).
    - apply bind_inv in Hs as (n & _ & Hs). destruct (gd_metas g !! d0) as [m|]; [|done]. injection Hs as <- <- <-. fk ([FGuardUp d0 (am_box m)] : stack).
    - destruct (gd_boxes g !! b) as [[wk|]|]; try done. destruct (rc_upgrade _ _) as [gs [y|]] eqn:E; injection Hs as <- <- <-;
        [fk ([FV (VGuard y)] : stack)|fk ([FGuardPar d0 b] : stack)].
    - destruct (gd_metas g !! d0); [|done]. destruct (rc_upgrade _ _) as [h [p|]] eqn:E; injection Hs as <- <- <-;
        [fk ([FGuard p; KGuardPar d0 b p] : stack)|fk ([FGuardCas d0 b None] : stack)].
    - apply bind_inv in Hs as (n & _ & Hs). destruct (gd_metas g !! d0) as [m|]; [|done]. destruct (_ =? _).
      + apply bind_inv in Hs as ([g1 y] & Hg & [= <- <- <-]). fk ([FV (VGuard y)] : stack).
      + injection Hs as <- <- <-. fk ([FGuardLost d0 (am_box m) pg] : stack).
    - destruct (gd_boxes g !! b) as [[wk|]|]; try done. destruct (rc_upgrade _ _) as [gs [y|]] eqn:E; injection Hs as <- <- <-;
        destruct pg as [i|]; cbn [rel_opt app].
      + fk ([FRelG i; FV (VGuard y)] : stack).
      + fk ([FV (VGuard y)] : stack).
      + fk ([FRelG i; FGuardPar d0 b] : stack).
      + fk ([FGuardPar d0 b] : stack).
    - apply bind_inv in Hs as (h & Hd & [= <- <- <-]). fk ([FCloneG r] : stack).
    - apply bind_inv in Hs as (h & Hd & [= <- <- <-]). eapply (fok_tail _ _ [_] : _). all_new.
    - apply bind_inv in Hs as (h & Hd & [= <- <- <-]). eapply (fok_tail _ _ [_] : _). all_new.
    - apply bind_inv in Hs as (n & _ & Hs). apply bind_inv in Hs as (h & Hd & [= <- <- <-]). eapply (fok_tail _ _ [_] : _). all_new.
    - destruct (rc_upgrade _ _) as [h [p|]] eqn:E; injection Hs as <- <- <-; [|eapply (fok_tail _ _ [_] : _); all_new].
      apply (fok_tail _ _ [FV (VData p); KFromData]). apply Forall_cons. split; [newf_tac|]. apply Forall_cons. split; [|by apply Forall_nil].
      split_and!; [done|eauto|by left].
    - apply bind_inv in Hs as ([g1 ok] & Hc & Hs). destruct ok; injection Hs as <- <- <-;
        [eapply (fok_tail _ _ [_; _] : _)|eapply (fok_tail _ _ [_] : _)]; all_new.
    - destruct (_ =? 1); injection Hs as <- <- <-; (eapply (fok_tail _ _ [_] : _)); all_new.
    - apply bind_inv in Hs as ([g1 ok] & Hc & Hs). destruct ok; injection Hs as <- <- <-;
        [eapply (fok_tail _ _ [_; _] : _)|eapply (fok_tail _ _ [_] : _)]; all_new.
    - destruct (_ =? 1); injection Hs as <- <- <-; (eapply (fok_tail _ _ [_] : _)); all_new.
    - destruct (_ =? 1); injection Hs as <- <- <-; (eapply (fok_tail _ _ [_] : _)); all_new.
    - apply bind_inv in Hs as ([g1 ok] & Hc & Hs). destruct ok; injection Hs as <- <- <-;
        [eapply (fok_tail _ _ [_; _] : _)|eapply (fok_tail _ _ [_] : _)]; all_new.
    - destruct (_ =? 1); injection Hs as <- <- <-; (eapply (fok_tail _ _ [_] : _)); all_new.
    - destruct k as [|[] k]; try done. apply bind_inv in Hs as ([h o] & Hd & Hs).
      destruct o; injection Hs as <- <- <-.
      + eapply (fok_tail2 _ _ _ [_; _; _] : _). apply Forall_cons. split; [|all_new]. split_and!; [done|done|eauto].
      + eapply (fok_tail2 _ _ _ [_; _] : _). all_new.
    - destruct (node_kids n) as [|c ks].
      + assert (Ok (d, g, FV (VFin (Some (XMut (MutS (SliceItems (d_ptr n) (d_len n)) a))) None) :: k) = Ok (d', g', st') -> frames_ok (FFg n a :: k) st') as Hd.
        { intros [= <- <- <-]. eapply (fok_tail _ _ [_] : _). all_new. }
        destruct k as [|[] k]; try by apply Hd. clear Hd.
        apply bind_inv in Hs as (d1 & Hd & [= <- <- <-]). eapply (fok_tail2 _ _ _ [_] : _). apply Forall_cons. split; [|by apply Forall_nil].
        split_and!; [done|done|eauto 10].
      + apply bind_inv in Hs as ([h o] & Hd & Hs). destruct o; injection Hs as <- <- <-.
        * eapply (fok_tail _ _ [_; _] : _). apply Forall_cons. split; [split_and!; [done|done|eauto 10]|].
          apply Forall_cons. split; [split_and!; [done|done|eauto 10]|]. by apply Forall_nil.
        * eapply (fok_tail _ _ [_; _] : _). apply Forall_cons. split; [newf_tac|]. apply Forall_cons. split; [split_and!; [done|done|eauto 10]|]. by apply Forall_nil.
    - destruct v; (destruct k as [|[] k]; try done;
        (lazymatch type of Hs with Ok _ = _ => injection Hs as <- <- <-
         | _ => apply bind_inv in Hs as (? & Ho & Hs); injection Hs as <- <- <- end)).
      all: first [eapply (fok_tail2 _ _ _ [_] : _); all_new|eapply (fok_tail2 _ _ _ [_; _] : _); all_new|idtac].
      apply (fok_tail2 _ _ _ [FGuard d0; KSlice d0]). apply Forall_cons. split; [newf_tac|]. apply Forall_cons. split; [|by apply Forall_nil].
      split_and!; [done|intros _; left; apply Exists_cons; right; apply Exists_cons; by left|by left].
  Qed.

  (** ** Coverage *)

  (** For each frame and each reference in it. *)
  Fixpoint pok (P : nat -> stack -> Prop) (st : stack) : Prop :=
    match st with
    | [] => True
    | f :: k => (forall y, y ∈ fR f -> P y (f :: k)) /\ pok P k
    end.
  Lemma pok_mono (P Q : nat -> stack -> Prop) (st : stack) :
    (forall y st', y ∈ stk fR st -> P y st' -> Q y st') -> pok P st -> pok Q st.
  Proof.
    induction st as [|f k IH]; [done|]. intros H [H1 H2]. split.
    - intros y Hy. apply H; [rewrite stk_cons; apply elem_of_app; by left|by apply H1].
    - apply IH; [|done]. intros y st' Hy. apply H. rewrite stk_cons. apply elem_of_app. by right.
  Qed.
  Lemma pok_elem (P : nat -> stack -> Prop) (st : stack) y : pok P st -> y ∈ stk fR st -> exists st0 st', st = st0 ++ st' /\ P y st'.
  Proof.
    induction st as [|f k IH]; [intros _ H; by apply elem_of_nil in H|]. intros [H1 H2]. rewrite stk_cons. intros [Hy|Hy]%elem_of_app.
    - exists [], (f :: k). split; [done|by apply H1].
    - destruct (IH H2 Hy) as (st0 & st' & -> & H). by exists (f :: st0), st'.
  Qed.
  Lemma pok_kids (P : nat -> stack -> Prop) (l : list nat) (k : stack) : (forall c st, c ∈ l -> P c st) -> pok P k -> pok P ((FRel <$> l) ++ k).
  Proof.
    intros Hl Hk. induction l as [|c l IH]; [done|]. cbn. split.
    - intros y Hy. apply elem_of_list_singleton in Hy as ->. apply Hl. left.
    - apply IH. intros c' st Hc. apply Hl. by right.
  Qed.
  Lemma pok_nil (P : nat -> stack -> Prop) f (k : stack) : fR f = [] -> pok P k -> pok P (f :: k).
  Proof. intros E Hk. split; [|done]. rewrite E. intros y H. by apply elem_of_nil in H. Qed.
  Lemma pok_one (P : nat -> stack -> Prop) f (k : stack) x : fR f = [x] -> P x (f :: k) -> pok P k -> pok P (f :: k).
  Proof. intros E Hx Hk. split; [|done]. rewrite E. by intros y ->%elem_of_list_singleton. Qed.
  Lemma pok_relopt (P : nat -> stack -> Prop) pg (k : stack) : pok P k -> pok P (rel_opt pg ++ k).
  Proof. intros H. destruct pg; [by apply pok_nil|done]. Qed.

  Definition cov s (D G : list nat) (y : nat) : Prop := forall x, dl s x -> below (cs_g s) x y ->
    exists i z, i ∈ G /\ D !! i = Some z /\ ance (cs_g s) x z.
  Definition xmt s (b : option xhandle) (st : stack) (y : nat) : Prop :=
    exists u w, b = Some (XWeak (Some u) w) /\ ance (cs_g s) y u /\ Exists upk st.
  Definition good s D b (y : nat) (st : stack) : Prop := cov s D (stk fG st ++ bG b) y \/ xmt s b st y.
  Definition COV s D : Prop := forall t st, cs_t s !! t = Some st -> pok (good s D (bor (cs_h s) st)) st.

  (** Where the references of a thread after a step come from. *)
  Definition org s' b (st st' : stack) (y : nat) : Prop :=
    y ∈ stk fR st \/
    (exists r, b = Some (XArc r) /\ y = ar_data r) \/
    (exists p, p ∈ stk fR st /\ ~ dl s' p /\ data_parent (cs_g s') y = Some p) \/
    (exists r f k, b = Some (XArc r) /\ st = f :: k /\ chframe f (ar_data r) /\ data_parent (cs_g s') y = Some (ar_data r)) \/
    (exists x, x ∈ stk fR st /\ data_parent (cs_g s') x = Some y) \/
    (exists u w, b = Some (XWeak (Some u) w) /\ y = u /\ Exists upk st').

  Lemma cov_self s D G y i : i ∈ G -> D !! i = Some y -> cov s D G y.
  Proof. intros Hi Hy x _ Hx. exists i, y. split_and!; [done..|]. by right. Qed.
  Lemma cov_child s D G y z i : data_parent (cs_g s) y = Some z -> i ∈ G -> D !! i = Some z -> cov s D G y.
  Proof. intros Hp Hi Hz x _ Hx. exists i, z. split_and!; [done..|]. by eapply below_parent. Qed.
  Lemma cov_root s D G y : data_parent (cs_g s) y = None -> cov s D G y.
  Proof. intros Hp x _ Hx. by destruct (below_root _ _ _ Hp Hx). Qed.

  Section step.
    Context s s' (D X : list nat) T L (G : GI s D) (C : CI sz s) (I : DI sz s T L) (M : MI s) (F : eff s s').
    Context T' L' (M' : MI s') (I' : DI sz s' T' L').
    Lemma cov_orphan (G0 : list nat) y p : data_parent (cs_g s') y = Some p -> ~ dl s' p -> cov s' (D ++ X) G0 y.
    Proof.
      intros Hp Hd x Hx Hxy. destruct Hd. eapply (live_down sz s' [] _ _ _ _ x); [apply (D_inv _ _ _ _ I')|done..|].
      by eapply below_parent.
    Qed.
    Lemma cov_stable (G0 G1 : list nat) y : y < length (datas s) -> (forall i, i ∈ G0 -> i ∈ G1) -> cov s D G0 y -> cov s' (D ++ X) G1 y.
    Proof.
      intros Hy HG Hc x Hx Hb. pose proof (eff_mext _ _ F) as ME. apply (below_mext_inv _ _ _ _ ME) in Hb;
        [|intros ? ?; by apply (parent_lt _ _ _ _ G)|by rewrite (G_len _ _ G)].
      pose proof (below_lt _ _ _ (fun a b => parent_lt _ _ a b G) Hb). destruct (Hc x) as (i & z & Hi & Hz & Ha).
      { eapply eff_live; [done|lia|done]. } { done. }
      exists i, z. split_and!; [by apply HG|by apply lookup_app_l_Some|by eapply ance_mext].
    Qed.
    Lemma xmt_stable b (st st1 : stack) y : (Exists upk st -> Exists upk st1) -> xmt s b st y -> xmt s' b st1 y.
    Proof.
      intros Hu (u & w & Hb & Ha & He). exists u, w. split_and!; [done| |by apply Hu].
      eapply ance_mext; [by apply eff_mext|done].
    Qed.
    Lemma good_stable b (st st1 : stack) y : y < length (datas s) -> (forall i, i ∈ stk fG st -> i ∈ stk fG st1) ->
      (Exists upk st -> Exists upk st1) -> good s D b y st -> good s' (D ++ X) b y st1.
    Proof.
      intros Hy HG Hu [H|H]; [left|right; by eapply xmt_stable]. eapply cov_stable; [done| |done].
      intros i [Hi|Hi]%elem_of_app; apply elem_of_app; [left; by apply HG|by right].
    Qed.
    Lemma good_parent b (st st1 : stack) x p : x < length (datas s) -> data_parent (cs_g s) x = Some p ->
      (forall i, i ∈ stk fG st -> i ∈ stk fG st1) -> (Exists upk st -> Exists upk st1) ->
      good s D b x st -> good s' (D ++ X) b p st1.
    Proof.
      intros Hx Hp HG Hu H. eapply good_stable; [|done..|].
      { pose proof (parent_lt _ _ _ _ G Hp). lia. }
      destruct H as [H|(u & w & Hb & Ha & He)]; [left|right].
      - intros z Hz Hzp. apply (H z Hz). by eapply below_more.
      - exists u, w. split_and!; [done| |done]. eapply ance_trans; [|done]. right. by apply below_half.
    Qed.
    Lemma ref_lt x t (st : stack) : cs_t s !! t = Some st -> x ∈ stk fR st -> x < length (datas s).
    Proof.
      intros Ht Hx. destruct (dinv_ref_live _ _ _ _ _ _ (D_inv _ _ _ _ I) x) as (k & n & l & Hl & _); [|by eapply live_lt].
      unfold tot. apply elem_of_app. right. apply thr_elem. eauto.
    Qed.
  End step.

  (** ** Inversions *)
  Lemma acc_head E b x (k : stack) : acc E b (QG x) k -> exists f k0, k = f :: k0 /\ fR f = [x].
  Proof. intros H. inversion H; subst; eauto. Qed.
  Lemma run_chf E b f (k : stack) x : run E b (f :: k) -> chframe f x -> exists r, b = Some (XArc r) /\ x = ar_data r.
  Proof.
    intros H Hf. inversion H as [| | | | | | | |? ? ? Hf0|? ? ? ? Hf0| ? ? ? Hf0| | | | |? ? Hf0|? ? Hf0| |? ? Hf0| |]; subst; try done.
    - exists r. split; [done|]. by destruct f; cbn in *; subst.
    - by destruct f.
    - by destruct Hf0; subst.
    - by destruct Hf0; subst.
    - by destruct Hf0; subst.
    - by destruct Hf0; subst.
  Qed.
  Definition rframe (f : frame V) : option arcslice :=
    match f with
    | FGm1 r | FGm2 r | FGm3 r | FGm4 r | FGm5 r | FIm1 r | FIm2 r | FIm3 r | FHold r => Some r
    | _ => None
    end.
  Lemma run_rframe E b f (k : stack) r : run E b (f :: k) -> rframe f = Some r -> rok (ge_D E) r.
  Proof.
    intros H Hf. inversion H as [| | | | | | | |? ? ? Hf0|? ? ? ? Hf0| ? ? ? Hf0| | | | |? ? Hf0|? ? Hf0| |? ? Hf0| |]; subst; try done;
      try (by destruct f); try (destruct Hf0; subst); cbn in Hf; by simplify_eq.
  Qed.
  Lemma run_gpar E b x y (k : stack) : run E b (FGuardPar x y :: k) -> acc E b (QG x) k.
  Proof.
    intros H. inversion H as [| | | | | | | |? ? ? Hf0|? ? ? ? Hf0| ? ? ? Hf0| | | | |? ? Hf0|? ? Hf0| |? ? Hf0| |]; subst; try done;
      try (by destruct Hf0). by destruct Hf0 as [-> _].
  Qed.
  Lemma run_clone E b r (k : stack) : run E b (FCloneD r :: k) \/ run E b (FCloneG r :: k) -> b = Some (XArc r).
  Proof.
    intros [H|H]; inversion H as [| | | | | | | |? ? ? Hf0|? ? ? ? Hf0| ? ? ? Hf0| | | | |? ? Hf0|? ? Hf0| |? ? Hf0| |]; subst; try done;
      destruct Hf0; by simplify_eq.
  Qed.
  Lemma run_upgrade E b o (k : stack) : run E b (FUpgrade o :: k) -> exists w, b = Some (XWeak o w).
  Proof.
    intros H; inversion H as [| | | | | | | |? ? ? Hf0|? ? ? ? Hf0| ? ? ? Hf0| | | | |? ? Hf0|? ? Hf0| |? ? Hf0| |]; subst; try done;
      try (destruct Hf0; by simplify_eq). eauto.
  Qed.

  Lemma mstep_cov s D X T L T' L' t (st : stack) d g (st' : stack) o l :
    let s' := CS d g (cs_h s) (<[t := st']> (cs_t s)) o l in
    GI s D -> CI sz s -> DI sz s T L -> MI s -> eff s s' -> MI s' -> DI sz s' T' L' ->
    cs_t s !! t = Some st -> mstep sz (cs_d s) (cs_g s) st = Ok (d, g, st') -> clean (cs_d s) st ->
    pok (good s D (bor (cs_h s) st)) st ->
    pok (fun y st1 => org s' (bor (cs_h s) st) st st' y /\ good s' (D ++ X) (bor (cs_h s) st) y st1) st'.
  Proof.
    intros s' G C I M F M' I' Ht Hs Hcl Hp. destruct (G_run _ _ G t st Ht) as [b Hr].
    pose proof (run_bor _ _ _ Hr) as Eb. cbn in Eb. rewrite <- Eb in *.
    set (Q := fun y st1 => org s' b st st' y /\ good s' (D ++ X) b y st1).
    assert (forall y, y ∈ stk fR st -> y < length (datas s)) as Hlt by (intros y; by apply (ref_lt _ _ _ I _ t)).
    assert (forall k, (forall y, y ∈ stk fR k -> y ∈ stk fR st) -> pok (good s D b) k -> pok Q k) as HK.
    { intros k Hk. apply pok_mono. intros y st1 Hy Hg. split; [left; auto|]. eapply good_stable; eauto. }
    assert (forall r, rok D r -> (D ++ X) !! ar_guard r = Some (ar_data r)) as Hrok.
    { intros r H. by apply lookup_app_l_Some. }
    assert (forall r, b = Some (XArc r) -> rok D r /\ ar_guard r ∈ bG b /\ exists n, rc_get (datas s) (ar_data r) = Some n) as Hbor.
    { intros r ->. destruct (run_borrow _ _ _ Hr) as (h & Ho & _). destruct h as [h|]; [|done]. destruct Ho as (x & k & Hh & [= <-]).
      cbn in Hh. split_and!; [by apply (G_slot _ _ G _ _ _ Hh)|left|].
      destruct (dinv_ref_live _ _ _ _ _ _ (D_inv _ _ _ _ I) (ar_data r)) as (j & n & ? & Hl & _).
      { unfold tot. apply elem_of_app. left. apply slo_elem. exists h, (XArc r), k. split; [done|left]. }
      exists n. by eapply rc_get_live. }
    assert (forall r st1, b = Some (XArc r) -> Q (ar_data r) st1) as Hself.
    { intros r st1 E. destruct (Hbor r E) as (H1 & H2 & _). split; [right; left; eauto|].
      left. eapply cov_self; [apply elem_of_app; by right|by apply Hrok]. }
    assert (forall r f k c st1, b = Some (XArc r) -> st = f :: k -> chframe f (ar_data r) ->
      data_parent g c = Some (ar_data r) -> Q c st1) as Hchild.
    { intros r f k c st1 E E2 Hf Hc. destruct (Hbor r E) as (H1 & H2 & _). split; [right; right; right; left; eauto 10|].
      left. eapply cov_child; [done|apply elem_of_app; by right|by apply Hrok]. }
    assert (forall p c st1, p ∈ stk fR st -> ~ dl s' p -> data_parent g c = Some p -> Q c st1) as Horph.
    { intros p c st1 Hi Hd Hc. split; [right; right; left; eauto 10|]. left. by eapply cov_orphan. }
    assert (forall r st1, rok D r -> ar_guard r ∈ stk fG st1 -> ar_data r ∈ stk fR st -> Q (ar_data r) st1) as Hown.
    { intros r st1 H1 H2 H3. split; [by left|]. left. eapply cov_self; [apply elem_of_app; by left|by apply Hrok]. }
    assert (forall y (st0 st1 : stack), y ∈ stk fR st -> stk fG st0 = stk fG st1 -> (Exists upk st0 -> Exists upk st1) ->
      good s D b y st0 -> Q y st1) as Htr.
    { intros y st0 st1 Hy E Hu Hg. split; [by left|]. eapply good_stable; [exact G|exact F|by apply Hlt| |done|done]. intros i. by rewrite E. }
    assert (forall x n c, live (datas s) x 1 n -> c ∈ kids n -> data_parent g c = Some x) as Hkid.
    { intros x n c Hx Hc. pose proof (m_kid _ M x n c (rc_get_live _ _ _ _ Hx) Hc) as Hp1.
      pose proof (eff_mext _ _ F) as [ME _]. cbn in ME. rewrite ME; [done|by eapply data_parent_lt]. }
    assert (forall x side c, (x, side, c) ∈ stk fC st -> forall r, b = Some (XArc r) -> ar_data r = x ->
      c = x \/ data_parent g c = Some x) as Hclaim.
    { intros x side c Hc r E <-. destruct (Hbor r E) as (_ & _ & n & Hn). assert ((ar_data r, side, c) ∈ claims s) as Hc'.
      { unfold claims. apply elem_of_app. right. apply thr_elem. eauto. }
      apply (ci_ok _ _ C) in Hc'. cbn in Hc'. specialize (Hc' n Hn). destruct (small side n); [by left|right].
      pose proof (m_kid _ M (ar_data r) n c Hn) as Hp1. pose proof (eff_mext _ _ F) as [ME _]. cbn in ME.
      assert (data_parent (cs_g s) c = Some (ar_data r)) as Hp2 by (apply Hp1, in_kids; eauto).
      rewrite ME; [done|by eapply data_parent_lt]. }
    assert (forall f k, st = f :: k -> pok Q k) as Hk.
    { intros f k ->. apply HK; [|apply Hp]. intros y Hy. rewrite stk_cons. apply elem_of_app. by right. }
    assert (forall f f2 k, st = f :: f2 :: k -> pok Q k) as Hk2.
    { intros f f2 k ->. apply HK; [|apply Hp]. intros y Hy. rewrite !stk_cons. apply elem_of_app. right. apply elem_of_app. by right. }
    assert (forall x, datas s' !! x = Some None -> ~ dl s' x) as Hnone.
    { intros x Hx [n Hn]. unfold rc_get in Hn. by rewrite Hx in Hn. }
    unfold mstep in Hs. destruct st as [|f k]; [done|]. specialize (Hk _ _ eq_refl). destruct Hp as [Hp1 Hp].
    assert (forall y, y ∈ fR f -> y ∈ stk fR (f :: k)) as Hin by (intros y Hy; rewrite stk_cons; apply elem_of_app; by left).
    fold Q.
    destruct f; try done.
    - (* FRel *) apply bind_inv in Hs as ([h r] & Hd & Hs). destruct r as [n|]; [|by injection Hs as <- <- <-].
      apply rc_dec_inv in Hd as [(? & ? & _ & _ & [=])|(v & Hv & -> & [= ->])].
      destruct (node_own sz v) as [p len]. injection Hs as Es1 Es2 Es3. rewrite <- Es3.
      apply pok_kids; [|by apply pok_nil]. intros c st1 Hc. apply (Horph d0); [apply Hin; left| |by eapply Hkid].
      apply Hnone. cbn. rewrite <- Es1. cbn. apply list_lookup_insert. by eapply live_lt.
    - destruct k0 as [|j].
      + by apply bind_inv in Hs as (d1 & Hd & [= <- <- <-]).
      + apply bind_inv in Hs as ([d1 v] & Hd & [= <- <- <-]). by apply pok_nil.
    - apply bind_inv in Hs as ([h r] & Hd & Hs). destruct r as [n|]; injection Hs as <- <- <-; [|done]. by apply pok_relopt.
    - by apply bind_inv in Hs as (g1 & Hd & [= <- <- <-]).
    - apply bind_inv in Hs as (n & Hd & Hs). destruct (a_gate down n); injection Hs as <- <- <-; [by apply pok_nil|done].
    - (* FChild *) destruct (run_chf _ _ _ _ d0 Hr) as (r & Er & ->); [done|].
      apply bind_inv in Hs as (n & Hn & Hs). destruct (_ <=? _)%N.
      + apply bind_inv in Hs as (h & Hd & [= <- <- <-]). eapply pok_one; [done| |done]. by apply Hself.
      + destruct (d_child side n) as [c|]; injection Hs as <- <- <-; by apply pok_nil.
    - (* FChildInc *) destruct (run_chf _ _ _ _ d0 Hr) as (r & Er & ->); [done|].
      apply bind_inv in Hs as (h & Hd & [= <- <- <-]). eapply pok_one; [done| |done].
      destruct (Hclaim (ar_data r) side c) with r as [->|Hc]; [left|done|done|by apply Hself|]. by eapply Hchild.
    - apply bind_inv in Hs as (n & Hn & Hs). destruct (node_sub sz side n) as [p len].
      apply bind_inv in Hs as (d1 & Hd & [= <- <- <-]). by apply pok_nil.
    - (* FChildCas *) destruct (run_chf _ _ _ _ d0 Hr) as (r & Er & ->); [done|].
      apply bind_inv in Hs as (m & (j & Hm)%rc_val_inv & Hs). destruct (d_child side m) as [c|] eqn:Ec.
      + injection Hs as <- <- <-. by apply pok_nil.
      + apply bind_inv in Hs as (h1 & Hi & Hs). injection Hs as Es1 Es2 Es3. rewrite <- Es3. eapply pok_one; [done| |done].
        eapply Hchild; [done..|]. apply (m_kid _ M' (ar_data r) (d_set_child side (Some (length (datas s))) m)).
        * cbn. rewrite <- Es1. cbn. apply rc_set_inv in Hi as (j' & v & Hv & ->). pose proof (live_lt _ _ _ _ Hm).
          unfold live in Hv. rewrite lookup_app_l in Hv by done. destruct (live_fun _ _ _ _ _ _ Hm Hv) as [<- <-].
          rewrite rc_get_insert by (rewrite app_length; lia). by rewrite decide_True.
        * apply in_kids. exists side. by rewrite d_child_same.
    - (* FChildLost *) destruct (run_chf _ _ _ _ d0 Hr) as (r & Er & ->); [done|].
      apply bind_inv in Hs as (h & Hd & [= <- <- <-]). eapply pok_one; [done| |done].
      destruct (Hclaim (ar_data r) side c) with r as [->|Hc]; [left|done|done|by apply Hself|]. by eapply Hchild.
    - destruct k0 as [|[|j]]; try done. injection Hs as <- <- <-. eapply pok_one; [done| |done].
      eapply (Htr _ (FChildUndo d0 side c (S (S j)) n :: k)); [apply Hin; left|done| |by apply Hp1; left]. rewrite !Exists_cons. by intros [|]; [|right].
    - destruct (_ =? 1); [|done]. injection Hs as <- <- <-. apply pok_nil; [done|]. eapply pok_one; [done| |done].
      eapply (Htr _ (FChildUnwrap d0 side c k0 n :: k)); [apply Hin; left|done| |by apply Hp1; left]. rewrite !Exists_cons. by intros [|]; [|right].
    - apply bind_inv in Hs as (n & _ & Hs). destruct (gd_metas (cs_g s) !! d0) as [m|]; [|done]. injection Hs as <- <- <-. by apply pok_nil.
    - destruct (gd_boxes (cs_g s) !! b0) as [[wk|]|]; try done. destruct (rc_upgrade _ _) as [gs [y|]] eqn:E; injection Hs as <- <- <-; by apply pok_nil.
    - (* FGuardPar *) apply run_gpar in Hr. apply acc_head in Hr as (f & k1 & -> & Ef).
      destruct (gd_metas (cs_g s) !! d0) as [m|] eqn:Em; [|done]. destruct (rc_upgrade _ _) as [h [p|]] eqn:E; injection Hs as Es1 Es2 Es3.
      + apply rc_upgrade_inv in E as [(i & j & v & Hpar & Hv & -> & [= ->])|(_ & [=] & _)].
        assert (d0 ∈ stk fR (FGuardPar d0 b0 :: f :: k1)) as Hd0.
        { rewrite !stk_cons, Ef. apply elem_of_app. right. left. }
        assert (data_parent (cs_g s) d0 = Some i) as Hpi. { unfold data_parent. by rewrite Em. }
        rewrite <- Es3. apply pok_nil; [done|]. eapply pok_one; [done| |done]. split.
        * do 4 right. left. exists d0. split; [done|]. cbn. by rewrite <- Es2.
        * eapply (good_parent _ _ _ _ G F b (f :: k1)); [by apply Hlt|done|done|rewrite !Exists_cons; tauto|].
          destruct Hp as [Hp2 _]. apply Hp2. rewrite Ef. left.
      + rewrite <- Es3. by apply pok_nil.
    - apply bind_inv in Hs as (n & _ & Hs). destruct (gd_metas (cs_g s) !! d0) as [m|]; [|done]. destruct (_ =? _).
      + apply bind_inv in Hs as ([g1 y] & Hg & [= <- <- <-]). by apply pok_nil.
      + injection Hs as <- <- <-. by apply pok_nil.
    - destruct (gd_boxes (cs_g s) !! b0) as [[wk|]|]; try done. destruct (rc_upgrade _ _) as [gs [y|]] eqn:E; injection Hs as <- <- <-;
        by apply pok_relopt, pok_nil.
    - (* FCloneD *) pose proof (run_clone _ _ _ _ (or_introl Hr)) as Er.
      apply bind_inv in Hs as (h & Hd & [= <- <- <-]). eapply pok_one; [done| |done]. by apply Hself.
    - pose proof (run_clone _ _ _ _ (or_intror Hr)) as Er.
      apply bind_inv in Hs as (h & Hd & [= <- <- <-]). eapply pok_one; [done| |done]. by apply Hself.
    - apply bind_inv in Hs as (h & Hd & [= <- <- <-]). by apply pok_nil.
    - apply bind_inv in Hs as (n & _ & Hs). apply bind_inv in Hs as (h & Hd & [= <- <- <-]). by apply pok_nil.
    - (* FUpgrade *) apply run_upgrade in Hr as [w Er]. destruct (rc_upgrade _ _) as [h [p|]] eqn:E; injection Hs as Es1 Es2 Es3; [|by rewrite <- Es3; apply pok_nil].
      apply rc_upgrade_inv in E as [(i & j & v & -> & Hv & -> & [= ->])|(_ & [=] & _)].
      assert (Exists upk st') as Hu. { rewrite <- Es3. apply Exists_cons. right. apply Exists_cons. by left. }
      rewrite <- Es3. eapply pok_one; [done| |by apply pok_nil]. split; [do 5 right; eauto|].
      right. exists i, w. split_and!; [done|by left|]. by rewrite Es3.
    - pose proof (run_rframe _ _ _ _ r Hr eq_refl) as Ho. apply bind_inv in Hs as ([g1 ok] & Hc & Hs). destruct ok; injection Hs as <- <- <-;
        (eapply pok_one; [done| |]; [apply Hown; [done|left|apply Hin; left]|by try apply pok_nil]).
    - pose proof (run_rframe _ _ _ _ r Hr eq_refl) as Ho. destruct (_ =? 1); injection Hs as <- <- <-;
        (eapply pok_one; [done| |done]; apply Hown; [done|left|apply Hin; left]).
    - pose proof (run_rframe _ _ _ _ r Hr eq_refl) as Ho. apply bind_inv in Hs as ([g1 ok] & Hc & Hs). destruct ok; injection Hs as <- <- <-;
        (eapply pok_one; [done| |]; [apply Hown; [done|left|apply Hin; left]|by try apply pok_nil]).
    - pose proof (run_rframe _ _ _ _ r Hr eq_refl) as Ho. destruct (_ =? 1); injection Hs as <- <- <-;
        (eapply pok_one; [done| |done]; apply Hown; [done|left|apply Hin; left]).
    - pose proof (run_rframe _ _ _ _ r Hr eq_refl) as Ho. destruct (_ =? 1); injection Hs as <- <- <-;
        (eapply pok_one; [done| |done]; apply Hown; [done|left|apply Hin; left]).
    - pose proof (run_rframe _ _ _ _ r Hr eq_refl) as Ho. apply bind_inv in Hs as ([g1 ok] & Hc & Hs). destruct ok; injection Hs as <- <- <-;
        (eapply pok_one; [done| |]; [apply Hown; [done|left|apply Hin; left]|by try apply pok_nil]).
    - pose proof (run_rframe _ _ _ _ r Hr eq_refl) as Ho. destruct (_ =? 1); injection Hs as <- <- <-;
        (eapply pok_one; [done| |done]; apply Hown; [done|left|apply Hin; left]).
    - (* FIm3 *) pose proof (run_rframe _ _ _ _ r Hr eq_refl) as Ho. destruct k as [|[] k]; try done. specialize (Hk2 _ _ _ eq_refl).
      apply bind_inv in Hs as ([h o1] & Hd & Hs).
      apply rc_unwrap_inv in Hd as [(? & ? & _ & -> & ->)|(v & Hv & -> & ->)]; injection Hs as Es1 Es2 Es3; rewrite <- Es3.
      + eapply pok_one; [done| |done]. apply Hown; [done|left|apply Hin; left].
      + split; [|by do 2 (apply pok_nil; [done|])]. intros c Hc. apply (Horph (ar_data r)); [apply Hin; left| |by eapply Hkid].
        apply Hnone. cbn. rewrite <- Es1. cbn. apply list_lookup_insert. by eapply live_lt.
    - (* FFg *) cbn in Hcl. destruct (node_kids n) as [|c ks] eqn:Ek.
      + destruct k as [|[] k]; try by (injection Hs as <- <- <-; apply pok_nil; [done|]; done).
        apply bind_inv in Hs as (d1 & Hd & [= <- <- <-]). specialize (Hk2 _ _ _ eq_refl). split; [|done]. intros y Hy. destruct Hp as [Hp2 _].
        eapply (Htr _ (KFg side n0 a0 :: k)); [|done| |by apply Hp2].
        * rewrite !stk_cons. apply elem_of_app. right. apply elem_of_app. by left.
        * rewrite !Exists_cons. by intros [|]; [|right].
      + apply bind_inv in Hs as ([h o1] & Hd & Hs). assert (c ∈ fR (FFg (V:=V) n a)) as Hc. { unfold fR, kids. unfold node_kids in Ek. rewrite Ek. left. }
        apply rc_unwrap_inv in Hd as [(j & v & Hv & -> & ->)|(v & Hv & -> & ->)].
        { apply rc_count_live in Hv. rewrite Hcl in Hv. lia. }
        injection Hs as Es1 Es2 Es3. rewrite <- Es3. split.
        * intros y Hy. apply (Horph c); [by apply Hin| |by eapply Hkid].
          apply Hnone. cbn. rewrite <- Es1. cbn. apply list_lookup_insert. by eapply live_lt.
        * split; [|done]. intros y Hy. assert (y ∈ fR (FFg (V:=V) n a)) as Hy'.
          { cbn in *. apply in_kids in Hy as [sd Hy]. apply in_kids. exists sd. destruct (d_left n) eqn:El; destruct sd; by cbn in *. }
          eapply (Htr _ (FFg n a :: k)); [by apply Hin|done| |by apply Hp1]. rewrite !Exists_cons. by intros [|]; [|right].
    - (* FV *) apply run_val_inv in Hr as (q & Hv & Ha).
      assert (forall y down k1, k = FOpen y down :: k1 -> pok Q (FV v :: k1)) as Hopen.
      { intros y down k1 ->. specialize (Hk2 _ _ _ eq_refl). split; [|done]. intros z Hz.
        eapply (Htr _ (FV v :: FOpen y down :: k1)); [by apply Hin|by rewrite !stk_cons| |by apply Hp1].
        rewrite !Exists_cons. intros [|[|]]; [by left|done|by right]. }
      assert (forall r k1, k = KImG r :: k1 -> pok Q (FRelG (ar_guard r) :: FV v :: k1)) as Himg.
      { intros r k1 ->. specialize (Hk2 _ _ _ eq_refl). apply pok_nil; [done|]. inversion Ha; subst.
        destruct v as [| | |x o1]; [done|by destruct Hv as (? & ? & _)|by destruct Hv as [? _]|]. destruct Hv as [_ Hx].
        destruct x as [[r'| | | | |]|]; try by apply pok_nil. eapply pok_one; [done| |done].
        apply Hown; [by apply (Hx (XArc r'))|left|apply Hin; left]. }
      destruct v as [x|y|r|x o1]; (destruct k as [|[] k]; try done);
        (lazymatch type of Hs with Ok _ = _ => injection Hs as <- <- <-
         | _ => apply bind_inv in Hs as (? & Ho & Hs); injection Hs as <- <- <- end);
        try (by eapply Hopen); try (by apply Himg).
      + specialize (Hk2 _ _ _ eq_refl). apply pok_nil; [done|]. eapply pok_one; [done| |done].
        eapply (Htr _ (FV (VData x) :: KFromData :: k)); [apply Hin; left|done| |by apply Hp1; left]. intros _. apply Exists_cons. by left.
      + specialize (Hk2 _ _ _ eq_refl). destruct Hv as (x & -> & Hy). inversion Ha; subst.
        eapply pok_one; [done| |by apply pok_nil]. split; [left; rewrite !stk_cons; cbn; left|].
        left. eapply cov_self; [apply elem_of_app; left; left|by apply lookup_app_l_Some].
      + specialize (Hk2 _ _ _ eq_refl). destruct Hv as (x & -> & Hy). inversion Ha; subst.
        eapply pok_one; [done| |done]. split; [left; rewrite !stk_cons; cbn; left|].
        left. eapply cov_self; [apply elem_of_app; left; left|by apply lookup_app_l_Some].
  Qed.
  Lemma fresh_org s s' D X (st st' : stack) b : GI s D -> (exists b0, run (genv_of s D) b0 st) -> fresh s s' st st' ->
    pok (fun y st1 => (y ∈ slo hR (cs_h s) \/ y ∈ stk fR st \/ (y = length (datas s) /\ data_parent (cs_g s') y = None)) /\ good s' (D ++ X) b y st1) st'.
  Proof.
    intros G [b0 Hr]. intros [st1 E _ _|n -> Eg|h r st1 Hh Hst|r ->].
    - clear -E. induction st1 as [|f k IH]; [done|]. rewrite stk_cons in E. apply app_eq_nil in E as [E1 E2]. apply pok_nil; auto.
    - apply pok_nil; [done|]. eapply pok_one; [done| |by apply pok_nil].
      assert (data_parent (cs_g s') (length (datas s)) = None) as Hn.
      { rewrite Eg, new_data_parent, (G_len _ _ G). by rewrite decide_True. }
      split; [by do 2 right|]. left. by apply cov_root.
    - pose proof (G_slot _ _ G _ _ _ Hh) as Hx. cbn in Hx.
      assert (ar_data r ∈ slo hR (cs_h s)) as Hin. { apply slo_elem. exists h, (XArc r), 0. split; [done|left]. }
      assert (forall st2 : stack, ar_guard r ∈ stk fG st2 -> good s' (D ++ X) b (ar_data r) st2) as Hg.
      { intros st2 H. left. eapply cov_self; [apply elem_of_app; by left|]. by apply lookup_app_l_Some. }
      destruct Hst as [->|[->|[o ->]]]; (eapply pok_one; [done| |]; [split; [by left|apply Hg; left]|]).
      + by apply pok_nil.
      + by apply pok_nil.
      + do 3 (apply pok_nil; [done|]). done.
    - apply run_val_inv in Hr as (q & [_ Ho] & _). eapply pok_one; [done| |by apply pok_nil]. split; [right; left; left|].
      left. eapply cov_self; [apply elem_of_app; left; left|]. by apply lookup_app_l_Some.
  Qed.

  Lemma bor_keep s s' D t (st : stack) : GI s D -> cs_t s !! t = Some st ->
    (forall h x k, cs_h s !! h = Some (Some (x, S k)) -> exists k', cs_h s' !! h = Some (Some (x, k'))) ->
    bor (cs_h s') st = bor (cs_h s) st.
  Proof.
    intros G Ht Hk. destruct (G_run _ _ G t st Ht) as [b Hr]. unfold bor. destruct (stk fB st) as [|h l] eqn:E; [done|].
    pose proof (rest_bor s D t st G Ht h) as Hc. rewrite E, cnt_cons in Hc. rewrite decide_True in Hc by done.
    unfold kof in Hc. destruct (cs_h s !! h) as [[[x [|k]]|]|] eqn:Eh; try lia. destruct (Hk h x k Eh) as [k' ->]. done.
  Qed.

  Theorem COV_cstep s D X T L T' L' e s' : GI s D -> CI sz s -> DI sz s T L -> MI s -> cclean s e -> cstep sz s e = Ok s' ->
    GI s' (D ++ X) -> MI s' -> DI sz s' T' L' -> COV s D -> COV s' (D ++ X).
  Proof.
    intros G C I M Hcl Hs G' M' I' H. pose proof (cstep_eff _ _ _ _ _ G C Hs) as F.
    assert (forall t st, cs_t s !! t = Some st -> bor (cs_h s') st = bor (cs_h s) st -> pok (good s' (D ++ X) (bor (cs_h s') st)) st) as Hoth.
    { intros t st Ht E. rewrite E. eapply pok_mono; [|by apply (H t)]. intros y st1 Hy. eapply good_stable; try done. by eapply ref_lt. }
    apply cstep_qstep in Hs as [Q|(t & st & d & g & st' & -> & Ht & Hs & ->)].
    - destruct (q_t _ _ Q) as [[Et _]|(t & st & st' & Ht & Et & _ & Hf)]; intros t0 st0.
      + rewrite Et. intros Ht0. apply (Hoth t0); [done|]. eapply bor_keep; [done..|]. apply (q_h _ _ Q).
      + rewrite Et. intros Ht0. destruct (decide (t0 = t)) as [->|].
        * rewrite list_lookup_insert in Ht0 by by eapply lookup_lt_Some. injection Ht0 as <-.
          eapply pok_mono; [|apply (fresh_org s s' D X st st' (bor (cs_h s') st') G (G_run _ _ G t st Ht) Hf)]. by intros y st1 _ [_ ?].
        * rewrite list_lookup_insert_ne in Ht0 by done. apply (Hoth t0); [done|]. eapply bor_keep; [done..|]. apply (q_h _ _ Q).
    - cbn in Hcl. rewrite Ht in Hcl. intros t0 st0. cbn [cs_t cs_h]. intros Ht0. destruct (decide (t0 = t)) as [->|].
      + rewrite list_lookup_insert in Ht0 by by eapply lookup_lt_Some. injection Ht0 as <-.
        destruct (GI_mstep sz s D t st d g st' (cs_out s) (cs_log s ++ step_log st st') G Ht Hs) as (_ & _ & _ & EB).
        assert (bor (cs_h s) st' = bor (cs_h s) st) as -> by (unfold bor; by rewrite EB).
        eapply pok_mono; [|exact (mstep_cov s D X T L T' L' t st d g st' (cs_out s) (cs_log s ++ step_log st st') G C I M F M' I' Ht Hs Hcl (H t st Ht))]. by intros y st1 _ [_ ?].
      + rewrite list_lookup_insert_ne in Ht0 by done. by apply (Hoth t0).
  Qed.
  Lemma COV_init n : COV (init_cstate n) [].
  Proof.
    intros t st Ht. cbn in Ht. apply lookup_replicate in Ht as [-> _]. done.
  Qed.
End cov.
