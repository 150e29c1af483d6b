(** C37: what the ownership invariant says about schedules. *)
From Verif Require Import Base BaseLemmas Api SliceItemsModel BinPartsModel Spec SliceItemsProof DataModel RcModel DataInv DataSteps DataFuns LeakTheory GuardInv ArcModel ArcInv ArcConc ConcInv ConcGuard ConcWorld ConcChild ConcData ConcSafe ConcSpec ConcTheory Conserve ConserveTheory ConcConserve.
Local Open Scope nat_scope.
#[local] Arguments slo {A} F hs : simpl never.
#[local] Arguments thr {V A} F ts : simpl never.

Section share.
  Context {V : Type} (sz : N).
  Notation stack := (list (frame V)).
  Implicit Types (s : cstate V) (t : nat) (d : dworld V) (es : list (sched (V:=V))).

  Lemma dead_datas' d T L O : dinv sz d T L [] O -> forall x k n, ~ live (dw_datas d) x k n.
  Proof.
    intros D x k n Hd. destruct (lookup_lt_is_Some_2 L x) as [l Hl]. { rewrite (di_len _ _ _ _ _ _ D). by eapply live_lt. }
    destruct (dinv_live_root _ _ _ _ _ _ D _ _ _ _ Hd Hl) as (y & lx & Hx & _). by apply elem_of_nil in Hx.
  Qed.
  Lemma dead_allocs' d T L : dinv sz d T L [] [] -> forall x k v, ~ live (dw_allocs d) x k v.
  Proof.
    intros D x k v Hx. pose proof (di_acnt _ _ _ _ _ _ D x) as E. rewrite (rc_count_live _ _ _ _ Hx) in E.
    rewrite hsum_zero in E by (intros ? ? ? H; by apply (dead_datas' _ _ _ _ D) in H). unfold alloc_refs in E. cbn in E. rewrite cnt_nil in E. subst.
    by eapply (di_apos _ _ _ _ _ _ D).
  Qed.

  (** Every step of [forget_items] finds nobody else at the child. *)
  Definition cleanly n es : Prop := forall es1 e es2 s, es = es1 ++ e :: es2 -> creach sz n es1 s -> cclean s e.
  Lemma cleanly_app n es es' : cleanly n (es ++ es') -> cleanly n es.
  Proof. intros H es1 e es2 s -> Hr. eapply (H es1 e (es2 ++ es')); [|done]. by rewrite <- app_assoc. Qed.
  Theorem clean_run n es : cleanly n es -> exists s T L, creach sz n es s /\ DI sz s T L.
  Proof.
    induction es as [|e es IH] using rev_ind; intros Hc.
    - eexists _, _, _. split; [done|]. apply DI_init.
    - destruct IH as (s & T & L & Hr & I); [by eapply cleanly_app|]. destruct (GI_reach _ _ _ _ Hr) as [D HG].
      destruct (DI_cstep sz s D T L e HG (CI_reach _ _ _ _ Hr) I) as (s' & T' & L' & Hs & I').
      { by eapply (Hc es e []). }
      exists s', T', L'. split; [by eapply creach_snoc|done].
  Qed.
  Lemma noim_run n es s : no_into_mut es -> creach sz n es s -> Forall (Forall noim) (cs_t s).
  Proof.
    revert s. induction es as [|e es IH] using rev_ind; intros s Hn Hr.
    - injection Hr as <-. cbn. apply Forall_replicate. constructor.
    - apply Forall_app in Hn as [Hn He]. apply Forall_inv in He. apply crun_app in Hr as (s1 & Hr & Hs). cbn in Hs.
      apply bind_inv in Hs as (s2 & Hs & [= <-]). eapply (cstep_noim sz s1 e); [|by apply IH|exact Hs].
      destruct e as [t [] | | |]; try done. by eapply He.
  Qed.
  Lemma noim_clean n es : no_into_mut es -> cleanly n es.
  Proof.
    intros Hn es1 e es2 s -> Hr. apply Forall_app in Hn as [Hn _]. pose proof (noim_run _ _ _ Hn Hr) as Hf.
    destruct e as [|t| |]; try done. cbn. destruct (cs_t s !! t) as [st|] eqn:Ht; [|done].
    rewrite Forall_lookup in Hf. specialize (Hf _ _ Ht). destruct st as [|f k]; [done|]. apply Forall_inv in Hf. by destruct f.
  Qed.
  Lemma clean_DI n es s : cleanly n es -> creach sz n es s -> exists T L, DI sz s T L.
  Proof.
    intros Hn Hr. destruct (clean_run n es) as (s' & T & L & Hr' & I); [done|].
    unfold creach in *. rewrite Hr in Hr'. injection Hr' as <-. eauto.
  Qed.
  Theorem clean_safe n es : cleanly n es -> exists s, creach sz n es s.
  Proof. intros Hn. destruct (clean_run n es) as (s & _ & _ & Hr & _); [done|]. eauto. Qed.

  (** ** What a value covers *)
  Section covers.
    Context s T L (I : DI sz s T L).
    Lemma has_slot x : has s x -> (forall i, i ∈ hR x -> i ∈ tot hR fR s) /\ (forall e, e ∈ hO x -> e ∈ tot hO fO s).
    Proof.
      intros [(h & [k Hh]%cget_slot)|(t & st & Ht & (f & Hx & Hf)%elem_of_list_bind)].
      - split; intros i Hi; apply elem_of_app; left; apply slo_elem; eauto.
      - assert (forall i, (i ∈ hR x -> i ∈ fR f)) as H1.
        { intros i Hi. destruct f; try (by apply elem_of_nil in Hx); try (apply elem_of_list_singleton in Hx as ->; exact Hi).
          destruct v as [| |r|[y|]]; try (by apply elem_of_nil in Hx); apply elem_of_list_singleton in Hx as ->; exact Hi. }
        assert (forall i, (i ∈ hO x -> i ∈ fO f)) as H2.
        { intros i Hi. destruct f; try (by apply elem_of_nil in Hx); try (apply elem_of_list_singleton in Hx as ->; exact Hi).
          destruct v as [| |r|[y|]]; try (by apply elem_of_nil in Hx); apply elem_of_list_singleton in Hx as ->; exact Hi. }
        split; intros i Hi; apply elem_of_app; right; apply thr_elem; exists t, st; (split; [done|]);
          apply elem_of_list_bind; exists f; auto.
    Qed.
    Lemma has_data r : has s (XArc r) -> exists j n, live (dw_datas (cs_d s)) (ar_data r) j n.
    Proof.
      intros [H _]%has_slot. destruct (dinv_ref_live sz _ _ _ _ _ (D_inv _ _ _ _ I) (ar_data r)) as (j & n & l & Hn & _); [|eauto].
      apply H. left.
    Qed.
    Lemma data_rng_live x j n : live (dw_datas (cs_d s)) x j n -> data_rng s x = Some (nrng n).
    Proof. intros Hn. unfold data_rng. by rewrite (rc_get_live _ _ _ _ Hn). Qed.
    Lemma has_cells x c : has s x -> c ∈ xcells s x -> is_Some (citem s c).
    Proof.
      intros Hx Hc. destruct (has_slot _ Hx) as [H1 H2]. destruct x as [r| | |m| |]; try (by apply elem_of_nil in Hc).
      - destruct (has_data _ Hx) as (j & n & Hn). cbn in Hc. unfold data_cells in Hc. rewrite (data_rng_live _ _ _ Hn) in Hc.
        eapply (ref_cells sz s T L); [done| |exact Hn|by apply rng_cells_elem, in_rng_spec in Hc]. apply H1. left.
      - cbn in Hc. eapply (own_cells sz s T L); [done|apply H2; left|]. by apply in_rng_spec, rng_cells_elem.
    Qed.
    Lemma item_block c : is_Some (citem s c) -> sz <> 0%N -> ~ is_freed (cs_d s) (fst c).
    Proof.
      intros [v Hv] Hsz (blk & Hb & Hf). unfold citem in Hv. pose proof (D_inv _ _ _ _ I) as D.
      assert (exists r o, ent_ok sz (cs_d s) r o /\ in_rng c r = true) as (r & o & [Hr Ha'] & Hc).
      { pose proof (di_own _ _ _ _ _ _ D c) as Hown. unfold memcnt in Hown. rewrite Hv in Hown.
        destruct (decide (0 < ocnt c (tot hO fO s))) as [Ho|Ho].
        - apply ocnt_pos in Ho as ([r o] & Hin & Hc). exists r, o. split; [|done]. by apply (di_oalloc _ _ _ _ _ _ D (r, o)).
        - destruct (hsum_pos (fun n => inr c (own_rng n)) (dw_datas (cs_d s))) as (d & k & n & Hd & Hc); [lia|].
          exists (nrng n), (d_alloc n). split; [by eapply di_nalloc|]. apply own_in_nrng.
          unfold inr in Hc. destruct (in_rng c (own_rng n)); [done|lia]. }
      apply in_rng_spec in Hc as [Hb' Hi].
      destruct (Ha' Hsz) as (al & k & v' & _ & Hlv & Hpb); [lia|].
      destruct (di_aok _ _ _ _ _ _ D _ _ _ Hlv) as (blk' & E' & Hf' & _ & _). congruence.
    Qed.
    (** Nobody inside a call: a reference or an owner is in a variable. *)
    Lemma quiescent_tot {A} (H : xhandle -> list A) (F : frame V -> list A) : quiescent s -> tot H F s = slo H (cs_h s).
    Proof.
      intros Hq. unfold tot. assert (thr F (cs_t s) = []) as ->; [|by rewrite app_nil_r].
      apply elem_of_nil_inv. intros x (t & st & Ht & Hx)%thr_elem. rewrite (Hq _ _ Ht) in Hx. by apply elem_of_nil in Hx.
    Qed.
    Lemma cget_of h x k : cs_h s !! h = Some (Some (x, k)) -> cget s h = Some x.
    Proof. intros H. unfold cget, slot. by rewrite H. Qed.
    Lemma quiescent_item c : quiescent s -> is_Some (citem s c) <-> exists h, c ∈ ccells s h.
    Proof.
      intros Hq. split.
      - intros Hc. apply (dinv_covered sz _ _ _ _ _ (D_inv _ _ _ _ I)) in Hc. rewrite !quiescent_tot in Hc by done.
        destruct Hc as [(x & l & (h & y & k & Hh & Hx)%slo_elem & Hl & Hc)|(e & (h & y & k & Hh & Hx)%slo_elem & Hc)].
        + exists h. unfold ccells. rewrite (cget_of _ _ _ Hh). destruct y as [r| | |m| |]; try (by apply elem_of_nil in Hx).
          apply elem_of_list_singleton in Hx as ->. destruct (slot_ref sz _ _ _ _ _ _ I Hh) as (j & n & Hn).
          cbn. unfold data_cells. rewrite (data_rng_live _ _ _ Hn). apply rng_cells_elem, in_rng_spec.
          by rewrite (proj1 (di_geo _ _ _ _ _ _ (D_inv _ _ _ _ I) _ _ _ _ Hn Hl)).
        + exists h. unfold ccells. rewrite (cget_of _ _ _ Hh). destruct y as [r| | |m| |]; try (by apply elem_of_nil in Hx).
          apply elem_of_list_singleton in Hx as ->. cbn. by apply rng_cells_elem, in_rng_spec.
      - intros [h Hc]. unfold ccells in Hc. destruct (cget s h) as [x|] eqn:Hx; [|by apply elem_of_nil in Hc].
        eapply has_cells; [|exact Hc]. left. eauto.
    Qed.
    (** What an [ArcSliceMut] covers nobody else has. *)
    Lemma mut_alone h m c : cget s h = Some (XMut m) -> c ∈ ccells s h ->
      (forall h', h' <> h -> c ∉ ccells s h') /\ (forall t st x, cs_t s !! t = Some st -> x ∈ st ≫= carried -> c ∉ xcells s x).
    Proof.
      intros Hh Hc. unfold ccells in Hc. rewrite Hh in Hc. cbn in Hc. apply rng_cells_elem, in_rng_spec in Hc.
      apply cget_slot in Hh as [k Hh].
      set (e := (Rng (p_blk (si_ptr (ms_items m))) (p_idx (si_ptr (ms_items m))) (si_len (ms_items m)), ms_alloc m)).
      assert (tot hO fO s ≡ₚ e :: slo hO (<[h := None]> (cs_h s)) ++ thr fO (cs_t s)) as HP.
      { unfold tot. rewrite (slo_perm hO _ _ _ Hh), (slo_upd hO _ _ _ None Hh). done. }
      destruct (dinv_exclusive sz _ _ _ _ _ (D_inv _ _ _ _ I) c e _ HP Hc) as [H1 H2].
      assert (forall x, (forall i, i ∈ hR x -> i ∈ tot hR fR s) -> (forall e', e' ∈ hO x -> e' ∈ slo hO (<[h := None]> (cs_h s)) ++ thr fO (cs_t s)) -> c ∉ xcells s x) as Hx.
      { intros x HR HO Hcx. destruct x as [r| | |m'| |]; try (by apply elem_of_nil in Hcx).
        - cbn in Hcx. unfold data_cells in Hcx. destruct (dinv_ref_live sz _ _ _ _ _ (D_inv _ _ _ _ I) (ar_data r)) as (j & n & l & Hn & Hl).
          { apply HR. left. }
          rewrite (data_rng_live _ _ _ Hn) in Hcx. apply rng_cells_elem, in_rng_spec in Hcx.
          rewrite (proj1 (di_geo _ _ _ _ _ _ (D_inv _ _ _ _ I) _ _ _ _ Hn Hl)) in Hcx. rewrite (H2 (ar_data r) l) in Hcx; [done| |done].
          apply HR. left.
        - cbn in Hcx. apply rng_cells_elem, in_rng_spec in Hcx. specialize (H1 _ (HO _ ltac:(apply elem_of_list_here))). cbn [fst] in H1. congruence. }
      split.
      - intros h' Hne Hc'. unfold ccells in Hc'. destruct (cget s h') as [x|] eqn:Hx'; [|by apply elem_of_nil in Hc'].
        apply cget_slot in Hx' as [k' Hx']. revert Hc'. apply Hx.
        + intros i Hi. apply elem_of_app. left. apply slo_elem. eauto.
        + intros i Hi. apply elem_of_app. left. apply slo_elem. exists h', x, k'. split; [|done]. by rewrite list_lookup_insert_ne.
      - intros t st x Ht Hcar. apply Hx.
        + apply has_slot. right. eauto.
        + intros i Hi. apply elem_of_app. right. apply thr_elem. exists t, st. split; [done|].
          apply elem_of_list_bind in Hcar as (f & Hxf & Hf). apply elem_of_list_bind. exists f. split; [|done].
          destruct f; try (by apply elem_of_nil in Hxf); try (apply elem_of_list_singleton in Hxf as ->; exact Hi).
          destruct v as [| |r|[y|]]; try (by apply elem_of_nil in Hxf); apply elem_of_list_singleton in Hxf as ->; exact Hi.
    Qed.
  End covers.

  Lemma buffer_cells_eq s : buffer_cells s = buf_cells 0 (bshape (cs_d s)).
  Proof.
    unfold buffer_cells, bshape. assert (forall (bs : list block) b, imap (fun i blk => rng_cells (Rng (b + i) 0 (b_len blk))) bs ≫= id =
      buf_cells b ((fun b => (b_base b, b_len b)) <$> bs)) as H; [|by rewrite <- (H _ 0)].
    induction bs as [|blk bs IH]; intros b; [done|]. rewrite imap_cons. cbn. rewrite Nat.add_0_r. f_equal. rewrite <- IH.
    f_equal. apply imap_ext. intros i x _. cbn. by rewrite <- plus_n_Sm.
  Qed.
  Lemma K_not_dropped s c : KI s -> is_Some (citem s c) -> c ∉ cdropped s.
  Proof.
    intros K [v Hv] Hd.
    pose proof (buf_cells_NoDup (bshape (cs_d s)) 0) as Hn. rewrite <- (K_cells _ K) in Hn. apply NoDup_app in Hn as (_ & Hx & _).
    apply (Hx c); [|done]. apply elem_of_list_fmap. exists (c, v). split; [done|]. by apply elem_of_map_to_list.
  Qed.
  Lemma item_not_dropped n es s c : creach sz n es s -> is_Some (citem s c) -> c ∉ cdropped s.
  Proof. intros Hr. destruct (KI_reach _ _ _ _ Hr) as [K _]. by apply K_not_dropped. Qed.
  Lemma K_split s c : KI s -> c ∈ buffer_cells s <-> is_Some (citem s c) \/ c ∈ cdropped s.
  Proof.
    intros K. rewrite buffer_cells_eq, <- (K_cells _ K), elem_of_app, elem_of_list_fmap.
    split; (intros [H|H]; [left|by right]).
    - destruct H as ([c' v] & -> & Hv). apply elem_of_map_to_list in Hv. by exists v.
    - destruct H as [v Hv]. exists (c, v). split; [done|]. by apply elem_of_map_to_list.
  Qed.

  Lemma cells_split n es s c : creach sz n es s -> c ∈ buffer_cells s <-> is_Some (citem s c) \/ c ∈ cdropped s.
  Proof. intros Hr. destruct (KI_reach _ _ _ _ Hr) as [K _]. by apply K_split. Qed.

  (** ** The theorems, of states *)
  Lemma K_all_once s : KI s -> NoDup (cdropped s) /\ NoDup (cfreed s) /\
    (forall c, c ∈ cdropped s -> citem s c = None) /\ (forall c, c ∈ buffer_cells s <-> is_Some (citem s c) \/ c ∈ cdropped s).
  Proof.
    intros K. pose proof (buf_cells_NoDup (bshape (cs_d s)) 0) as Hn. rewrite <- (K_cells _ K) in Hn. apply NoDup_app in Hn as (_ & Hx & Hn).
    split_and!; [done|apply K| |].
    - intros c Hc. apply eq_None_not_Some. intros Hs. by eapply K_not_dropped.
    - intros c. by apply K_split.
  Qed.
  Section of_states.
    Context s T L (I : DI sz s T L) (K : KI s).
    Lemma K_covered x c : has s x -> c ∈ xcells s x -> is_Some (citem s c) /\ c ∉ cdropped s /\ (sz <> 0%N -> fst c ∉ cfreed s).
    Proof using I K.
      intros Hx Hc. pose proof (has_cells _ _ _ I _ _ Hx Hc) as Hs.
      split_and!; [done|by apply K_not_dropped|]. intros Hsz Hf. apply (K_freed _ K) in Hf. by eapply item_block.
    Qed.
    Lemma K_quiescent c : quiescent s -> c ∈ buffer_cells s -> c ∈ cdropped s <-> forall h, c ∉ ccells s h.
    Proof using I K.
      intros Hq Hc. pose proof (quiescent_item _ _ _ I c Hq) as Hi. split.
      - intros Hd h Hh. apply (K_not_dropped s c K); [|done]. apply Hi. eauto.
      - intros Hno. apply (K_split _ _ K) in Hc as [Hs|]; [|done]. apply Hi in Hs as [h Hh]. by apply Hno in Hh.
    Qed.
    Lemma K_gone : quiescent s -> (forall h x, cget s h = Some x -> exists (od og : option nat), x = XWeak od og) ->
      dw_mem (cs_d s) = ∅ /\ cdropped s ≡ₚ buffer_cells s /\
      Forall (fun x => x = None) (dw_datas (cs_d s)) /\ Forall (fun x => x = None) (dw_allocs (cs_d s)) /\
      (sz <> 0%N -> forall b blk, dw_blocks (cs_d s) !! b = Some blk -> b_len blk <> 0%N -> b ∈ cfreed s).
    Proof using I K.
      intros Hq Hw.
      assert (forall A (H : xhandle -> list A), (forall (od og : option nat), H (XWeak od og) = []) -> slo H (cs_h s) = []) as Hs.
      { intros A H HE. apply elem_of_nil_inv. intros y (h & x & k & Hh & Hx)%slo_elem.
        destruct (Hw h x) as (d & g & ->); [by eapply cget_of|]. rewrite HE in Hx. by apply elem_of_nil in Hx. }
      pose proof (D_inv _ _ _ _ I) as D. rewrite !quiescent_tot, !Hs in D by done.
      assert (dw_mem (cs_d s) = ∅) as Em.
      { apply map_empty. intros c. destruct (dw_mem (cs_d s) !! c) as [v|] eqn:E; [|done]. exfalso.
        pose proof (di_own _ _ _ _ _ _ D c) as Ho. cbn in Ho. unfold memcnt in Ho. rewrite E in Ho.
        rewrite hsum_zero in Ho by (intros ? ? ? H; by apply (dead_datas' _ _ _ _ D) in H). done. }
      split_and!; [done|..].
      - rewrite buffer_cells_eq, <- (K_cells _ K), Em, map_to_list_empty. done.
      - apply all_dead. by eapply dead_datas'.
      - apply all_dead. by eapply dead_allocs'.
      - intros Hsz b blk Hb Hl. apply (K_freed _ K). exists blk. split; [done|].
        destruct (b_freed blk) eqn:E; [done|]. exfalso. destruct (di_freed _ _ _ _ _ _ D Hsz b blk Hb E Hl) as (x & k & v & Hx & _).
        by eapply dead_allocs'.
    Qed.
  End of_states.

  (** ** The theorems *)
  Theorem clean_covered n es s x c : cleanly n es -> creach sz n es s -> has s x -> c ∈ xcells s x ->
    is_Some (citem s c) /\ c ∉ cdropped s /\ (sz <> 0%N -> fst c ∉ cfreed s).
  Proof.
    intros Hn Hr. destruct (clean_DI _ _ _ Hn Hr) as (T & L & I). destruct (KI_reach _ _ _ _ Hr) as [K _]. by eapply K_covered.
  Qed.
  Theorem clean_range n es s r : cleanly n es -> creach sz n es s -> has s (XArc r) -> exists rg, data_rng s (ar_data r) = Some rg.
  Proof.
    intros Hn Hr Hx. destruct (clean_DI _ _ _ Hn Hr) as (T & L & I). destruct (has_data _ _ _ I _ Hx) as (j & m & Hm).
    eexists. by eapply data_rng_live.
  Qed.
  (** The range of a data never changes. *)
  Lemma cstep_range s e s' x rg : cstep sz s e = Ok s' -> x < length (dw_datas (cs_d s)) -> data_rng s' x = Some rg -> data_rng s x = Some rg.
  Proof.
    intros Hs Hx. unfold data_rng. intros (n & Hn & ->)%fmap_Some.
    apply cstep_quiet in Hs as [([E|(k & m & E & _)] & _)|(t & st & d & g & st' & -> & Ht & Hm & ->)].
    - by rewrite <- E, Hn.
    - rewrite E in Hn. unfold rc_get in Hn |- *. rewrite lookup_app_l in Hn by done. by rewrite Hn.
    - cbn in Hn. apply mstep_nodes in Hm as [[_ Hk]|(y & side & k' & n' & k & j & m & -> & Hy & _ & E & _)].
      + by rewrite (Hk _ _ Hn).
      + rewrite E in Hn. destruct (decide (x = y)) as [->|Hne].
        * rewrite (rc_get_live _ _ _ _ Hy). unfold rc_get in Hn. rewrite list_lookup_insert in Hn by (rewrite app_length; lia).
          injection Hn as <-. by destruct side.
        * unfold rc_get in Hn |- *. rewrite list_lookup_insert_ne, lookup_app_l in Hn by done. by rewrite Hn.
  Qed.
  Lemma cstep_grow s e s' : cstep sz s e = Ok s' -> length (dw_datas (cs_d s)) <= length (dw_datas (cs_d s')).
  Proof.
    intros Hs. apply cstep_quiet in Hs as [([E|(k & m & E & _)] & _)|(t & st & d & g & st' & -> & Ht & Hm & ->)].
    - by rewrite E.
    - rewrite E, app_length. lia.
    - cbn. apply mstep_nodes in Hm as [[E _]|(y & side & k' & n' & k & j & m & -> & Hy & _ & E & _)].
      + by rewrite E.
      + rewrite E, insert_length, app_length. lia.
  Qed.
  Theorem range_kept n es es' s s' x rg rg' : creach sz n es s -> creach sz n (es ++ es') s' ->
    data_rng s x = Some rg -> data_rng s' x = Some rg' -> rg' = rg.
  Proof.
    intros Hr Hr' H H'. apply crun_app in Hr' as (s0 & Hr0 & Hr'). unfold creach in Hr. rewrite Hr in Hr0. injection Hr0 as <-.
    assert (x < length (dw_datas (cs_d s))) as Hx.
    { unfold data_rng in H. destruct (rc_get _ x) eqn:E; [|done]. by eapply rc_get_lt. }
    assert (data_rng s x = Some rg') as H2; [|congruence]. clear H Hr. revert s Hx Hr'. induction es' as [|e es' IH]; intros s Hx Hr'.
    - by injection Hr' as <-.
    - cbn in Hr'. apply bind_inv in Hr' as (s1 & Hs & Hr'). eapply cstep_range; [done|done|]. eapply IH; [|done].
      pose proof (cstep_grow _ _ _ Hs). lia.
  Qed.
  Theorem share_once n es s : creach sz n es s -> NoDup (cdropped s) /\ NoDup (cfreed s) /\
    (forall c, c ∈ cdropped s -> citem s c = None) /\ (forall c, c ∈ buffer_cells s <-> is_Some (citem s c) \/ c ∈ cdropped s).
  Proof.
    intros Hr. destruct (KI_reach _ _ _ _ Hr) as [K _]. by apply K_all_once.
  Qed.
  Theorem share_conserved n es s : creach sz n es s -> cput_run sz (init_cstate n) es ≡ₚ ccontents s ++ cdropped_items s ++ cgot s.
  Proof. intros Hr. by destruct (KI_reach _ _ _ _ Hr). Qed.
  Theorem clean_quiescent n es s c : cleanly n es -> creach sz n es s -> quiescent s -> c ∈ buffer_cells s ->
    c ∈ cdropped s <-> forall h, c ∉ ccells s h.
  Proof.
    intros Hn Hr. destruct (clean_DI _ _ _ Hn Hr) as (T & L & I). destruct (KI_reach _ _ _ _ Hr) as [K _]. by eapply K_quiescent.
  Qed.
  Theorem clean_gone n es s : cleanly n es -> creach sz n es s -> quiescent s ->
    (forall h x, cget s h = Some x -> exists (od og : option nat), x = XWeak od og) ->
    dw_mem (cs_d s) = ∅ /\ cdropped s ≡ₚ buffer_cells s /\
    Forall (fun x => x = None) (dw_datas (cs_d s)) /\ Forall (fun x => x = None) (dw_allocs (cs_d s)) /\
    (sz <> 0%N -> forall b blk, dw_blocks (cs_d s) !! b = Some blk -> b_len blk <> 0%N -> b ∈ cfreed s).
  Proof.
    intros Hn Hr. destruct (clean_DI _ _ _ Hn Hr) as (T & L & I). destruct (KI_reach _ _ _ _ Hr) as [K _]. by eapply K_gone.
  Qed.
  Theorem clean_mut n es s h m c : cleanly n es -> creach sz n es s -> cget s h = Some (XMut m) -> c ∈ ccells s h ->
    (forall h', h' <> h -> c ∉ ccells s h') /\ (forall t st x, cs_t s !! t = Some st -> x ∈ st ≫= carried -> c ∉ xcells s x).
  Proof. intros Hn Hr. destruct (clean_DI _ _ _ Hn Hr) as (T & L & I). by apply (mut_alone _ _ _ I). Qed.
  (** ** Without [into_mut] *)
  Theorem share_safe n es : no_into_mut es -> exists s, creach sz n es s.
  Proof. intros Hn. by apply clean_safe, noim_clean. Qed.
  Theorem share_covered n es s x c : no_into_mut es -> creach sz n es s -> has s x -> c ∈ xcells s x ->
    is_Some (citem s c) /\ c ∉ cdropped s /\ (sz <> 0%N -> fst c ∉ cfreed s).
  Proof. intros Hn. by apply clean_covered, noim_clean. Qed.
  Theorem share_range n es s r : no_into_mut es -> creach sz n es s -> has s (XArc r) -> exists rg, data_rng s (ar_data r) = Some rg.
  Proof. intros Hn. by apply clean_range, noim_clean. Qed.
  Theorem share_quiescent n es s c : no_into_mut es -> creach sz n es s -> quiescent s -> c ∈ buffer_cells s ->
    c ∈ cdropped s <-> forall h, c ∉ ccells s h.
  Proof. intros Hn. by apply clean_quiescent, noim_clean. Qed.
  Theorem share_gone n es s : no_into_mut es -> creach sz n es s -> quiescent s ->
    (forall h x, cget s h = Some x -> exists (od og : option nat), x = XWeak od og) ->
    dw_mem (cs_d s) = ∅ /\ cdropped s ≡ₚ buffer_cells s /\
    Forall (fun x => x = None) (dw_datas (cs_d s)) /\ Forall (fun x => x = None) (dw_allocs (cs_d s)) /\
    (sz <> 0%N -> forall b blk, dw_blocks (cs_d s) !! b = Some blk -> b_len blk <> 0%N -> b ∈ cfreed s).
  Proof. intros Hn. by apply clean_gone, noim_clean. Qed.
  Theorem share_mut n es s h m c : no_into_mut es -> creach sz n es s -> cget s h = Some (XMut m) -> c ∈ ccells s h ->
    (forall h', h' <> h -> c ∉ ccells s h') /\ (forall t st x, cs_t s !! t = Some st -> x ∈ st ≫= carried -> c ∉ xcells s x).
  Proof. intros Hn. by apply clean_mut, noim_clean. Qed.
End share.
