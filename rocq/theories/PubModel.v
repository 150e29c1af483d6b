(** Publication: the same threads and orderings as in OrderModel.v, but with the
    accesses to the objects of the crate instead of those to the items: the
    [ArcSliceData]s (arc_slice.rs:27-46), the [DataGuard]s (arc_slice.rs:50-58) and
    the [Box<Weak<DataGuard>>]s (arc_slice.rs:40-43). An object is made, used through
    pointers that other threads may have got from an atomic, and destroyed. *)
From Verif Require Import Base Api SliceItemsModel BinPartsModel DataModel RcModel Spec ArcModel ArcConc ConcSpec OrderModel.
Local Open Scope nat_scope.

Inductive obj :=
| BNode (x : nat)    (* an [ArcSliceData] *)
| BGuard (y : nat)   (* a [DataGuard] *)
| BBox (b : nat).    (* a [Weak<DataGuard>] on the heap *)
(** How it is accessed: made; read, or its counts changed, or one of its atomic
    fields accessed, by one who relies on it being there; its counts looked at
    through a [Weak] by one who does not; dropped or moved out. *)
Inductive how := Init | Use | Peek | End.
#[global] Instance obj_eq_dec : EqDecision obj.
Proof. solve_decision. Defined.
#[global] Instance how_eq_dec : EqDecision how.
Proof. solve_decision. Defined.

(** As [access] and [ostate] in OrderModel.v. *)
Record oaccess := OAcc {
  oa_thread : nat;
  oa_obj : obj;
  oa_how : how;
  oa_seen : view
}.
Record pstate (V : Type) := PS {
  ps_s : cstate V;
  ps_thr : nat -> view;
  ps_var : nat -> view;
  ps_bor : nat -> view;
  ps_loc : loc -> view;
  ps_acc : list oaccess
}.
Arguments PS {_} _ _ _ _ _ _.
Arguments ps_s {_} _.
Arguments ps_thr {_} _.
Arguments ps_var {_} _.
Arguments ps_bor {_} _.
Arguments ps_loc {_} _.
Arguments ps_acc {_} _.
Definition init_pstate {V} (n : nat) : pstate V :=
  PS (init_cstate n) (fun _ => ∅) (fun _ => ∅) (fun _ => ∅) (fun _ => ∅) [].

Section pub.
  Context {V : Type} (sz : N) (acq : bool).
  Notation stack := (list (frame V)).
  Implicit Types (s : cstate V) (e : sched (V:=V)).

  (** Dropping an [Arc] or unwrapping it; upgrading a [Weak] *)
  Definition let_go {A} (h : heap A) (i : nat) : how := if unique h i then End else Use.
  Definition look {A} (h : heap A) (i : nat) : how := if gone h i then Peek else Use.
  (** The objects a step of a thread accesses. Not listed are those no other
      thread can have a pointer to yet (a child or guard before the
      compare-and-swap) or any more (a node moved out of its [Arc]), [SliceAlloc]s,
      and [Weak<ArcSliceData>]s that are dropped. *)
  Definition touch (d : dworld V) (g : gdworld) (st : stack) : list (obj * how) :=
    match st with
    | FRel x :: _ => [(BNode x, let_go (dw_datas d) x)]
    | FRelG y :: _ => [(BGuard y, let_go (gd_guards g) y)]
    | FRelW (Some y) :: _ => [(BGuard y, Peek)]
    (* gate.rs:15-17 *)
    | FWait y _ :: _ => [(BGuard y, Use)]
    (* arc_slice.rs:110-133, 137-138 *)
    | FChild x _ :: _ | FChildAlloc x _ :: _ => [(BNode x, Use)]
    (* arc_slice.rs:149, 170 *)
    | FChildInc _ _ c :: _ | FChildLost _ _ c _ _ :: _ => [(BNode c, Use)]
    (* arc_slice.rs:96, 138, 141 *)
    | FChildCas x side _ _ :: _ =>
        (BNode x, Use) ::
        match rc_get (dw_datas d) x with
        | Some n => match d_child side n with
                    | None => [(BBox (length (gd_boxes g)), Init); (BNode (length (dw_datas d)), Init)]
                    | Some _ => []
                    end
        | None => []
        end
    (* arc_slice.rs:287 *)
    | FGuard x :: _ => [(BNode x, Use)]
    (* arc_slice.rs:289, 313 *)
    | FGuardUp _ b :: _ | FGuardLost _ b _ :: _ =>
        (BBox b, Use) ::
        match gd_boxes g !! b with Some (Some (Some y)) => [(BGuard y, look (gd_guards g) y)] | _ => [] end
    (* arc_slice.rs:294 *)
    | FGuardPar x _ :: _ =>
        (BNode x, Use) ::
        match gd_metas g !! x with
        | Some m => match am_parent m with Some p => [(BNode p, look (dw_datas d) p)] | None => [] end
        | None => []
        end
    (* arc_slice.rs:296-302 *)
    | FGuardCas x b _ :: _ =>
        (BNode x, Use) ::
        match gd_metas g !! x with
        | Some m => when (am_box m =? b) [(BGuard (length (gd_guards g)), Init); (BBox (length (gd_boxes g)), Init)]
        | None => []
        end
    (* arc_slice.rs:425-432 *)
    | FCloneD r :: _ => [(BNode (ar_data r), Use)]
    | FCloneG r :: _ => [(BGuard (ar_guard r), Use)]
    (* arc_slice.rs:480-484 *)
    | FCloneW x y :: _ => ((fun x => (BNode x, Peek)) <$> option_list x) ++ ((fun y => (BGuard y, Peek)) <$> option_list y)
    (* arc_slice.rs:409 *)
    | FDown r :: _ => [(BNode (ar_data r), Use); (BGuard (ar_guard r), Use)]
    (* arc_slice.rs:476 *)
    | FUpgrade (Some x) :: _ => [(BNode x, look (dw_datas d) x)]
    (* arc_slice.rs:369-373, 394-396 *)
    | FGm1 r :: _ | FGm2 r :: _ | FGm3 r :: _ | FGm4 r :: _ | FIm1 r :: _ | FIm2 r :: _ => [(BGuard (ar_guard r), Use)]
    | FGm5 r :: _ => [(BNode (ar_data r), Use)]
    (* arc_slice.rs:397, 222, 224 *)
    | FIm3 r :: _ => [(BNode (ar_data r), let_go (dw_datas d) (ar_data r))]
    | FFg n _ :: _ => match node_kids n with c :: _ => [(BNode c, let_go (dw_datas d) c)] | [] => [] end
    (* gate.rs:30 *)
    | FV _ :: FOpen y _ :: _ => [(BGuard y, Use)]
    | _ => []
    end.
  Definition touches s e s' : list (obj * how) :=
    match e with
    | SStep t => match cs_t s !! t with Some st => touch (cs_d s) (cs_g s) st | None => [] end
    (* arc_slice.rs:94-108 *)
    | SStart _ (CFromVec _ _) | SStart _ (CIntoImmut _) =>
        when (negb (length (dw_datas (cs_d s')) =? length (dw_datas (cs_d s))))
          [(BBox (length (gd_boxes (cs_g s))), Init); (BNode (length (dw_datas (cs_d s))), Init)]
    (* arc_slice.rs:272-277 *)
    | SStart _ (CDeref h) =>
        match slot s h with Some (XArc r, _) => when (responded s s') [(BNode (ar_data r), Use)] | _ => [] end
    | _ => []
    end.

  (** As [annotate] in OrderModel.v. All accesses of a step but [End] come before
      its atomic operation or are part of it, so what the step acquires does not
      help them and what it releases includes them. *)
  Definition ends (l : list (obj * how)) : bool := existsb (fun a => bool_decide (a.2 = End)) l.
  Definition pannotate (p : pstate V) e s' : pstate V :=
    let s := ps_s p in
    let t := actor e in
    let l := touches s e s' in
    let ids := set_seq (length (ps_acc p)) (length l) in
    let v := ps_thr p t ∪ gather (ps_var p) (vars_in s e s') ∪ gather (ps_bor p) (bor_in s e s') in
    let pre := if ends l then v else v ∪ ids in
    let post := pre ∪ gather (ps_loc p) (syncs acq s e).1 ∪ ids in
    PS s' (spread [t] post (ps_thr p)) (spread (var_out s e s') post (ps_var p)) (spread (bor_out s e s') post (ps_bor p))
       (spread (syncs acq s e).2 pre (ps_loc p))
       (ps_acc p ++ ((fun a => OAcc t a.1 a.2 (if decide (a.2 = End) then post else pre)) <$> l)).
  Definition pstep (p : pstate V) e : res (pstate V) :=
    s' ← cstep sz (ps_s p) e; Ok (pannotate p e s').
  Fixpoint prun (p : pstate V) es : res (pstate V) :=
    match es with
    | [] => Ok p
    | e :: es => p ← pstep p e; prun p es
    end.
  Definition preach (n : nat) es (p : pstate V) : Prop := prun (init_pstate n) es = Ok p.

  (** Access [i] happens before access [j], or is part of the same step. *)
  Definition pbefore (p : pstate V) (i j : nat) : Prop := exists b, ps_acc p !! j = Some b /\ i ∈ oa_seen b.
End pub.
