(** Weak memory. In ArcConc.v and OrderModel.v an atomic load returns what was
    stored last. A processor, and the memory model of Rust (that of C++11), allow
    more: a load may return an older value, as long as the thread does not know
    of a newer one, that is, as long as no newer store to the same location
    happens before the load. Read-modify-write operations still see the last
    value. Here the machine of ArcConc.v is run with such loads.

    Simplifications: all operations, but for the stale loads, take effect in the
    order of the schedule (there are no speculative stores, whose absence C++
    demands informally). [SeqCst] is taken for [AcqRel], which allows more: the
    loads of gates (gate.rs:16) may be stale, too. Which events happen before
    which is computed as in OrderModel.v, per event; a step that writes several
    locations is one event. Items are not atomic; races on them are the subject
    of OrderModel.v. *)
From Verif Require Import Base Api SliceItemsModel BinPartsModel DataModel RcModel Spec ArcModel ArcConc ConcSpec OrderModel.
Local Open Scope nat_scope.

(** What an atomic location contains: a count, a gate's flag, a pointer to a data or
    to a box. *)
Inductive lval :=
| LCount (n : nat)
| LFlag (b : bool)
| LPtr (p : option nat).
#[global] Instance lval_eq_dec : EqDecision lval.
Proof. solve_decision. Defined.

Section weak.
  Context {V : Type} (sz : N) (acq : bool).
  Notation stack := (list (frame V)).
  Implicit Types (s : cstate V) (d : dworld V) (g : gdworld).

  (** The value in a location; none if there is no such object, yet or any more. *)
  Definition peek d g (l : loc) : option lval :=
    match l with
    | LData x => match dw_datas d !! x with Some (Some (k, _)) => Some (LCount k) | _ => None end
    | LGuard y => match gd_guards g !! y with Some (Some (k, _)) => Some (LCount k) | _ => None end
    | LWeak y => LCount <$> gd_weak g !! y
    | LAlloc a => match dw_allocs d !! a with Some (Some (k, _)) => Some (LCount k) | _ => None end
    | LChild x side => match dw_datas d !! x with Some (Some (_, n)) => Some (LPtr (d_child side n)) | _ => None end
    | LBox x => (fun m => LPtr (Some (am_box m))) <$> gd_metas g !! x
    | LGate y down => match gd_guards g !! y with Some (Some (_, n)) => Some (LFlag (a_gate down n)) | _ => None end
    end.

  (** The location a thread is about to load from, if its next step is a load:
      gate.rs:16, arc_slice.rs:133 (unless the slice is too short to have the
      child, 112, 122), 287, 370, 372 and 396, 373. *)
  Definition loads d (st : stack) : option loc :=
    match st with
    | FWait y down :: _ => Some (LGate y down)
    | FChild x side :: _ =>
        match rc_get (dw_datas d) x with
        | Some n => if (d_len n <=? (if side then 1 else 0))%N then None else Some (LChild x side)
        | None => None
        end
    | FGuard x :: _ => Some (LBox x)
    | FGm2 r :: _ => Some (LWeak (ar_guard r))
    | FGm4 r :: _ | FIm2 r :: _ => Some (LGuard (ar_guard r))
    | FGm5 r :: _ => Some (LData (ar_data r))
    | _ => None
    end.
  (** What it does with the value, at the same lines. *)
  Definition loaded (st : stack) (v : lval) : option stack :=
    match st, v with
    | FWait y down :: k, LFlag b => Some (if b then st else k)
    | FChild x side :: k, LPtr (Some c) => Some (FChildInc x side c :: k)
    | FChild x side :: k, LPtr None => Some (FChildAlloc x side :: k)
    | FGuard x :: k, LPtr (Some b) => Some (FGuardUp x b :: k)
    | FGm2 r :: k, LCount c => Some (if c =? 1 then FGm3 r :: k else FV (VFin (Some (XArc r)) (Some RNone)) :: k)
    | FGm4 r :: k, LCount c => Some (if c =? 1 then FGm5 r :: k else FV (VFin (Some (XArc r)) (Some RNone)) :: k)
    | FGm5 r :: k, LCount c => Some (if c =? 1 then FV (VHold r) :: k else FV (VFin (Some (XArc r)) (Some RNone)) :: k)
    | FIm2 r :: k, LCount c => Some (if c =? 1 then FIm3 r :: k else FV (VFin (Some (XArc r)) (Some RErr)) :: k)
    | _, _ => None
    end.

  (** The machine keeps its past: [ws_old !! j] is the shared memory before event
      [j], with what was released to each location by then. Views are sets of
      events. Rust makes whoever gets hold of a value come after all who had it
      before; threads that share a reference to it need not know of each other, so
      there are two views for each variable: [ws_var], known to all who use it, and
      [ws_bor], what those who borrowed it knew when they were done, as in OrderModel.v. *)
  Record wstate := WS {
    ws_s : cstate V;
    ws_thr : nat -> view;
    ws_var : nat -> view;
    ws_bor : nat -> view;
    ws_loc : loc -> view;
    ws_old : list (dworld V * gdworld * (loc -> view))
  }.
  Definition init_wstate (n : nat) : wstate :=
    WS (init_cstate n) (fun _ => ∅) (fun _ => ∅) (fun _ => ∅) (fun _ => ∅) [].
  (** The memory before event [j]; now, if there is no such event. *)
  Definition memory (o : wstate) (j : nat) : dworld V * gdworld * (loc -> view) :=
    default (cs_d (ws_s o), cs_g (ws_s o), ws_loc o) (ws_old o !! j).
  Definition value (o : wstate) (j : nat) (l : loc) : option lval := peek (memory o j).1.1 (memory o j).1.2 l.
  (** The events before [j] that changed what is in [l]. *)
  Definition changes (o : wstate) (j : nat) (l : loc) : view :=
    list_to_set (filter (fun i => value o i l <> value o (S i) l) (seq 0 j)).
  (** A thread that knows of [v] may load what was in [l] before event [j]. *)
  Definition visible (o : wstate) (v : view) (l : loc) (j : nat) : Prop :=
    forall i, i ∈ changes o (length (ws_old o)) l -> j <= i -> i ∉ v.
  #[global] Instance visible_dec o v l j : Decision (visible o v l j).
  Proof.
    refine (cast_if (decide (set_Forall (fun i => j <= i -> i ∉ v) (changes o (length (ws_old o)) l)))); abstract (unfold visible, set_Forall in *; naive_solver).
  Defined.

  (** An event: a step that sees the present, or thread [t] loads what was there
      before event [j]. *)
  Inductive wsched :=
  | WNow (e : sched (V:=V))
  | WOld (t : nat) (j : nat).

  (** The event is added to the past; thread [t], having [got] from others, knows
      of it, and so do those it releases to. A load from an object that is gone is
      an error, as it is in ArcConc.v, whatever value it would return. Whoever has loaded from [l] what was
      there before event [j] will not load anything older from there. *)
  Definition record (o : wstate) (s' : cstate V) (t : nat) (got : view) (vars bors : list nat) (rel : list loc) : wstate :=
    let k := length (ws_old o) in
    let v := ws_thr o t ∪ got ∪ {[k]} in
    WS s' (spread [t] v (ws_thr o)) (spread vars v (ws_var o)) (spread bors v (ws_bor o)) (spread rel (ws_thr o t ∪ {[k]}) (ws_loc o))
       (ws_old o ++ [(cs_d (ws_s o), cs_g (ws_s o), ws_loc o)]).
  Definition next_load (o : wstate) (t : nat) : option loc := st ← cs_t (ws_s o) !! t; loads (cs_d (ws_s o)) st.
  Definition wstep (o : wstate) (e : wsched) : res wstate :=
    let s := ws_s o in
    match e with
    | WNow e =>
        s' ← cstep sz s e;
        Ok (record o s' (actor e)
              (gather (ws_var o) (vars_in s e s') ∪ gather (ws_bor o) (bor_in s e s') ∪ gather (ws_loc o) (syncs acq s e).1 ∪
               match e, next_load o (actor e) with SStep _, Some l => changes o (length (ws_old o)) l | _, _ => ∅ end)
              (var_out s e s') (bor_out s e s') (syncs acq s e).2)
    | WOld t j =>
        match cs_t s !! t, next_load o t with
        | Some st, Some l =>
            _ ← cstep sz s (SStep t);
            if decide (visible o (ws_thr o t) l j) then
              match value o j l with
              | Some v =>
                  match loaded st v with
                  | Some st' =>
                      Ok (record o (set_thread s t st') t
                            (gather (memory o j).2 (syncs acq s (SStep t)).1 ∪ changes o j l) [] [] (syncs acq s (SStep t)).2)
                  | None => Ok o
                  end
              | None => Ok o
              end
            else Ok o
        | _, _ => Ok o
        end
    end.
  Fixpoint wrun (o : wstate) (es : list wsched) : res wstate :=
    match es with
    | [] => Ok o
    | e :: es => o ← wstep o e; wrun o es
    end.
  Definition wreach (n : nat) es (o : wstate) : Prop := wrun (init_wstate n) es = Ok o.

  (** The events that are not stale loads, among them all calls. *)
  Definition calls (es : list wsched) : list (sched (V:=V)) := omap (fun e => match e with WNow e => Some e | WOld _ _ => None end) es.
  (** The items the program puts in, as in ConcSpec.v. *)
  Fixpoint wput_run (o : wstate) (es : list wsched) : list V :=
    match es with
    | [] => []
    | e :: es =>
        match wstep o e with
        | Ok o' => match e with WNow e => cput (ws_s o) e (ws_s o') | WOld _ _ => [] end ++ wput_run o' es
        | _ => []
        end
    end.
  (** In the course of [es], thread [t] called [clone_left]/[clone_right] on a
      slice of data [x] and got to the point of returning a slice of data [c]. *)
  Definition whalved (n : nat) es t (x : nat) (side : bool) (c : nat) : Prop :=
    exists es1 h es2 es3 o1 o2 r y q,
      es = es1 ++ WNow (SStart t (CCloneHalf side h)) :: es2 ++ es3 /\
      wreach n es1 o1 /\ idle (ws_s o1) t /\ cget (ws_s o1) h = Some (XArc r) /\ ar_data r = x /\
      Forall (fun e => forall op, e <> WNow (SStart t op)) es2 /\
      wreach n (es1 ++ WNow (SStart t (CCloneHalf side h)) :: es2) o2 /\
      cs_t (ws_s o2) !! t = Some [FV (VFin (Some (XArc (ArcS c y))) q); KEnd (Some h)].
End weak.
Arguments wstate : clear implicits.
Arguments wsched : clear implicits.
