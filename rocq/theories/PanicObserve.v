(** Vocabulary for the properties about items whose destructor panics (C49).
    Definitions only. *)
From Verif Require Import Base Api SliceItemsModel BinPartsModel DataModel RcModel Spec Observe ArcModel ArcSpec ArcObserve PanicModel.

(** The items whose destructor panics. *)
Definition bombs_of {V} (bomb : V -> bool) (l : list V) : list V := filter (fun v => bomb v = true) l.

(** A call that destroys the variable it is given, with the items in it. *)
Definition destroys {V} (o : op V) (r : out V) : Prop :=
  match o, r with ODrop _, _ => True | OSplitIntoParts _ _, RPanic => True | _, _ => False end.

(** What a call returns, compared to when destructors do not panic. *)
Definition out_panics {V} (r r' : out V) : Prop := r' = r \/ r = RUnit /\ r' = RPanic.

(** Calls to [split_into_parts] ask for a power of two many parts. *)
Definition good_split {V} (o : op V) : Prop :=
  match o with OSplitIntoParts _ n => exists k, n = (2 ^ k)%N | _ => True end.

Section panic_observe.
  Context {V : Type} (c : cfg V) (bomb : V -> bool).

  (** A state together with the items left behind. [None]: the process was aborted. *)
  Definition bstep : pworld -> op V -> res (option (pworld * out V)) :=
    pstep (c_sz c) bomb (c_clone c) (c_capf c) (c_growf c) false.
  Definition brun : pworld -> list (op V) -> res (option (pworld * list (out V))) :=
    prun (c_sz c) bomb (c_clone c) (c_capf c) (c_growf c) false.
  (** The state after the calls [ops], starting from nothing. *)
  Definition breach (ops : list (op V)) (w : world V) (lk : leaked V) : Prop :=
    exists outs, brun (empty_world, []) ops = Ok (Some ((w, lk), outs)).
  (** Item [v] is in cell [x], which variable [h] covers and no other does. *)
  Definition owns (w : world V) (h : nat) (x : nat * N) (v : V) : Prop :=
    item w x = Some v /\ x ∈ h_cells c w h /\ (forall h', h' <> h -> x ∉ h_cells c w h').

  (** The same for [ArcSlice] used by one thread. *)
  Definition bxstep : pxworld -> op V -> res (option (pxworld * out V)) :=
    pxstep (c_sz c) bomb (c_clone c) (c_capf c) (c_growf c) false.
  Definition bxrun : pxworld -> list (op V) -> res (option (pxworld * list (out V))) :=
    pxrun (c_sz c) bomb (c_clone c) (c_capf c) (c_growf c) false.
  Definition bxreach (ops : list (op V)) (w : aworld V) (lk : leaked V) : Prop :=
    exists outs, bxrun (empty_aworld, []) ops = Ok (Some ((w, lk), outs)).
  Definition xowns (w : aworld V) (h : nat) (x : nat * N) (v : V) : Prop :=
    xitem w x = Some v /\ x ∈ x_cells c w h /\ (forall h', h' <> h -> x ∉ x_cells c w h').
End panic_observe.
#[global] Arguments bstep : simpl never.
#[global] Arguments brun : simpl never.
#[global] Arguments bxstep : simpl never.
#[global] Arguments bxrun : simpl never.
