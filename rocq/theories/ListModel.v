(** Model of lists (metric.go:595-733, api.go:307-351): slices are windows into arrays that their owner can write.

    A program is a sequence of [event]s, each one atomic step of some goroutine.  A call of Change is two of them: what
    happens before l.lock is taken (EPrepare: asSliceValue and the check of the element type) and what happens under the
    lock (ECommit).  Readers take the slice under the lock and read its elements later, one by one; so what matters is
    the content of the slice in every later state. *)
From Verif Require Import GoBase GoVal UnitsModel DurationModel TypesModel.
From stdpp Require Import list.
From Verif Require Import ReflectModel.

(** Arrays with their element type *)
Record array := MkArray { a_elem : rtype; a_cells : list rval }.
Notation aheap := (list array).
(** A slice: its type is "[]elem" or a declared slice type, and it is cells [off, off+len) of an array. A nil slice is an
    empty window. *)
Record slice := MkSlice { s_named : option string; s_elem : rtype; s_array : nat; s_off : nat; s_len : nat }.
Definition cells (h : aheap) (s : slice) : list rval :=
  match h !! s_array s with Some a => take (s_len s) (drop (s_off s) (a_cells a)) | None => [] end.
(** Go's types and bounds guarantee this for every slice of a program. *)
Definition slice_ok (h : aheap) (s : slice) : bool :=
  match h !! s_array s with
  | Some a => bool_decide (a_elem a = s_elem s) && Nat.leb (s_off s + s_len s) (length (a_cells a))
  | None => false
  end.
(** what is passed as aSlice *)
Inductive iface := ISlice (s : slice) | INotSlice (v : rval) | INil.

Inductive outcome (A : Type) := Ok (a : A) | Panic (msg : string).
Arguments Ok {A} a. Arguments Panic {A} msg.
Definition panicInvalidMetric : string := "Invalid metric type.".                    (* metric.go:22 *)
Definition panicListSubTypeChanging : string := "Sub-type in list cannot change".    (* metric.go:27 *)

Section Word.
  Context (w : wordsize).
  (** metric.go:603-607 *)
  Definition copySlice (h : aheap) (s : slice) : aheap * slice :=
    (h ++ [MkArray (s_elem s) (cells h s)], MkSlice (s_named s) (s_elem s) (length h) 0 (length (cells h s))).
  (** metric.go:612-642; None = panic *)
  Definition convertFromIntOrUintSlice (h : aheap) (s : slice) (t : type_t) : option (aheap * slice) :=
    let newElem := if String.eqb t Int32 then Some (RBasic KInt32 None)
                   else if String.eqb t Int64 then Some (RBasic KInt64 None)
                   else if String.eqb t Uint32 then Some (RBasic KUint32 None)
                   else if String.eqb t Uint64 then Some (RBasic KUint64 None)
                   else None in
    match newElem, mapM (λ v, valueToInterface v t false) (cells h s) with
    | Some e, Some vs => Some (h ++ [MkArray e vs], MkSlice None e (length h) 0 (length vs))
    | _, _ => None
    end.
  (** elemKind == reflect.Int || elemKind == reflect.Uint *)
  Definition is_int_or_uint (t : rtype) : bool := match t with RBasic (KInt | KUint) _ => true | _ => false end.
  (** metric.go:648-666 *)
  Definition asSliceValue (h : aheap) (x : iface) (mutable : bool) : outcome (aheap * slice * type_t) :=
    match x with
    | ISlice s =>
        match getPrimitiveType w (s_elem s) with
        | None => Panic panicInvalidMetric
        | Some (t, true) => Panic "Lists cannot contain slices of pointrs."
        | Some (t, false) =>
            if is_int_or_uint (s_elem s) then
              match convertFromIntOrUintSlice h s t with
              | Some (h', s') => Ok (h', s', t)
              | None => Panic "t is not compatible with int or uint"
              end
            else if mutable then let '(h', s') := copySlice h s in Ok (h', s', t)
            else Ok (h, s, t)
        end
    | _ => Panic "Slice expected"
    end.

  (** metric.go:595-601, without groupId, which C34-C35 treat *)
  Record alist := MkList { l_subType : type_t; l_slice : slice; l_ts : gotime }.
  (** a Change between asSliceValue and the lock: list, new slice, time *)
  Record pending := MkPending { p_list : nat; p_slice : slice; p_ts : gotime }.
  (** [w_own]: the arrays made by the program itself, which it may write; the others were made by copying. Callers must
      not write the slices that AsSlice returns (metric.go:720). *)
  Record world := MkWorld { w_heap : aheap; w_own : list nat; w_lists : list alist; w_pending : list pending }.

  Inductive event :=
    | EAlloc (a : array)                                        (* the program makes an array *)
    | EWrite (a i : nat) (v : rval)                             (* and writes one element *)
    | ENewList (x : iface) (mutable : bool) (ts : gotime)       (* metric.go:668-678; the list is not yet shared *)
    | EPrepare (l : nat) (x : iface) (mutable : bool) (ts : gotime) (* metric.go:685-688 *)
    | ECommit (p : nat).                                        (* metric.go:689-692 *)

  (** metric.go:668-678 newListWithTimeStamp *)
  Definition newList (h : aheap) (x : iface) (mutable : bool) (ts : gotime) : outcome (aheap * alist) :=
    match asSliceValue h x mutable with
    | Ok (h', s, t) => Ok (h', MkList t s ts)
    | Panic m => Panic m
    end.
  (** metric.go:680-688 the first half of ChangeWithTimeStamp; a panic leaves the copy behind as garbage *)
  Definition prepare (h : aheap) (l : alist) (x : iface) (mutable : bool) : aheap * outcome slice :=
    match asSliceValue h x mutable with
    | Ok (h', s, t) => if String.eqb t (l_subType l) then (h', Ok s) else (h', Panic panicListSubTypeChanging)
    | Panic m => (h, Panic m)
    end.
  (** metric.go:689-692 the second half *)
  Definition commit (l : alist) (s : slice) (ts : gotime) : alist := MkList (l_subType l) s ts.
  (** metric.go:694-698, 721-724: get and AsSlice *)
  Definition AsSlice (l : alist) : slice * gotime := (l_slice l, l_ts l).

  Definition iface_ok (h : aheap) (x : iface) : bool := match x with ISlice s => slice_ok h s | _ => true end.
  (** What the events return *)
  Inductive result := RUnit | RPanic (msg : string).
  (** One step; None: no Go program can do this (ill typed, out of bounds, writing what it must not write). A panic ends
      the call with no effect on the list. *)
  Definition step (st : world) (e : event) : option (world * result) :=
    match e with
    | EAlloc a =>
        if forallb (λ v, bool_decide (rtype_of v = a_elem a) && rval_ok w v) (a_cells a) then
          Some (MkWorld (w_heap st ++ [a]) (length (w_heap st) :: w_own st) (w_lists st) (w_pending st), RUnit)
        else None
    | EWrite a i v =>
        match w_heap st !! a with
        | Some ar => if bool_decide (a ∈ w_own st) && bool_decide (rtype_of v = a_elem ar) && rval_ok w v && Nat.ltb i (length (a_cells ar)) then
            Some (MkWorld (<[a := MkArray (a_elem ar) (<[i := v]> (a_cells ar))]> (w_heap st)) (w_own st) (w_lists st) (w_pending st), RUnit)
          else None
        | None => None
        end
    | ENewList x m ts =>
        if iface_ok (w_heap st) x then
          match newList (w_heap st) x m ts with
          | Ok (h', l) => Some (MkWorld h' (w_own st) (w_lists st ++ [l]) (w_pending st), RUnit)
          | Panic msg => Some (st, RPanic msg)
          end
        else None
    | EPrepare l x m ts =>
        match w_lists st !! l with
        | Some al => if iface_ok (w_heap st) x then
            match prepare (w_heap st) al x m with
            | (h', Ok s) => Some (MkWorld h' (w_own st) (w_lists st) (w_pending st ++ [MkPending l s ts]), RUnit)
            | (h', Panic msg) => Some (MkWorld h' (w_own st) (w_lists st) (w_pending st), RPanic msg)
            end
          else None
        | None => None
        end
    | ECommit p =>
        match w_pending st !! p with
        | Some pe => match w_lists st !! p_list pe with
            | Some al => Some (MkWorld (w_heap st) (w_own st) (<[p_list pe := commit al (p_slice pe) (p_ts pe)]> (w_lists st)) (w_pending st), RUnit)
            | None => None
            end
        | None => None
        end
    end.
  Fixpoint run (st : world) (es : list event) : option world :=
    match es with
    | [] => Some st
    | e :: es => match step st e with Some (st', _) => run st' es | None => None end
    end.
  Definition init : world := MkWorld [] [] [] [].
  (** the states of programs *)
  Definition reachable (st : world) : Prop := ∃ es, run init es = Some st.
End Word.
