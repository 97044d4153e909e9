(** Vocabulary for statements about executions of requests, in terms of the labels only. *)
From stdpp Require Import gmap list.
From Coq Require Import ZArith.
From Verif Require Import RegionModel.
Local Open Scope Z_scope.

(** the time that t's Visit of r returned, if t has visited r and has not started to close its session *)
Definition holds1 (t r : nat) (s : option Z) (l : label) : option Z :=
  match l with
  | LVisit t' r' time => if decide (t' = t ∧ r' = r) then Some time else s
  | LClose t' => if decide (t' = t) then None else s
  | _ => s
  end.
Definition holds (t r : nat) (tr : list label) : option Z := foldl (holds1 t r) None tr.
(** t has started to visit r and has not finished closing its session *)
Definition engaged1 (t r : nat) (s : bool) (l : label) : bool :=
  match l with
  | LVisitCall t' r' => if decide (t' = t ∧ r' = r) then true else s
  | LClosed t' => if decide (t' = t) then false else s
  | _ => s
  end.
Definition engaged (t r : nat) (tr : list label) : bool := foldl (engaged1 t r) false tr.
(** the function t is registering with r *)
Definition registering1 (t r : nat) (s : option nat) (l : label) : option nat :=
  match l with
  | LFuncCall t' r' f => if decide (t' = t ∧ r' = r) then Some f else s
  | LFuncRet t' r' _ => if decide (t' = t ∧ r' = r) then None else s
  | _ => s
  end.
Definition registering (t r : nat) (tr : list label) : option nat := foldl (registering1 t r) None tr.
(** whose message the event loop of r received last *)
Definition last_sender1 (r : nat) (s : option nat) (l : label) : option nat :=
  match l with LSend t r' _ => if decide (r' = r) then Some t else s | _ => s end.
Definition last_sender (r : nat) (tr : list label) : option nat := foldl (last_sender1 r) None tr.
(** the update function of r is doing something *)
Definition updates (r : nat) (l : label) : bool :=
  match l with LUpdBegin r' _ | LWrite r' _ _ | LUpdEnd r' _ _ => bool_decide (r' = r) | _ => false end.
Definition begins_update (r : nat) (l : label) : bool :=
  match l with LUpdBegin r' _ => bool_decide (r' = r) | _ => false end.
(** the contents of the variables of r, from the writes only *)
Definition written1 (r : nat) (m : nat → Z) (l : label) : nat → Z :=
  match l with LWrite r' x v => if decide (r' = r) then λ y, if decide (y = x) then v else m y else m | _ => m end.
Definition written (v0 : nat → Z) (r : nat) (tr : list label) : nat → Z := foldl (written1 r) v0 tr.
(** in tr, the last activity of an update function of r was a complete run that ended by returning [time] and
    left the variables with contents [vals] *)
Definition last_run (v0 : nat → Z) (r : nat) (tr : list label) (time : Z) (vals : nat → Z) : Prop :=
  ∃ tr1 f tr2 tr3, tr = tr1 ++ [LUpdBegin r f] ++ tr2 ++ [LUpdEnd r f time] ++ tr3 ∧
    (∀ g, LUpdBegin r g ∉ tr2) ∧ (∀ g time', LUpdEnd r g time' ∉ tr2) ∧
    (∀ l, l ∈ tr3 → updates r l = false) ∧
    (∀ x, vals x = written v0 r (tr1 ++ tr2) x).
(** what t's current (or last) session reported: groups with time stamps *)
Inductive group := GRegion (r : nat) | GAggregate (a : nat).
Definition reported1 (t : nat) (s : list (group * Z)) (l : label) : list (group * Z) :=
  match l with
  | LOpen t' => if decide (t' = t) then [] else s
  | LVisit t' r time => if decide (t' = t) then s ++ [(GRegion r, time)] else s
  | LAggRead t' a ts => if decide (t' = t) then s ++ [(GAggregate a, ts)] else s
  | _ => s
  end.
Definition reported (t : nat) (tr : list label) : list (group * Z) := foldl (reported1 t) [] tr.
(** every read of a program happens after the visit of its region and before the session is closed *)
Fixpoint guarded (vis : gset nat) (p : list action) : Prop :=
  match p with
  | [] => True
  | AVisit r :: p => guarded ({[r]} ∪ vis) p
  | (AOpen | AClose) :: p => guarded ∅ p
  | ARead r _ :: p => r ∈ vis ∧ guarded vis p
  | _ :: p => guarded vis p
  end.
(** a request is complete *)
Definition finished (th : thread) : Prop := t_prog th = [] ∧ t_sess th = None ∧ t_ctl th = CReady.
Definition is_spawn (l : label) : bool := match l with LSpawn _ _ => true | _ => false end.
Definition is_write (l : label) : bool := match l with LWrite _ _ _ => true | _ => false end.
(** the event loop of r has received t's lock message and not yet its unlock message *)
Definition locked1 (t r : nat) (s : bool) (l : label) : bool :=
  match l with
  | LSend t' r' MLock => if decide (t' = t ∧ r' = r) then true else s
  | LSend t' r' MUnlock => if decide (t' = t ∧ r' = r) then false else s
  | _ => s
  end.
Definition locked (t r : nat) (tr : list label) : bool := foldl (locked1 t r) false tr.

(** the step k can be taken now *)
Definition enabled (c : config) (k : cmd) : Prop := ∃ l c', stepf c k = Some (l, c').
(** neither a new goroutine nor a write *)
Definition internal (k : cmd) : Prop := match k with Spawn _ | Write _ _ _ => False | _ => True end.

(** a request waits for its client to take part of the response *)
Definition stalled (th : thread) : Prop := ∃ p, t_prog th = AEmit :: p ∧ t_ctl th = CReady.
(** a program writes to its client only while it has no session *)
Fixpoint emits_outside (open : bool) (p : list action) : Prop :=
  match p with
  | [] => True
  | AOpen :: p => emits_outside true p
  | AClose :: p => emits_outside false p
  | AEmit :: p => open = false ∧ emits_outside open p
  | _ :: p => emits_outside open p
  end.
