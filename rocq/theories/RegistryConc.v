(** Any number of goroutines calling the registry concurrently: an interleaving semantics whose steps are the
    lock-protected steps of RegistryModel.v. *)
From stdpp Require Import gmap strings.
From Verif Require Import PathModel RegistryModel.

(** API calls (api.go:71-146, 355-429; metric.go:1495-1580). Package level functions use the handle [root].
    CLookup is GetDirectoryOrMetric (metric.go:1548-1551), used by GetMetric and the HTML handler;
    CList is GetAllMetricsByPath (metric.go:1529-1542), used by every listing endpoint and by ReadMyMetrics. *)
Inductive call :=
| CRegMetric (d : nat) (path : string) (m : minfo)
| CRegDir (d : nat) (path : string)
| CGetDir (d : nat) (path : string)
| CLookup (d : nat) (path : string)
| CUnregPath (d : nat) (path : string)
| CUnregDir (d : nat)
| CList (d : nat) (path : string).
Definition call_dir (c : call) : nat :=
  match c with CRegMetric d _ _ | CRegDir d _ | CGetDir d _ | CLookup d _ | CUnregPath d _ | CUnregDir d | CList d _ => d end.

Inductive reply :=
| RMetric (r : mres) | RDir (r : nat + err) | RNode (n : option node) | RUnit | RList (l : list entry).

(** Work still to be done by a depth first traversal: directories to list, metrics to report. *)
Inductive witem := WDir (d : nat) | WMetric (e : entry).
Definition item_of (e : entry) : witem := match e_obj e with ODir d => WDir d | OMetric _ => WMetric e end.

(** The first part of each call: straight sequences of atomic steps. A listing continues with a work list
    (metric.go:1531-1541). *)
Definition prog_of (c : call) : prog (reply + list witem) :=
  match c with
  | CRegMetric d s m => do r <- registerMetric d (newPathSpec s) m; Ret (inl (RMetric r))
  | CRegDir d s => do r <- registerDirectory d (newPathSpec s); Ret (inl (RDir r))
  | CGetDir d s => do r <- getDirectoryAndError d (newPathSpec s); Ret (inl (RDir r))
  | CLookup d s => do n <- getDirectoryOrMetric d (newPathSpec s); Ret (inl (RNode n))
  | CUnregPath d s => do _ <- unregisterPath d (newPathSpec s); Ret (inl RUnit)
  | CUnregDir d => do _ <- unregisterDirectory d; Ret (inl RUnit)
  | CList d s => do n <- getDirectoryOrMetric d (newPathSpec s);
                 Ret (inr (match n with
                           | None => []
                           | Some (NDir d') => [WDir d']
                           | Some (NMetric e) => [WMetric e]
                           end))
  end.

Inductive tstate :=
| TRun (p : prog (reply + list witem))
| TList (work : list witem) (out : list entry)
| TDone (r : reply).
Record thread := MkThread { t_call : call; t_state : tstate }.

(** A configuration: the shared heap and all calls made so far. *)
Record config := MkConfig { c_heap : heap; c_pool : gmap nat thread }.
Definition init_config : config := MkConfig init_heap ∅.

(** One step of a thread on the heap. *)
Inductive tstep : heap → tstate → heap → tstate → Prop :=
| StepOp h B (o : op B) k : tstep h (TRun (Step o k)) (fst (op_sem o h)) (TRun (k (snd (op_sem o h))))
| StepRet h r : tstep h (TRun (Ret (inl r))) h (TDone r)
| StepStartList h w : tstep h (TRun (Ret (inr w))) h (TList w [])
(* metric.go:1569-1579: listUnsorted iterates the map in any order, then the entries are sorted *)
| StepListDir h d l w out : l ≡ₚ entries_of h d →
    tstep h (TList (WDir d :: w) out) h (TList (map item_of (sortListEntries l) ++ w) out)
| StepListMetric h e w out : tstep h (TList (WMetric e :: w) out) h (TList w (out ++ [e]))
| StepListEnd h out : tstep h (TList [] out) h (TDone (RList out)).

(** A client can start a call on any directory handle that exists (at any time, any number of them); any thread can
    take the next step. *)
Inductive step : config → config → Prop :=
| StepStart h T t c : T !! t = None → is_Some (h_dirs h !! call_dir c) →
    step (MkConfig h T) (MkConfig h (<[t := MkThread c (TRun (prog_of c))]> T))
| StepThread h T t c s h' s' : T !! t = Some (MkThread c s) → tstep h s h' s' →
    step (MkConfig h T) (MkConfig h' (<[t := MkThread c s']> T)).

(** An execution, with all the configurations it goes through. *)
Inductive during : config → list config → config → Prop :=
| DOne c : during c [c] c
| DStep c c' l c'' : step c c' → during c' l c'' → during c (c :: l) c''.

Definition reachable (c : config) : Prop := ∃ l, during init_config l c.
(** A heap that some execution reaches, possibly in the middle of other calls. *)
Definition reachable_heap (h : heap) : Prop := ∃ c, reachable c ∧ c_heap c = h.
