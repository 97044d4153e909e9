(** Groups (regions), their event loops, and sessions: go/tricorder/metric.go:70-202, with the requests that use
    them.  Executable: [stepf] performs one step chosen by a [cmd]; an execution is any sequence of commands.

    Simplifications: lockCount is an unbounded integer (Go: int; differs only with 2^63 simultaneous sessions).
    A region is a number (its Go pointer; ids are the subject of IdModel.v).  All regions exist from the start.
    A client variable of region r is a pair (r, x); only update functions of r write it.  An update function
    writes any variables of its region, any number of times, and returns any time. *)
From stdpp Require Import gmap list.
From Coq Require Import ZArith.
Local Open Scope Z_scope.

(** What one goroutine does, in order.  The lists that the code performs are given at the end. *)
Inductive action :=
  | AOpen                        (* newSession(), metric.go:79-81 *)
  | AVisit (r : nat)             (* s.Visit(r), metric.go:88-98 *)
  | ARead (r x : nat)            (* read variable x of region r, e.g. reflect.Value.Int() *)
  | AClose                       (* s.Close(), metric.go:104-110 *)
  | ARegister (r f : nat)        (* r.registerUpdateFunc(f), metric.go:160-163 *)
  | AAggSet (a : nat) (ts : Z)   (* AddWithTs, ChangeWithTimeStamp,...: set the time stamp of aggregate a under its lock *)
  | AAggRead (a : nat)           (* Snapshot(), AsSlice(): read the time stamp of aggregate a under its lock *)
  | AEmit.                       (* write part of the response, e.g. html.go:187; returns when the client has taken it *)

(** Where in its current call a goroutine is. *)
Inductive ctl :=
  | CReady
  | CLockSend (r : nat)                     (* RLock, metric.go:195: r.sendCh <- 1 *)
  | CLockRecv (r : nat)                     (* metric.go:196: <-r.receiveCh *)
  | CLockGot (r : nat) (time : Z)           (* RLock returned, metric.go:94-95 *)
  | CClosing (todo : gset nat)              (* Close, metric.go:105: regions the map iteration has not reached *)
  | CUnlockSend (r : nat) (todo : gset nat) (* RUnlock, metric.go:200: r.sendCh <- -1 *)
  | CUnlockRecv (r : nat) (todo : gset nat) (* metric.go:201 *)
  | CFuncSend (r f : nat)                   (* registerUpdateFunc, metric.go:161 *)
  | CFuncRecv (r f : nat)                   (* metric.go:162 *)
  | CFuncGot (r f : nat).

(** visitedRegions of the current session (metric.go:75-77), None when there is none or it is closed *)
Record thread := MkThread { t_prog : list action; t_sess : option (gmap nat Z); t_ctl : ctl }.

(** handleRequests, metric.go:183-192 *)
Inductive handler :=
  | HIdle                (* waiting in select, metric.go:185 *)
  | HGot (inc : Z)       (* received from sendCh, about to run handleLockUnlock, metric.go:186-187 *)
  | HUpdating (f : nat)  (* inside r.updateFunc(), metric.go:172-174 *)
  | HReply (time : Z)    (* r.receiveCh <- ..., metric.go:187 *)
  | HGotFunc (f : nat)   (* received from updateFuncSendCh, metric.go:188 *)
  | HReplyFunc           (* r.updateFuncReceiveCh <- true, metric.go:189 *)
  | HDead.               (* panic("Lock count fell below 0"), metric.go:168-170 *)
(** metric.go:119-132; r_vars is the contents of the client's variables of the region *)
Record region := MkRegion { r_lock : Z; r_func : nat; r_time : Z; r_vars : nat → Z; r_h : handler }.
Record config := MkConfig { c_regs : nat → region; c_pool : list thread; c_agg : nat → Z }.

Definition fupd {A} (k : nat) (v : A) (m : nat → A) : nat → A := λ i, if decide (i = k) then v else m i.

Inductive msg := MLock | MUnlock | MFunc (f : nat).
Inductive label :=
  | LSpawn (t : nat) (p : list action)
  | LOpen (t : nat)
  | LVisitCall (t r : nat)               (* Visit of a region not yet visited starts *)
  | LVisit (t r : nat) (time : Z)        (* Visit returns time *)
  | LRead (t r x : nat) (v : Z)          (* a read returned v *)
  | LClose (t : nat)                     (* Close starts *)
  | LCloseNext (t r : nat)               (* Close is going to unlock r *)
  | LClosed (t : nat)                    (* Close returns *)
  | LFuncCall (t r f : nat) | LFuncRet (t r f : nat)  (* RegisterUpdateFunc starts, returns *)
  | LSend (t r : nat) (m : msg)          (* the event loop of r receives m from t *)
  | LReply (t r : nat)                   (* the event loop of r sends a reply, received by t *)
  | LHandled (r : nat)                   (* handleLockUnlock without update *)
  | LSetFunc (r f : nat)                 (* handleUpdateFunc, metric.go:178-181 *)
  | LUpdBegin (r f : nat) | LWrite (r x : nat) (v : Z) | LUpdEnd (r f : nat) (time : Z)
  | LDie (r : nat)
  | LAggSet (t a : nat) (ts : Z) | LAggRead (t a : nat) (ts : Z)
  | LEmit (t : nat).                     (* a write of the response returned *)

(** Programs that use sessions as the code does: newSession, then visits, then Close, never nested. *)
Fixpoint bracketed (open : bool) (p : list action) : bool :=
  match p with
  | [] => negb open
  | AOpen :: p => negb open && bracketed true p
  | AVisit _ :: p => open && bracketed open p
  | AClose :: p => open && bracketed false p
  | _ :: p => bracketed open p
  end.

Inductive cmd :=
  | Spawn (p : list action)     (* a new goroutine *)
  | Local (t ch : nat)          (* goroutine t makes a step of its own; ch: the region the map iteration yields *)
  | Send (t : nat)              (* goroutine t and the event loop meet on sendCh or updateFuncSendCh *)
  | Reply (t : nat)             (* goroutine t and the event loop meet on receiveCh or updateFuncReceiveCh *)
  | Handle (r : nat) (time : Z) (* the event loop of r makes a step of its own *)
  | Write (r x : nat) (v : Z).  (* the running update function of r writes *)

Definition set_thread (t : nat) (th : thread) (c : config) : config := MkConfig (c_regs c) (<[t := th]> (c_pool c)) (c_agg c).
Definition set_region (r : nat) (x : region) (c : config) : config := MkConfig (fupd r x (c_regs c)) (c_pool c) (c_agg c).
Definition set_h (h : handler) (x : region) : region := MkRegion (r_lock x) (r_func x) (r_time x) (r_vars x) h.

(** a step that does not involve channels *)
Definition localf (t ch : nat) (th : thread) (c : config) : option (label * config) :=
  match th with
  | MkThread (AOpen :: p) None CReady => Some (LOpen t, set_thread t (MkThread p (Some ∅) CReady) c)
  | MkThread (AVisit r :: p) (Some m) CReady =>
      (* metric.go:92: result, ok := s.visitedRegions[r] *)
      match m !! r with
      | Some time => Some (LVisit t r time, set_thread t (MkThread p (Some m) CReady) c)
      | None => Some (LVisitCall t r, set_thread t (MkThread p (Some m) (CLockSend r)) c)
      end
  | MkThread p (Some m) (CLockGot r time) => Some (LVisit t r time, set_thread t (MkThread p (Some (<[r := time]> m)) CReady) c)
  | MkThread (ARead r x :: p) m CReady => Some (LRead t r x (r_vars (c_regs c r) x), set_thread t (MkThread p m CReady) c)
  | MkThread (AClose :: p) (Some m) CReady => Some (LClose t, set_thread t (MkThread p (Some m) (CClosing (dom m))) c)
  | MkThread p (Some m) (CClosing todo) =>
      if decide (todo = ∅) then Some (LClosed t, set_thread t (MkThread p None CReady) c)
      else if decide (ch ∈ todo) then Some (LCloseNext t ch, set_thread t (MkThread p (Some m) (CUnlockSend ch (todo ∖ {[ch]}))) c)
      else None
  | MkThread (ARegister r f :: p) m CReady => Some (LFuncCall t r f, set_thread t (MkThread p m (CFuncSend r f)) c)
  | MkThread p m (CFuncGot r f) => Some (LFuncRet t r f, set_thread t (MkThread p m CReady) c)
  | MkThread (AAggSet a ts :: p) m CReady =>
      Some (LAggSet t a ts, MkConfig (c_regs c) (<[t := MkThread p m CReady]> (c_pool c)) (fupd a ts (c_agg c)))
  | MkThread (AAggRead a :: p) m CReady => Some (LAggRead t a (c_agg c a), set_thread t (MkThread p m CReady) c)
  | MkThread (AEmit :: p) m CReady => Some (LEmit t, set_thread t (MkThread p m CReady) c)
  | _ => None
  end.
Definition sendf (t : nat) (th : thread) (c : config) : option (label * config) :=
  match t_ctl th with
  | CLockSend r =>
      match r_h (c_regs c r) with
      | HIdle => Some (LSend t r MLock, set_region r (set_h (HGot 1) (c_regs c r)) (set_thread t (MkThread (t_prog th) (t_sess th) (CLockRecv r)) c))
      | _ => None
      end
  | CUnlockSend r todo =>
      match r_h (c_regs c r) with
      | HIdle => Some (LSend t r MUnlock, set_region r (set_h (HGot (-1)) (c_regs c r)) (set_thread t (MkThread (t_prog th) (t_sess th) (CUnlockRecv r todo)) c))
      | _ => None
      end
  | CFuncSend r f =>
      match r_h (c_regs c r) with
      | HIdle => Some (LSend t r (MFunc f), set_region r (set_h (HGotFunc f) (c_regs c r)) (set_thread t (MkThread (t_prog th) (t_sess th) (CFuncRecv r f)) c))
      | _ => None
      end
  | _ => None
  end.
(** any goroutine that is receiving from the channel can get the reply *)
Definition replyf (t : nat) (th : thread) (c : config) : option (label * config) :=
  match t_ctl th with
  | CLockRecv r =>
      match r_h (c_regs c r) with
      | HReply time => Some (LReply t r, set_region r (set_h HIdle (c_regs c r)) (set_thread t (MkThread (t_prog th) (t_sess th) (CLockGot r time)) c))
      | _ => None
      end
  | CUnlockRecv r todo =>
      match r_h (c_regs c r) with
      | HReply time => Some (LReply t r, set_region r (set_h HIdle (c_regs c r)) (set_thread t (MkThread (t_prog th) (t_sess th) (CClosing todo)) c))
      | _ => None
      end
  | CFuncRecv r f =>
      match r_h (c_regs c r) with
      | HReplyFunc => Some (LReply t r, set_region r (set_h HIdle (c_regs c r)) (set_thread t (MkThread (t_prog th) (t_sess th) (CFuncGot r f)) c))
      | _ => None
      end
  | _ => None
  end.
(** handleLockUnlock (metric.go:165-176), handleUpdateFunc (178-181) *)
Definition handlef (r : nat) (time : Z) (x : region) : option (label * region) :=
  match r_h x with
  | HGot inc =>
      let prev := r_lock x in
      let lock := r_lock x + inc in
      if decide (lock < 0) then Some (LDie r, MkRegion lock (r_func x) (r_time x) (r_vars x) HDead)
      else if decide (prev = 0 ∧ lock > 0)
        then Some (LUpdBegin r (r_func x), MkRegion lock (r_func x) (r_time x) (r_vars x) (HUpdating (r_func x)))
        else Some (LHandled r, MkRegion lock (r_func x) (r_time x) (r_vars x) (HReply (r_time x)))
  | HUpdating f => Some (LUpdEnd r f time, MkRegion (r_lock x) (r_func x) time (r_vars x) (HReply time))
  | HGotFunc f => Some (LSetFunc r f, MkRegion (r_lock x) f (r_time x) (r_vars x) HReplyFunc)
  | _ => None
  end.
Definition stepf (c : config) (k : cmd) : option (label * config) :=
  match k with
  | Spawn p => if bracketed false p then Some (LSpawn (length (c_pool c)) p, MkConfig (c_regs c) (c_pool c ++ [MkThread p None CReady]) (c_agg c)) else None
  | Local t ch => match c_pool c !! t with Some th => localf t ch th c | None => None end
  | Send t => match c_pool c !! t with Some th => sendf t th c | None => None end
  | Reply t => match c_pool c !! t with Some th => replyf t th c | None => None end
  | Handle r time => match handlef r time (c_regs c r) with Some (l, x) => Some (l, set_region r x c) | None => None end
  | Write r x v =>
      match r_h (c_regs c r) with
      | HUpdating f => Some (LWrite r x v, set_region r (MkRegion (r_lock (c_regs c r)) (r_func (c_regs c r)) (r_time (c_regs c r)) (fupd x v (r_vars (c_regs c r))) (HUpdating f)) c)
      | _ => None
      end
  end.
(** newRegion(f), metric.go:134-146: r has update function f0 r and its variables contain v0 r *)
Definition init_region (f0 : nat) (v0 : nat → Z) : region := MkRegion 0 f0 0 v0 HIdle.
Definition init_config (f0 : nat → nat) (v0 : nat → nat → Z) : config := MkConfig (λ r, init_region (f0 r) (v0 r)) [] (λ _, 0).
(** an execution from c to c' with its labels *)
Inductive exec (c : config) : list label → config → Prop :=
  | exec_nil : exec c [] c
  | exec_snoc tr c1 k l c2 : exec c tr c1 → stepf c1 k = Some (l, c2) → exec c (tr ++ [l]) c2.

(** What the requests do to sessions.  A metric of region r with variable x that is not a callback. *)
(** evaluate with a nil session, metric.go:944-960, as used by AsTextString(nil) (metric.go:1243-1249,
    textEmitDirectoryOrMetric html.go:260-271): the deferred Close runs when evaluate returns, and the
    reflect.Value is read afterwards. *)
Definition text_singleton (r x : nat) : list action := [AOpen; AVisit r; AClose; ARead r x].
(** updateJsonOrRpcMetric with a nil session, metric.go:1156-1164: Close is deferred to the end *)
Definition rpc_singleton (r x : nat) : list action := [AOpen; AVisit r; ARead r x; AVisit r; AClose].
(** one metric of a listing: IsInfNaN (evaluate), AsInterface (evaluate), TimeStamp (Visit) *)
Definition list_metric (m : nat * nat) : list action := [AVisit m.1; ARead m.1 m.2; AVisit m.1; ARead m.1 m.2; AVisit m.1].
(** GetAllMetricsByPath with a nil session, metric.go:1529-1542, GetAllMetrics 1563-1580: one session for everything *)
Definition listing (ms : list (nat * nat)) : list action := [AOpen] ++ (ms ≫= list_metric) ++ [AClose].
(** The same requests with the writing of the response.  JSON: the response is put together in memory and written
    after the session is closed (jsonHandlerFunc, json.go:32-57).  RPC: net/rpc sends the reply after the method has
    returned (rpc.go:21-35). *)
Definition api_listing (ms : list (nat * nat)) : list action := listing ms ++ [AEmit].
Definition api_singleton (r x : nat) : list action := rpc_singleton r x ++ [AEmit].
(** Text: every metric is written when it is visited (textCollector.Collect, html.go:186-191, textEmitMetric 244-258). *)
Definition text_metric (m : nat * nat) : list action := [AEmit; AVisit m.1; ARead m.1 m.2; AEmit].
Definition text_listing (ms : list (nat * nat)) : list action := [AOpen] ++ (ms ≫= text_metric) ++ [AClose].
Definition text_single (r x : nat) : list action := text_singleton r x ++ [AEmit].
(** HTML: the template is executed on the response itself (htmlEmitDirectory, htmlEmitMetric, html.go:152-166), inside
    the session of htmlEmitDirectoryOrMetric (168-182); AsHtmlString visits and reads (html.go:110-112). *)
Definition html_page (ms : list (nat * nat)) : list action := [AOpen; AEmit] ++ (ms ≫= text_metric) ++ [AEmit; AClose].
(** A request that stops after n actions, because a write fails (html.go:187-190, metric.go:1575-1577) or a callback
    panics: the deferred Close (metric.go:1567, html.go:177) still runs. *)
Fixpoint cut (n : nat) (open : bool) (p : list action) : list action :=
  match n, p with
  | O, _ => if open then [AClose] else []
  | S n, a :: p => a :: cut n (match a with AOpen => true | AClose => false | _ => open end) p
  | S _, [] => []
  end.
