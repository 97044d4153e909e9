(** Methods that hold one sync.RWMutex for their whole body (defer Unlock), called by any number of goroutines.

    Used for distributions (metric.go:362-593), lists (metric.go:680-692) and the health server.  A method body is a
    tree of steps, each of which reads or writes the protected fields once; between two steps any other goroutine may
    run.  The mutex is explicit.  Go's mutex also keeps readers out while a writer waits, which only removes
    interleavings; panics run the deferred Unlock, so a panic is a result like any other. *)
From Coq Require Import Lia.
From stdpp Require Import list.

Inductive prog (S R : Type) : Type :=
  | Done (r : R)
  | Step (f : S → S * prog S R).
Arguments Done {S R}. Arguments Step {S R}.
(** read something, write something *)
Definition rd {S R X} (f : S → X) (k : X → prog S R) : prog S R := Step (λ s, (s, k (f s))).
Definition wr {S R} (f : S → S) (k : prog S R) : prog S R := Step (λ s, (f s, k)).

Inductive mode := Rd | Wr.

(** a class of objects: the kind of lock a method takes, and its body *)
Record monitor := MkMonitor { m_state : Type; m_call : Type; m_res : Type; m_mode : m_call → mode; m_body : m_call → prog m_state m_res }.

Section Run.
  Context (M : monitor).
  (** a goroutine: it called, it holds the lock and has this left to do, it returned *)
  Inductive phase := Waiting (c : m_call M) | Inside (c : m_call M) (p : prog (m_state M) (m_res M)) | Returned (c : m_call M).
  Record config := MkConfig { c_st : m_state M; c_writer : bool; c_readers : nat; c_threads : list phase }.
  Inductive label := LCall (t : nat) (c : m_call M) | LAcq (t : nat) | LRun (t : nat) | LRet (t : nat) (r : m_res M).
  Definition acquire (m : mode) (c : config) : option (bool * nat) :=
    match m with
    | Wr => if c_writer c || negb (Nat.eqb (c_readers c) 0) then None else Some (true, 0)
    | Rd => if c_writer c then None else Some (false, S (c_readers c))
    end.
  Definition release (m : mode) (c : config) : bool * nat :=
    match m with Wr => (false, c_readers c) | Rd => (c_writer c, Nat.pred (c_readers c)) end.
  Inductive step : config → label → config → Prop :=
    | step_call c x : step c (LCall (length (c_threads c)) x) (MkConfig (c_st c) (c_writer c) (c_readers c) (c_threads c ++ [Waiting x]))
    | step_acq c t x w r : c_threads c !! t = Some (Waiting x) → acquire (m_mode M x) c = Some (w, r) →
        step c (LAcq t) (MkConfig (c_st c) w r (<[t := Inside x (m_body M x)]> (c_threads c)))
    | step_run c t x f s p : c_threads c !! t = Some (Inside x (Step f)) → f (c_st c) = (s, p) →
        step c (LRun t) (MkConfig s (c_writer c) (c_readers c) (<[t := Inside x p]> (c_threads c)))
    | step_ret c t x r w n : c_threads c !! t = Some (Inside x (Done r)) → release (m_mode M x) c = (w, n) →
        step c (LRet t r) (MkConfig (c_st c) w n (<[t := Returned x]> (c_threads c))).
  Definition start (s : m_state M) : config := MkConfig s false 0 [].
  Inductive exec (c0 : config) : list label → config → Prop :=
    | exec_nil : exec c0 [] c0
    | exec_snoc tr c l c' : exec c0 tr c → step c l c' → exec c0 (tr ++ [l]) c'.
End Run.
Arguments Waiting {M}. Arguments Inside {M}. Arguments Returned {M}. Arguments LCall {M}. Arguments LAcq {M}. Arguments LRun {M}. Arguments LRet {M}.
Arguments c_st {M}. Arguments c_writer {M}. Arguments c_readers {M}. Arguments c_threads {M}.
