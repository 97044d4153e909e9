(** Vocabulary for statements about how time stamps develop. *)
From Coq Require Import ZArith.
From Verif Require Import GoBase GoVal UnitsModel DurationModel TypesModel FloatBase.
From stdpp Require Import list.
From Verif Require Import MonitorModel MonitorSpec DistModel DistConc ReflectModel ListModel ListConc.
Local Open Scope Z_scope.

(** the instant in nanoseconds *)
Definition instant (t : gotime) : Z := t_sec t * 1000000000 + t_nsec t.

Section Stamps.
  (** [now c]: the time on the clock when a call that changes the object was made (None: another call);
      [shows r]: the time stamp that a result reports *)
  Context (M : monitor) (now : m_call M → option gotime).
  (** The clock does not go back: the object was created at [ts0], and later calls were made at later times. *)
  Definition clocked (ts0 : gotime) (tr : list (label M)) : Prop :=
    (∀ t c a, LCall t c ∈ tr → now c = Some a → instant ts0 ≤ instant a) ∧
    ∀ t c t' c' a b, precedes tr (LCall t c) (LCall t' c') → now c = Some a → now c' = Some b → instant a ≤ instant b.
  (** t called c, and had not returned when t' called c' *)
  Definition overtaken (tr : list (label M)) (t : nat) (c : m_call M) (t' : nat) (c' : m_call M) : Prop :=
    precedes tr (LCall t c) (LCall t' c') ∧ ∀ r, ¬ precedes tr (LRet t r) (LCall t' c').
End Stamps.

(** Add, Update and Remove, and what a snapshot shows; the time is read before the lock is taken (metric.go:396-429) *)
Definition dist_now (c : dcall) : option gotime :=
  match c with KCall (CAdd _ ts) | KCall (CUpdate _ _ ts) | KCall (CRemove _ ts) => Some ts | _ => None end.
Definition dist_shows (r : dres) : option gotime := match r with RSnapshot (Some s) => Some (s_ts s) | _ => None end.
(** Change and AsSlice; the time is read by the caller of ChangeWithTimeStamp (api.go:347-349, metric.go:680-692) *)
Definition list_now (c : lcall) : option gotime := match c with KChange _ ts => Some ts | KGet => None end.
Definition list_shows (r : lres) : option gotime := match r with RGot _ ts => Some ts | RChanged => None end.
