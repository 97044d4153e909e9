(** What it means that a value survives the conversion to float64 and back. *)
From Coq Require Import ZArith Reals.
From Flocq Require Import Core.Core IEEE754.BinarySingleNaN.
From Verif Require Import GoBase DurationModel GoVal.

(** nanoseconds since the epoch *)
Definition ns_of_time (t : gotime) : Z := (t_sec t * 1000000000 + t_nsec t)%Z.
(** The number that the float64 stands for: integers and floats themselves, durations and times in seconds. *)
Definition exact_real (x : goval) : option R :=
  match x with
  | VScalar SInt8 v | VScalar SInt16 v | VScalar SInt32 v | VScalar SInt64 v
  | VScalar SUint8 v | VScalar SUint16 v | VScalar SUint32 v | VScalar SUint64 v => Some (IZR v)
  | VScalar SFloat32 v => if is_finite v then Some (B2R v) else None
  | VScalar SFloat64 v => if is_finite v then Some (B2R v) else None
  | VScalar STime t => Some (IZR (ns_of_time t) / IZR 1000000000)%R
  | VScalar SDuration d => Some (IZR d / IZR 1000000000)%R
  | _ => None
  end.
(** some float64 is exactly this number *)
Definition representable (r : R) : Prop := exists f : float64, is_finite f = true /\ B2R f = r.
(** the value lies within its type *)
Definition value_ok (x : goval) : Prop := match x with VScalar t v => scalar_ok t v | _ => True end.
(** odd integers whose neighbouring float64 numbers are one apart: adding 0.5 rounds them to the next even integer *)
Definition odd_53 (v : Z) : Prop := Z.odd v = true /\ (2 ^ 52 <= Z.abs v < 2 ^ 53)%Z.
(** the values that may come back changed: such integers, negative durations, and durations whose nanoseconds are not a float64 *)
Definition may_change (x : goval) : Prop :=
  match x with
  | VScalar SInt64 v | VScalar SUint64 v => odd_53 v
  | VScalar SDuration d => (d < 0)%Z \/ odd_53 d \/ ~ representable (IZR d)
  | _ => False
  end.
