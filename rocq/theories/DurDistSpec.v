(** Vocabulary for statements about durations in distributions. *)
From Coq Require Import ZArith Reals.
From Verif Require Import GoBase GoVal UnitsModel FloatBase.
From Flocq Require Import Core.Core IEEE754.BinarySingleNaN.
From stdpp Require Import list.
From Verif Require Import DistModel.

(** how many nanoseconds a unit of time has *)
Definition unit_ns (u : unit_t) : option Z := if String.eqb u USecond then Some 1000000000%Z else if String.eqb u UMillisecond then Some 1000000%Z else None.
(** e is the float64 nearest to x, as for a constant in a Go program *)
Definition nearest (e : num64) (x : R) : Prop := is_finite (e : float64) = true ∧ B2R (e : float64) = round radix2 (FLT_exp (-1074) 53) ZnearestE x.
(** es are end points, written as numbers with unit u, for the durations ds (in nanoseconds); k is unit_ns u *)
Definition endpoints_of (k : Z) (ds : list Z) (es : list num64) : Prop := Forall2 (λ d e, nearest e (IZR d / IZR k)) ds es.
(** the bucket of a duration: as many end points are not above it *)
Definition bucket_of (ds : list Z) (ns : Z) : nat := length (filter (λ d, (d ≤ ns)%Z) ds).
