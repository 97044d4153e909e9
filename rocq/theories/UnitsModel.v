(** Model of go/tricorder/units/api.go *)
From Verif Require Import GoBase.
Local Open Scope string_scope.

(** units/api.go:5  type Unit string *)
Definition unit_t := string.
(** units/api.go:7-15 *)
Definition UUnknown : unit_t := "".
Definition UNone : unit_t := "None".
Definition UMillisecond : unit_t := "Milliseconds".
Definition USecond : unit_t := "Seconds".
Definition UCelsius : unit_t := "Celsius".
Definition UByte : unit_t := "Bytes".
Definition UBytePerSecond : unit_t := "BytesPerSecond".

(** units/api.go:17-22  func (u Unit) String() *)
Definition unit_String (u : unit_t) : string :=
  if String.eqb u UUnknown then "Unknown" else u.

(** units/api.go:34-41  func FromSecondsRational *)
Definition FromSecondsRational (u : unit_t) : Z * Z :=
  if String.eqb u UMillisecond then (1000, 1)%Z else (1, 1)%Z.
