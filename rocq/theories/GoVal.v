(** Dynamic Go values (interface{}) as far as the tricorder packages distinguish them. *)
From Verif Require Export GoBase.
From Verif Require Import UnitsModel DurationModel.
From Flocq Require Import IEEE754.BinarySingleNaN.

(** float64 and float32: IEEE 754 binary64/binary32.  All NaNs are one value (no code here looks at payloads). *)
Definition float64 := binary_float 53 1024.
Definition float32 := binary_float 24 128.

(** The scalar dynamic types that appear in type switches (types/api.go:53-128). *)
Inductive sty :=
| SBool | SInt8 | SInt16 | SInt32 | SInt64 | SUint8 | SUint16 | SUint32 | SUint64
| SFloat32 | SFloat64 | SString | STime | SDuration.

(** Values of a scalar type. Integers are mathematical; [scalar_ok] below bounds them by their width. *)
Definition denote (t : sty) : Type :=
  match t with
  | SBool => bool
  | SInt8 | SInt16 | SInt32 | SInt64 | SUint8 | SUint16 | SUint32 | SUint64 => Z
  | SFloat32 => float32
  | SFloat64 => float64
  | SString => string
  | STime => gotime
  | SDuration => Z
  end.

(** messages/api.go:17-26 RangeWithCount, 29-51 Distribution *)
Record range_msg := MkRange { r_lower : float64; r_upper : float64; r_count : N }.
Record dist_msg := MkDist {
  dm_min : float64; dm_max : float64; dm_average : float64; dm_median : float64; dm_sum : float64;
  dm_count : N; dm_generation : N; dm_isNotCumulative : bool; dm_ranges : list range_msg }.

(** How reflect.Value.IsNil treats a value of some other dynamic type. *)
Inductive nilness := NotNilable | SliceNil (isnil : bool) | OtherNil (isnil : bool).

Inductive goval :=
| VNil                                          (* nil interface *)
| VScalar (t : sty) (v : denote t)
| VSlice (t : sty) (v : option (list (denote t))) (* None = nil slice *)
| VDist (d : option dist_msg)                    (* *messages.Distribution, None = nil pointer *)
| VTyped (ty : string) (payload : N)             (* any other type with a Type() types.Type method *)
| VOther (ty : string) (n : nilness) (payload : N). (* every other dynamic type *)

Definition VString (s : string) : goval := VScalar SString s.
Definition VTime (t : gotime) : goval := VScalar STime t.
Definition VDuration (d : Z) : goval := VScalar SDuration d.

(** Range of each fixed width type; a time.Time's Unix second is an int64 and its nanosecond is below 1e9. *)
Definition scalar_ok (t : sty) : denote t -> Prop :=
  match t return denote t -> Prop with
  | SInt8 => fun z => (-128 <= z < 128)%Z
  | SInt16 => fun z => (-32768 <= z < 32768)%Z
  | SInt32 => fun z => (-2^31 <= z < 2^31)%Z
  | SInt64 => fun z => (-2^63 <= z < 2^63)%Z
  | SUint8 => fun z => (0 <= z < 256)%Z
  | SUint16 => fun z => (0 <= z < 65536)%Z
  | SUint32 => fun z => (0 <= z < 2^32)%Z
  | SUint64 => fun z => (0 <= z < 2^64)%Z
  | SDuration => fun z => (-2^63 <= z < 2^63)%Z
  | STime => fun t => ((-2^63 <= t_sec t < 2^63) /\ 0 <= t_nsec t < 1000000000)%Z
  | _ => fun _ => True
  end.
