(** What users of lists rely on, stated from the documentation (api.go:307-351, messages/api.go:61-96). *)
From Verif Require Import GoBase GoVal UnitsModel DurationModel TypesModel.
From stdpp Require Import list.
From Verif Require Import ReflectModel ListModel.

(** The Go types of single values that tricorder supports, and the Kind under which each is reported; declared types
    count as their underlying type. *)
Inductive reported_as : wordsize → rtype → type_t → Prop :=
  | ra_bool w n : reported_as w (RBasic KBool n) TBool
  | ra_int8 w n : reported_as w (RBasic KInt8 n) Int8
  | ra_int16 w n : reported_as w (RBasic KInt16 n) Int16
  | ra_int32 w n : reported_as w (RBasic KInt32 n) Int32
  | ra_int64 w n : reported_as w (RBasic KInt64 n) Int64
  | ra_int_32 n : reported_as W32 (RBasic KInt n) Int32
  | ra_int_64 n : reported_as W64 (RBasic KInt n) Int64
  | ra_uint8 w n : reported_as w (RBasic KUint8 n) Uint8
  | ra_uint16 w n : reported_as w (RBasic KUint16 n) Uint16
  | ra_uint32 w n : reported_as w (RBasic KUint32 n) Uint32
  | ra_uint64 w n : reported_as w (RBasic KUint64 n) Uint64
  | ra_uint_32 n : reported_as W32 (RBasic KUint n) Uint32
  | ra_uint_64 n : reported_as W64 (RBasic KUint n) Uint64
  | ra_float32 w n : reported_as w (RBasic KFloat32 n) Float32
  | ra_float64 w n : reported_as w (RBasic KFloat64 n) Float64
  | ra_string w n : reported_as w (RBasic KString n) TString
  | ra_time w : reported_as w RTime GoTime
  | ra_duration w : reported_as w RDuration GoDuration.

(** An int or uint is reported as the sized type of the architecture, everything else as it is. *)
Definition sized (w : wordsize) (v : rval) : rval :=
  match v, w with
  | RVBasic KInt _ z, W32 => RVBasic KInt32 None z
  | RVBasic KInt _ z, W64 => RVBasic KInt64 None z
  | RVBasic KUint _ z, W32 => RVBasic KUint32 None z
  | RVBasic KUint _ z, W64 => RVBasic KUint64 None z
  | _, _ => v
  end.

(** The calls for which the documentation promises isolation. *)
Definition isolated (s : slice) (mutable : bool) : Prop := mutable = true ∨ ∃ n, s_elem s = RBasic KInt n ∨ s_elem s = RBasic KUint n.

(** No call of Change on list l takes effect during es. *)
Fixpoint quiet (w : wordsize) (l : nat) (st : world) (es : list event) : Prop :=
  match es with
  | [] => True
  | e :: es =>
      (∀ p pe, e = ECommit p → w_pending st !! p = Some pe → p_list pe ≠ l) ∧
      ∀ st' r, step w st e = Some (st', r) → quiet w l st' es
  end.
(** The program does not write the array of slice s during es. *)
Definition keeps (s : slice) (es : list event) : Prop := ∀ i v, EWrite (s_array s) i v ∉ es.
