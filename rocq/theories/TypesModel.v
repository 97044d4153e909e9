(** Model of go/tricorder/types (types/api.go), except the float conversions (FloatModel.v). *)
From Verif Require Import GoBase GoVal UnitsModel DurationModel.
From Flocq Require Import IEEE754.BinarySingleNaN.
Local Open Scope string_scope.

(** types/api.go:10  type Type string *)
Definition type_t := string.
(** types/api.go:12-35 *)
Definition Unknown : type_t := "".
Definition TBool : type_t := "bool".
Definition Int8 : type_t := "int8".
Definition Int16 : type_t := "int16".
Definition Int32 : type_t := "int32".
Definition Int64 : type_t := "int64".
Definition Uint8 : type_t := "uint8".
Definition Uint16 : type_t := "uint16".
Definition Uint32 : type_t := "uint32".
Definition Uint64 : type_t := "uint64".
Definition Float32 : type_t := "float32".
Definition Float64 : type_t := "float64".
Definition TString : type_t := "string".
Definition GoTime : type_t := "goTime".
Definition GoDuration : type_t := "goDuration".
Definition Dist : type_t := "distribution".
Definition TList : type_t := "list".
Definition Time : type_t := "time".
Definition TDuration : type_t := "duration".

(** [t == a || t == b ...] / the labels of a switch case *)
Definition is_one_of (t : type_t) (l : list type_t) : bool := existsb (String.eqb t) l.

(** types/api.go:53-87: the label of each scalar case *)
Definition scalar_type (t : sty) : type_t :=
  match t with
  | SBool => TBool | SInt8 => Int8 | SInt16 => Int16 | SInt32 => Int32 | SInt64 => Int64
  | SUint8 => Uint8 | SUint16 => Uint16 | SUint32 => Uint32 | SUint64 => Uint64
  | SFloat32 => Float32 | SFloat64 => Float64 | SString => TString
  | STime => GoTime | SDuration => GoDuration
  end.

(** types/api.go:52-131  FromGoValueWithSubType *)
Definition FromGoValueWithSubType (value : goval) : type_t * type_t :=
  match value with
  | VScalar t _ => (scalar_type t, Unknown)        (* :54-81 *)
  | VDist _ => (Dist, Unknown)                     (* :82-83 goValue, messages/api.go:54-56 *)
  | VTyped ty _ => (ty, Unknown)                   (* :82-83 goValue *)
  | VSlice t _ => (TList, scalar_type t)           (* :84-125 *)
  | VNil | VOther _ _ _ => (Unknown, Unknown)      (* :126 *)
  end.

(** types/api.go:41-44  FromGoValue *)
Definition FromGoValue (value : goval) : type_t := fst (FromGoValueWithSubType value).

(** types/api.go:133-169  SafeZeroValue; None = error *)
Definition SafeZeroValue (t : type_t) : option goval :=
  if String.eqb t TBool then Some (VScalar SBool false)
  else if String.eqb t Int8 then Some (VScalar SInt8 0%Z)
  else if String.eqb t Int16 then Some (VScalar SInt16 0%Z)
  else if String.eqb t Int32 then Some (VScalar SInt32 0%Z)
  else if String.eqb t Int64 then Some (VScalar SInt64 0%Z)
  else if String.eqb t Uint8 then Some (VScalar SUint8 0%Z)
  else if String.eqb t Uint16 then Some (VScalar SUint16 0%Z)
  else if String.eqb t Uint32 then Some (VScalar SUint32 0%Z)
  else if String.eqb t Uint64 then Some (VScalar SUint64 0%Z)
  else if String.eqb t Float32 then Some (VScalar SFloat32 (B754_zero false))
  else if String.eqb t Float64 then Some (VScalar SFloat64 (B754_zero false))
  else if String.eqb t TString then Some (VString "")
  else if is_one_of t [Time; TDuration] then Some (VString "0.000000000")
  else if String.eqb t GoTime then Some (VTime zero_time)
  else if String.eqb t GoDuration then Some (VDuration 0)
  else None.
(** types/api.go:172-178  ZeroValue; None = panic *)
Definition ZeroValue (t : type_t) : option goval := SafeZeroValue t.

(** types/api.go:182-216  SafeNilSlice; None = error *)
Definition SafeNilSlice (t : type_t) : option goval :=
  if String.eqb t TBool then Some (VSlice SBool None)
  else if String.eqb t Int8 then Some (VSlice SInt8 None)
  else if String.eqb t Int16 then Some (VSlice SInt16 None)
  else if String.eqb t Int32 then Some (VSlice SInt32 None)
  else if String.eqb t Int64 then Some (VSlice SInt64 None)
  else if String.eqb t Uint8 then Some (VSlice SUint8 None)
  else if String.eqb t Uint16 then Some (VSlice SUint16 None)
  else if String.eqb t Uint32 then Some (VSlice SUint32 None)
  else if String.eqb t Uint64 then Some (VSlice SUint64 None)
  else if String.eqb t Float32 then Some (VSlice SFloat32 None)
  else if String.eqb t Float64 then Some (VSlice SFloat64 None)
  else if is_one_of t [TString; Time; TDuration] then Some (VSlice SString None)
  else if String.eqb t GoTime then Some (VSlice STime None)
  else if String.eqb t GoDuration then Some (VSlice SDuration None)
  else None.
(** types/api.go:219-225  NilSlice; None = panic *)
Definition NilSlice (t : type_t) : option goval := SafeNilSlice t.

(** types/api.go:228-235 *)
Definition CanToFromFloat (t : type_t) : bool :=
  is_one_of t [Int8; Int16; Int32; Int64; Uint8; Uint16; Uint32; Uint64; Float32; Float64; GoTime; GoDuration].

(** types/api.go:303-313 *)
Definition IsInt (t : type_t) : bool := is_one_of t [Int8; Int16; Int32; Int64].
Definition IsUint (t : type_t) : bool := is_one_of t [Uint8; Uint16; Uint32; Uint64].
Definition IsFloat (t : type_t) : bool := is_one_of t [Float32; Float64].

(** types/api.go:315-328 *)
Definition Bits (t : type_t) : Z :=
  if is_one_of t [Int8; Uint8] then 8%Z
  else if is_one_of t [Int16; Uint16] then 16%Z
  else if is_one_of t [Int32; Uint32; Float32] then 32%Z
  else if is_one_of t [Int64; Uint64; Float64] then 64%Z
  else 0%Z.

(** types/api.go:331-338 *)
Definition UsesSubType (t : type_t) : bool := String.eqb t TList.
Definition SupportsEquality (t : type_t) : bool :=
  negb (String.eqb t TList) && negb (String.eqb t Dist) && negb (String.eqb t Unknown).

(** messages/api.go:157-163  messages.ZeroValue *)
Definition messages_ZeroValue (t : type_t) : option goval :=
  if String.eqb t Dist then Some (VDist None) else SafeZeroValue t.
