(** Go types and values as package reflect shows them to metric.go, and the functions of metric.go that only look at
    one value (metric.go:756-823, 1010-1086). *)
From Verif Require Import GoBase GoVal UnitsModel DurationModel TypesModel.
From Flocq Require Import IEEE754.BinarySingleNaN.
From stdpp Require Import list strings.

(** reflect.Kind, the kinds that getPrimitiveType distinguishes *)
Inductive kind := KBool | KInt | KInt8 | KInt16 | KInt32 | KInt64 | KUint | KUint8 | KUint16 | KUint32 | KUint64 | KFloat32 | KFloat64 | KString.
Definition kdenote (k : kind) : Type :=
  match k with
  | KBool => bool
  | KFloat32 => float32
  | KFloat64 => float64
  | KString => string
  | _ => Z
  end.
(** reflect.Type: the predeclared type of a kind ([named] = None) or a type declared with such an underlying type
    ("type Celsius float64"), time.Time, *time.Time, time.Duration (a declared type of kind Int64 that the code
    recognises), and every other type: structs, other pointers, maps, channels, interfaces, slices. *)
Inductive rtype := RBasic (k : kind) (named : option string) | RTime | RTimePtr | RDuration | ROther (name : string).
(** reflect.Value of such a type; None in RVTimePtr is the nil pointer *)
Inductive rval :=
  | RVBasic (k : kind) (named : option string) (v : kdenote k)
  | RVTime (t : gotime)
  | RVTimePtr (t : option gotime)
  | RVDuration (d : Z)
  | RVOther (name : string) (payload : N).
Definition rtype_of (v : rval) : rtype :=
  match v with
  | RVBasic k n _ => RBasic k n
  | RVTime _ => RTime
  | RVTimePtr _ => RTimePtr
  | RVDuration _ => RDuration
  | RVOther n _ => ROther n
  end.

#[global] Instance kind_eq_dec : EqDecision kind. Proof. solve_decision. Defined.
#[global] Instance rtype_eq_dec : EqDecision rtype. Proof. solve_decision. Defined.

(** int and uint have 32 or 64 bits (metric.go:34 intSizeInBits) *)
Inductive wordsize := W32 | W64.
(** the values of each integer kind; a time.Duration is an int64 *)
Definition between (lo z hi : Z) : bool := Z.leb lo z && Z.ltb z hi.
Definition kind_ok (w : wordsize) (k : kind) : kdenote k → bool :=
  match k return kdenote k → bool with
  | KInt8 => λ z, between (-2^7) z (2^7)
  | KInt16 => λ z, between (-2^15) z (2^15)
  | KInt32 => λ z, between (-2^31) z (2^31)
  | KInt64 => λ z, between (-2^63) z (2^63)
  | KInt => λ z, match w with W32 => between (-2^31) z (2^31) | W64 => between (-2^63) z (2^63) end
  | KUint8 => λ z, between 0 z (2^8)
  | KUint16 => λ z, between 0 z (2^16)
  | KUint32 => λ z, between 0 z (2^32)
  | KUint64 => λ z, between 0 z (2^64)
  | KUint => λ z, match w with W32 => between 0 z (2^32) | W64 => between 0 z (2^64) end
  | _ => λ _, true
  end.
(** v is a value of its type *)
Definition rval_ok (w : wordsize) (v : rval) : bool :=
  match v with
  | RVBasic k _ x => kind_ok w k x
  | RVDuration d => between (-2^63) d (2^63)
  | _ => true
  end.

(** metric.go:756-814  getPrimitiveType; None = not supported *)
Definition getPrimitiveType (w : wordsize) (t : rtype) : option (type_t * bool) :=
  match t with
  | RTimePtr => Some (GoTime, true)
  | RTime => Some (GoTime, false)
  | RDuration => Some (GoDuration, false)
  | RBasic k _ => Some (match k with
      | KBool => TBool
      | KInt => match w with W32 => Int32 | W64 => Int64 end
      | KInt8 => Int8 | KInt16 => Int16 | KInt32 => Int32 | KInt64 => Int64
      | KUint => match w with W32 => Uint32 | W64 => Uint64 end
      | KUint8 => Uint8 | KUint16 => Uint16 | KUint32 => Uint32 | KUint64 => Uint64
      | KFloat32 => Float32 | KFloat64 => Float64 | KString => TString
      end, false)
  | ROther _ => None
  end.

(** reflect.Value.Int, Uint; None = panic *)
Definition value_Int (v : rval) : option Z :=
  match v with
  | RVBasic (KInt | KInt8 | KInt16 | KInt32 | KInt64) _ z => Some z
  | RVDuration d => Some d
  | _ => None
  end.
Definition value_Uint (v : rval) : option Z :=
  match v with
  | RVBasic (KUint | KUint8 | KUint16 | KUint32 | KUint64) _ z => Some z
  | _ => None
  end.
(** reflect.Value.Float (a float32 is widened, which is exact), Bool, String. Value.String does not panic on other
    kinds but returns "<T Value>". *)
Definition value_Float (v : rval) : option (float32 + float64) :=
  match v with
  | RVBasic KFloat32 _ f => Some (inl f)
  | RVBasic KFloat64 _ f => Some (inr f)
  | _ => None
  end.
Definition value_Bool (v : rval) : option bool := match v with RVBasic KBool _ b => Some b | _ => None end.

(** metric.go:1010-1020  valueToTime; None = panic of the type assertion *)
Definition valueToTime (v : rval) (isPtr : bool) : option gotime :=
  if isPtr then
    match v with RVTimePtr None => Some zero_time | RVTimePtr (Some t) => Some t | _ => None end
  else match v with RVTime t => Some t | _ => None end.
(** metric.go:1022-1024 *)
Definition valueToGoDuration (v : rval) : option Z := value_Int v.
(** conversions int32(x), uint32(x), uint64(x) of Go *)
Definition to_uint (bits : Z) (z : Z) : Z := (z mod 2 ^ bits)%Z.
(** metric.go:1057-1086  valueToInterface: the dynamic type and value of the result; None = panic *)
Definition valueToInterface (v : rval) (t : type_t) (isPtr : bool) : option rval :=
  if String.eqb t Int32 && negb isPtr then option_map (λ z, RVBasic KInt32 None (wrap32 z)) (value_Int v)
  else if String.eqb t Int64 && negb isPtr then option_map (λ z, RVBasic KInt64 None z) (value_Int v)
  else if String.eqb t Uint32 && negb isPtr then option_map (λ z, RVBasic KUint32 None (to_uint 32 z)) (value_Uint v)
  else if String.eqb t Uint64 && negb isPtr then option_map (λ z, RVBasic KUint64 None z) (value_Uint v)
  else if String.eqb t GoTime then option_map RVTime (valueToTime v isPtr)
  else if String.eqb t GoDuration then option_map RVDuration (valueToGoDuration v)
  else if negb isPtr then Some v                        (* value.Interface() keeps the dynamic type *)
  else None.                                            (* panic(panicIncompatibleTypes) *)

(** The value as the message packages see it (GoVal.v): a declared type is none of the types of their switches. *)
Definition to_goval (v : rval) : goval :=
  match v with
  | RVBasic KBool None b => VScalar SBool b
  | RVBasic KInt8 None z => VScalar SInt8 z
  | RVBasic KInt16 None z => VScalar SInt16 z
  | RVBasic KInt32 None z => VScalar SInt32 z
  | RVBasic KInt64 None z => VScalar SInt64 z
  | RVBasic KUint8 None z => VScalar SUint8 z
  | RVBasic KUint16 None z => VScalar SUint16 z
  | RVBasic KUint32 None z => VScalar SUint32 z
  | RVBasic KUint64 None z => VScalar SUint64 z
  | RVBasic KFloat32 None f => VScalar SFloat32 f
  | RVBasic KFloat64 None f => VScalar SFloat64 f
  | RVBasic KString None s => VScalar SString s
  | RVBasic _ None _ => VOther "int or uint" NotNilable 0
  | RVBasic _ (Some n) _ => VOther n NotNilable 0
  | RVTime t => VScalar STime t
  | RVTimePtr p => VOther "*time.Time" (OtherNil (match p with None => true | _ => false end)) 0
  | RVDuration d => VScalar SDuration d
  | RVOther n p => VOther n NotNilable p
  end.
