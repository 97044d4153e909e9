(** Conversions between metric values and float64: types/api.go:239-300, types/types.go:7-12 and the floating point part of go/tricorder/duration. *)
From Coq Require Import ZArith Bool String List.
From Flocq Require Import Core.Core IEEE754.BinarySingleNaN.
From Verif Require Import GoBase UnitsModel DurationModel GoVal TypesModel FloatBase.
Import ListNotations.
Local Open Scope Z_scope.

(** What a conversion gives: a value, a panic, or a result that the Go language leaves to the implementation
    (float64 to integer when the integer part does not fit the type). *)
Inductive conv (A : Type) := ConvOk (a : A) | ConvPanic | ConvUnspecified.
Arguments ConvOk {A} a.
Arguments ConvPanic {A}.
Arguments ConvUnspecified {A}.

(** T(f) for a float64 f and an integer type T with the values lo..hi: the fraction is discarded (Go specification, "Conversions"). *)
Definition f64_to_int (lo hi : Z) (f : float64) : conv Z :=
  if is_finite f && (lo <=? Btrunc f) && (Btrunc f <=? hi) then ConvOk (Btrunc f) else ConvUnspecified.
Definition f64_to_int64 : float64 -> conv Z := f64_to_int (-2 ^ 63) (2 ^ 63 - 1).
Definition f64_to_int32 : float64 -> conv Z := f64_to_int (-2 ^ 31) (2 ^ 31 - 1).
(** float32(f): rounds to nearest even *)
Definition f32_of_f64 (f : float64) : float32 :=
  match f with
  | B754_zero s => B754_zero s
  | B754_infinity s => B754_infinity s
  | B754_nan => B754_nan
  | B754_finite s m e _ => binary_normalize 24 128 eq_refl eq_refl mode_NE (if s then Zneg m else Zpos m) e s
  end.
(** x * y + z.  A Go compiler may round once (fused) or twice; amd64 always rounds twice. *)
Definition mul_add (fused : bool) (x y z : float64) : float64 :=
  if fused then Bfma mode_NE x y z else f64_add (f64_mul x y) z.

(** the literals 0.5, 1e9 and 1e-9 *)
Definition f64_half : float64 := B754_finite (prec:=53) (emax:=1024) false 4503599627370496 (-53) eq_refl.
Definition f64_1e9 : float64 := B754_finite (prec:=53) (emax:=1024) false 8388608000000000 (-23) eq_refl.
Definition f64_1em9 : float64 := B754_finite (prec:=53) (emax:=1024) false 4835703278458517 (-82) eq_refl.

(** types/types.go:7-12  round *)
Definition round_away (f : float64) : float64 :=
  if f64_lt f (f64_of_Z 0) then f64_sub f f64_half else f64_add f f64_half.

(** duration/api.go:92-94  ToFloat.  float64(time.Second) is the constant 1e9. *)
Definition dur_ToFloat (d : Z) : float64 := f64_div (f64_of_Z d) f64_1e9.
(** duration/api.go:97-99  FromFloat *)
Definition dur_FromFloat (fused : bool) (seconds : float64) : conv Z :=
  f64_to_int64 (mul_add fused seconds f64_1e9 f64_half).

(** math.Modf (Go standard library math/modf.go): integer part, rounded to zero, and the rest *)
Definition modf (f : float64) : float64 * float64 :=
  let i := Bnearbyint mode_ZR f in (i, f64_sub f i).
(** duration.go:34-39  sinceEpochFloat *)
Definition sinceEpochFloat (f : float64) : conv Duration :=
  let (ii, ff) := modf f in
  match f64_to_int64 ii, f64_to_int32 (f64_mul ff f64_1e9) with
  | ConvOk s, ConvOk n => ConvOk (MkDur s n)
  | _, _ => ConvUnspecified
  end.
(** duration.go:57-59  asFloat *)
Definition asFloat (fused : bool) (d : Duration) : float64 :=
  if fused then Bfma mode_NE (f64_of_Z (Nanoseconds d)) f64_1em9 (f64_of_Z (Seconds d))
  else f64_add (f64_of_Z (Seconds d)) (f64_mul (f64_of_Z (Nanoseconds d)) f64_1em9).
(** duration/api.go:82-89  FloatToTime, TimeToFloat *)
Definition FloatToTime (f : float64) : conv gotime :=
  match sinceEpochFloat f with
  | ConvOk d => ConvOk (asGoTime d)
  | ConvPanic => ConvPanic
  | ConvUnspecified => ConvUnspecified
  end.
Definition TimeToFloat (fused : bool) (t : gotime) : float64 := asFloat fused (sinceEpoch t).

(** types/api.go:239-268  FromFloat *)
Definition from_int (st : sty) (mk : Z -> denote st) (lo hi : Z) (f : float64) : conv goval :=
  match f64_to_int lo hi (round_away f) with
  | ConvOk z => ConvOk (VScalar st (mk z))
  | _ => ConvUnspecified
  end.
Definition FromFloat (fused : bool) (t : type_t) (value : float64) : conv goval :=
  if String.eqb t Int8 then from_int SInt8 (fun z => z) (-2 ^ 7) (2 ^ 7 - 1) value
  else if String.eqb t Int16 then from_int SInt16 (fun z => z) (-2 ^ 15) (2 ^ 15 - 1) value
  else if String.eqb t Int32 then from_int SInt32 (fun z => z) (-2 ^ 31) (2 ^ 31 - 1) value
  else if String.eqb t Int64 then from_int SInt64 (fun z => z) (-2 ^ 63) (2 ^ 63 - 1) value
  else if String.eqb t Uint8 then from_int SUint8 (fun z => z) 0 (2 ^ 8 - 1) value
  else if String.eqb t Uint16 then from_int SUint16 (fun z => z) 0 (2 ^ 16 - 1) value
  else if String.eqb t Uint32 then from_int SUint32 (fun z => z) 0 (2 ^ 32 - 1) value
  else if String.eqb t Uint64 then from_int SUint64 (fun z => z) 0 (2 ^ 64 - 1) value
  else if String.eqb t Float32 then ConvOk (VScalar SFloat32 (f32_of_f64 value))
  else if String.eqb t Float64 then ConvOk (VScalar SFloat64 value)
  else if String.eqb t GoTime then
    match FloatToTime value with ConvOk x => ConvOk (VTime x) | _ => ConvUnspecified end
  else if String.eqb t GoDuration then
    match dur_FromFloat fused value with ConvOk x => ConvOk (VDuration x) | _ => ConvUnspecified end
  else ConvPanic.

(** types/api.go:272-300  ToFloat.  The type assertion x.(T) panics when x has another dynamic type. *)
Definition ToFloat (fused : bool) (t : type_t) (x : goval) : conv float64 :=
  if String.eqb t Int8 then match x with VScalar SInt8 v => ConvOk (f64_of_Z v) | _ => ConvPanic end
  else if String.eqb t Int16 then match x with VScalar SInt16 v => ConvOk (f64_of_Z v) | _ => ConvPanic end
  else if String.eqb t Int32 then match x with VScalar SInt32 v => ConvOk (f64_of_Z v) | _ => ConvPanic end
  else if String.eqb t Int64 then match x with VScalar SInt64 v => ConvOk (f64_of_Z v) | _ => ConvPanic end
  else if String.eqb t Uint8 then match x with VScalar SUint8 v => ConvOk (f64_of_Z v) | _ => ConvPanic end
  else if String.eqb t Uint16 then match x with VScalar SUint16 v => ConvOk (f64_of_Z v) | _ => ConvPanic end
  else if String.eqb t Uint32 then match x with VScalar SUint32 v => ConvOk (f64_of_Z v) | _ => ConvPanic end
  else if String.eqb t Uint64 then match x with VScalar SUint64 v => ConvOk (f64_of_Z v) | _ => ConvPanic end
  else if String.eqb t Float32 then match x with VScalar SFloat32 v => ConvOk (f64_of_f32 v) | _ => ConvPanic end
  else if String.eqb t Float64 then match x with VScalar SFloat64 v => ConvOk v | _ => ConvPanic end
  else if String.eqb t GoTime then match x with VScalar STime v => ConvOk (TimeToFloat fused v) | _ => ConvPanic end
  else if String.eqb t GoDuration then match x with VScalar SDuration v => ConvOk (dur_ToFloat v) | _ => ConvPanic end
  else ConvPanic.
