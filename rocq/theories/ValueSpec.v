(** The documented Go types of Metric.Value (messages/api.go:56-96), and what the JSON encoder accepts. *)
From Verif Require Import GoBase GoVal UnitsModel DurationModel TypesModel FloatBase.
From stdpp Require Import list.
From Flocq Require Import IEEE754.BinarySingleNaN.
From Verif Require Import ReflectModel ListModel ValueModel.

(** messages/api.go:64-80: the predeclared type of each Kind *)
Inductive documented : type_t → rtype → Prop :=
  | doc_bool : documented TBool (RBasic KBool None)
  | doc_int8 : documented Int8 (RBasic KInt8 None)
  | doc_int16 : documented Int16 (RBasic KInt16 None)
  | doc_int32 : documented Int32 (RBasic KInt32 None)
  | doc_int64 : documented Int64 (RBasic KInt64 None)
  | doc_uint8 : documented Uint8 (RBasic KUint8 None)
  | doc_uint16 : documented Uint16 (RBasic KUint16 None)
  | doc_uint32 : documented Uint32 (RBasic KUint32 None)
  | doc_uint64 : documented Uint64 (RBasic KUint64 None)
  | doc_float32 : documented Float32 (RBasic KFloat32 None)
  | doc_float64 : documented Float64 (RBasic KFloat64 None)
  | doc_string : documented TString (RBasic KString None)
  | doc_time : documented GoTime RTime
  | doc_duration : documented GoDuration RDuration.
(** the whole table: Kind, SubType, type of the value *)
Inductive documented_value : type_t → type_t → mvalue → Prop :=
  | dv_scalar k v : documented k (rtype_of v) → documented_value k Unknown (MVScalar v)
  | dv_dist d : documented_value Dist Unknown (MVDist d)
  | dv_list k s : s_named s = None → documented k (s_elem s) → documented_value TList k (MVSlice s).
(** messages/api.go:107-109: the size in bits when Kind (or the kind of the elements) is a sized number *)
Definition documented_bits (t : rtype) : Z :=
  match t with
  | RBasic (KInt8 | KUint8) _ => 8
  | RBasic (KInt16 | KUint16) _ => 16
  | RBasic (KInt32 | KUint32 | KFloat32) _ => 32
  | RBasic (KInt64 | KUint64 | KFloat64) _ => 64
  | _ => 0
  end%Z.
Definition value_type (x : mvalue) : rtype := match x with MVScalar v => rtype_of v | MVSlice s => s_elem s | MVDist _ => ROther "*messages.Distribution" end.

(** A type that was not declared by the program, or whose underlying type is an integer of at least 32 bits. *)
Definition plain (t : rtype) : bool :=
  match t with
  | RBasic (KInt | KInt32 | KInt64 | KUint | KUint32 | KUint64) _ => true
  | RBasic _ n => match n with None => true | Some _ => false end
  | _ => true
  end.
(** A slice type that was not declared by the program with elements of such a type, or whose elements are ints or uints. *)
Definition plain_slice (s : slice) : bool :=
  match s_elem s with
  | RBasic (KInt | KUint) _ => true
  | RBasic _ n => match n, s_named s with None, None => true | _, _ => false end
  | _ => match s_named s with None => true | _ => false end
  end.
(** Every slice passed to NewList or Change *)
Definition slices_plain (es : list event) : Prop :=
  (∀ s m ts, ENewList (ISlice s) m ts ∈ es → plain_slice s = true) ∧ (∀ l s m ts, EPrepare l (ISlice s) m ts ∈ es → plain_slice s = true).
(** A flag whose Get always returns the same, plain, type. *)
Definition plain_spec {W} (wd : wordsize) (sp : mspec W) : Prop :=
  match sp with
  | SpFunc _ _ [t] _ => plain t = true
  | SpPtr t _ => plain t = true
  | SpFlag (Some g) _ => ∃ t, (∀ s v, g s = Some v → rtype_of v = t) ∧ plain t = true
  | SpList l => ∀ s, ∃ es st i, run wd init es = Some st ∧ slices_plain es ∧ w_lists st !! i = Some (l s)
  | _ => True
  end.

(** A float that encoding/json accepts: neither NaN nor infinite. *)
Definition number (v : rval) : bool :=
  match v with
  | RVBasic KFloat32 _ f => is_finite f
  | RVBasic KFloat64 _ f => is_finite f
  | _ => true
  end.

(** A metric that can be read: its function is not nil and wants no arguments; the Get method of a flag always returns
    a value of one type. *)
Definition readable {W} (sp : mspec W) : Prop :=
  match sp with
  | SpFunc isnil args _ _ => isnil = false ∧ args = 0%nat
  | SpFlag (Some g) _ => ∃ t, ∀ s, ∃ v, g s = Some v ∧ rtype_of v = t
  | _ => True
  end.

(** What a value says, whatever its Go type. *)
Inductive content :=
  | CtBool (b : bool) | CtInt (z : Z) | CtFloat32 (f : float32) | CtFloat64 (f : float64) | CtString (s : string) | CtTime (t : gotime) | CtDuration (d : Z)
  | CtOther (name : string) (payload : N).
Definition content_of (v : rval) : content :=
  match v with
  | RVBasic KBool _ b => CtBool b
  | RVBasic (KInt | KInt8 | KInt16 | KInt32 | KInt64 | KUint | KUint8 | KUint16 | KUint32 | KUint64) _ z => CtInt z
  | RVBasic KFloat32 _ f => CtFloat32 f
  | RVBasic KFloat64 _ f => CtFloat64 f
  | RVBasic KString _ s => CtString s
  | RVTime t => CtTime t
  | RVTimePtr None => CtTime (MkTime (-62135596800) 0)   (* the zero time.Time *)
  | RVTimePtr (Some t) => CtTime t
  | RVDuration d => CtDuration d
  | RVOther n p => CtOther n p
  end.
(** What a metric that is a single value should report in a state. A flag without Get, or whose Get returns something
    that cannot be a metric, reports its text. *)
Definition supported (t : rtype) : bool := match t with ROther _ => false | _ => true end.
Definition current {W} (sp : mspec W) (s : W) : option content :=
  match sp with
  | SpPtr _ f | SpFunc _ _ _ f => Some (content_of (f s))
  | SpFlag None str => Some (CtString (str s))
  | SpFlag (Some g) str => match g s with
      | Some v => Some (if supported (rtype_of v) then content_of v else CtString (str s))
      | None => None
      end
  | _ => None
  end.
