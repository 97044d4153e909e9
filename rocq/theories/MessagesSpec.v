(** What the types and messages properties mean, independently of the model functions. *)
From Verif Require Import GoBase GoVal UnitsModel DurationModel MessagesModel.
Local Open Scope string_scope.

(** The documented wire name of each Go scalar type. *)
Definition wire_name (t : sty) : string :=
  match t with
  | SBool => "bool" | SInt8 => "int8" | SInt16 => "int16" | SInt32 => "int32" | SInt64 => "int64"
  | SUint8 => "uint8" | SUint16 => "uint16" | SUint32 => "uint32" | SUint64 => "uint64"
  | SFloat32 => "float32" | SFloat64 => "float64" | SString => "string"
  | STime => "goTime" | SDuration => "goDuration"
  end.

(** A Go RPC value with its kind and sub-type. *)
Inductive rpc_tagged : goval -> string -> string -> Prop :=
| TagScalar t v : scalar_ok t v -> rpc_tagged (VScalar t v) (wire_name t) ""
| TagNilSlice t : rpc_tagged (VSlice t None) "list" (wire_name t)
| TagSlice t l : Forall (scalar_ok t) l -> rpc_tagged (VSlice t (Some l)) "list" (wire_name t)
| TagDist d : rpc_tagged (VDist d) "distribution" "".

(** The times inside a value. *)
Definition times_of (v : goval) : list gotime :=
  match v with
  | VScalar t x => match t return denote t -> list gotime with STime => fun x => [x] | _ => fun _ => [] end x
  | VSlice t (Some l) => match t return list (denote t) -> list gotime with STime => fun l => l | _ => fun _ => [] end l
  | _ => []
  end.

(** The time can be written in the unit with 64 bit arithmetic (|t| below 292 million years in milliseconds). *)
Definition printable (u : string) (t : gotime) : Prop :=
  ((Z.abs (t_sec t) + 1) * (if String.eqb u "Milliseconds" then 1000 else 1) < 2^63)%Z.

(** A well formed Go RPC metric: kind and sub-type describe the value, the timestamp is nil or a time. *)
Definition rpc_metric (m : metric) : Prop :=
  rpc_tagged (m_value m) (m_kind m) (m_subType m) /\
  Forall (printable (m_unit m)) (times_of (m_value m)) /\
  (m_timeStamp m = VNil \/
   exists t, m_timeStamp m = VTime t /\ scalar_ok STime t /\ printable "Seconds" t).

(** Replace a nil slice by an empty one. *)
Definition no_nil (v : goval) : goval :=
  match v with VSlice t None => VSlice t (Some []) | _ => v end.

(** Same metric with another value. *)
Definition with_value (m : metric) (v : goval) : metric :=
  MkMetric (m_path m) (m_description m) (m_unit m) (m_kind m) (m_subType m) (m_bits m) v (m_timeStamp m) (m_groupId m).

(** The fields conversion must never touch. *)
Definition same_identity (m m' : metric) : Prop :=
  m_path m' = m_path m /\ m_description m' = m_description m /\ m_unit m' = m_unit m /\
  m_bits m' = m_bits m /\ m_groupId m' = m_groupId m.

(** The type tags of single values. *)
Definition known_scalars : list string :=
  ["bool"; "int8"; "int16"; "int32"; "int64"; "uint8"; "uint16"; "uint32"; "uint64"; "float32"; "float64"; "string";
   "goTime"; "goDuration"; "time"; "duration"].
(** The documented width of each numeric type. *)
Definition width_table : list (string * Z) :=
  [("int8",8);("uint8",8);("int16",16);("uint16",16);("int32",32);("uint32",32);("float32",32);
   ("int64",64);("uint64",64);("float64",64)]%Z.

