(** Model of go/tricorder/messages/metric.go. *)
From Verif Require Import GoBase GoVal UnitsModel DurationModel TypesModel.
Local Open Scope string_scope.

(** messages/api.go:76-124  type Metric struct *)
Record metric := MkMetric {
  m_path : string; m_description : string; m_unit : unit_t;
  m_kind : type_t; m_subType : type_t; m_bits : Z;
  m_value : goval; m_timeStamp : goval; m_groupId : Z }.
Definition set_conv (m : metric) (v : goval) (k s : type_t) (ts : goval) : metric :=
  MkMetric (m_path m) (m_description m) (m_unit m) k s (m_bits m) v ts (m_groupId m).

(** metric.go:12-18  valueAsString *)
Definition valueAsString (value : goval) : option string :=
  match value with
  | VScalar t v => match t return denote t -> option string with SString => Some | _ => fun _ => None end v
  | _ => None
  end.
(** metric.go:20-26  valueAsStringSlice: Some l (nil reads as the empty list), None = error *)
Definition valueAsStringSlice (value : goval) : option (list string) :=
  match value with
  | VSlice t v =>
      match t return option (list (denote t)) -> option (list string) with
      | SString => fun o => Some (match o with Some l => l | None => [] end)
      | _ => fun _ => None
      end v
  | _ => None
  end.
(** The type assertions of asJson (metric.go:104,107,113,121); None = panic *)
Definition assertDuration (value : goval) : option Z :=
  match value with
  | VScalar t v => match t return denote t -> option Z with SDuration => Some | _ => fun _ => None end v
  | _ => None
  end.
Definition assertTime (value : goval) : option gotime :=
  match value with
  | VScalar t v => match t return denote t -> option gotime with STime => Some | _ => fun _ => None end v
  | _ => None
  end.
Definition assertDurationSlice (value : goval) : option (list Z) :=
  match value with
  | VSlice t v =>
      match t return option (list (denote t)) -> option (list Z) with
      | SDuration => fun o => Some (match o with Some l => l | None => [] end)
      | _ => fun _ => None
      end v
  | _ => None
  end.
Definition assertTimeSlice (value : goval) : option (list gotime) :=
  match value with
  | VSlice t v =>
      match t return option (list (denote t)) -> option (list gotime) with
      | STime => fun o => Some (match o with Some l => l | None => [] end)
      | _ => fun _ => None
      end v
  | _ => None
  end.

(** metric.go:185-191  timeAsString *)
Definition timeAsString (t : gotime) (unit : unit_t) : string :=
  let dur := if time_IsZero t then MkDur 0 0 else sinceEpoch t in
  StringUsingUnits dur unit.
(** metric.go:193-201  stringAsTime *)
Definition stringAsTime (s : string) (unit : unit_t) : option gotime :=
  match ParseWithUnit s unit with Some dur => Some (asGoTime dur) | None => None end.
(** metric.go:203-205  durationAsString *)
Definition durationAsString (d : Z) (unit : unit_t) : string := StringUsingUnits (newDuration d) unit.
(** metric.go:207-215  stringAsDuration *)
Definition stringAsDuration (s : string) (unit : unit_t) : option Z :=
  match ParseWithUnit s unit with Some dur => Some (asGoDuration dur) | None => None end.

(** The loops metric.go:59-64 and :73-78: convert each element, stop at the first error. *)
Fixpoint map_err {A B} (f : A -> option B) (l : list A) : option (list B) :=
  match l with
  | [] => Some []
  | x :: r => match f x with
              | None => None
              | Some y => match map_err f r with None => None | Some ys => Some (y :: ys) end
              end
  end.

(** metric.go:28-91  asGoRPC; None = error *)
Definition asGoRPC (value : goval) (kind subType : type_t) (unit : unit_t) : option (goval * type_t * type_t) :=
  if String.eqb kind TDuration then
    match valueAsString value with
    | None => None
    | Some s => match stringAsDuration s unit with
                | None => None
                | Some d => Some (VDuration d, GoDuration, Unknown)
                end
    end
  else if String.eqb kind Time then
    match valueAsString value with
    | None => None
    | Some s => match stringAsTime s unit with
                | None => None
                | Some t => Some (VTime t, GoTime, Unknown)
                end
    end
  else if String.eqb kind TList then
    if String.eqb subType TDuration then
      match valueAsStringSlice value with
      | None => None
      | Some l => match map_err (fun s => stringAsDuration s unit) l with
                  | None => None
                  | Some ds => Some (VSlice SDuration (Some ds), TList, GoDuration)
                  end
      end
    else if String.eqb subType Time then
      match valueAsStringSlice value with
      | None => None
      | Some l => match map_err (fun s => stringAsTime s unit) l with
                  | None => None
                  | Some ts => Some (VSlice STime (Some ts), TList, GoTime)
                  end
      end
    else Some (value, TList, subType)
  else Some (value, kind, Unknown).

(** metric.go:130-134: reflect.ValueOf(value).IsNil() and reflect.MakeSlice; None = panic *)
Definition emptyIfNil (value : goval) : option goval :=
  match value with
  | VSlice t None => Some (VSlice t (Some []))
  | VSlice _ (Some _) => Some value
  | VDist None => None                             (* MakeSlice of a non-slice type panics *)
  | VDist (Some _) => Some value
  | VOther ty (SliceNil true) p => Some (VOther ty (SliceNil false) p)
  | VOther _ (SliceNil false) _ => Some value
  | VOther _ (OtherNil true) _ => None
  | VOther _ (OtherNil false) _ => Some value
  | VNil | VScalar _ _ | VTyped _ _ | VOther _ NotNilable _ => None (* IsNil panics *)
  end.

(** metric.go:93-142  asJson; None = panic *)
Definition asJson (value : goval) (kind subType : type_t) (unit : unit_t) : option (goval * type_t * type_t) :=
  if String.eqb kind GoDuration then
    match assertDuration value with
    | None => None
    | Some d => Some (VString (durationAsString d unit), TDuration, Unknown)
    end
  else if String.eqb kind GoTime then
    match assertTime value with
    | None => None
    | Some t => Some (VString (timeAsString t unit), Time, Unknown)
    end
  else if String.eqb kind TList then
    if String.eqb subType GoDuration then
      match assertDurationSlice value with
      | None => None
      | Some ds => Some (VSlice SString (Some (map (fun d => durationAsString d unit) ds)), TList, TDuration)
      end
    else if String.eqb subType GoTime then
      match assertTimeSlice value with
      | None => None
      | Some ts => Some (VSlice SString (Some (map (fun t => timeAsString t unit) ts)), TList, Time)
      end
    else match emptyIfNil value with
         | None => None
         | Some v => Some (v, TList, subType)
         end
  else Some (value, kind, Unknown).

(** metric.go:144-156  convertToJson; None = panic.  [sprintf_v] stands for fmt.Sprintf("%v", _), reached only
    by a timestamp that is neither nil, a time.Time nor a string. *)
Definition convertToJson (sprintf_v : goval -> string) (m : metric) : option metric :=
  match asJson (m_value m) (m_kind m) (m_subType m) (m_unit m) with
  | None => None
  | Some (v, k, s) =>
      let ts :=
        match m_timeStamp m with
        | VNil => VString ""
        | VScalar t x =>
            match t return denote t -> goval with
            | STime => fun i => VString (toString (sinceEpoch i))
            | SString => fun i => VString i
            | t => fun i => VString (sprintf_v (VScalar t i))
            end x
        | i => VString (sprintf_v i)
        end in
      Some (set_conv m v k s ts)
  end.

(** metric.go:158-183  convertToGoRPC: the error flag and the metric afterwards *)
Definition convertToGoRPC (m : metric) : bool * metric :=
  match asGoRPC (m_value m) (m_kind m) (m_subType m) (m_unit m) with
  | None => (true, m)
  | Some (v, k, s) =>
      let ts : option goval :=
        match m_timeStamp m with
        | VNil => Some VNil
        | VScalar t x =>
            match t return denote t -> option goval with
            | STime => fun i => Some (VTime i)
            | SString => fun i =>
                if String.eqb i "" then Some VNil
                else match stringAsTime i USecond with Some t' => Some (VTime t') | None => None end
            | _ => fun _ => None
            end x
        | _ => None
        end in
      match ts with
      | None => (true, m)
      | Some newTimeStamp => (false, set_conv m v k s newTimeStamp)
      end
  end.
