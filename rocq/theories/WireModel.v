(** What happens to responses between the handlers of HttpModel.v and the client: encoding/gob below net/rpc (with
    messages/api.go:166-177), compression of JSON responses (http.go:51-75), and the text of a JSON metric read back by
    encoding/json into a messages.Metric (messages/api.go:97-124).

    encoding/gob, encoding/json and net/rpc are the Go standard library; of them only what is written here is modelled. *)
From Verif Require Import GoBase GoVal UnitsModel DurationModel TypesModel FloatBase MessagesModel.
From stdpp Require Import gmap strings.
From Verif Require Import PathModel RegistryModel.
From Verif Require Import ReflectModel ListModel ValueModel HttpModel.
Local Open Scope string_scope.
Local Open Scope list_scope.

(** ** Go RPC *)
(** Whether gob knows the dynamic type of a value in an interface{} field: it registers the predeclared types and slices of
    them itself, messages/api.go:166-177 registers time.Time, time.Duration, slices of them and *Distribution. Metrics
    never have values of type int and uint, or lists of them (metric.go:1057-1086, 612-627). A nil pointer in an
    interface cannot be encoded. *)
Definition gob_known (v : goval) : bool :=
  match v with
  | VNil | VScalar _ _ | VSlice _ _ | VDist (Some _) => true
  | VDist None | VTyped _ _ | VOther _ _ _ => false
  end.
Definition gob_metric (m : metric) : bool := gob_known (m_value m) && gob_known (m_timeStamp m).
(** What the client sees. When the reply cannot be encoded net/rpc closes the connection (server.go, gobServerCodec);
    when a method panics the program ends. *)
Inductive rpc_outcome (A : Type) := RpcReply (r : A) | RpcFailed (e : rpc_error) | RpcClosed | RpcCrash.
Arguments RpcReply {A}. Arguments RpcFailed {A}. Arguments RpcClosed {A}. Arguments RpcCrash {A}.
Section Rpc.
  Context {W : Type} (val : RegistryModel.mspec → value W) (arrays : W → list array) (stamp : minfo → W → gotime) (group : minfo → W → Z).
  (** rpc.go:25-28 ListMetrics below net/rpc (rpc.go:39-41) *)
  Definition serveListMetrics (out : list entry) (s : W) : rpc_outcome (list metric) :=
    match rpcListMetrics val arrays stamp group out s with
    | None => RpcCrash
    | Some ms => if forallb gob_metric ms then RpcReply ms else RpcClosed
    end.
  (** rpc.go:30-37 GetMetric below net/rpc *)
  Definition serveGetMetric (n : option node) (s : W) : rpc_outcome metric :=
    match rpcGetMetric val arrays stamp group n s with
    | None => RpcCrash
    | Some (inr e) => RpcFailed e
    | Some (inl m) => if gob_metric m then RpcReply m else RpcClosed
    end.
End Rpc.

(** ** Compression *)
(** strings.Contains(s, sub) *)
Fixpoint contains (s sub : string) : bool :=
  String.prefix sub s || match s with String _ r => contains r sub | "" => false end.
(** http.go:64-75 gzipHandler.ServeHTTP: whether the response is compressed (and says so); [lines]: the values of the
    request's Accept-Encoding headers, of which Header.Get returns the first *)
Definition gzipped (lines : list string) : bool := contains (match lines with l :: _ => l | [] => "" end) "gzip".

(** ** JSON read by a client *)
(** encoding/json (encode.go, encodeState.string) writes U+FFFD for each byte that does not belong to a valid UTF-8 sequence
    (unicode/utf8 DecodeRune). Escapes are undone by the reader. *)
Definition byte_in (c : ascii) (lo hi : N) : bool := (lo <=? N_of_ascii c)%N && (N_of_ascii c <=? hi)%N.
Definition replacement (r : string) : string := String "239" (String "191" (String "189" r)).
(** the range of the second byte, for each first byte of a sequence of 2, 3, 4 bytes *)
Definition second2 (a : ascii) : option (N * N) := if byte_in a 194 223 then Some (128, 191)%N else None.
Definition second3 (a : ascii) : option (N * N) :=
  if byte_in a 224 224 then Some (160, 191)%N else if byte_in a 237 237 then Some (128, 159)%N
  else if byte_in a 225 239 then Some (128, 191)%N else None.
Definition second4 (a : ascii) : option (N * N) :=
  if byte_in a 240 240 then Some (144, 191)%N else if byte_in a 244 244 then Some (128, 143)%N
  else if byte_in a 241 243 then Some (128, 191)%N else None.
Definition fits (c : ascii) (r : option (N * N)) : bool := match r with Some (lo, hi) => byte_in c lo hi | None => false end.
Fixpoint json_text (s : string) : string :=
  match s with
  | "" => ""
  | String a r =>
      if byte_in a 0 127 then String a (json_text r)
      else match r with
           | String b r2 =>
               if fits b (second2 a) then String a (String b (json_text r2))
               else match r2 with
                    | String c r3 =>
                        if fits b (second3 a) && byte_in c 128 191 then String a (String b (String c (json_text r3)))
                        else match r3 with
                             | String d r4 =>
                                 if fits b (second4 a) && byte_in c 128 191 && byte_in d 128 191 then String a (String b (String c (String d (json_text r4))))
                                 else replacement (json_text r)
                             | "" => replacement (json_text r)
                             end
                    | "" => replacement (json_text r)
                    end
           | "" => replacement (json_text r)
           end
  end.

Section Read.
  (** [widen]: reading the shortest text that gives a float32 as a float64; [base64]: the standard encoding of bytes *)
  Context (widen : float32 → float64) (base64 : list Z → string).
  (** What json.Unmarshal stores in an interface{} for the text that json.Marshal wrote for a value (decode.go, literalInterface,
      arrayInterface, objectInterface): numbers become the nearest float64; []uint8 is written as a base64 string; other
      lists become []interface{}, distributions map[string]interface{}. The text of a finite float64 gives it back. Times
      and durations were replaced by strings (messages/metric.go:93-142). *)
  Definition json_read (v : goval) : goval :=
    match v with
    | VNil => VNil
    | VScalar t x =>
        match t return denote t → goval with
        | SBool => λ b, VScalar SBool b
        | SInt8 | SInt16 | SInt32 | SInt64 | SUint8 | SUint16 | SUint32 | SUint64 => λ z, VScalar SFloat64 (f64_of_Z z)
        | SFloat32 => λ f, VScalar SFloat64 (widen f)
        | SFloat64 => λ f, VScalar SFloat64 f
        | SString => λ s, VScalar SString (json_text s)
        | STime => λ _, VOther "string" NotNilable 0
        | SDuration => λ d, VScalar SFloat64 (f64_of_Z d)
        end x
    | VSlice _ None => VNil
    | VSlice t (Some l) =>
        match t return list (denote t) → goval with
        | SUint8 => λ l, VScalar SString (base64 l)
        | _ => λ _, VOther "[]interface {}" (SliceNil false) 0
        end l
    | VDist None => VNil
    | VDist (Some _) => VOther "map[string]interface {}" (OtherNil false) 0
    | VTyped n p => VOther n NotNilable p
    | VOther n k p => VOther n k p
    end.
  Definition json_read_metric (m : metric) : metric :=
    MkMetric (json_text (m_path m)) (json_text (m_description m)) (json_text (m_unit m)) (json_text (m_kind m)) (json_text (m_subType m)) (m_bits m)
      (json_read (m_value m)) (json_read (m_timeStamp m)) (m_groupId m).
End Read.
