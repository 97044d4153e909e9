(** Model of the request handlers: JSON (go/tricorder/json.go), Go RPC (rpc.go), text and HTML (html.go, without the
    template), and of readMyMetrics (metric.go:1867-1874).

    A request does one lookup of its path, [n] (metric.go:1548-1551), and possibly one traversal, whose metrics in order
    are [out] (metric.go:1529-1580, RegistryConc.v). During one request the monitored program is in one state s: its
    variables do not change (PropValue.v treats a metric that changes between two evaluations). Errors of writing the
    response, gzip and indentation of JSON are not modelled. *)
From Verif Require Import GoBase GoVal UnitsModel DurationModel TypesModel FloatBase MessagesModel.
From stdpp Require Import gmap strings.
From Flocq Require Import IEEE754.BinarySingleNaN.
From Verif Require Import PathModel RegistryModel.
From Verif Require Import ReflectModel ListModel ValueModel FormatModel.
Local Open Scope string_scope.
Local Open Scope list_scope.

Definition newline : string := String "010" "".

(** ** Values as the message package sees them *)
Definition sty_eqb (a b : sty) : {a = b} + {a ≠ b}.
Proof. decide equality. Defined.
Definition as_sty (t : sty) (v : goval) : option (denote t) :=
  match v with
  | VScalar t' x => match sty_eqb t' t with left e => Some (eq_rect t' denote x t e) | right _ => None end
  | _ => None
  end.
(** the element types that are not declared by the program *)
Definition sty_of (t : rtype) : option sty :=
  match t with
  | RBasic KBool None => Some SBool
  | RBasic KInt8 None => Some SInt8 | RBasic KInt16 None => Some SInt16 | RBasic KInt32 None => Some SInt32 | RBasic KInt64 None => Some SInt64
  | RBasic KUint8 None => Some SUint8 | RBasic KUint16 None => Some SUint16 | RBasic KUint32 None => Some SUint32 | RBasic KUint64 None => Some SUint64
  | RBasic KFloat32 None => Some SFloat32 | RBasic KFloat64 None => Some SFloat64
  | RBasic KString None => Some SString
  | RTime => Some STime
  | RDuration => Some SDuration
  | _ => None
  end.
(** The dynamic type of a slice decides which type assertions of messages/metric.go:93-142 it passes. Every element has
    the element type, so omap drops nothing. *)
Definition slice_goval (h : list array) (s : slice) : goval :=
  match s_named s, sty_of (s_elem s) with
  | None, Some t => VSlice t (Some (omap (λ v, as_sty t (to_goval v)) (cells h s)))
  | _, _ => VOther "declared slice type" (SliceNil false) 0
  end.
Definition goval_of (h : list array) (v : mvalue) : goval :=
  match v with
  | MVDist d => VDist (Some d)
  | MVSlice s => slice_goval h s
  | MVScalar x => to_goval x
  end.

(** encoding/json (encode.go, floatEncoder.encode) fails on NaN and infinities, wherever they are in the message *)
Definition json_float (f : float64) : bool := is_finite f.
Definition json_rval (v : rval) : bool :=
  match v with RVBasic KFloat32 _ f => is_finite f | RVBasic KFloat64 _ f => is_finite f | _ => true end.
Definition json_dist (d : dist_msg) : bool :=
  json_float (dm_min d) && json_float (dm_max d) && json_float (dm_average d) && json_float (dm_median d) && json_float (dm_sum d) &&
  forallb (λ r, json_float (r_lower r) && json_float (r_upper r)) (dm_ranges d).
Definition json_value (h : list array) (v : mvalue) : bool :=
  match v with
  | MVDist d => json_dist d
  | MVSlice s => forallb json_rval (cells h s)
  | MVScalar x => json_rval x
  end.

(** ** Responses *)
Inductive body := BText (s : string) | BMetrics (l : list metric) | BMetric (m : metric) | BHtmlDirectory (d : nat) | BHtmlMetric (e : entry).
(** Dropped: the handler panicked; net/http closes the connection, net/rpc ends the program *)
Inductive response := Resp (code : Z) (b : body) | Dropped.
(** http.go:20-23 handleError; the status stays 200 *)
Definition handleError : response := Resp 200 (BText ("Error in template." +:+ newline)).
(** http.go:25-33 httpError(w, 404); http.Error adds the newline *)
Definition notFound : response := Resp 404 (BText ("404 Not Found" +:+ newline)).
Inductive rpc_error := ErrMetricNotFound.

Section Handlers.
  (** [val]: what newValue made of the object that was registered; [arrays]: the memory behind lists; [stamp], [group]:
      time stamp and group id (RegionModel.v); the rest as in MessagesModel.v and FormatModel.v.
      [FormatFloat32] is strconv.FormatFloat(f, 'f', -1, 32). *)
  Context {W : Type} (val : RegistryModel.mspec → value W) (arrays : W → list array) (stamp : minfo → W → gotime) (group : minfo → W → Z).
  Context (sprintf_v : goval → string) (FormatFloat : float32 + float64 → string) (FormatFloat32 : float64 → string).

  Definition info (e : entry) : option minfo := match e_obj e with OMetric m => Some m | ODir _ => None end.

  (** metric.go:1401-1408 InitRpcMetric, 1129-1168 updateJsonOrRpcMetric; None = panic *)
  Definition InitRpcMetric (e : entry) (s : W) : option metric :=
    match info e with
    | None => None
    | Some mi =>
        match rpcMetric (val (mi_spec mi)) s with
        | None => None
        | Some m => Some (MkMetric (absPath e) (mi_desc mi) (mi_unit mi) (mm_kind m) (mm_sub m) (mm_bits m)
                            (goval_of (arrays s) (mm_value m)) (VTime (stamp mi s)) (group mi s))
        end
    end.
  (** metric.go:1387-1394 InitJsonMetric *)
  Definition InitJsonMetric (e : entry) (s : W) : option metric :=
    match InitRpcMetric e s with Some m => convertToJson sprintf_v m | None => None end.
  (** whether json.Marshal accepts it *)
  Definition marshals (e : entry) (s : W) : bool :=
    match info e with
    | Some mi => match rpcMetric (val (mi_spec mi)) s with Some m => json_value (arrays s) (mm_value m) | None => false end
    | None => false
    end.

  (** metric.go:1509-1514 collect, for each metric of the traversal; None = panic *)
  Fixpoint collected (out : list entry) (s : W) : option (list entry) :=
    match out with
    | [] => Some []
    | e :: out =>
        match info e with
        | None => None
        | Some mi =>
            match IsInfNaN (val (mi_spec mi)) s, collected out s with
            | Some true, Some r => Some r
            | Some false, Some r => Some (e :: r)
            | _, _ => None
            end
        end
    end.

  (** json.go:32-57 jsonHandlerFunc; [singleton]: the request has the form value singleton *)
  Definition jsonHandler (singleton : bool) (n : option node) (out : list entry) (s : W) : response :=
    if singleton then
      match n with
      | Some (NMetric e) =>
          match InitJsonMetric e s with
          | None => Dropped
          | Some m => if marshals e s then Resp 200 (BMetric m) else handleError
          end
      | _ => notFound
      end
    else
      match collected out s with
      | None => Dropped
      | Some es =>
          match mapM (λ e, InitJsonMetric e s) es with
          | None => Dropped
          | Some ms => if forallb (λ e, marshals e s) es then Resp 200 (BMetrics ms) else handleError
          end
      end.

  (** rpc.go:30-37 GetMetric, 25-28 ListMetrics and metric.go:1867-1874 readMyMetrics; None = panic *)
  Definition rpcGetMetric (n : option node) (s : W) : option (metric + rpc_error) :=
    match n with
    | Some (NMetric e) => inl <$> InitRpcMetric e s
    | _ => Some (inr ErrMetricNotFound)
    end.
  Definition rpcListMetrics (out : list entry) (s : W) : option (list metric) :=
    match collected out s with Some es => mapM (λ e, InitRpcMetric e s) es | None => None end.

  (** html.go:194-243 textEmitDistribution. The First piece is the first one, the Last piece the last one
      (metric.go:287-299). *)
  Definition text_range (first last : bool) (r : range_msg) : string :=
    if N.eqb (r_count r) 0 then ""
    else (if first then ";[-inf," +:+ FormatFloat32 (r_upper r) +:+ "):"
          else if last then ";[" +:+ FormatFloat32 (r_lower r) +:+ ",inf):"
          else ";[" +:+ FormatFloat32 (r_lower r) +:+ "," +:+ FormatFloat32 (r_upper r) +:+ "):") +:+ fmt_d (Z.of_N (r_count r)).
  Fixpoint text_ranges (first : bool) (l : list range_msg) : string :=
    match l with
    | [] => ""
    | r :: l => text_range first (match l with [] => true | _ => false end) r +:+ text_ranges false l
    end.
  Definition textEmitDistribution (d : dist_msg) : string :=
    "{min:" +:+ FormatFloat32 (dm_min d) +:+ ";max:" +:+ FormatFloat32 (dm_max d) +:+ ";avg:" +:+ FormatFloat32 (dm_average d) +:+
    ";median:" +:+ FormatFloat32 (dm_median d) +:+ ";sum:" +:+ FormatFloat32 (dm_sum d) +:+ ";count:" +:+ fmt_d (Z.of_N (dm_count d)) +:+
    text_ranges true (dm_ranges d) +:+ "}" +:+ newline.
  (** strings.Join(_, "|") *)
  Fixpoint join_bar (l : list string) : string :=
    match l with [] => "" | [x] => x | x :: l => x +:+ "|" +:+ join_bar l end.
  Definition fmt_ok (r : fmt_res) : option string := match r with FmtOk s => Some s | _ => None end.
  (** html.go:245-258 textEmitMetric, metric.go:700-708 TextStrings, 1243-1249 AsTextString; None = panic *)
  Definition textEmitMetric (e : entry) (s : W) : option string :=
    match info e with
    | None => None
    | Some mi =>
        let v := val (mi_spec mi) in
        match v_src v with
        | SrcDist d => Some (textEmitDistribution (d s))
        | SrcList l =>
            (λ ts, join_bar ts +:+ newline) <$>
              mapM (λ x, fmt_ok (valueToTextString FormatFloat x (l_subType (l s)) (mi_unit mi) false)) (cells (arrays s) (l_slice (l s)))
        | SrcVal _ _ =>
            match evaluate v s with
            | None => None
            | Some x => (λ t, t +:+ newline) <$> fmt_ok (valueToTextString FormatFloat x (v_type v) (mi_unit mi) (v_isPtr v))
            end
        end
    end.
  (** html.go:187-192 textCollector.Collect *)
  Definition textCollect (e : entry) (s : W) : option string := (λ t, absPath e +:+ " " +:+ t) <$> textEmitMetric e s.
  Fixpoint concat_strings (l : list string) : string := match l with [] => "" | x :: l => x +:+ concat_strings l end.
  (** html.go:260-271 textEmitDirectoryOrMetric *)
  Definition textHandler (n : option node) (out : list entry) (s : W) : response :=
    match n with
    | None => Resp 200 (BText "*Path does not exist.*")
    | Some (NDir _) =>
        match collected out s with
        | None => Dropped
        | Some es => match mapM (λ e, textCollect e s) es with
                     | None => Dropped
                     | Some ts => Resp 200 (BText (concat_strings ts))
                     end
        end
    | Some (NMetric e) => match textEmitMetric e s with Some t => Resp 200 (BText t) | None => Dropped end
    end.
  (** html.go:168-182 htmlEmitDirectoryOrMetric, up to the choice of what to show *)
  Definition htmlHandler (n : option node) : response :=
    match n with
    | None => Resp 200 (BText "Path does not exist.")
    | Some (NDir d) => Resp 200 (BHtmlDirectory d)
    | Some (NMetric e) => Resp 200 (BHtmlMetric e)
    end.
End Handlers.
