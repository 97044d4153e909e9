(** Model of metric values (metric.go:735-1178, except the session handling, which is RegionModel.v): what
    RegisterMetric accepts, how a metric is evaluated, and what goes into a Go RPC message.

    The state of the monitored program is an arbitrary type W: variables, callbacks and flags are functions of the state
    in which they are read or called.  Callbacks return; panics inside callbacks are not modelled. *)
From Verif Require Import GoBase GoVal UnitsModel DurationModel TypesModel FloatBase.
From stdpp Require Import list.
From Flocq Require Import IEEE754.BinarySingleNaN.
From Verif Require Import ReflectModel ListModel.

Section Values.
  Context {W : Type} (w : wordsize).

  (** What is passed to RegisterMetric, by the cases of newValue. *)
  Inductive mspec :=
    | SpDist (unit_ok : bool) (d : W → dist_msg)   (* the three distribution types; does SetUnit accept the unit; Snapshot *)
    | SpList (l : W → alist)                       (* *List, *listType: the list as it is in each state *)
    | SpFlag (get : option (W → option rval)) (str : W → string) (* a flag.Value; Get if it is a flag.Getter, None = nil *)
    | SpFunc (isnil : bool) (args : nat) (outs : list rtype) (call : W → rval) (* a function; call: its (first) result *)
    | SpPtr (t : rtype) (read : W → rval)          (* a pointer to a variable of type t *)
    | SpNilPtr                                     (* a nil pointer *)
    | SpNil                                        (* nil *)
    | SpOther.                                     (* a value that is no pointer *)
  (** The Go type checker guarantees this: results and variables have their static type. *)
  Definition well_typed (sp : mspec) : Prop :=
    match sp with
    | SpFunc _ _ (t :: _) f => ∀ s, rtype_of (f s) = t ∧ rval_ok w (f s) = true
    | SpPtr t f => ∀ s, rtype_of (f s) = t ∧ rval_ok w (f s) = true
    | SpFlag (Some g) _ => ∀ s v, g s = Some v → rval_ok w v = true
    | _ => True
    end.

  (** metric.go:736-745: what evaluate can look at; None = a call or conversion that panics *)
  Inductive source :=
    | SrcDist (d : W → dist_msg)
    | SrcList (l : W → alist)
    | SrcVal (isfunc : bool) (eval : W → option rval).
  Record value := MkValue { v_src : source; v_type : type_t; v_isPtr : bool }.
  Inductive nverr := ErrWrongUnit | ErrWrongType.
  Inductive nvres := NVOk (v : value) | NVErr (e : nverr) | NVPanic.

  (** metric.go:825-832, 836-909 newValue, called in state s0 *)
  Definition newValue (s0 : W) (sp : mspec) : nvres :=
    match sp with
    | SpDist false _ => NVErr ErrWrongUnit
    | SpDist true d => NVOk (MkValue (SrcDist d) Dist false)
    | SpList l => NVOk (MkValue (SrcList l) TList false)
    | SpFlag get str =>
        (* toFlagGetter, metric.go:1750-1764 *)
        let getter := match get with Some g => g | None => λ s, Some (RVBasic KString None (str s)) end in
        match getter s0 with
        | None => NVPanic                                (* reflect.ValueOf(nil).Type() *)
        | Some v =>
            match getPrimitiveType w (rtype_of v) with
            | None => NVOk (MkValue (SrcVal true (λ s, Some (RVBasic KString None (str s)))) TString false)
            | Some (t, p) => NVOk (MkValue (SrcVal true getter) t p)
            end
        end
    | SpFunc isnil args outs f =>
        match outs with
        | [t] => match getPrimitiveType w t with
                 | None => NVErr ErrWrongType
                 (* val.Call(nil) panics when the function is nil or wants arguments *)
                 | Some (t, p) => NVOk (MkValue (SrcVal true (λ s, if isnil || negb (Nat.eqb args 0) then None else Some (f s))) t p)
                 end
        | _ => NVPanic
        end
    | SpPtr t f =>
        match getPrimitiveType w t with
        | None => NVErr ErrWrongType
        | Some (t, p) => NVOk (MkValue (SrcVal false (λ s, Some (f s))) t p)
        end
    | SpNilPtr | SpNil | SpOther => NVPanic              (* Type() of the zero reflect.Value, Elem() of a non-pointer *)
    end.

  (** metric.go:911-939 *)
  Definition SubType (v : value) (s : W) : type_t := match v_src v with SrcList l => l_subType (l s) | _ => Unknown end.
  Definition value_Bits (v : value) (s : W) : Z := match v_src v with SrcList l => Bits (l_subType (l s)) | _ => Bits (v_type v) end.
  (** metric.go:944-961 evaluate, without the session *)
  Definition evaluate (v : value) (s : W) : option rval := match v_src v with SrcVal _ f => f s | _ => None end.
  (** metric.go:1088-1093 AsInterface *)
  Definition AsInterface (v : value) (s : W) : option rval :=
    match evaluate v s with Some x => valueToInterface x (v_type v) (v_isPtr v) | None => None end.
  (** metric.go:988-994 IsInfNaN; None = panic *)
  Definition float_bad (f : float32 + float64) : bool :=
    match f with inl f => is_nan f || negb (is_finite f) | inr f => is_nan f || negb (is_finite f) end.
  Definition IsInfNaN (v : value) (s : W) : option bool :=
    if IsFloat (v_type v) then match evaluate v s with Some x => option_map float_bad (value_Float x) | None => None end
    else Some false.

  (** metric.Value of a message *)
  Inductive mvalue := MVDist (d : dist_msg) | MVSlice (s : slice) | MVScalar (v : rval).
  Record mmsg := MkMsg { mm_kind : type_t; mm_sub : type_t; mm_bits : Z; mm_value : mvalue }.
  (** metric.go:1129-1168 updateJsonOrRpcMetric with goRpcEncoding; None = panic. Path, description, unit, time stamp and
      group id are modelled elsewhere. *)
  Definition rpcMetric (v : value) (s : W) : option mmsg :=
    let mk := λ x, MkMsg (v_type v) (SubType v s) (value_Bits v s) x in
    match v_src v with
    | SrcDist d => Some (mk (MVDist (d s)))
    | SrcList l => Some (mk (MVSlice (fst (AsSlice (l s)))))
    | SrcVal _ _ => option_map (λ x, mk (MVScalar x)) (AsInterface v s)
    end.

  (** metric.go:1509-1514 collect with the collector of RPC listings (rpc.go:16-19): the metric is evaluated in state s1
      for IsInfNaN and again in state s2. Some None = left out; None = panic. *)
  Definition collect (v : value) (s1 s2 : W) : option (option mmsg) :=
    match IsInfNaN v s1 with
    | None => None
    | Some true => Some None
    | Some false => option_map Some (rpcMetric v s2)
    end.
  (** metric.go:1563-1580 GetAllMetrics: the metrics in order, each with the two states in which it is evaluated *)
  Fixpoint collectAll (ms : list (value * W * W)) : option (list mmsg) :=
    match ms with
    | [] => Some []
    | (v, s1, s2) :: ms =>
        match collect v s1 s2, collectAll ms with
        | Some o, Some l => Some (match o with Some m => m :: l | None => l end)
        | _, _ => None
        end
    end.
End Values.
Arguments mspec : clear implicits. Arguments value : clear implicits. Arguments source : clear implicits. Arguments nvres : clear implicits.
