(** What the properties of the request handlers mean. *)
From Verif Require Import GoBase GoVal UnitsModel DurationModel TypesModel FloatBase MessagesModel.
From stdpp Require Import gmap strings sorting.
From Verif Require Import ReflectModel ListModel ValueModel ValueSpec FormatModel.
From Flocq Require Import IEEE754.BinarySingleNaN.
From Verif Require Import PathModel PathSpec RegistryModel RegistrySpec RegistryConc HttpModel.
Local Open Scope string_scope.
Local Open Scope list_scope.

(** What the lookup of a request for [path] finds when the registry is [h], ... *)
Definition looked_up (h : heap) (path : string) : option node := snd (RegistryModel.run (getDirectoryOrMetric root (newPathSpec path)) h).
(** ... and what its traversal reports, as long as the registry stays [h]. *)
Definition traversed (h : heap) (path : string) (out : list entry) : Prop :=
  ∃ c l c' t, reachable c ∧ during c l c' ∧ c_pool c !! t = None ∧
    c_pool c' !! t = Some (MkThread (CList root path) (TDone (RList out))) ∧ ∀ x, x ∈ l → c_heap x = h.

(** Every metric was made from an object that can be read (ValueSpec.v); in every state each list, and the memory behind
    it, is as the operations of ListModel.v left it. *)
Definition objects {W} (w : wordsize) (val : RegistryModel.mspec → value W) (arrays : W → list array) : Prop :=
  (∀ sp, ∃ o s0, well_typed w o ∧ readable o ∧ ValueModel.newValue w s0 o = NVOk (val sp)) ∧
  (∀ sp l s, v_src (val sp) = SrcList l → ∃ st i, ListModel.reachable w st ∧ w_lists st !! i = Some (l s) ∧ w_heap st = arrays s).

(** The metrics registered at or below p. *)
Definition metric_at (h : heap) (p q : list string) (e : entry) (mi : minfo) : Prop :=
  below p q ∧ answer h q = Some (NMetric e) ∧ e_obj e = OMetric mi.
(** A single value that is no number. *)
Definition no_number {W} (val : RegistryModel.mspec → value W) (s : W) (mi : minfo) : Prop :=
  ∃ m x, rpcMetric (val (mi_spec mi)) s = Some m ∧ mm_value m = MVScalar x ∧ number x = false.
(** Distributions and lists contain numbers only, and the types of lists of times and durations are []time.Time and
    []time.Duration. *)
Definition encodable {W} (val : RegistryModel.mspec → value W) (arrays : W → list array) (s : W) (mi : minfo) : Prop :=
  ∀ m, rpcMetric (val (mi_spec mi)) s = Some m →
    match mm_value m with
    | MVDist d => Forall (λ f, is_finite f = true) ([dm_min d; dm_max d; dm_average d; dm_median d; dm_sum d] ++ map r_lower (dm_ranges d) ++ map r_upper (dm_ranges d))
    | MVSlice sl => Forall (λ x, number x = true) (cells (arrays s) sl) ∧ (s_elem sl = RTime ∨ s_elem sl = RDuration → s_named sl = None)
    | MVScalar _ => True
    end.

(** The error page of the handlers. *)
Definition error_page : response := Resp 200 (BText ("Error in template." +:+ newline)).

(** ** Text *)
Definition no_char (c : ascii) (s : string) : Prop := str_all (λ x, negb (Ascii.eqb x c)) s = true.
(** the complete lines of a text, and what follows the last of them *)
Fixpoint text_lines (cur : string) (s : string) : list string * string :=
  match s with
  | "" => ([], cur)
  | String c s => if Ascii.eqb c "010" then let '(ls, r) := text_lines "" s in (cur :: ls, r) else text_lines (cur +:+ String c "") s
  end.
(** a line up to its first space, and what follows the space *)
Fixpoint split_space (s : string) : option (string * string) :=
  match s with
  | "" => None
  | String c s => if Ascii.eqb c " " then Some ("", s) else match split_space s with Some (a, b) => Some (String c a, b) | None => None end
  end.
(** The strings of a metric's value contain no line break. *)
Definition no_line_break (x : rval) : Prop := match content_of x with CtString str => no_char "010" str | _ => True end.
Definition one_line {W} (val : RegistryModel.mspec → value W) (arrays : W → list array) (s : W) (mi : minfo) : Prop :=
  ∀ m, rpcMetric (val (mi_spec mi)) s = Some m →
    match mm_value m with
    | MVDist _ => True
    | MVSlice sl => Forall no_line_break (cells (arrays s) sl)
    | MVScalar x => no_line_break x
    end.
Definition plain_name (n : string) : Prop := no_char " " n ∧ no_char "010" n.
