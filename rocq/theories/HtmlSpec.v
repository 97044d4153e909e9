(** What the HTML pages should show. *)
From Verif Require Import GoBase GoVal UnitsModel DurationModel TypesModel FloatBase MessagesModel FloatConvModel.
From stdpp Require Import gmap strings sorting.
From Verif Require Import ReflectModel ListModel ValueModel ValueSpec FormatModel FormatSpec FormatValueSpec.
From Verif Require Import PathModel PathSpec RegistryModel RegistrySpec RegistryConc RegistryConcSpec HttpModel HttpSpec UrlModel UrlSpec HtmlModel.
Local Open Scope string_scope.
Local Open Scope list_scope.

(** What the user gets who follows a link. *)
Definition visited (h : heap) (href : string) : option node := match followed href with Some p => looked_up h p | None => None end.

(** The rows show the ranges that are not empty, in order; the first range has no lower end, the last one no upper end. *)
Inductive row_of (n : nat) : nat * range_msg → row → Prop :=
  | RoFirst r : row_of n (0, r) (RowBelow (f32_of_f64 (r_upper r)) (r_count r))
  | RoLast i r : i ≠ 0 → S i = n → row_of n (i, r) (RowFrom (f32_of_f64 (r_lower r)) (r_count r))
  | RoMiddle i r : i ≠ 0 → S i < n → row_of n (i, r) (RowRange (f32_of_f64 (r_lower r)) (f32_of_f64 (r_upper r)) (r_count r)).
Definition nonempty (l : list range_msg) : list (nat * range_msg) := filter (λ x, r_count x.2 ≠ 0%N) (imap pair l).
(** The summary shows the figures of a distribution that has values. *)
Definition summary_of (d : dist_msg) (su : option summary) : Prop :=
  match su with
  | None => dm_count d = 0%N
  | Some x => dm_count d ≠ 0%N ∧ su_count x = dm_count d ∧
      [su_min x; su_max x; su_avg x; su_median x; su_sum x] = map f32_of_f64 [dm_min d; dm_max d; dm_average d; dm_median d; dm_sum d]
  end.
(** What is shown of the value of a message, with unit u. *)
Definition shows_value (arrays : list array) (u : string) (m : mmsg) (sh : shown) : Prop :=
  match mm_value m, sh with
  | MVDist d, ShDist rows su => Forall2 (row_of (length (dm_ranges d))) (nonempty (dm_ranges d)) rows ∧ summary_of d su
  | MVSlice sl, ShList _ ts => Forall2 (λ x t, html_shows u (content_of x) t) (cells arrays sl) ts
  | MVScalar x, ShValue t _ => html_shows u (content_of x) t
  | _, _ => False
  end.
Definition shows_unit (u : string) (o : option unit_t) : Prop := match o with None => u = "None" | Some v => u = v ∧ v ≠ "None" end.
(** The section of a metric that is registered at q. *)
Definition shows_metric {W} (val : RegistryModel.mspec → value W) (arrays : W → list array) (s : W) (q : list string) (mi : minfo) (sc : section) : Prop :=
  components (sc_path sc) q ∧ sc_desc sc = mi_desc mi ∧ shows_unit (mi_unit mi) (sc_unit sc) ∧
  ∃ m, rpcMetric (val (mi_spec mi)) s = Some m ∧ shows_value (arrays s) (mi_unit mi) m (sc_shown sc).
(** The entry of a directory page for what is registered at q. *)
Definition shows_node {W} (val : RegistryModel.mspec → value W) (arrays : W → list array) (h : heap) (s : W) (q : list string) (it : item) : Prop :=
  match answer h q, it with
  | Some (NDir _), ILink href text => components text q ∧ href = "/metrics" +:+ text
  | Some (NMetric e), ISection sc => ∃ mi, e_obj e = OMetric mi ∧ shows_metric val arrays s q mi sc
  | _, _ => False
  end.

(** ** HTML and JSON *)
Definition integer_of (v : goval) : option Z :=
  match v with
  | VScalar SInt8 z | VScalar SInt16 z | VScalar SInt32 z | VScalar SInt64 z | VScalar SUint8 z | VScalar SUint16 z | VScalar SUint32 z | VScalar SUint64 z => Some z
  | _ => None
  end.
(** what the JSON form of a value should be; durations and times as in text *)
Definition json_shows (u : string) (c : content) (v : goval) : Prop :=
  match c with
  | CtBool b => v = VScalar SBool b
  | CtInt z => integer_of v = Some z
  | CtFloat32 f => v = VScalar SFloat32 f
  | CtFloat64 f => v = VScalar SFloat64 f
  | CtString str => v = VScalar SString str
  | CtTime _ | CtDuration _ => ∃ str, v = VScalar SString str ∧ text_shows u c str
  | CtOther _ _ => False
  end.
(** A section and the JSON of a metric say the same. Nothing is said about values of a type that the program declares:
    what they contain is not part of the model of the JSON message. *)
Definition agrees (sc : section) (m : metric) : Prop :=
  sc_path sc = m_path m ∧ sc_desc sc = m_description m ∧ shows_unit (m_unit m) (sc_unit sc) ∧
  match sc_shown sc, m_value m with
  | ShDist rows su, VDist (Some d) => m_kind m = "distribution" ∧ Forall2 (row_of (length (dm_ranges d))) (nonempty (dm_ranges d)) rows ∧ summary_of d su
  | ShList t ts, VSlice st (Some l) => m_kind m = "list" ∧ m_subType m = t ∧
      ∃ cs, Forall2 (html_shows (m_unit m)) cs ts ∧ Forall2 (json_shows (m_unit m)) cs (map (VScalar st) l)
  | ShList t ts, VOther _ _ _ => m_kind m = "list" ∧ m_subType m = t
  | ShValue _ t, VOther _ _ _ => m_kind m = t
  | ShValue text t, v => m_kind m = t ∧ ∃ c, html_shows (m_unit m) c text ∧ json_shows (m_unit m) c v
  | _, _ => False
  end.
