(** Model of the HTML pages (html.go:15-74 template, 103-166): what they show, as data. The markup itself, and the escaping
    that html/template adds to every string, are not modelled.

    As in HttpModel.v the program is in one state s during a request. *)
From Verif Require Import GoBase GoVal UnitsModel DurationModel TypesModel FloatBase MessagesModel FloatConvModel.
From stdpp Require Import gmap strings.
From Flocq Require Import IEEE754.BinarySingleNaN.
From Verif Require Import PathModel RegistryModel UrlModel.
From Verif Require Import ReflectModel ListModel ValueModel FormatModel HttpModel.
Local Open Scope string_scope.
Local Open Scope list_scope.

(** html.go:25-34: one row of the table of a distribution; the template shows end points as float32 (148-150 ToFloat32) *)
Inductive row := RowBelow (e : float32) (count : N) | RowFrom (st : float32) (count : N) | RowRange (st e : float32) (count : N).
(** html.go:38-40 *)
Record summary := MkSummary { su_min : float32; su_max : float32; su_avg : float32; su_median : float32; su_sum : float32; su_count : N }.
(** html.go:18-52: the three forms of the template METRIC *)
Inductive shown := ShDist (rows : list row) (su : option summary) | ShList (sub : type_t) (items : list string) | ShValue (text : string) (t : type_t).
(** the unit is shown if there is one *)
Record section := MkSection { sc_path : string; sc_desc : string; sc_unit : option unit_t; sc_shown : shown }.
(** html.go:60-66: one entry of a directory page *)
Inductive item := ILink (href text : string) | ISection (sc : section).

(** html.go:24-36, with the flags of newBucketerFromEndpoints (metric.go:287-299) *)
Definition html_row (first last : bool) (r : range_msg) : list row :=
  if N.eqb (r_count r) 0 then []
  else if first then [RowBelow (f32_of_f64 (r_upper r)) (r_count r)]
  else if last then [RowFrom (f32_of_f64 (r_lower r)) (r_count r)]
  else [RowRange (f32_of_f64 (r_lower r)) (f32_of_f64 (r_upper r)) (r_count r)].
Fixpoint html_rows (first : bool) (l : list range_msg) : list row :=
  match l with
  | [] => []
  | r :: l => html_row first (match l with [] => true | _ => false end) r ++ html_rows false l
  end.
Definition html_dist (d : dist_msg) : shown :=
  ShDist (html_rows true (dm_ranges d))
    (if N.eqb (dm_count d) 0 then None
     else Some (MkSummary (f32_of_f64 (dm_min d)) (f32_of_f64 (dm_max d)) (f32_of_f64 (dm_average d)) (f32_of_f64 (dm_median d)) (f32_of_f64 (dm_sum d)) (dm_count d))).
(** html.go:129-138 HtmlType *)
Definition HtmlType (t : type_t) : type_t := if String.eqb t GoTime then Time else if String.eqb t GoDuration then TDuration else t.
(** html.go:140-142 HasUnit *)
Definition html_unit (u : unit_t) : option unit_t := if String.eqb u UNone then None else Some u.

Section Pages.
  Context {W : Type} (val : RegistryModel.mspec → value W) (arrays : W → list array).
  Context (FormatFloat : float32 + float64 → string) (FormatTime : gotime → string).

  (** html.go:113-127 AsHtmlString, HtmlStrings, IsDistribution, IsList; metric.go:710-718, 1348-1354; None = panic *)
  Definition html_shown (v : value W) (u : unit_t) (s : W) : option shown :=
    match v_src v with
    | SrcDist d => Some (html_dist (d s))
    | SrcList l =>
        ShList (HtmlType (l_subType (l s))) <$>
          mapM (λ x, fmt_ok (valueToHtmlString FormatFloat FormatTime x (l_subType (l s)) u false)) (cells (arrays s) (l_slice (l s)))
    | SrcVal _ _ =>
        match evaluate v s with
        | None => None
        | Some x => (λ t, ShValue t (HtmlType (v_type v))) <$> fmt_ok (valueToHtmlString FormatFloat FormatTime x (v_type v) u (v_isPtr v))
        end
    end.
  (** the template METRIC; html.go:152-158 htmlEmitMetric shows one of them *)
  Definition htmlMetric (e : entry) (s : W) : option section :=
    match info e with
    | None => None
    | Some mi => MkSection (absPath e) (mi_desc mi) (html_unit (mi_unit mi)) <$> html_shown (val (mi_spec mi)) (mi_unit mi) s
    end.
  (** html.go:61-65, 109-111 AsMetricView, 144-146 Link *)
  Definition htmlItem (h : heap) (s : W) (e : entry) : option item :=
    match e_obj e with
    | ODir d => Some (ILink (Link (dirAbsPath h d)) (dirAbsPath h d))
    | OMetric _ => ISection <$> htmlMetric e s
    end.
  (** html.go:160-166 htmlEmitDirectory; [l]: what listUnsorted returned (metric.go:1473-1475 List) *)
  Definition htmlDirectory (h : heap) (l : list entry) (s : W) : option (list item) := mapM (htmlItem h s) (sortListEntries l).
End Pages.
