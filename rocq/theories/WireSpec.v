(** What the properties about replies, compression and JSON read back mean. *)
From Verif Require Import GoBase GoVal UnitsModel DurationModel TypesModel FloatBase MessagesModel MessagesSpec.
From stdpp Require Import gmap strings.
From Verif Require Import ReflectModel ListModel ValueModel ValueSpec.
From Verif Require Import PathModel RegistryModel HttpModel HttpSpec.
Local Open Scope string_scope.
Local Open Scope list_scope.

(** ** Go RPC *)
(** The type of a value is one of those in the table of messages/api.go:64-96. *)
Definition sendable (v : mvalue) : Prop :=
  match v with
  | MVDist _ => True
  | MVSlice s => s_named s = None ∧ ∃ k, documented k (s_elem s)
  | MVScalar x => ∃ k, documented k (rtype_of x)
  end.
Definition sendable_metric {W} (val : RegistryModel.mspec → value W) (s : W) (mi : minfo) : Prop :=
  ∀ m, rpcMetric (val (mi_spec mi)) s = Some m → sendable (mm_value m).
(** As [objects] of HttpSpec.v, with every registered object [plain_spec]: no declared types below 32 bits. *)
Definition plain_objects {W} (w : wordsize) (val : RegistryModel.mspec → value W) : Prop :=
  ∀ sp, ∃ o s0, well_typed w o ∧ plain_spec w o ∧ ValueModel.newValue w s0 o = NVOk (val sp).

(** ** Accept-Encoding (RFC 9110, 12.5.3): a list of codings with optional weights *)
Fixpoint split_on (c : ascii) (s : string) : list string :=
  match s with
  | "" => [""]
  | String a r => if Ascii.eqb a c then "" :: split_on c r else match split_on c r with x :: xs => String a x :: xs | [] => [String a ""] end
  end.
Definition blank (c : ascii) : bool := Ascii.eqb c " " || Ascii.eqb c "009".
Fixpoint trim_left (s : string) : string := match s with String c r => if blank c then trim_left r else s | "" => "" end.
Fixpoint trim_right (s : string) : string :=
  match s with String c r => match trim_right r with "" => if blank c then "" else String c "" | r' => String c r' end | "" => "" end.
Definition trim (s : string) : string := trim_right (trim_left s).
(** the coding of an element, and whether its weight is 0 *)
Definition coding (e : string) : string := trim (match split_on ";" e with x :: _ => x | [] => "" end).
Definition zero_weights : list string := ["q=0"; "q=0."; "q=0.0"; "q=0.00"; "q=0.000"].
Definition refused (e : string) : Prop := ∃ x, x ∈ tail (split_on ";" e) ∧ trim x ∈ zero_weights.
Definition is_gzip (e : string) : Prop := coding e = "gzip" ∨ coding e = "x-gzip".
(** Without the header every coding is acceptable; * stands for the codings that are not listed. *)
Definition accepts_gzip (lines : list string) : Prop :=
  let es := concat (map (split_on ",") lines) in
  lines = [] ∨ (∃ e, e ∈ es ∧ is_gzip e ∧ ¬ refused e) ∨ ((∀ e, e ∈ es → ¬ is_gzip e) ∧ ∃ e, e ∈ es ∧ coding e = "*" ∧ ¬ refused e).
Definition occurs (sub s : string) : Prop := ∃ a b, s = a +:+ sub +:+ b.

(** ** Valid UTF-8 (the grammar of RFC 3629, section 4) *)
Definition in_range (c : ascii) (lo hi : N) : Prop := (lo ≤ N_of_ascii c ≤ hi)%N.
Inductive utf8 : string → Prop :=
  | u_end : utf8 ""
  | u_1 a r : in_range a 0 127 → utf8 r → utf8 (String a r)
  | u_2 a b r : in_range a 194 223 → in_range b 128 191 → utf8 r → utf8 (String a (String b r))
  | u_3 a b c r : in_range a 224 224 ∧ in_range b 160 191 ∨ in_range a 225 236 ∧ in_range b 128 191 ∨ in_range a 237 237 ∧ in_range b 128 159 ∨ in_range a 238 239 ∧ in_range b 128 191 →
      in_range c 128 191 → utf8 r → utf8 (String a (String b (String c r)))
  | u_4 a b c d r : in_range a 240 240 ∧ in_range b 144 191 ∨ in_range a 241 243 ∧ in_range b 128 191 ∨ in_range a 244 244 ∧ in_range b 128 143 →
      in_range c 128 191 → in_range d 128 191 → utf8 r → utf8 (String a (String b (String c (String d r)))).
(** The strings of a metric. *)
Definition strings_of (v : goval) : list string :=
  match v with VScalar t x => match t return denote t → list string with SString => λ x, [x] | _ => λ _, [] end x | _ => [] end.
Definition readable_text (m : metric) : Prop := Forall utf8 ([m_path m; m_description m; m_unit m] ++ strings_of (m_value m)).
(** The types whose values survive JSON: their text says which value it is once Kind is known. *)
Definition survives (t : sty) : bool := match t with SBool | SFloat64 | SString | STime | SDuration => true | _ => false end.
(** The integer in a value of one of the sized integer types. *)
Definition integer_of (v : goval) : option Z :=
  match v with
  | VScalar t x =>
      match t return denote t → option Z with
      | SInt8 | SInt16 | SInt32 | SInt64 | SUint8 | SUint16 | SUint32 | SUint64 => λ z, Some z
      | _ => λ _, None
      end x
  | _ => None
  end.
