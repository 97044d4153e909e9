(** What the text and HTML forms of single values should be. *)
From Verif Require Import GoBase GoVal UnitsModel DurationModel DurationSpec DurationProofs TypesModel FloatBase.
From stdpp Require Import list.
From Verif Require Import ReflectModel ListModel ValueModel ValueSpec FormatSpec.
Local Open Scope string_scope.

(** what the text form should be; floats are left to strconv *)
Definition text_shows (u : string) (c : content) (s : string) : Prop :=
  match c with
  | CtBool b => s = if b then "true" else "false"
  | CtInt x => exact_text x s
  | CtString str => s = String "034" (str ++ String "034" "")
  | CtDuration d => decimal9 s (per_second u * d)
  (* an unset time, January 1 of year 1, is shown as 0 *)
  | CtTime t => (t = MkTime (-62135596800) 0 → decimal9 s 0) ∧
      (t ≠ MkTime (-62135596800) 0 → valid_time t → ((Z.abs (t_sec t) + 1) * per_second u < 2 ^ 63)%Z → decimal9 s (per_second u * time_ns t))
  | _ => True
  end.
(** what the HTML form should be; times are left to the time package *)
Definition html_shows (u : string) (c : content) (s : string) : Prop :=
  match c with
  | CtInt x => html_number u x s
  | CtDuration d => if (d <? 0)%Z then decimal9 s (per_second u * d) else ∃ q g, shows s q g ∧ (q <= d < q + g)%Z
  | CtBool b => s = if b then "true" else "false"
  | CtString str => s = String "034" (str ++ String "034" "")
  | _ => True
  end.
