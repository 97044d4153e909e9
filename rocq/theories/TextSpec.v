(** Specification of decimal text, independent of the model: what a digit string denotes and
    which digit string is the canonical text of a number. *)
From Verif Require Import GoBase.
Local Open Scope string_scope.

(** Value of a digit string, most significant first. *)
Fixpoint dval (acc : N) (s : string) : N :=
  match s with
  | EmptyString => acc
  | String c r => dval (10 * acc + digit_val c) r
  end.
Definition digits_value (s : string) : N := dval 0 s.

(** [s] is the decimal text of n without superfluous zeros. *)
Definition canonical_dec (s : string) (n : N) : Prop :=
  s <> "" /\ str_all is_digit s = true /\ digits_value s = n /\
  (match s with String c (String _ _) => c <> "0"%char | _ => True end).

