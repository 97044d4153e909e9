(** When values that look alike in a browser are close enough, independently of the model (C88). *)
From Verif Require Import GoBase ValueSpec PrettySpec.
Local Open Scope Z_scope.

(** Integers without unit are equal, others differ by at most 0.501 per cent of the sum of their sizes, that is about
    one per cent of either.  Negative durations are equal, others agree up to the last digit shown.  Bools and
    strings are equal.  Nothing is said about floats and times. *)
Definition alike (u : string) (c c' : content) : Prop :=
  match c, c' with
  | CtInt x, CtInt y => if String.eqb u "None" then x = y else 100000 * Z.abs (x - y) <= 501 * (Z.abs x + Z.abs y)
  | CtDuration d, CtDuration e => if d <? 0 then d = e else 0 <= e /\ cut d = cut e
  | CtBool b, CtBool b' => b = b'
  | CtString s, CtString s' => s = s'
  | _, _ => True
  end.
