(** When two values may have the same text, independently of the model (C89). *)
From Verif Require Import GoBase DurationModel DurationSpec ValueSpec.
Local Open Scope Z_scope.

(** Times whose seconds, in the unit, fit into an int64. *)
Definition in_range (u : string) (t : gotime) : Prop :=
  in64 (t_sec t) /\ 0 <= t_nsec t < 1000000000 /\ (Z.abs (t_sec t) + 1) * per_second u < 2 ^ 63.
(** January 1 of year 1, the time.Time that is not set, and the first instant of 1970. *)
Definition unset (t : gotime) : Prop := t = MkTime (-62135596800) 0.
Definition epoch (t : gotime) : Prop := t = MkTime 0 0.
(** The values are equal; times in range may also be unset and the epoch.  Nothing is said about floats. *)
Definition same_value (u : string) (c c' : content) : Prop :=
  match c, c' with
  | CtInt x, CtInt y => x = y
  | CtDuration d, CtDuration e => d = e
  | CtBool b, CtBool b' => b = b'
  | CtString s, CtString s' => s = s'
  | CtTime t, CtTime t' => in_range u t -> in_range u t' -> t = t' \/ (unset t /\ epoch t') \/ (epoch t /\ unset t')
  | _, _ => True
  end.
