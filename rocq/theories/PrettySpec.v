(** What a duration shown to people tells, independently of the model (C87). *)
From Coq Require Import ZArith.
Local Open Scope Z_scope.

(** The size, in ns, of the last digit that is shown for a duration of v ns: below 10 us the nanosecond, below 10 ms
    the microsecond, below one hour the millisecond, above that the second. *)
Definition precision (v : Z) : Z :=
  if v <? 10000 then 1 else if v <? 10000000 then 1000 else if v <? 3600000000000 then 1000000 else 1000000000.
(** The duration cut off after that digit. *)
Definition cut (v : Z) : Z := v / precision v * precision v.
