(** Names of directories whose links work. *)
From Verif Require Import GoBase.
Local Open Scope string_scope.

Definition hexadecimal (c : ascii) : Prop := In c (list_ascii_of_string "0123456789abcdefABCDEF").
(** n contains something that looks like a percent-encoded byte *)
Definition escape_like (n : string) : Prop :=
  exists a x y b, n = a ++ String "%" (String x (String y b)) /\ hexadecimal x /\ hexadecimal y.
Definition contains (c : ascii) (n : string) : Prop := exists a b, n = a ++ String c b.
Definition link_safe (n : string) : Prop :=
  ~ contains "?" n /\ ~ contains "#" n /\ ~ escape_like n /\ n <> "." /\ n <> "..".
