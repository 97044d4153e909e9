(** What the text and HTML forms should look like, independently of the model. *)
From Verif Require Import GoBase TextSpec.
Local Open Scope string_scope.

(** ** Separators *)
Definition is_byte (c d : ascii) : bool := Ascii.eqb c d.
Definition no_digits (s : string) : Prop := str_all (fun c => negb (is_digit c)) s = true.
Definition has_digit (s : string) : Prop := ~ no_digits s.
Fixpoint str_concat (l : list string) : string := match l with [] => "" | x :: l => x ++ str_concat l end.
(** [out] is [orig] with its first run of digits cut into groups of n digits, counted from the right. *)
Definition grouped (sep : string) (n : nat) (orig out : string) : Prop :=
  exists pre g gs post,
    orig = pre ++ str_concat (g :: gs) ++ post /\ out = pre ++ String.concat sep (g :: gs) ++ post /\
    no_digits pre /\ Forall (fun x => str_all is_digit x = true) (g :: gs) /\
    match post with String c _ => is_digit c = false | "" => True end /\
    (1 <= String.length g <= n)%nat /\ Forall (fun x => String.length x = n) gs.
(** the string without the characters c *)
Fixpoint without (c : ascii) (s : string) : string :=
  match s with "" => "" | String d r => if is_byte c d then without c r else String d (without c r) end.

(** ** Compact numbers *)
(** [s] is the decimal text, with exactly p fractional digits, of the number n * 10^-p. *)
Definition decimal_text (s : string) (n : Z) (p : nat) : Prop :=
  exists (ip fp : string) (ipn : N),
    s = (if (n <? 0)%Z then "-" else "") ++ ip ++ (match p with O => "" | _ => "." ++ fp end) /\
    canonical_dec ip ipn /\ String.length fp = p /\ str_all is_digit fp = true /\
    Z.abs n = (Z.of_N ipn * 10 ^ Z.of_nat p + Z.of_N (digits_value fp))%Z.
(** the multiple that a suffix stands for; "K trillion" is a thousand trillion *)
Inductive multiple : string -> Z -> Prop :=
  | m_thousand : multiple " thousand" (10 ^ 3)
  | m_million : multiple " million" (10 ^ 6)
  | m_billion : multiple " billion" (10 ^ 9)
  | m_trillion : multiple " trillion" (10 ^ 12)
  | m_k_trillion : multiple "K trillion" (10 ^ 15)
  | m_m_trillion : multiple "M trillion" (10 ^ 18).
Inductive multiple_byte : string -> Z -> Prop :=
  | m_kib : multiple_byte " KiB" (2 ^ 10)
  | m_mib : multiple_byte " MiB" (2 ^ 20)
  | m_gib : multiple_byte " GiB" (2 ^ 30)
  | m_tib : multiple_byte " TiB" (2 ^ 40)
  | m_pib : multiple_byte " PiB" (2 ^ 50)
  | m_eib : multiple_byte " EiB" (2 ^ 60).
Definition multiple_rate (s : string) (k : Z) : Prop := exists t, multiple_byte t k /\ s = t ++ "/s".
(** [s] shows x as a decimal number with at most two decimals times the multiple of a suffix, off by at most 0.501 per cent.
    At least three digits are shown, and never more than 1024 of a multiple. *)
Definition shows_compact (suffix : string -> Z -> Prop) (x : Z) (s : string) : Prop :=
  exists text sfx n p k, s = text ++ sfx /\ suffix sfx k /\ (p <= 2)%nat /\ decimal_text text n p /\ (100 <= Z.abs n <= 1024)%Z /\
    (100000 * Z.abs (n * k - x * 10 ^ Z.of_nat p) <= 501 * (Z.abs x * 10 ^ Z.of_nat p))%Z.
(** the exact decimal text of an integer *)
Definition exact_text (x : Z) (s : string) : Prop := exists t, canonical_dec t (Z.abs_N x) /\ s = (if (x <? 0)%Z then "-" else "") ++ t.
(** What a browser should show for an integer with unit u. *)
Definition html_number (u : string) (x : Z) (s : string) : Prop :=
  if String.eqb u "None" then exists t, exact_text x t /\ grouped "," 3 t s
  else if String.eqb u "Bytes" then if (Z.abs x <? 1024)%Z then exact_text x s else shows_compact multiple_byte x s
  else if String.eqb u "BytesPerSecond" then if (Z.abs x <? 1024)%Z then exact_text x s else shows_compact multiple_rate x s
  else if (Z.abs x <? 1000)%Z then exact_text x s else shows_compact multiple x s.
