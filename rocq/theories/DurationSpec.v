(** What the duration properties mean, independently of the model. *)
From Verif Require Import GoBase TextSpec.
Local Open Scope string_scope.

Definition billion : Z := 1000000000.

(** A (seconds, nanoseconds) pair in the documented form: nanoseconds below one second in magnitude and
    both parts of the same sign. *)
Definition normalised (s ns : Z) : Prop :=
  (Z.abs ns < billion)%Z /\ ((0 <= s /\ 0 <= ns) \/ (s <= 0 /\ ns <= 0))%Z.

(** [s] is the decimal text, with exactly nine fractional digits, of the number n * 10^-9. *)
Definition decimal9 (s : string) (n : Z) : Prop :=
  exists (ip fp : string) (ipn : N),
    s = (if (n <? 0)%Z then "-" else "") ++ ip ++ "." ++ fp /\
    canonical_dec ip ipn /\
    String.length fp = 9%nat /\ str_all is_digit fp = true /\
    Z.abs n = (Z.of_N ipn * billion + Z.of_N (digits_value fp))%Z.

(** The value in the unit: multiply a number of seconds by this. *)
Definition per_second (u : string) : Z := if String.eqb u "Milliseconds" then 1000%Z else 1%Z.

(** ** Grammar of accepted duration strings *)

(** the (up to) nine digits after the dot, padded with zeros on the right *)
Definition frac_text (f : string) : string := str_take 9 (f ++ "000000000").

Definition no_dot (s : string) : bool := str_all (fun c => negb (byte_is c 46)) s.

(** text of the whole part: optional sign, at least one digit; only "-0...0" may carry a minus sign *)
Definition whole_text (w : string) (n : Z) : Prop :=
  exists (sg ds : string), w = sg ++ ds /\ (sg = "" \/ sg = "+" \/ (sg = "-" /\ n = 0%Z)) /\
    ds <> "" /\ str_all is_digit ds = true /\ Z.of_N (digits_value ds) = n /\ (n < 2^63)%Z.

(** [str] denotes sg * (sec + ns * 10^-9), fraction truncated to nine digits. *)
Definition parses (str : string) (sec ns : Z) : Prop :=
  exists (neg : bool) (w rest : string) (whole frac : Z),
    str = (if neg then "-" else "") ++ w ++ rest /\
    (neg = false -> forall r, str <> String "-" r) /\
    whole_text w whole /\
    ((rest = "" /\ frac = 0%Z) \/
     (exists f, rest = "." ++ f /\ str_all is_digit (frac_text f) = true /\
                frac = Z.of_N (digits_value (frac_text f)))) /\
    sec = (if neg then - whole else whole)%Z /\ ns = (if neg then - frac else frac)%Z.

(** ** Forms of PrettyFormat.  [shows s q g]: the text s shows the quantity q (ns) with granularity g (ns). *)
Definition dec (s : string) (n : Z) : Prop := (0 <= n)%Z /\ canonical_dec s (Z.to_N n).
Definition dec3 (s : string) (n : Z) : Prop :=
  (0 <= n)%Z /\ String.length s = 3%nat /\ str_all is_digit s = true /\ digits_value s = Z.to_N n.

Inductive shows : string -> Z -> Z -> Prop :=
| ShowNs t n : dec t n -> (n < 10000)%Z -> shows (t ++ "ns") n 1
| ShowUs t n : dec t n -> (10 <= n < 10000)%Z -> shows (t ++ "μs") (n * 1000) 1000
| ShowMs t n : dec t n -> (10 <= n < 1000)%Z -> shows (t ++ "ms") (n * 1000000) 1000000
| ShowS ts tm s m : dec ts s -> dec3 tm m -> (1 <= s < 60)%Z -> (m < 1000)%Z ->
    shows (ts ++ "." ++ tm ++ "s") (s * billion + m * 1000000) 1000000
| ShowM tmi ts tm mi s m : dec tmi mi -> dec ts s -> dec3 tm m -> (1 <= mi < 60)%Z -> (s < 60)%Z -> (m < 1000)%Z ->
    shows (tmi ++ "m " ++ ts ++ "." ++ tm ++ "s") ((mi * 60 + s) * billion + m * 1000000) 1000000
| ShowH th tmi ts h mi s : dec th h -> dec tmi mi -> dec ts s -> (1 <= h < 24)%Z -> (mi < 60)%Z -> (s < 60)%Z ->
    shows (th ++ "h " ++ tmi ++ "m " ++ ts ++ "s") ((h * 3600 + mi * 60 + s) * billion) billion
| ShowD td th tmi ts d h mi s : dec td d -> dec th h -> dec tmi mi -> dec ts s ->
    (1 <= d)%Z -> (h < 24)%Z -> (mi < 60)%Z -> (s < 60)%Z ->
    shows (td ++ "d " ++ th ++ "h " ++ tmi ++ "m " ++ ts ++ "s")
          ((d * 86400 + h * 3600 + mi * 60 + s) * billion) billion.
