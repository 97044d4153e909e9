(** Go fixed width integers and byte strings, shared by every model file. *)
From Coq Require Export ZArith NArith Lia String Ascii List Bool.
Export ListNotations.
Open Scope Z_scope.
Arguments N.add : simpl never.
Arguments N.mul : simpl never.
Arguments Z.add : simpl never.
Arguments Z.mul : simpl never.
Arguments Z.pow : simpl never.
Arguments N.pow : simpl never.

(** ** Fixed width integers (Go spec: arithmetic wraps modulo 2^n). *)
Definition wrap64 (z : Z) : Z := (z + 2^63) mod 2^64 - 2^63.
Definition wrap32 (z : Z) : Z := (z + 2^31) mod 2^32 - 2^31.
Definition uwrap64 (n : N) : N := N.modulo n (2^64).

Definition in64 (z : Z) : Prop := - 2^63 <= z < 2^63.
Definition in32 (z : Z) : Prop := - 2^31 <= z < 2^31.

(** ** Bytes. A Go string is a byte sequence, as is a Coq [string]. *)
Definition byte_is (c : ascii) (n : N) : bool := N.eqb (N_of_ascii c) n.
Definition is_digit (c : ascii) : bool :=
  andb (N.leb 48 (N_of_ascii c)) (N.leb (N_of_ascii c) 57).
Definition digit_val (c : ascii) : N := N.sub (N_of_ascii c) 48.
Definition digit_char (n : N) : ascii := ascii_of_N (N.add 48 n).

Fixpoint str_all (p : ascii -> bool) (s : string) : bool :=
  match s with
  | EmptyString => true
  | String c r => andb (p c) (str_all p r)
  end.

(** s[:n] and s[n:] for n <= len(s). *)
Fixpoint str_take (n : nat) (s : string) : string :=
  match n, s with
  | S k, String c r => String c (str_take k r)
  | _, _ => EmptyString
  end.
Fixpoint str_drop (n : nat) (s : string) : string :=
  match n, s with
  | S k, String _ r => str_drop k r
  | _, _ => s
  end.

(** strings.Repeat("0", n) *)
Fixpoint zeros (n : nat) : string :=
  match n with O => EmptyString | S k => String "0"%char (zeros k) end.

(** ** strconv / fmt decimal output *)

(** Base ten digits of n, most significant first (strconv.FormatUint(n, 10)). *)
Fixpoint dec_aux (fuel : nat) (n : N) (acc : string) : string :=
  match fuel with
  | O => acc
  | S f =>
      let acc' := String (digit_char (N.modulo n 10)) acc in
      if N.eqb (N.div n 10) 0 then acc' else dec_aux f (N.div n 10) acc'
  end.
Definition dec_of_N (n : N) : string := dec_aux (S (N.to_nat (N.log2 n))) n EmptyString.

(** strconv.FormatInt(z, 10) and fmt "%d" of a signed integer. *)
Definition fmt_d (z : Z) : string :=
  if Z.ltb z 0 then append "-" (dec_of_N (Z.to_N (- z))) else dec_of_N (Z.to_N z).

Definition pad0 (w : nat) (s : string) : string :=
  append (zeros (w - String.length s)) s.

(** fmt "%0wd" of a signed integer: zero padded to width w, the sign counts (fmt/format.go fmtInteger). *)
Definition fmt_0d (w : nat) (z : Z) : string :=
  if Z.ltb z 0 then append "-" (pad0 (w - 1) (dec_of_N (Z.to_N (- z))))
  else pad0 w (dec_of_N (Z.to_N z)).

(** ** strconv decimal input *)
Fixpoint digits_acc (acc : N) (s : string) : option N :=
  match s with
  | EmptyString => Some acc
  | String c r => if is_digit c then digits_acc (N.add (N.mul 10 acc) (digit_val c)) r else None
  end.

(** strconv.ParseUint(s, 10, bits): None = any error (syntax or range). *)
Definition parse_uint (bits : N) (s : string) : option N :=
  match s with
  | EmptyString => None
  | _ => match digits_acc 0 s with
         | Some n => if N.ltb n (N.pow 2 bits) then Some n else None
         | None => None
         end
  end.

(** strconv.ParseInt(s, 10, 64): None = any error. *)
Definition parse_int64 (s : string) : option Z :=
  match s with
  | EmptyString => None
  | String c r =>
      let neg := byte_is c 45 in
      let body := if orb (byte_is c 43) (byte_is c 45) then r else s in
      match parse_uint 64 body with
      | None => None
      | Some un =>
          if andb (negb neg) (N.leb (2^63) un) then None
          else if andb neg (N.ltb (2^63) un) then None
          else Some (if neg then - Z.of_N un else Z.of_N un)
      end
  end.
