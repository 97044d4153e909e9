(** Model of pathSpec (go/tricorder/metric.go:1800-1845). *)
From Verif Require Import GoBase.
Local Open Scope string_scope.
Local Open Scope list_scope.

(** '/' *)
Definition slash : ascii := "/"%char.
Definition is_slash (c : ascii) : bool := Ascii.eqb c slash.

(** strings.Split(s, "/") (Go standard library): always at least one part. *)
Fixpoint splitSlash (s : string) : list string :=
  match s with
  | EmptyString => [EmptyString]
  | String c r =>
      if is_slash c then EmptyString :: splitSlash r
      else match splitSlash r with
           | [] => [String c EmptyString]
           | p :: ps => String c p :: ps
           end
  end.

(** UTF-8 encodings of the code points for which unicode.IsSpace holds: U+0009..U+000D, U+0020, U+0085, U+00A0,
    U+1680, U+2000..U+200A, U+2028, U+2029, U+202F, U+205F, U+3000. *)
Definition byte (n : N) : ascii := ascii_of_N n.
Definition space_encodings : list (list N) :=
  [[9];[10];[11];[12];[13];[32];[194;133];[194;160];[225;154;128];
   [226;128;128];[226;128;129];[226;128;130];[226;128;131];[226;128;132];[226;128;133];[226;128;134];
   [226;128;135];[226;128;136];[226;128;137];[226;128;138];[226;128;168];[226;128;169];[226;128;175];
   [226;129;159];[227;128;128]]%N.

(** Does s start with these bytes?  The rest if so. *)
Fixpoint strip_bytes (bs : list N) (s : string) : option string :=
  match bs with
  | [] => Some s
  | b :: bs' => match s with
                | String c r => if N.eqb (N_of_ascii c) b then strip_bytes bs' r else None
                | EmptyString => None
                end
  end.
Fixpoint first_some {A B} (f : A -> option B) (l : list A) : option B :=
  match l with [] => None | x :: r => match f x with Some y => Some y | None => first_some f r end end.

(** The white space characters at the start of s are dropped (strings.TrimLeft with unicode.IsSpace).  The fuel
    is the length of the string; every character takes at least one byte. *)
Fixpoint trimLeft (fuel : nat) (s : string) : string :=
  match fuel with
  | O => s
  | S f => match first_some (fun e => strip_bytes e s) space_encodings with
           | Some r => trimLeft f r
           | None => s
           end
  end.
(** strings.TrimSpace(s) == "" : what remains after trimming the left is trimmed on the right only up to its first
    character, which is no white space, so the result is empty exactly when trimming the left leaves nothing. *)
Definition trimSpaceEmpty (s : string) : bool := String.eqb (trimLeft (String.length s) s) "".

(** metric.go:1803-1816  newPathSpec *)
Definition newPathSpec (path : string) : list string :=
  filter (fun p => negb (trimSpaceEmpty p)) (splitSlash path).

(** metric.go:1820-1826 Dir and 1830-1836 Base; None = panic on the empty path *)
Definition Dir (p : list string) : option (list string) :=
  match p with [] => None | _ => Some (removelast p) end.
Definition Base (p : list string) : option string :=
  match p with [] => None | x :: r => Some (last r x) end.

(** metric.go:1843-1845  String: strings.Join(p, "/") *)
Fixpoint join (p : list string) : string :=
  match p with
  | [] => ""
  | [x] => x
  | x :: r => x ++ "/" ++ join r
  end%string.
