(** Model of the text and HTML forms of single values (go/tricorder/metric.go:58-64, 1180-1342). *)
From Verif Require Import GoBase GoVal UnitsModel DurationModel TypesModel FloatBase.
From Flocq Require Import IEEE754.BinarySingleNaN.
From Verif Require Import ReflectModel.
Local Open Scope string_scope.

(** Outcome of a formatting function. FmtFuel stands for a loop that is still running after [compact_fuel] rounds. *)
Inductive fmt_res := FmtOk (s : string) | FmtPanic | FmtFuel.

(** ** addSeparators *)
Fixpoint str_while (p : ascii -> bool) (s : string) : string :=
  match s with String c r => if p c then String c (str_while p r) else "" | "" => "" end.
Fixpoint str_skip (p : ascii -> bool) (s : string) : string :=
  match s with String c r => if p c then str_skip p r else s | "" => "" end.
(** metric.go:1195-1201: the loop over the digits; i is the index of the first digit left. None = division by zero. *)
Fixpoint sep_loop (sep : string) (n : Z) (dlen i : Z) (digits : string) : option string :=
  match digits with
  | "" => Some ""
  | String d r =>
      let digitsLeft := (dlen - i)%Z in
      match sep_loop sep n dlen (i + 1) r with
      | None => None
      | Some rest =>
          if (0 <? i)%Z then
            if (n =? 0)%Z then None
            else if (Z.rem digitsLeft n =? 0)%Z then Some (sep ++ String d rest) else Some (String d rest)
          else Some (String d rest)
      end
  end.
(** metric.go:1180-1204. [sep] is the UTF-8 encoding of the separator. Digits are ASCII and bytes of longer characters
    are not, so searching runes and searching bytes is the same. s[start:] panics when there is no digit (start = -1);
    when the digits end the string IndexFunc gives -1 and end becomes len(s). *)
Definition addSeparators (orig sep : string) (digitsBetween : Z) : fmt_res :=
  let from_start := str_skip (fun c => negb (is_digit c)) orig in
  match from_start with
  | "" => FmtPanic
  | _ =>
      let digits := str_while is_digit from_start in
      match sep_loop sep digitsBetween (Z.of_nat (String.length digits)) 0 digits with
      | None => FmtPanic
      | Some body => FmtOk (str_while (fun c => negb (is_digit c)) orig ++ body ++ str_skip is_digit from_start)
      end
  end.

(** ** compact forms *)
(** metric.go:58-64 *)
Definition suffixes : list string := [" thousand"; " million"; " billion"; " trillion"; "K trillion"; "M trillion"].
Definition byteSuffixes : list string := [" KiB"; " MiB"; " GiB"; " TiB"; " PiB"; " EiB"].
Definition bytePerSecondSuffixes : list string := [" KiB/s"; " MiB/s"; " GiB/s"; " TiB/s"; " PiB/s"; " EiB/s"].

(** round half to even of num / den, den > 0 *)
Definition round_half_even (num den : Z) : Z :=
  let q := (num / den)%Z in
  let r := (num mod den)%Z in
  if (2 * r <? den)%Z then q else if (den <? 2 * r)%Z then (q + 1)%Z else if Z.even q then q else (q + 1)%Z.
(** fmt "%.<p>f" of a float64 (strconv/ftoa.go bigFtoa, decimal.go Round): the exact value is rounded to p decimals,
    ties to even. *)
Definition fixed_digits (p : nat) (n : Z) : string :=
  let ten := (10 ^ Z.of_nat p)%Z in
  fmt_d (n / ten) ++ match p with O => "" | _ => "." ++ fmt_0d p (n mod ten) end.
Definition fmt_f (p : nat) (x : float64) : string :=
  match x with
  | B754_nan => "NaN"
  | B754_infinity s => if s then "-Inf" else "+Inf"
  | B754_zero s => (if s then "-" else "") ++ fixed_digits p 0
  | B754_finite s m e _ =>
      let scaled := (Zpos m * 10 ^ Z.of_nat p)%Z in
      (if s then "-" else "") ++ fixed_digits p (if (0 <=? e)%Z then scaled * 2 ^ e else round_half_even scaled (2 ^ (- e)))
  end.

Definition f64_opp : float64 -> float64 := Bopp.
(** the constants 9.995 and 99.95 as float64: nearest float64 *)
Definition f9995 : float64 := f64_div (f64_of_Z 9995) (f64_of_Z 1000).
Definition f9995x10 : float64 := f64_div (f64_of_Z 9995) (f64_of_Z 100).
(** more than the 64 rounds any 64 bit number needs with radix >= 2 *)
Definition compact_fuel : nat := 100.
(** metric.go:1258-1261 *)
Fixpoint i_loop (fuel : nat) (fradix fx : float64) (idx : Z) : option (float64 * Z) :=
  match fuel with
  | O => None
  | S fuel => if (f64_le fradix fx || f64_le fx (f64_opp fradix))%bool then i_loop fuel fradix (f64_div fx fradix) (idx + 1) else Some (fx, idx)
  end.
(** metric.go:1279-1282 *)
Fixpoint u_loop (fuel : nat) (fradix fx : float64) (idx : Z) : option (float64 * Z) :=
  match fuel with
  | O => None
  | S fuel => if f64_le fradix fx then u_loop fuel fradix (f64_div fx fradix) (idx + 1) else Some (fx, idx)
  end.
(** suffixes[idx]; None = index out of range *)
Definition suffix_at (sfx : list string) (idx : Z) : option string := if (idx <? 0)%Z then None else nth_error sfx (Z.to_nat idx).
Definition with_suffix (s : string) (sfx : list string) (idx : Z) : fmt_res :=
  match suffix_at sfx idx with Some t => FmtOk (s ++ t) | None => FmtPanic end.
(** metric.go:1251-1270. x is an int64; radix, a uint, is 1000 or 1024 in every call. *)
Definition iCompactForm (x radix : Z) (sfx : list string) : fmt_res :=
  if ((- radix <? x) && (x <? radix))%Z%bool then FmtOk (fmt_d x)
  else match i_loop compact_fuel (f64_of_Z radix) (f64_of_Z x) (-1) with
       | None => FmtFuel
       | Some (fx, idx) =>
           if (f64_lt (f64_opp f9995) fx && f64_lt fx f9995)%bool then with_suffix (fmt_f 2 fx) sfx idx
           else if (f64_lt (f64_opp f9995x10) fx && f64_lt fx f9995x10)%bool then with_suffix (fmt_f 1 fx) sfx idx
           else with_suffix (fmt_f 0 fx) sfx idx
       end.
(** metric.go:1272-1291 *)
Definition uCompactForm (x radix : Z) (sfx : list string) : fmt_res :=
  if (x <? radix)%Z then FmtOk (fmt_d x)
  else match u_loop compact_fuel (f64_of_Z radix) (f64_of_Z x) (-1) with
       | None => FmtFuel
       | Some (fx, idx) =>
           if f64_lt fx f9995 then with_suffix (fmt_f 2 fx) sfx idx
           else if f64_lt fx f9995x10 then with_suffix (fmt_f 1 fx) sfx idx
           else with_suffix (fmt_f 0 fx) sfx idx
       end.

(** ** valueToTextString, valueToHtmlString *)
(** metric.go:1026-1031  timeToDuration: the zero time.Time gives the zero duration *)
Definition timeToDuration (t : gotime) : Duration := if time_IsZero t then MkDur 0 0 else sinceEpoch t.
Section Values.
  (** strconv.FormatFloat(f, 'f', -1, 32 or 64) and Time.UTC().Format("2006-01-02T15:04:05.999999999Z") are not modelled:
      everything holds for any functions in their place. *)
  Context (FormatFloat : float32 + float64 -> string) (FormatTime : gotime -> string).
  Definition fmt_opt {A} (o : option A) (f : A -> string) : fmt_res := match o with Some x => FmtOk (f x) | None => FmtPanic end.
  (** reflect.Value.String of a value of kind string; the only values with type String (getPrimitiveType) *)
  Definition value_String (v : rval) : option string := match v with RVBasic KString _ s => Some s | _ => None end.
  (** metric.go:1206-1237 *)
  Definition valueToTextString (v : rval) (t : type_t) (u : unit_t) (isPtr : bool) : fmt_res :=
    if String.eqb t TBool then fmt_opt (value_Bool v) (fun b => if b then "true" else "false")
    else if (IsInt t && negb isPtr)%bool then fmt_opt (value_Int v) fmt_d
    else if (IsUint t && negb isPtr)%bool then fmt_opt (value_Uint v) fmt_d
    else if (String.eqb t Float32 && negb isPtr)%bool then fmt_opt (value_Float v) FormatFloat
    else if (String.eqb t Float64 && negb isPtr)%bool then fmt_opt (value_Float v) FormatFloat
    else if (String.eqb t TString && negb isPtr)%bool then fmt_opt (value_String v) (fun s => String "034" (s ++ String "034" ""))
    else if String.eqb t GoTime then fmt_opt (valueToTime v isPtr) (fun x => StringUsingUnits (timeToDuration x) u)
    else if (String.eqb t GoDuration && negb isPtr)%bool then fmt_opt (valueToGoDuration v) (fun d => StringUsingUnits (newDuration d) u)
    else FmtPanic.
  Definition compact {A} (o : option A) (f : A -> fmt_res) : fmt_res := match o with Some x => f x | None => FmtPanic end.
  Definition separated (r : fmt_res) : fmt_res := match r with FmtOk s => addSeparators s "," 3 | r => r end.
  (** metric.go:1293-1342 *)
  Definition valueToHtmlString (v : rval) (t : type_t) (u : unit_t) (isPtr : bool) : fmt_res :=
    if (IsInt t && negb isPtr)%bool then
      if String.eqb u UByte then compact (value_Int v) (fun x => iCompactForm x 1024 byteSuffixes)
      else if String.eqb u UBytePerSecond then compact (value_Int v) (fun x => iCompactForm x 1024 bytePerSecondSuffixes)
      else if String.eqb u UNone then separated (valueToTextString v t u isPtr)
      else compact (value_Int v) (fun x => iCompactForm x 1000 suffixes)
    else if (IsUint t && negb isPtr)%bool then
      if String.eqb u UByte then compact (value_Uint v) (fun x => uCompactForm x 1024 byteSuffixes)
      else if String.eqb u UBytePerSecond then compact (value_Uint v) (fun x => uCompactForm x 1024 bytePerSecondSuffixes)
      else if String.eqb u UNone then separated (valueToTextString v t u isPtr)
      else compact (value_Uint v) (fun x => uCompactForm x 1000 suffixes)
    else if (String.eqb t GoDuration && negb isPtr)%bool then
      compact (valueToGoDuration v) (fun g =>
        let d := newDuration g in if isNegative d then valueToTextString v t u isPtr else fmt_opt (prettyFormat d) (fun s => s))
    else if String.eqb t GoTime then fmt_opt (valueToTime v isPtr) FormatTime
    else valueToTextString v t u isPtr.
End Values.
