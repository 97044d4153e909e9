(** Model of the integer part of go/tricorder/duration (duration.go, api.go). *)
From Verif Require Import GoBase UnitsModel.
Local Open Scope Z_scope.

(** duration/api.go:12-15  type Duration struct { Seconds int64; Nanoseconds int32 } *)
Record Duration := MkDur { Seconds : Z; Nanoseconds : Z }.

(** time.Time as the instant it denotes: Unix() seconds (int64) and Nanosecond() in [0,1e9).
    The location and the monotonic clock reading are not modelled (no function here depends on them). *)
Record gotime := MkTime { t_sec : Z; t_nsec : Z }.
(** The zero time.Time: January 1, year 1, 00:00:00 UTC. *)
Definition zero_time : gotime := MkTime (-62135596800) 0.
(** time.Time.IsZero *)
Definition time_IsZero (t : gotime) : bool :=
  andb (Z.eqb (t_sec t) (-62135596800)) (Z.eqb (t_nsec t) 0).

(** time.Unix(sec, nsec) (Go standard library time/time.go): normalises nsec into [0,1e9). *)
Definition time_Unix (sec nsec : Z) : gotime :=
  if orb (Z.ltb nsec 0) (Z.leb 1000000000 nsec) then
    let n := Z.quot nsec 1000000000 in
    let sec1 := wrap64 (sec + n) in
    let nsec1 := wrap64 (nsec - wrap64 (n * 1000000000)) in
    if Z.ltb nsec1 0 then MkTime (wrap64 (sec1 - 1)) (nsec1 + 1000000000)
    else MkTime sec1 nsec1
  else MkTime sec nsec.

(** duration.go:14 *)
Definition oneBillion : Z := 1000000000.

(** time.Second, time.Millisecond, time.Nanosecond as time.Duration (int64 nanoseconds) *)
Definition time_Second : Z := 1000000000.
Definition time_Millisecond : Z := 1000000.
Definition time_Nanosecond : Z := 1.

(** duration.go:17-21  newDuration *)
Definition newDuration (d : Z) : Duration :=
  MkDur (Z.quot d time_Second) (wrap32 (Z.quot (Z.rem d time_Second) time_Nanosecond)).

(** duration.go:24-32  sinceEpoch *)
Definition sinceEpoch (t : gotime) : Duration :=
  let s := t_sec t in
  let ns := wrap32 (t_nsec t) in
  if andb (Z.ltb s 0) (Z.ltb 0 ns) then MkDur (wrap64 (s + 1)) (wrap32 (ns - oneBillion))
  else MkDur s ns.

(** duration.go:41-43  asGoDuration *)
Definition asGoDuration (d : Duration) : Z :=
  wrap64 (wrap64 (time_Second * Seconds d) + wrap64 (Nanoseconds d * time_Nanosecond)).

(** duration.go:45-47  asGoTime *)
Definition asGoTime (d : Duration) : gotime := time_Unix (Seconds d) (Nanoseconds d).

(** duration.go:61-63  isNegative *)
Definition isNegative (d : Duration) : bool := orb (Z.ltb (Nanoseconds d) 0) (Z.ltb (Seconds d) 0).

(** duration.go:101-108  mult *)
Definition mult (d : Duration) (scalar : Z) : Duration :=
  let fracprod := wrap64 (Nanoseconds d * scalar) in
  let wholeprod := wrap64 (wrap64 (Seconds d * scalar) + Z.quot fracprod oneBillion) in
  let fracprod' := Z.rem fracprod oneBillion in
  MkDur wholeprod (wrap32 fracprod').

(** duration.go:110-117  div.  (scalar is never 0: see convert.) *)
Definition div (d : Duration) (scalar : Z) : Duration :=
  let wholequot := wrap64 (Z.quot (Seconds d) scalar) in
  let wholerem := Z.rem (Seconds d) scalar in
  let fracquot := wrap64 (Z.quot (wrap64 (Nanoseconds d + wrap64 (wholerem * oneBillion))) scalar) in
  MkDur wholequot (wrap32 fracquot).

(** duration.go:119-125  convert *)
Definition convert (d : Duration) (from to : unit_t) : Duration :=
  let '(fromNum, fromDen) := FromSecondsRational from in
  let '(toNum, toDen) := FromSecondsRational to in
  let num := wrap64 (toNum * fromDen) in
  let den := wrap64 (toDen * fromNum) in
  div (mult d num) den.

(** duration.go:49-55  toString *)
Definition toString (d : Duration) : string :=
  if isNegative d then
    let posd := mult d (-1) in
    ("-" ++ fmt_d (Seconds posd) ++ "." ++ fmt_0d 9 (Nanoseconds posd))%string
  else (fmt_d (Seconds d) ++ "." ++ fmt_0d 9 (Nanoseconds d))%string.

(** duration/api.go:65-67  StringUsingUnits *)
Definition StringUsingUnits (d : Duration) (u : unit_t) : string :=
  toString (convert d USecond u).

(** duration.go:65-99  prettyFormat.  None = panic. *)
Definition prettyFormat (d : Duration) : option string :=
  let s := Seconds d in let n := Nanoseconds d in
  if isNegative d then None
  else Some (
    if andb (Z.eqb s 0) (Z.ltb n 10000) then (fmt_d n ++ "ns")%string
    else if andb (Z.eqb s 0) (Z.ltb n 10000000) then (fmt_d (Z.quot n 1000) ++ "μs")%string
    else if Z.eqb s 0 then (fmt_d (Z.quot n 1000000) ++ "ms")%string
    else if Z.ltb s 60 then (fmt_d s ++ "." ++ fmt_0d 3 (Z.quot n 1000000) ++ "s")%string
    else if Z.ltb s (60*60) then
      (fmt_d (Z.quot s 60) ++ "m " ++ fmt_d (Z.rem s 60) ++ "." ++ fmt_0d 3 (Z.quot n 1000000) ++ "s")%string
    else if Z.ltb s (24*60*60) then
      (fmt_d (Z.quot s (60*60)) ++ "h " ++ fmt_d (Z.quot (Z.rem s (60*60)) 60) ++ "m " ++
       fmt_d (Z.rem s 60) ++ "s")%string
    else
      (fmt_d (Z.quot s (24*60*60)) ++ "d " ++ fmt_d (Z.quot (Z.rem s (24*60*60)) (60*60)) ++ "h " ++
       fmt_d (Z.quot (Z.rem s (60*60)) 60) ++ "m " ++ fmt_d (Z.rem s 60) ++ "s")%string).

(** strings.SplitN(s, ".", 2): None for the second part when there is no dot. *)
Fixpoint splitDot (s : string) : string * option string :=
  match s with
  | EmptyString => (EmptyString, None)
  | String c r => if byte_is c 46 then (EmptyString, Some r)
                  else let '(a, b) := splitDot r in (String c a, b)
  end.

(** duration.go:127-167  parse.  None = an error was returned (error texts are not modelled). *)
Definition parse (str : string) : option Duration :=
  let '(bNegative, str) :=
    match str with
    | String c r => if byte_is c 45 then (true, r) else (false, str)
    | EmptyString => (false, str)
    end in
  let '(number0, number1) := splitDot str in
  match parse_int64 number0 with
  | None => None
  | Some whole =>
      if Z.ltb whole 0 then None
      else
        let fracR :=
          match number1 with
          | None => Some 0%N
          | Some fracStr =>
              let fracStr' :=
                if Nat.ltb (String.length fracStr) 9
                then (fracStr ++ zeros (9 - String.length fracStr))%string
                else str_take 9 fracStr in
              parse_uint 32 fracStr'
          end in
        match fracR with
        | None => None
        | Some frac =>
            if N.ltb 999999999 frac then None
            else if bNegative then Some (MkDur (wrap64 (-1 * whole)) (wrap32 (-1 * wrap32 (Z.of_N frac))))
            else Some (MkDur whole (wrap32 (Z.of_N frac)))
        end
  end.

(** duration/api.go:33-40  ParseWithUnit *)
Definition ParseWithUnit (str : string) (unit : unit_t) : option Duration :=
  match parse str with
  | None => None
  | Some inUnit => Some (convert inUnit unit USecond)
  end.
