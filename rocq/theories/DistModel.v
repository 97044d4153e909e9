(** Distributions: go/tricorder/metric.go:204-214, 287-593.

    The arithmetic is a parameter: [num64] is float64, which is what runs, [numQ] is exact rational arithmetic,
    for claims about exact sums.  A mutex protected method is one function on the state (DistConc.v has the steps).
    Simplifications: groupId is left out (IdModel.v); a time.Time is opaque data here. *)
From Coq Require Import QArith Qminmax.
From Verif Require Import GoBase GoVal UnitsModel DurationModel FloatBase.
From stdpp Require Import list.
Local Open Scope N_scope.

Record num := MkNum {
  nt :> Type;
  nadd : nt → nt → nt; nsub : nt → nt → nt; nmul : nt → nt → nt; ndiv : nt → nt → nt;
  nlt : nt → nt → bool; nle : nt → nt → bool;
  nmin : nt → nt → nt; nmax : nt → nt → nt;
  nofN : N → nt }.
Arguments nadd {_}. Arguments nsub {_}. Arguments nmul {_}. Arguments ndiv {_}.
Arguments nlt {_}. Arguments nle {_}. Arguments nmin {_}. Arguments nmax {_}. Arguments nofN {_}.
Definition num64 : num := MkNum float64 f64_add f64_sub f64_mul f64_div f64_lt f64_le f64_min f64_max f64_of_N.
Definition numQ : num := MkNum Q Qplus Qminus Qmult Qdiv (λ a b, negb (Qle_bool b a)) Qle_bool Qmin Qmax (λ n, inject_Z (Z.of_N n)).

(** sort.Search(n, f) (Go library, sort/search.go): binary search; n iterations always suffice *)
Fixpoint search_loop (fuel : nat) (f : nat → bool) (i j : nat) : nat :=
  match fuel with
  | O => i
  | S fuel =>
      if Nat.ltb i j then
        let h := Nat.div2 (i + j) in
        if f h then search_loop fuel f i h else search_loop fuel f (S h) j
      else i
  end.
Definition sort_search (n : nat) (f : nat → bool) : nat := search_loop n f 0 n.

(** uint64 subtraction *)
Definition usub64 (a b : N) : N := uwrap64 (a + 2^64 - b).

Inductive outcome := OK | PANIC (msg : string).
(** metric.go:25-29 *)
Definition panicTypeMismatch : string := "Wrong type passed to method.".
Definition panicNoAssignedUnit : string := "Operation requires that distribution has assigned unit".
Definition panicBadValue : string := "Value does not exist in distribution".

Section Dist.
  Context {A : num}.

  (** metric.go:205-214 bucketPiece *)
  Record piece := MkPiece { p_start : A; p_end : A; p_first : bool; p_last : bool }.

  (** metric.go:287-299 newBucketerFromEndpoints; None: endpoints[0] panics on an empty list *)
  Fixpoint pieces_from (lower : A) (uppers : list A) : list piece :=
    match uppers with
    | [] => [MkPiece lower (nofN 0) false true]
    | upper :: uppers => MkPiece lower upper false false :: pieces_from upper uppers
    end.
  Definition newBucketerFromEndpoints (endpoints : list A) : option (list piece) :=
    match endpoints with
    | [] => None
    | lower :: uppers => Some (MkPiece (nofN 0) lower true false :: pieces_from lower uppers)
    end.

  (** metric.go:326-341 distribution *)
  Record dist := MkDistr {
    d_pieces : list piece; d_notcum : bool; d_unit : unit_t; d_unitSet : bool;
    d_counts : list N; d_total : A; d_min : A; d_max : A; d_count : N; d_gen : N; d_ts : gotime }.

  (** metric.go:349-360 newDistributionWithTimeStamp *)
  Definition newDistributionWithTimeStamp (pieces : list piece) (notcum : bool) (ts : gotime) : dist :=
    MkDistr pieces notcum EmptyString false (replicate (length pieces) 0) (nofN 0) (nofN 0) (nofN 0) 0 0 ts.

  (** metric.go:362-378 SetUnit *)
  Definition SetUnit (u : unit_t) (d : dist) : bool * dist :=
    if negb (d_unitSet d)
    then (true, MkDistr (d_pieces d) (d_notcum d) u true (d_counts d) (d_total d) (d_min d) (d_max d) (d_count d) (d_gen d) (d_ts d))
    else (String.eqb u (d_unit d), d).

  (** metric.go:520-524 findDistributionIndex *)
  Definition findDistributionIndex (pieces : list piece) (v : A) : nat :=
    sort_search (length pieces - 1) (λ i, match pieces !! i with Some p => nlt v (p_end p) | None => false end).

  (** d.counts[idx]++; idx is always in range (DistProofs.find_lt) *)
  Definition incr (idx : nat) (counts : list N) : list N := alter (λ c, uwrap64 (c + 1)) idx counts.
  (** metric.go:448-453 decrementCount(&d.counts[idx]) ; None: panic *)
  Definition decr (idx : nat) (counts : list N) : option (list N) :=
    match counts !! idx with
    | Some c => if N.eqb c 0 then None else Some (<[idx := usub64 c 1]> counts)
    | None => None
    end.

  Definition set_ts (ts : gotime) (d : dist) : dist :=
    MkDistr (d_pieces d) (d_notcum d) (d_unit d) (d_unitSet d) (d_counts d) (d_total d) (d_min d) (d_max d) (d_count d) (d_gen d) ts.
  Definition set_counts (cs : list N) (d : dist) : dist :=
    MkDistr (d_pieces d) (d_notcum d) (d_unit d) (d_unitSet d) cs (d_total d) (d_min d) (d_max d) (d_count d) (d_gen d) (d_ts d).
  Definition set_total (t : A) (d : dist) : dist :=
    MkDistr (d_pieces d) (d_notcum d) (d_unit d) (d_unitSet d) (d_counts d) t (d_min d) (d_max d) (d_count d) (d_gen d) (d_ts d).
  Definition set_minmax (mn mx : A) (d : dist) : dist :=
    MkDistr (d_pieces d) (d_notcum d) (d_unit d) (d_unitSet d) (d_counts d) (d_total d) mn mx (d_count d) (d_gen d) (d_ts d).
  Definition set_count (c : N) (d : dist) : dist :=
    MkDistr (d_pieces d) (d_notcum d) (d_unit d) (d_unitSet d) (d_counts d) (d_total d) (d_min d) (d_max d) c (d_gen d) (d_ts d).
  Definition set_gen (g : N) (d : dist) : dist :=
    MkDistr (d_pieces d) (d_notcum d) (d_unit d) (d_unitSet d) (d_counts d) (d_total d) (d_min d) (d_max d) (d_count d) g (d_ts d).

  (** metric.go:431-446 add *)
  Definition add (v : A) (ts : gotime) (d : dist) : dist :=
    let idx := findDistributionIndex (d_pieces d) v in
    let d := set_ts ts d in
    let d := set_counts (incr idx (d_counts d)) d in
    let d := set_total (nadd (d_total d) v) d in
    let d :=
      if N.eqb (d_count d) 0 then set_minmax v v d
      else if nlt v (d_min d) then set_minmax v (d_max d) d
      else if nlt (d_max d) v then set_minmax (d_min d) v d
      else d in
    let d := set_count (uwrap64 (d_count d + 1)) d in
    set_gen (uwrap64 (d_gen d + 1)) d.

  (** metric.go:455-475 update *)
  Definition update (o v : A) (ts : gotime) (d : dist) : outcome * dist :=
    if negb (d_notcum d) then (PANIC "Cannot call update on a cumulative distribution.", d)
    else if N.eqb (d_count d) 0 then (PANIC "Can't call update on an empty distribution.", d)
    else
      let d := set_ts ts d in
      let oldIdx := findDistributionIndex (d_pieces d) o in
      let newIdx := findDistributionIndex (d_pieces d) v in
      let d := set_counts (incr newIdx (d_counts d)) d in
      match decr oldIdx (d_counts d) with
      | None => (PANIC panicBadValue, d)
      | Some cs =>
          let d := set_counts cs d in
          let d := set_total (nadd (d_total d) (nsub v o)) d in
          let d :=
            if nlt v (d_min d) then set_minmax v (d_max d) d
            else if nlt (d_max d) v then set_minmax (d_min d) v d
            else d in
          (OK, set_gen (uwrap64 (d_gen d + 1)) d)
      end.

  (** metric.go:477-491 remove *)
  Definition remove (v : A) (ts : gotime) (d : dist) : outcome * dist :=
    if negb (d_notcum d) then (PANIC "Cannot call remove on a cumulative distribution.", d)
    else if N.eqb (d_count d) 0 then (PANIC "Can't call remove on an empty distribution.", d)
    else
      let d := set_ts ts d in
      match decr (findDistributionIndex (d_pieces d) v) (d_counts d) with
      | None => (PANIC panicBadValue, d)
      | Some cs =>
          let d := set_counts cs d in
          let d := set_total (nsub (d_total d) v) d in
          let d := set_count (usub64 (d_count d) 1) d in
          (OK, set_gen (uwrap64 (d_gen d + 1)) d)
      end.

  (** metric.go:548-550 interpolate *)
  Definition interpolate (mn mx frac : A) : A := nadd (nmul (nsub (nofN 1) frac) mn) (nmul frac mx).

  (** the loop of indexToValue, metric.go:527-532: the piece, its start and its count; None: index out of range *)
  Fixpoint find_piece (counts : list N) (valueIdx start : N) (pieceIdx : nat) : option (nat * N * N) :=
    match counts with
    | [] => None
    | c :: counts =>
        if N.leb c (usub64 valueIdx start) then find_piece counts valueIdx (uwrap64 (start + c)) (S pieceIdx)
        else Some (pieceIdx, start, c)
    end.
  (** metric.go:526-546 indexToValue *)
  Definition indexToValue (d : dist) (valueIdx : N) : option A :=
    match find_piece (d_counts d) valueIdx 0 0 with
    | None => None
    | Some (pieceIdx, start, c) =>
        let frac := ndiv (nofN (uwrap64 (usub64 valueIdx start + 1))) (nofN (uwrap64 (c + 1))) in
        match d_pieces d !! pieceIdx with
        | None => None
        | Some p =>
            Some (if Nat.eqb pieceIdx 0 then interpolate (d_min d) (nmin (p_end p) (d_max d)) frac
                  else if Nat.eqb pieceIdx (length (d_pieces d) - 1) then interpolate (nmax (p_start p) (d_min d)) (d_max d) frac
                  else interpolate (nmax (p_start p) (d_min d)) (nmin (p_end p) (d_max d)) frac)
        end
    end.
  (** metric.go:552-560 calculateMedian *)
  Definition calculateMedian (d : dist) : option A :=
    if N.leb (d_count d) 2 then Some (ndiv (d_total d) (nofN (d_count d)))
    else if N.eqb (d_count d mod 2) 0 then
      match indexToValue d (usub64 (d_count d / 2) 1), indexToValue d (d_count d / 2) with
      | Some a, Some b => Some (ndiv (nadd a b) (nofN 2))
      | _, _ => None
      end
    else indexToValue d (d_count d / 2).

  (** metric.go:312-323 snapshot *)
  Record snapshot := MkSnapshot {
    s_min : A; s_max : A; s_average : A; s_median : A; s_sum : A; s_count : N; s_generation : N; s_notcum : bool;
    s_ts : gotime; s_breakdown : list (piece * N) }.
  (** metric.go:563-593 Snapshot; None: panic (index out of range in indexToValue) *)
  Definition Snapshot (d : dist) : option snapshot :=
    let bdn := zip (d_pieces d) (d_counts d) in
    if N.eqb (d_count d) 0
    then Some (MkSnapshot (nofN 0) (nofN 0) (nofN 0) (nofN 0) (nofN 0) (d_count d) 0 false (d_ts d) bdn)
    else match calculateMedian d with
         | None => None
         | Some med => Some (MkSnapshot (d_min d) (d_max d) (ndiv (d_total d) (nofN (d_count d))) med (d_total d) (d_count d) (d_gen d)
                                        (d_notcum d) (d_ts d) bdn)
         end.
  (** metric.go:384-394 Sum and Count *)
  Definition Sum (d : dist) : A := d_total d.
  Definition Count (d : dist) : N := d_count d.

  (** A call of add, update or remove.  A panic is recovered by the caller; the deferred Unlock has run. *)
  Inductive op := Add (v : A) (ts : gotime) | Update (o v : A) (ts : gotime) | Remove (v : A) (ts : gotime).
  Definition perform (o : op) (d : dist) : outcome * dist :=
    match o with
    | Add v ts => (OK, add v ts d)
    | Update o v ts => update o v ts d
    | Remove v ts => remove v ts d
    end.
  (** a history of calls: the outcomes and the final state *)
  Fixpoint performs (ops : list op) (d : dist) : list outcome * dist :=
    match ops with
    | [] => ([], d)
    | o :: ops => let '(r, d1) := perform o d in let '(rs, d2) := performs ops d1 in (r :: rs, d2)
    end.
End Dist.
Arguments piece : clear implicits. Arguments dist : clear implicits. Arguments snapshot : clear implicits. Arguments op : clear implicits.

(** *** The exported methods, for float64 *)
(** an interface{} argument *)
Inductive dvalue := DDuration (ns : Z) | DFloat32 (f : float32) | DFloat64 (f : float64) | DOther.
(** metric.go:509-518 goDurationToFloat *)
Definition goDurationToFloat (d : dist num64) (ns : Z) : string + float64 :=
  if String.eqb (d_unit d) USecond then inr (f64_div (f64_of_Z ns) (f64_of_Z 1000000000))
  else if String.eqb (d_unit d) UMillisecond then inr (f64_div (f64_of_Z ns) (f64_of_Z 1000000))
  else inl "Durations can't be added to non time based metrics."%string.
(** metric.go:493-507 valueToFloat *)
Definition valueToFloat (d : dist num64) (v : dvalue) : string + float64 :=
  if negb (d_unitSet d) then inl panicNoAssignedUnit
  else match v with
       | DDuration ns => goDurationToFloat d ns
       | DFloat32 f => inr (f64_of_f32 f)
       | DFloat64 f => inr f
       | DOther => inl panicTypeMismatch
       end.
(** metric.go:400-404 AddWithTs, 410-418 UpdateWithTs, 424-429 RemoveWithTs *)
Definition AddWithTs (v : dvalue) (ts : gotime) (d : dist num64) : outcome * dist num64 :=
  match valueToFloat d v with inl e => (PANIC e, d) | inr f => (OK, add (A := num64) f ts d) end.
Definition UpdateWithTs (o v : dvalue) (ts : gotime) (d : dist num64) : outcome * dist num64 :=
  match valueToFloat d o with
  | inl e => (PANIC e, d)
  | inr fo => match valueToFloat d v with inl e => (PANIC e, d) | inr fv => update (A := num64) fo fv ts d end
  end.
Definition RemoveWithTs (v : dvalue) (ts : gotime) (d : dist num64) : outcome * dist num64 :=
  match valueToFloat d v with inl e => (PANIC e, d) | inr f => remove (A := num64) f ts d end.
(** metric.go:825-832 newValueForDist, called by every registration of the distribution: false is ErrWrongUnit *)
Definition newValueForDist (u : unit_t) (d : dist num64) : bool * dist num64 := SetUnit u d.

(** *** Calls *)
Inductive call := CSetUnit (u : unit_t) | CAdd (v : dvalue) (ts : gotime) | CUpdate (o v : dvalue) (ts : gotime) | CRemove (v : dvalue) (ts : gotime).
(** inr: result of a registration, true is success *)
Definition callf (c : call) (d : dist num64) : (outcome + bool) * dist num64 :=
  match c with
  | CSetUnit u => let '(b, d) := newValueForDist u d in (inr b, d)
  | CAdd v ts => let '(r, d) := AddWithTs v ts d in (inl r, d)
  | CUpdate o v ts => let '(r, d) := UpdateWithTs o v ts d in (inl r, d)
  | CRemove v ts => let '(r, d) := RemoveWithTs v ts d in (inl r, d)
  end.
Fixpoint callsf (cs : list call) (d : dist num64) : list (outcome + bool) * dist num64 :=
  match cs with
  | [] => ([], d)
  | c :: cs => let '(r, d) := callf c d in let '(rs, d) := callsf cs d in (r :: rs, d)
  end.
