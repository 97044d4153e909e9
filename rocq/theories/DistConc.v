(** Distributions used by several goroutines at once: the bodies of the methods as sequences of field accesses under
    d.lock, for MonitorModel.v. *)
From Coq Require Import Lia.
From Verif Require Import GoBase GoVal UnitsModel DurationModel FloatBase.
From stdpp Require Import list.
From Verif Require Import DistModel MonitorModel.
Local Open Scope N_scope.

Section Bodies.
  Context {A : num} {R : Type}.
  Notation P := (prog (dist A) R).
  (** d.counts[idx] = f(d.counts[idx]); idx is in range (DistProofs.find_lt), otherwise Go would panic *)
  Definition countP (idx : nat) (none : P) (some : N → P) : P := rd (λ d, d_counts d !! idx) (λ o, match o with Some c => some c | None => none end).
  Definition set_nth (idx : nat) (c : N) (d : dist A) : dist A := set_counts (<[idx := c]> (d_counts d)) d.
  Definition set_min (v : A) (d : dist A) : dist A := set_minmax v (d_max d) d.
  Definition set_max (v : A) (d : dist A) : dist A := set_minmax (d_min d) v d.
  (** d.total, d.count and d.generation *)
  Definition bump (f : dist A → N) (g : N → dist A → dist A) (h : N → N) (k : P) : P := rd f (λ c, wr (g (h c)) k).
  (** if v < d.min ... else if v > d.max ... *)
  Definition extremesP (v : A) (k : P) : P :=
    rd d_min (λ m, if nlt v m then wr (set_min v) k else rd d_max (λ m, if nlt m v then wr (set_max v) k else k)).
  (** metric.go:431-446 add *)
  Definition addP (v : A) (ts : gotime) (k : P) : P :=
    rd d_pieces (λ ps, let idx := findDistributionIndex ps v in
    wr (set_ts ts) (
    let rest :=
      rd d_total (λ t, wr (set_total (nadd t v)) (
      let last := bump d_count set_count (λ c, uwrap64 (c + 1)) (bump d_gen set_gen (λ g, uwrap64 (g + 1)) k) in
      rd d_count (λ n, if N.eqb n 0 then wr (set_min v) (wr (set_max v) last) else extremesP v last))) in
    countP idx rest (λ c, wr (set_nth idx (uwrap64 (c + 1))) rest))).
  (** metric.go:455-475 update *)
  Definition updateP (o v : A) (ts : gotime) (k : outcome → P) : P :=
    rd d_notcum (λ nc, if negb nc then k (PANIC "Cannot call update on a cumulative distribution.") else
    rd d_count (λ n, if N.eqb n 0 then k (PANIC "Can't call update on an empty distribution.") else
    wr (set_ts ts) (
    rd d_pieces (λ ps, let oldIdx := findDistributionIndex ps o in let newIdx := findDistributionIndex ps v in
    let rest :=
      countP oldIdx (k (PANIC panicBadValue)) (λ c,
      if N.eqb c 0 then k (PANIC panicBadValue) else
      wr (set_nth oldIdx (usub64 c 1)) (
      rd d_total (λ t, wr (set_total (nadd t (nsub v o))) (
      extremesP v (bump d_gen set_gen (λ g, uwrap64 (g + 1)) (k OK)))))) in
    countP newIdx rest (λ c, wr (set_nth newIdx (uwrap64 (c + 1))) rest))))).
  (** metric.go:477-491 remove *)
  Definition removeP (v : A) (ts : gotime) (k : outcome → P) : P :=
    rd d_notcum (λ nc, if negb nc then k (PANIC "Cannot call remove on a cumulative distribution.") else
    rd d_count (λ n, if N.eqb n 0 then k (PANIC "Can't call remove on an empty distribution.") else
    wr (set_ts ts) (
    rd d_pieces (λ ps, let idx := findDistributionIndex ps v in
    countP idx (k (PANIC panicBadValue)) (λ c,
    if N.eqb c 0 then k (PANIC panicBadValue) else
    wr (set_nth idx (usub64 c 1)) (
    rd d_total (λ t, wr (set_total (nsub t v)) (
    bump d_count set_count (λ c, usub64 c 1) (bump d_gen set_gen (λ g, uwrap64 (g + 1)) (k OK)))))))))).
  (** the loop of indexToValue, metric.go:527-532, from piece i *)
  Fixpoint findP (n : nat) (valueIdx start : N) (i : nat) (k : option (nat * N * N) → P) : P :=
    match n with
    | O => k None
    | S n => countP i (k None) (λ c, if N.leb c (usub64 valueIdx start) then findP n valueIdx (uwrap64 (start + c)) (S i) k else k (Some (i, start, c)))
    end.
  (** metric.go:526-546 indexToValue *)
  Definition indexP (valueIdx : N) (k : option A → P) : P :=
    rd (λ d, length (d_counts d)) (λ n, findP n valueIdx 0 0 (λ r, match r with
      | None => k None
      | Some (i, start, c) => rd d_pieces (λ ps, rd d_min (λ mn, rd d_max (λ mx,
          let frac := ndiv (nofN (uwrap64 (usub64 valueIdx start + 1))) (nofN (uwrap64 (c + 1))) in
          match ps !! i with
          | None => k None
          | Some p => k (Some (if Nat.eqb i 0 then interpolate mn (nmin (p_end p) mx) frac
                               else if Nat.eqb i (length ps - 1) then interpolate (nmax (p_start p) mn) mx frac
                               else interpolate (nmax (p_start p) mn) (nmin (p_end p) mx) frac))
          end)))
      end)).
  (** metric.go:552-560 calculateMedian *)
  Definition medianP (k : option A → P) : P :=
    rd d_count (λ n,
    if N.leb n 2 then rd d_total (λ t, rd d_count (λ n, k (Some (ndiv t (nofN n)))))
    else rd d_count (λ n, if N.eqb (n mod 2) 0 then
      rd d_count (λ n, indexP (usub64 (n / 2) 1) (λ a, rd d_count (λ n, indexP (n / 2) (λ b,
        k (match a, b with Some a, Some b => Some (ndiv (nadd a b) (nofN 2)) | _, _ => None end)))))
    else rd d_count (λ n, indexP (n / 2) k))).
  (** bdn[i].Count = d.counts[i] (metric.go:570-572), for the pieces ps from piece i *)
  Fixpoint breakdownP (ps : list (piece A)) (i : nat) (acc : list (piece A * N)) (k : list (piece A * N) → P) : P :=
    match ps with
    | [] => k acc
    | p :: ps => countP i (k acc) (λ c, breakdownP ps (S i) (acc ++ [(p, c)]) k)
    end.
  (** metric.go:563-593 Snapshot *)
  Definition snapshotP (k : option (snapshot A) → P) : P :=
    rd d_pieces (λ ps, breakdownP ps 0 [] (λ bdn,
    rd d_count (λ n, if N.eqb n 0 then
      rd d_count (λ n, rd d_ts (λ ts, k (Some (MkSnapshot (nofN 0) (nofN 0) (nofN 0) (nofN 0) (nofN 0) n 0 false ts bdn))))
    else
      rd d_min (λ mn, rd d_max (λ mx, rd d_total (λ t, rd d_count (λ n, medianP (λ med, rd d_total (λ sum, rd d_count (λ cnt, rd d_gen (λ g, rd d_notcum (λ nc, rd d_ts (λ ts,
      k (match med with
         | None => None
         | Some med => Some (MkSnapshot mn mx (ndiv t (nofN n)) med sum cnt g nc ts bdn)
         end)))))))))))))).
End Bodies.

(** *** The methods, for float64 *)
Inductive dcall := KCall (c : call) | KSnapshot | KSum | KCount.
Inductive dres := RCall (r : outcome + bool) | RSnapshot (s : option (snapshot num64)) | RSum (f : float64) | RCount (n : N).
Notation DP := (prog (dist num64) dres).
(** metric.go:493-518 valueToFloat, goDurationToFloat *)
Definition valueP (v : dvalue) (k : string + float64 → DP) : DP :=
  rd d_unitSet (λ set, if negb set then k (inl panicNoAssignedUnit) else
  match v with
  | DDuration ns => rd d_unit (λ u, k (if String.eqb u USecond then inr (f64_div (f64_of_Z ns) (f64_of_Z 1000000000))
      else if String.eqb u UMillisecond then inr (f64_div (f64_of_Z ns) (f64_of_Z 1000000))
      else inl "Durations can't be added to non time based metrics."%string))
  | DFloat32 f => k (inr (f64_of_f32 f))
  | DFloat64 f => k (inr f)
  | DOther => k (inl panicTypeMismatch)
  end).
Definition set_unitSet (d : dist num64) : dist num64 :=
  MkDistr (d_pieces d) (d_notcum d) (d_unit d) true (d_counts d) (d_total d) (d_min d) (d_max d) (d_count d) (d_gen d) (d_ts d).
Definition set_unit (u : unit_t) (d : dist num64) : dist num64 :=
  MkDistr (d_pieces d) (d_notcum d) u (d_unitSet d) (d_counts d) (d_total d) (d_min d) (d_max d) (d_count d) (d_gen d) (d_ts d).
Definition dbody (c : dcall) : DP :=
  match c with
  (** metric.go:362-378 SetUnit *)
  | KCall (CSetUnit u) => rd d_unitSet (λ set, if negb set then wr set_unitSet (wr (set_unit u) (Done (RCall (inr true))))
      else rd d_unit (λ u', Done (RCall (inr (String.eqb u u')))))
  (** metric.go:400-404, 410-418, 424-429 *)
  | KCall (CAdd v ts) => valueP v (λ x, match x with inl e => Done (RCall (inl (PANIC e))) | inr f => addP (A := num64) f ts (Done (RCall (inl OK))) end)
  | KCall (CUpdate o v ts) => valueP o (λ x, match x with inl e => Done (RCall (inl (PANIC e))) | inr fo =>
      valueP v (λ x, match x with inl e => Done (RCall (inl (PANIC e))) | inr fv => updateP (A := num64) fo fv ts (λ r, Done (RCall (inl r))) end) end)
  | KCall (CRemove v ts) => valueP v (λ x, match x with inl e => Done (RCall (inl (PANIC e))) | inr f => removeP (A := num64) f ts (λ r, Done (RCall (inl r))) end)
  | KSnapshot => snapshotP (λ s, Done (RSnapshot s))
  (** metric.go:384-394 *)
  | KSum => rd (d_total (A := num64)) (λ t, Done (RSum t))
  | KCount => rd (d_count (A := num64)) (λ n, Done (RCount n))
  end.
(** Only Snapshot takes the lock for reading; Sum and Count take it for writing. *)
Definition dmode (c : dcall) : mode := match c with KSnapshot => Rd | _ => Wr end.
Definition dist_monitor : monitor := MkMonitor (dist num64) dcall dres dmode dbody.

(** What the calls do one at a time *)
Definition dist_seq (c : dcall) (d : dist num64) : dist num64 * dres :=
  match c with
  | KCall c => let '(r, d') := callf c d in (d', RCall r)
  | KSnapshot => (d, RSnapshot (Snapshot d))
  | KSum => (d, RSum (Sum d))
  | KCount => (d, RCount (Count d))
  end.
(** the calls among them that change the distribution *)
Definition changes (l : list (nat * dcall * dres)) : list call := omap (λ e, match e with (_, KCall c, _) => Some c | _ => None end) l.
