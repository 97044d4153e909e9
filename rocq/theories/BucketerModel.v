(** Bucketer constructors: go/tricorder/metric.go:216-285 and go/tricorder/api.go:164-200.

    Arithmetic is a parameter as in DistModel.v: [num64] is what runs, [numQ] is exact.  A Go int is a Z; counts too large
    for memory are not treated.  Loops without a bound on their number of iterations take [fuel]: a loop that does not
    finish within [fuel] iterations gives [Running]. *)
From Verif Require Import GoBase GoVal FloatBase.
From stdpp Require Import list.
From Verif Require Import DistModel.
Local Open Scope N_scope.

Inductive run (X : Type) := Running | Panicked | Finished (x : X).
Arguments Running {_}. Arguments Panicked {_}. Arguments Finished {_}.

Section Bucketer.
  Context {A : num}.

  (** metric.go:223-227: the loop of newExponentialBucketerStream, n iterations left *)
  Fixpoint exponential_loop (n : nat) (current scale : A) : list A :=
    match n with O => [] | S n => current :: exponential_loop n (nmul current scale) scale end.
  (** metric.go:216-229; None: panic *)
  Definition newExponentialBucketerStream (count : Z) (start scale : A) : option (list A) :=
    if Z.ltb count 2 || nle start (nofN 0) || nle scale (nofN 1) then None
    else Some (exponential_loop (Z.to_nat (count - 1)) start scale).
  (** metric.go:238-241: the loop of newLinearBucketerStream *)
  Fixpoint linear_loop (n : nat) (current increment : A) : list A :=
    match n with O => [] | S n => current :: linear_loop n (nadd current increment) increment end.
  (** metric.go:231-243; None: panic *)
  Definition newLinearBucketerStream (count : Z) (start increment : A) : option (list A) :=
    if Z.ltb count 2 || nle increment (nofN 0) then None
    else Some (linear_loop (Z.to_nat (count - 1)) start increment).

  (** metric.go:246 coefficientsForGeometricBucketer[offset] for offset < 3 *)
  Definition coefficient (offset : nat) : A := nofN (match offset with O => 1 | S O => 2 | _ => 5 end).
  (** metric.go:251-254 *)
  Fixpoint down_loop (fuel : nat) (x base : A) : option (A * A) :=
    match fuel with
    | O => None
    | S fuel => if nle (nofN 10) x then down_loop fuel (ndiv x (nofN 10)) (nmul base (nofN 10)) else Some (x, base)
    end.
  (** metric.go:255-258 *)
  Fixpoint up_loop (fuel : nat) (x base : A) : option (A * A) :=
    match fuel with
    | O => None
    | S fuel => if nlt x (nofN 1) then up_loop fuel (nmul x (nofN 10)) (ndiv base (nofN 10)) else Some (x, base)
    end.
  (** metric.go:249-266, the last loop unrolled *)
  Definition findGeometricBaseAndOffset (fuel : nat) (x : A) : option (A * nat) :=
    match down_loop fuel x (nofN 1) with
    | None => None
    | Some (x, base) =>
        match up_loop fuel x base with
        | None => None
        | Some (x, base) =>
            Some (if nle (coefficient 2) x then (base, 2%nat)
                  else if nle (coefficient 1) x then (base, 1%nat)
                  else if nle (coefficient 0) x then (base, 0%nat)
                  else (ndiv base (nofN 10), 2%nat))
        end
    end.
  (** metric.go:275-284: the loop of newGeometricBucketerStream *)
  Fixpoint emit_loop (fuel : nat) (base : A) (offset : nat) (upper : A) : option (list A) :=
    match fuel with
    | O => None
    | S fuel =>
        let emitValue := nmul base (coefficient offset) in
        if nlt emitValue upper then
          option_map (cons emitValue)
            (if Nat.eqb (S offset) 3 then emit_loop fuel (nmul base (nofN 10)) 0 upper else emit_loop fuel base (S offset) upper)
        else Some [emitValue]
    end.
  (** metric.go:268-285 *)
  Definition newGeometricBucketerStream (fuel : nat) (lower upper : A) : run (list A) :=
    if nle lower (nofN 0) || nlt upper lower then Panicked
    else match findGeometricBaseAndOffset fuel lower with
         | None => Running
         | Some (base, offset) => match emit_loop fuel base offset upper with None => Running | Some es => Finished es end
         end.

  (** api.go:168-171 *)
  Definition NewExponentialBucketer (count : Z) (start scale : A) : option (list (piece A)) :=
    newExponentialBucketerStream count start scale ≫= newBucketerFromEndpoints.
  (** api.go:177-180 *)
  Definition NewLinearBucketer (count : Z) (start increment : A) : option (list (piece A)) :=
    newLinearBucketerStream count start increment ≫= newBucketerFromEndpoints.
  (** api.go:188-190 *)
  Definition NewArbitraryBucketer (endpoints : list A) : option (list (piece A)) := newBucketerFromEndpoints endpoints.
  (** api.go:197-200 *)
  Definition NewGeometricBucketer (fuel : nat) (lower upper : A) : run (list (piece A)) :=
    match newGeometricBucketerStream fuel lower upper with
    | Running => Running
    | Panicked => Panicked
    | Finished es => match newBucketerFromEndpoints es with Some ps => Finished ps | None => Panicked end
    end.
End Bucketer.
(** api.go:156-157 *)
Definition PowersOfTwo : option (list (piece num64)) := NewExponentialBucketer 20 (f64_of_Z 1 : num64) (f64_of_Z 2 : num64).
(** api.go:158-159 *)
Definition PowersOfFour : option (list (piece num64)) := NewExponentialBucketer 11 (f64_of_Z 1 : num64) (f64_of_Z 4 : num64).
(** api.go:160-161 *)
Definition PowersOfTen : option (list (piece num64)) := NewExponentialBucketer 7 (f64_of_Z 1 : num64) (f64_of_Z 10 : num64).
