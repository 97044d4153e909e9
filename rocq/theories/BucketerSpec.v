(** Vocabulary for statements about bucketers: which buckets a list of end points stands for, and the 1-2-5 series. *)
From Coq Require Import QArith Reals.
From Verif Require Import GoBase GoVal FloatBase.
From stdpp Require Import list.
From Verif Require Import DistModel DistSpec.
From Flocq Require Import BinarySingleNaN.

Section Spec.
  Context {A : num}.
  (** the buckets are (-inf, e0), [e0, e1), ..., [en, +inf) *)
  Definition buckets (es : list A) (ps : list (piece A)) : Prop :=
    length ps = S (length es) ∧
    ∀ i p, ps !! i = Some p →
      p_first p = bool_decide (i = 0) ∧ p_last p = bool_decide (i = length es) ∧
      (p_first p = false → es !! (i - 1) = Some (p_start p)) ∧ (p_last p = false → es !! i = Some (p_end p)).
  (** each end point is obtained from the one before by f *)
  Definition progression (f : A → A) (start : A) (es : list A) : Prop :=
    es !! 0 = Some start ∧ ∀ i a b, es !! i = Some a → es !! S i = Some b → b = f a.
End Spec.

Local Open Scope Z_scope.
(** ..., 0.1, 0.2, 0.5, 1, 2, 5, 10, 20, 50, ...: member number 0 is 1 *)
Definition leading (i : Z) : Z := match i mod 3 with 0 => 1 | 1 => 2 | _ => 5 end.
Definition seriesQ (i : Z) : Q := inject_Z (leading i) * Qpower 10 (i / 3).
Definition seriesR (i : Z) : R := (IZR (leading i) * powerRZ 10 (i / 3))%R.
