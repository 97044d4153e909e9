(** How to read the text form of a distribution: {min:1;max:2;avg:1.5;median:1.5;sum:3;count:2;[-inf,10):2} *)
From Verif Require Import GoBase GoVal FloatBase TextSpec.
From stdpp Require Import list strings.
From Flocq Require Import IEEE754.BinarySingleNaN.
From Verif Require Import DistModel.
Local Open Scope string_scope.
Local Open Scope list_scope.

(** the parts of s between the characters c *)
Fixpoint parts (c : ascii) (s : string) : list string :=
  match s with
  | "" => [""]
  | String a r => if Ascii.eqb a c then "" :: parts c r else match parts c r with x :: l => String a x :: l | [] => [] end
  end.
(** key:value *)
Definition field (s : string) : option (string * string) := match parts ":" s with [k; v] => Some (k, v) | _ => None end.
(** [lo,hi) *)
Definition range_label (s : string) : option (string * string) :=
  match s with
  | String a r => if Ascii.eqb a "[" then match parts "," r with [lo; r] => match parts ")" r with [hi; ""] => Some (lo, hi) | _ => None end | _ => None end else None
  | "" => None
  end.
(** {fields}, end of line; the first six fields are statistics, the others are ranges with the number of values in them *)
Definition read_text (s : string) : option (list (string * string) * list (string * string * string)) :=
  match s with
  | String a r =>
      if Ascii.eqb a "{" then
        match parts "}" r with
        | [body; String "010" ""] =>
            match mapM field (parts ";" body) with
            | Some fs => match mapM (λ f, match range_label f.1 with Some l => Some (l, f.2) | None => None end) (drop 6 fs) with Some rs => Some (take 6 fs, rs) | None => None end
            | None => None
            end
        | _ => None
        end
      else None
  | "" => None
  end.
(** What belongs there, es being the end points: bucket number i reaches from end point i - 1 to end point i, and y is the number of values in it. *)
Definition shows_range (FF32 : float64 → string) (es : list num64) (x : string * string * string) (i : nat) (y : N) : Prop :=
  match i with 0 => x.1.1 = "-inf" | S j => ∃ e : num64, es !! j = Some e ∧ x.1.1 = FF32 e end ∧
  match (es !! i : option num64) with None => x.1.2 = "inf" | Some e => x.1.2 = FF32 e end ∧ canonical_dec x.2 y.
(** the buckets that contain values, with their numbers *)
Fixpoint occupied (i : nat) (l : list N) : list (nat * N) :=
  match l with [] => [] | r :: l => if N.eqb r 0 then occupied (S i) l else (i, r) :: occupied (S i) l end.
(** b is a text for a distribution with these end points, statistics and numbers of values in the buckets *)
Definition shows_distribution (FF32 : float64 → string) (es : list num64) (b : string) (s : snapshot num64) (counts : list N) : Prop :=
  ∃ count rs, read_text b = Some ([("min", FF32 (s_min s)); ("max", FF32 (s_max s)); ("avg", FF32 (s_average s)); ("median", FF32 (s_median s)); ("sum", FF32 (s_sum s)); ("count", count)], rs) ∧
    canonical_dec count (s_count s) ∧ Forall2 (λ x y, shows_range FF32 es x y.1 y.2) rs (occupied 0 counts).
(** texts of numbers contain none of the characters that separate *)
Definition separators : list ascii := [";"; ":"; "}"; ","; ")"]%char.
Definition no_separator (s : string) : Prop := str_all (λ c, negb (existsb (Ascii.eqb c) separators)) s = true.
(** strconv.FormatFloat(x, 'f', -1, 32) formats the float32 nearest to x *)
Definition nearest32 (x : float64) : SpecFloat.spec_float :=
  match x with
  | B754_zero s => SpecFloat.S754_zero s
  | B754_infinity s => SpecFloat.S754_infinity s
  | B754_nan => SpecFloat.S754_nan
  | B754_finite s m e _ => B2SF (binary_normalize 24 128 eq_refl eq_refl mode_NE (if s then Zneg m else Zpos m) e s)
  end.
Definition single_precision (FF32 : float64 → string) : Prop := ∀ x y, nearest32 x = nearest32 y → FF32 x = FF32 y.
