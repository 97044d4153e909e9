(** Vocabulary for statements about distributions.  Buckets are described by the list of end points only;
    histories by the calls only. *)
From Coq Require Import QArith.
From Verif Require Import GoBase GoVal UnitsModel DurationModel FloatBase.
From stdpp Require Import list.
From Verif Require Import DistModel.
From Flocq Require Import IEEE754.BinarySingleNaN.
Local Open Scope N_scope.

(** What is needed of numbers to speak about order: [n_ok] singles out the numbers proper (not NaN), on which
    "less than" is a total order up to numeric equality; a comparison with anything else is false. *)
Record ordered (A : num) (n_ok : A → Prop) : Prop := {
  ord_asym : ∀ a b, n_ok a → n_ok b → nlt a b = true → nlt b a = false;
  ord_negtrans : ∀ a b c, n_ok a → n_ok b → n_ok c → nlt a b = false → nlt b c = false → nlt a c = false }.
Definition notNaN (f : num64) : Prop := is_nan (f : float64) = false.
Definition rational (q : numQ) : Prop := True.

Section Spec.
  Context {A : num}.
  (** a <= b: b is not less than a *)
  Definition le_num (a b : A) : Prop := nlt b a = false.
  (** the same number, e.g. -0 and +0 *)
  Definition same_num (a b : A) : Prop := nlt a b = false ∧ nlt b a = false.
  (** the end points are non-decreasing *)
  Definition ascending (es : list A) : Prop := ∀ i j a b, (i < j)%nat → es !! i = Some a → es !! j = Some b → le_num a b.
  (** v belongs to bucket i: at least end point i-1 (if there is one) and less than end point i (if there is one) *)
  Definition in_bucket (es : list A) (i : nat) (v : A) : bool :=
    match i with
    | O => true
    | S j => match es !! j with Some lower => negb (nlt v lower) | None => false end
    end &&
    match es !! i with Some upper => nlt v upper | None => true end.
  (** v is in bucket i including its upper end point *)
  Definition in_closed_bucket (es : list A) (i : nat) (v : A) : Prop :=
    (∀ lower, (0 < i)%nat → es !! (i - 1)%nat = Some lower → le_num lower v) ∧
    (∀ upper, es !! i = Some upper → le_num v upper).

  (** the values a history leaves in a distribution, if Update and Remove are only given values that are there *)
  Inductive present (notcum : bool) : list (op A) → list A → Prop :=
    | present_nil : present notcum [] []
    | present_add h l v ts : present notcum h l → present notcum (h ++ [Add v ts]) (v :: l)
    | present_update h l o o' l' v ts : present notcum h l → notcum = true → l ≡ₚ o' :: l' → same_num o' o →
        present notcum (h ++ [Update o v ts]) (v :: l')
    | present_remove h l o o' l' ts : present notcum h l → notcum = true → l ≡ₚ o' :: l' → same_num o' o →
        present notcum (h ++ [Remove o ts]) l'.

  Definition op_values (o : op A) : list A := match o with Add v _ => [v] | Update o v _ => [o; v] | Remove v _ => [v] end.
  (** every number mentioned in the history satisfies P *)
  Definition all_values (P : A → Prop) (h : list (op A)) : Prop := ∀ o v, o ∈ h → v ∈ op_values o → P v.

  (** the calls that did not panic *)
  Fixpoint succeeded (h : list (op A)) (rs : list outcome) : list (op A) :=
    match h, rs with
    | o :: h, OK :: rs => o :: succeeded h rs
    | _ :: h, _ :: rs => succeeded h rs
    | _, _ => []
    end.
  Definition is_update (o : op A) : bool := match o with Update _ _ _ => true | _ => false end.
  (** no Update found its old value missing *)
  Definition no_bad_update (h : list (op A)) (rs : list outcome) : Prop :=
    ∀ i o, h !! i = Some o → is_update o = true → rs !! i ≠ Some (PANIC panicBadValue).

  (** number of values, and values added or updated to, since the distribution was last empty (newest first) *)
  Definition since_empty1 (s : N * list A) (o : op A) : N * list A :=
    match o with
    | Add v _ => (fst s + 1, v :: snd s)
    | Update _ v _ => (fst s, v :: snd s)
    | Remove _ _ => if N.eqb (fst s) 1 then (0, []) else (fst s - 1, snd s)
    end.
  Definition since_empty (h : list (op A)) : list A := snd (foldl since_empty1 (0, []) h).
  (** m is the least (greatest) element of l *)
  Definition least (m : A) (l : list A) : Prop := m ∈ l ∧ ∀ v, v ∈ l → le_num m v.
  Definition greatest (m : A) (l : list A) : Prop := m ∈ l ∧ ∀ v, v ∈ l → le_num v m.

  (** the additions and subtractions that the calls amount to, in call order *)
  Definition total1 (s : A) (o : op A) : A :=
    match o with Add v _ => nadd s v | Update o v _ => nadd s (nsub v o) | Remove v _ => nsub s v end.
  Definition total_of (h : list (op A)) : A := foldl total1 (nofN 0) h.

  Definition op_ts (o : op A) : gotime := match o with Add _ ts | Update _ _ ts | Remove _ ts => ts end.
End Spec.
Definition sumN (l : list N) : N := foldr N.add 0 l.
Definition sumQ (l : list Q) : Q := foldr Qplus 0%Q l.

(** *** What the documentation says about them (api.go:218-300) *)
(** the unit of the first registration *)
Fixpoint first_unit (cs : list call) : option unit_t :=
  match cs with [] => None | CSetUnit u :: _ => Some u | _ :: cs => first_unit cs end.
(** a value that Add accepts when the unit is u *)
Definition accepted (u : option unit_t) (v : dvalue) : Prop :=
  match u, v with
  | None, _ => False
  | Some u, DDuration _ => u = USecond ∨ u = UMillisecond
  | Some _, (DFloat32 _ | DFloat64 _) => True
  | Some _, DOther => False
  end.
(** the number it stands for *)
Definition to_number (u : option unit_t) (v : dvalue) : option num64 :=
  match u, v with
  | Some u, DDuration ns =>
      if String.eqb u USecond then Some (f64_div (f64_of_Z ns) (f64_of_Z (10 ^ 9)))
      else if String.eqb u UMillisecond then Some (f64_div (f64_of_Z ns) (f64_of_Z (10 ^ 6))) else None
  | Some _, DFloat32 f => Some (f64_of_f32 f)
  | Some _, DFloat64 f => Some f
  | _, _ => None
  end.
(** the calls that reach add, update or remove, with the numbers they are given *)
Fixpoint converted (u : option unit_t) (cs : list call) : list (op num64) :=
  match cs with
  | [] => []
  | CSetUnit u' :: cs => converted (match u with None => Some u' | _ => u end) cs
  | CAdd v ts :: cs => match to_number u v with Some f => Add f ts :: converted u cs | None => converted u cs end
  | CUpdate o v ts :: cs => match to_number u o, to_number u v with Some fo, Some fv => Update fo fv ts :: converted u cs | _, _ => converted u cs end
  | CRemove v ts :: cs => match to_number u v with Some f => Remove f ts :: converted u cs | None => converted u cs end
  end.
