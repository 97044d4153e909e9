(** Vocabulary for update functions that call the library. *)
From stdpp Require Import gmap list.
From Verif Require Import RegionModel RegionSpec RegionNestModel.

(** the groups a program uses *)
Definition uses (a : action) (r : nat) : Prop := match a with AVisit r' | ARegister r' _ => r' = r | _ => False end.
(** Calls of update functions go downwards: the update function of r only uses groups of a lower level. *)
Definition downwards (level : nat → nat) (tr : list nlabel) : Prop :=
  ∀ r t p, NLCall r t p ∈ tr → ∀ a r', a ∈ p → uses a r' → level r' < level r.
Definition nenabled (s : nconfig) (k : ncmd) : Prop := ∃ l s', nstepf s k = Some (l, s').
(** no new goroutine, no write, no new call *)
Definition ninternal (k : ncmd) : Prop := match k with NPlain k => internal k | NCall _ _ => False | NReturn _ => True end.
(** the same execution with calls as ordinary goroutines *)
Definition plain (l : nlabel) : list label := match l with NL l => [l] | NLCall _ t p => [LSpawn t p] | NLReturn _ _ => [] end.
(** neither a new goroutine nor a new call *)
Definition quiet (l : nlabel) : Prop := match l with NL l => is_spawn l = false | NLCall _ _ _ => False | NLReturn _ _ => True end.
Definition nwrite (l : nlabel) : bool := match l with NL l => is_write l | _ => false end.
(** a call that first of all uses group r: RegisterUpdateFunc, or reading a metric of r *)
Definition starts_with_own (r : nat) (p : list action) : Prop := (∃ f q, p = ARegister r f :: q) ∨ (∃ q, p = AOpen :: AVisit r :: q).
