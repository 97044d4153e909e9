(** Vocabulary for statements about listings and executions of the registry. *)
From stdpp Require Import gmap strings.
From Verif Require Import PathSpec RegistryModel RegistrySpec RegistryConc.

(** byte order on strings *)
Definition slt (a b : string) : Prop := String.compare a b = Lt.
(** lexicographic order on paths: the first component that differs decides, and there must be one *)
Definition ilt (a b : list string) : Prop := ∃ c x y r s, a = c ++ x :: r ∧ b = c ++ y :: s ∧ slt x y.

(** consecutive elements are related *)
Fixpoint consecutive {A} (R : A → A → Prop) (l : list A) : Prop :=
  match l with
  | x :: r => match r with y :: _ => R x y | [] => True end ∧ consecutive R r
  | [] => True
  end.
(** nothing at P or at a prefix of P is removed or replaced between two configurations *)
Definition keeps (P : list string) (x y : config) : Prop :=
  ∀ q, below q P → answer (c_heap x) q ≠ None → answer (c_heap y) q = answer (c_heap x) q.
(** calls that unregister something *)
Definition unregisters (ca : call) : Prop := match ca with CUnregPath _ _ | CUnregDir _ => True | _ => False end.
(** thread t, started after c, has registered m at the absolute path P, through a directory that is registered *)
Definition succeeded (c c' : config) (P : list string) (t : nat) (m : minfo) : Prop :=
  c_pool c !! t = None ∧
  ∃ d s a r, c_pool c' !! t = Some (MkThread (CRegMetric d s m) (TDone (RMetric MOk))) ∧
    live (c_heap c') d a ∧ components s r ∧ P = a ++ r.
(** a listing of s by thread t that takes place entirely between c and c', with result out *)
Definition listed (c : config) (l : list config) (c' : config) (t : nat) (s : string) (out : list entry) : Prop :=
  during c l c' ∧ c_pool c !! t = None ∧ c_pool c' !! t = Some (MkThread (CList root s) (TDone (RList out))).
