(** What the registry properties mean: the tree of names reachable from a directory, stated on the heap only. *)
From stdpp Require Import gmap strings.
From Verif Require Import PathModel PathSpec RegistryModel.

(** The node reached from directory d by following the names of p, if any. *)
Fixpoint find (h : heap) (d : nat) (p : list string) : option node :=
  match p with
  | [] => Some (NDir d)
  | x :: r =>
      match contents h d !! x with
      | None => None
      | Some e =>
          match e_obj e, r with
          | ODir d', _ => find h d' r
          | OMetric _, [] => Some (NMetric e)
          | OMetric _, _ :: _ => None
          end
      end
  end.

(** What package level functions answer for the path p. *)
Definition answer (h : heap) (p : list string) : option node := find h root p.

(** Directory d is registered at absolute path a. *)
Definition live (h : heap) (d : nat) (a : list string) : Prop := answer h a = Some (NDir d).
(** Directory d exists: it is the root or was created by some call. *)
Definition has (h : heap) (d : nat) : Prop := is_Some (h_dirs h !! d).
(** Directory d exists (somebody holds a handle) but is not registered anywhere. *)
Definition dead (h : heap) (d : nat) : Prop := has h d ∧ ∀ a, answer h a ≠ Some (NDir d).

(** The names from the root down to an entry, following parent links. *)
Fixpoint names (e : entry) : list string :=
  let '(Entry _ n _ p) := e in
  match p with None => [n] | Some p' => names p' ++ [n] end.

(** Well formed heaps. *)
Record wf (h : heap) : Prop := {
  wf_root : has h root ∧ encl h root = None;
  (* every other directory has its own list entry, whose parent is an existing directory *)
  wf_encl : ∀ d, has h d → d ≠ root →
    ∃ e, encl h d = Some e ∧ e_obj e = ODir d ∧ e_id e = d ∧ valid_component (e_name e) ∧
         ∃ pd, parentDir e = Some pd ∧ e_parent e = encl h pd ∧ has h pd;
  wf_fresh : ∀ d, has h d → d < h_next h;
  (* the entry under a name carries that name, and its parent link is the directory containing it *)
  wf_entry : ∀ d x e, contents h d !! x = Some e →
    e_name e = x ∧ valid_component x ∧ e_parent e = encl h d ∧ e_id e < h_next h;
  wf_entry_dir : ∀ d x e d', contents h d !! x = Some e → e_obj e = ODir d' →
    e_id e = d' ∧ encl h d' = Some e ∧ has h d';
  wf_entry_metric : ∀ d x e m, contents h d !! x = Some e → e_obj e = OMetric m → ¬ has h (e_id e);
  (* identities are unique *)
  wf_uniq : ∀ d1 x1 e1 d2 x2 e2, contents h d1 !! x1 = Some e1 → contents h d2 !! x2 = Some e2 →
    e_id e1 = e_id e2 → e1 = e2;
}.

(** [q] is a prefix of [p] (possibly equal); the empty path is a prefix of every path. *)
Definition below (q p : list string) : Prop := ∃ r, p = q ++ r.
Definition properly_below (q p : list string) : Prop := ∃ x r, p = q ++ x :: r.

(** h' answers like h except that missing prefixes of p (p included) have become directories. *)
Definition adds_dirs (h h' : heap) (p : list string) : Prop :=
  ∀ q, (answer h q ≠ None → answer h' q = answer h q) ∧
       (answer h q = None → below q p → ∃ d, answer h' q = Some (NDir d)) ∧
       (answer h q = None → ¬ below q p → answer h' q = None).
Definition same_answers (h h' : heap) : Prop := ∀ q, answer h' q = answer h q.

Definition is_metric (n : option node) : Prop := ∃ e, n = Some (NMetric e).
Definition is_dir (n : option node) : Prop := ∃ d, n = Some (NDir d).

(** a metric object that newValue accepts in state h: a supported object, or a distribution without a unit or with
    that same unit *)
Definition accepts (h : heap) (m : minfo) : Prop :=
  match mi_spec m with
  | MVar _ => True
  | MDist di => h_units h !! di = None ∨ h_units h !! di = Some (mi_unit m)
  | MBadType _ | MPanics _ => False
  end.
(** p is not free: empty, in use, or below a metric *)
Definition obstructed (h : heap) (p : list string) : Prop :=
  p = [] ∨ answer h p ≠ None ∨ ∃ q, properly_below q p ∧ is_metric (answer h q).
(** h' answers like h except at p itself, and except that missing proper prefixes of p have become directories *)
Definition adds_at (h h' : heap) (p : list string) : Prop :=
  ∀ q, q ≠ p → (answer h q ≠ None → answer h' q = answer h q) ∧
       (answer h q = None → below q p → is_dir (answer h' q)) ∧
       (answer h q = None → ¬ below q p → answer h' q = None).
