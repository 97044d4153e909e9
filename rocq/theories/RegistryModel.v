(** Model of the metrics registry: directory, listEntry and the registration functions
    (go/tricorder/metric.go:1373-1748, api.go:30-146,355-429).

    Every operation protected by directory.lock (or distribution.lock) is one atomic step, an [op].  API functions are
    sequences of such steps ([prog]); other goroutines can run between any two of them (RegistryConc.v). *)
From stdpp Require Import gmap strings.
From Verif Require Import PathModel.

(** What newValue (metric.go:836-909) does with the object passed to RegisterMetric: a distribution (its unit is
    checked or assigned), a supported object, an unsupported one (ErrWrongType), or a panic (nil, not a pointer, or a
    function that does not return exactly one value). Which Go types fall in which class is modelled in ValueModel.v. *)
Inductive mspec := MDist (d : nat) | MVar (v : nat) | MBadType (v : nat) | MPanics (v : nat).

(** metric.go:1373-1379 metric, 735-753 value: what a registered metric carries *)
Record minfo := MkInfo { mi_spec : mspec; mi_region : nat; mi_unit : string; mi_desc : string }.

(** metric.go:1415-1423 listEntry. Pointers to list entries are compared, so an entry has an identity [e_id]; the
    identity of the entry of a directory is the identity of the directory. Name, object and parent never change after
    construction. *)
Inductive obj := OMetric (m : minfo) | ODir (d : nat).
Inductive entry := Entry (e_id : nat) (e_name : string) (e_obj : obj) (e_parent : option entry).
Definition e_id (e : entry) := let '(Entry i _ _ _) := e in i.
Definition e_name (e : entry) := let '(Entry _ n _ _) := e in n.
Definition e_obj (e : entry) := let '(Entry _ _ o _) := e in o.
Definition e_parent (e : entry) := let '(Entry _ _ _ p) := e in p.

(** metric.go:1461-1466 directory *)
Record dir := MkDir { d_encl : option entry; d_contents : gmap string entry }.

(** The heap: directories by identity, the next fresh identity, the assigned unit of each distribution. *)
Record heap := MkHeap { h_dirs : gmap nat dir; h_next : nat; h_units : gmap nat string }.

(** metric.go:33 root = newDirectory() *)
Definition root : nat := 0.
Definition init_heap : heap := MkHeap {[ root := MkDir None ∅ ]} 1 ∅.

Definition contents (h : heap) (d : nat) : gmap string entry :=
  match h_dirs h !! d with Some dd => d_contents dd | None => ∅ end.
Definition encl (h : heap) (d : nat) : option entry :=
  match h_dirs h !! d with Some dd => d_encl dd | None => None end.
(** contents of directory d replaced *)
Definition set_contents (h : heap) (d : nat) (c : gmap string entry) : heap :=
  match h_dirs h !! d with
  | Some dd => MkHeap (<[ d := MkDir (d_encl dd) c ]> (h_dirs h)) (h_next h) (h_units h)
  | None => h
  end.
Definition bump (h : heap) : heap := MkHeap (h_dirs h) (S (h_next h)) (h_units h).

(** api.go:18-27 *)
Inductive err := ErrNotFound | ErrPathInUse | ErrWrongUnit | ErrWrongType.

(** ** Atomic steps *)
Inductive op : Type → Type :=
| GetListEntry (d : nat) (name : string) : op (option entry)
| RemoveListEntry (d : nat) (name : string) : op unit
| RemoveChildDirectory (d : nat) (child : entry) : op unit
| CreateDirIfNeeded (d : nat) (name : string) : op (nat + err)
| StoreMetric (d : nat) (name : string) (m : minfo) : op (option err)
| SetUnit (dist : nat) (u : string) : op bool
| EnclosingEntry (d : nat) : op (option entry).

Definition op_sem {B} (o : op B) (h : heap) : heap * B :=
  match o in op B return heap * B with
  | GetListEntry d name => (h, contents h d !! name)                          (* metric.go:1594-1598 *)
  | RemoveListEntry d name => (set_contents h d (delete name (contents h d)), tt) (* metric.go:1600-1604 *)
  | RemoveChildDirectory d child =>                                           (* metric.go:1606-1613 *)
      match contents h d !! e_name child with
      | Some e => if decide (e_id e = e_id child)
                  then (set_contents h d (delete (e_name child) (contents h d)), tt)
                  else (h, tt)
      | None => (h, tt)
      end
  | CreateDirIfNeeded d name =>                                               (* metric.go:1659-1681 *)
      match contents h d !! name with
      | None =>
          let new := h_next h in
          let e := Entry new name (ODir new) (encl h d) in
          let h1 := bump h in
          let h2 := set_contents h1 d (<[ name := e ]> (contents h1 d)) in
          (MkHeap (<[ new := MkDir (Some e) ∅ ]> (h_dirs h2)) (h_next h2) (h_units h2), inl new)
      | Some e => match e_obj e with
                  | ODir d' => (h, inl d')
                  | OMetric _ => (h, inr ErrPathInUse)
                  end
      end
  | StoreMetric d name m =>                                                   (* metric.go:1683-1695 *)
      match contents h d !! name with
      | Some _ => (h, Some ErrPathInUse)
      | None =>
          let e := Entry (h_next h) name (OMetric m) (encl h d) in
          let h1 := bump h in
          (set_contents h1 d (<[ name := e ]> (contents h1 d)), None)
      end
  | SetUnit dist u =>                                                         (* metric.go:362-378 *)
      match h_units h !! dist with
      | None => (MkHeap (h_dirs h) (h_next h) (<[ dist := u ]> (h_units h)), true)
      | Some u' => (h, bool_decide (u = u'))
      end
  | EnclosingEntry d => (h, encl h d)                 (* reading the immutable field enclosingListEntry *)
  end.

(** ** Programs: sequences of atomic steps *)
Inductive prog (A : Type) :=
| Ret (a : A)
| Step {B : Type} (o : op B) (k : B → prog A).
Arguments Ret {A} a.
Arguments Step {A B} o k.
Fixpoint bind {A B} (p : prog A) (f : A → prog B) : prog B :=
  match p with
  | Ret a => f a
  | Step o k => Step o (λ b, bind (k b) f)
  end.
Notation "'do' x <- p ; q" := (bind p (λ x, q)) (at level 200, x pattern, p at level 100, q at level 200).
Definition atomic {B} (o : op B) : prog B := Step o Ret.

(** Running a program without interference. *)
Fixpoint run {A} (p : prog A) (h : heap) : heap * A :=
  match p with
  | Ret a => (h, a)
  | Step o k => let '(h', b) := op_sem o h in run (k b) h'
  end.

(** metric.go:1615-1629  getDirectoryAndError *)
Fixpoint getDirectoryAndError (d : nat) (path : list string) : prog (nat + err) :=
  match path with
  | [] => Ret (inl d)
  | part :: rest =>
      do n <- atomic (GetListEntry d part);
      match n with
      | None => Ret (inr ErrNotFound)
      | Some e => match e_obj e with
                  | OMetric _ => Ret (inr ErrPathInUse)
                  | ODir d' => getDirectoryAndError d' rest
                  end
      end
  end.

(** metric.go:1631-1641  getDirectory *)
Fixpoint getDirectory (d : nat) (path : list string) : prog (option nat) :=
  match path with
  | [] => Ret (Some d)
  | part :: rest =>
      do n <- atomic (GetListEntry d part);
      match n with
      | None => Ret None
      | Some e => match e_obj e with
                  | OMetric _ => Ret None
                  | ODir d' => getDirectory d' rest
                  end
      end
  end.

(** The two pointers returned by getDirectoryOrMetric, at most one of which is not nil. *)
Inductive node := NDir (d : nat) | NMetric (e : entry).
Definition node_of (e : entry) : node := match e_obj e with ODir d => NDir d | OMetric _ => NMetric e end.

(** metric.go:1643-1657  getDirectoryOrMetric *)
Definition getDirectoryOrMetric (d : nat) (path : list string) : prog (option node) :=
  match Dir path, Base path with
  | Some dirpart, Some base =>
      do od <- getDirectory d dirpart;
      match od with
      | None => Ret None
      | Some dir => do n <- atomic (GetListEntry dir base);
                    Ret (node_of <$> n)
      end
  | _, _ => Ret (Some (NDir d))
  end.

(** metric.go:1697-1707  registerDirectory *)
Fixpoint registerDirectory (d : nat) (path : list string) : prog (nat + err) :=
  match path with
  | [] => Ret (inl d)
  | part :: rest =>
      do r <- atomic (CreateDirIfNeeded d part);
      match r with
      | inl d' => registerDirectory d' rest
      | inr e => Ret (inr e)
      end
  end.

(** Outcome of RegisterMetric. *)
Inductive mres := MOk | MErr (e : err) | MPanicked.

(** metric.go:836-909  newValue, as far as the registry is concerned *)
Definition newValue (spec : mspec) (unit : string) : prog mres :=
  match spec with
  | MDist d => do ok <- atomic (SetUnit d unit); Ret (if (ok : bool) then MOk else MErr ErrWrongUnit)
  | MVar _ => Ret MOk
  | MBadType _ => Ret (MErr ErrWrongType)
  | MPanics _ => Ret MPanicked
  end.

(** metric.go:1709-1730  registerMetric *)
Definition registerMetric (d : nat) (path : list string) (m : minfo) : prog mres :=
  match Dir path, Base path with
  | Some dirpart, Some base =>
      do r <- registerDirectory d dirpart;
      match r with
      | inr e => Ret (MErr e)
      | inl current =>
          do v <- newValue (mi_spec m) (mi_unit m);
          match v with
          | MOk => do e <- atomic (StoreMetric current base m);
                   Ret (match (e : option err) with None => MOk | Some e => MErr e end)
          | other => Ret other
          end
      end
  | _, _ => Ret (MErr ErrPathInUse)
  end.

(** metric.go:1425-1430  parentDir; None stands for the nil pointer n.parent.Directory of a metric *)
Definition parentDir (n : entry) : option nat :=
  match e_parent n with
  | None => Some root
  | Some p => match e_obj p with ODir d => Some d | OMetric _ => None end
  end.

(** metric.go:1732-1737  unregisterDirectory (with 1484-1493 Parent, IsRoot) *)
Definition unregisterDirectory (d : nat) : prog unit :=
  do oe <- atomic (EnclosingEntry d);
  match oe with
  | None => Ret tt
  | Some e => match parentDir e with
              | Some p => atomic (RemoveChildDirectory p e)
              | None => Ret tt
              end
  end.

(** metric.go:1739-1748  unregisterPath *)
Definition unregisterPath (d : nat) (path : list string) : prog unit :=
  match Dir path, Base path with
  | Some dirpart, Some base =>
      do od <- getDirectory d dirpart;
      match od with
      | None => Ret tt
      | Some dir => atomic (RemoveListEntry dir base)
      end
  | _, _ => Ret tt
  end.

(** ** Absolute paths *)
(** metric.go:1432-1447  pathFrom: the loop collects names upwards until it meets the entry of fromDir, then reverses.
    The second component says whether that entry (nil for the root) was met. *)
Fixpoint pathUp (current : entry) (from : option nat) : list string * bool :=
  if bool_decide (Some (e_id current) = from) then ([], true)
  else let '(Entry _ name _ parent) := current in
       match parent with
       | None => ([name], bool_decide (from = None))
       | Some p => let '(names, met) := pathUp p from in (name :: names, met)
       end.
Definition pathFrom (n : entry) (from : option nat) : list string :=
  let '(names, met) := pathUp n from in if met then reverse names else [].
(** metric.go:1449-1451 absPath of a non-nil entry, 1382-1384 metric.AbsPath, 1478-1480 directory.AbsPath *)
Definition absPath (n : entry) : string := "/" +:+ join (pathFrom n None).
Definition dirAbsPath (h : heap) (d : nat) : string :=
  match encl h d with None => "/" +:+ join [] | Some e => absPath e end.

(** ** Listing *)
(** metric.go:1848-1865: sort.Sort(byName): byte order of names *)
Fixpoint insert_entry (x : entry) (l : list entry) : list entry :=
  match l with
  | [] => [x]
  | y :: r => if String.leb (e_name x) (e_name y) then x :: l else y :: insert_entry x r
  end.
Fixpoint sortListEntries (l : list entry) : list entry :=
  match l with [] => [] | x :: r => insert_entry x (sortListEntries r) end.
(** metric.go:1582-1592 listUnsorted: the map's values, in the iteration order [order] (any permutation) *)
Definition entries_of (h : heap) (d : nat) : list entry := (map_to_list (contents h d)).*2.
