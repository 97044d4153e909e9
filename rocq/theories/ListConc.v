(** Lists used by several goroutines at once: the parts of ChangeWithTimeStamp and get that hold l.lock, for
    MonitorModel.v. *)
From Verif Require Import GoBase GoVal UnitsModel DurationModel TypesModel.
From stdpp Require Import list.
From Verif Require Import ReflectModel ListModel MonitorModel.

Inductive lcall := KChange (s : slice) (ts : gotime) | KGet.
Inductive lres := RChanged | RGot (s : slice) (ts : gotime).
Definition set_slice (s : slice) (l : alist) : alist := MkList (l_subType l) s (l_ts l).
Definition set_ts (ts : gotime) (l : alist) : alist := MkList (l_subType l) (l_slice l) ts.
Definition lbody (c : lcall) : prog alist lres :=
  match c with
  (** metric.go:691-692 *)
  | KChange s ts => wr (set_slice s) (wr (set_ts ts) (Done RChanged))
  (** metric.go:698 *)
  | KGet => rd l_slice (λ s, rd l_ts (λ ts, Done (RGot s ts)))
  end.
(** metric.go:689, 696 *)
Definition lmode (c : lcall) : mode := match c with KChange _ _ => Wr | KGet => Rd end.
Definition list_monitor : monitor := MkMonitor alist lcall lres lmode lbody.
(** One at a time *)
Definition list_seq (c : lcall) (l : alist) : alist * lres :=
  match c with
  | KChange s ts => (commit l s ts, RChanged)
  | KGet => (l, RGot (fst (AsSlice l)) (snd (AsSlice l)))
  end.
