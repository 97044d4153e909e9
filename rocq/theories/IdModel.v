(** Group ids: newIdSequence, go/tricorder/metric.go:38-48, and its users (newRegion 136, newDistribution 358,
    newListWithTimeStamp 674), each of which receives one id from the shared unbuffered channel. *)
From Coq Require Import ZArith.
From Verif Require Import GoBase.
From stdpp Require Import list.
Local Open Scope Z_scope.

Inductive gen :=
  | GSending (id : Z)   (* metric.go:43: result <- id *)
  | GSent (id : Z).     (* metric.go:44: id++ comes next *)
(** creators: the goroutines that create a group, with the id they received *)
Record ids := MkIds { i_gen : gen; i_creators : list (option Z) }.
Inductive icmd := INew | IReceive (t : nat) | IIncrement.
Definition istep (s : ids) (k : icmd) : option ids :=
  match k, i_gen s with
  | INew, g => Some (MkIds g (i_creators s ++ [None]))
  | IReceive t, GSending id => match i_creators s !! t with Some None => Some (MkIds (GSent id) (<[t := Some id]> (i_creators s))) | _ => None end
  | IIncrement, GSent id => Some (MkIds (GSending (wrap64 (id + 1))) (i_creators s))
  | _, _ => None
  end.
Definition init_ids : ids := MkIds (GSending 0) [].
Inductive ireach : ids → Prop :=
  | ir_init : ireach init_ids
  | ir_step s k s' : ireach s → istep s k = Some s' → ireach s'.
(** the ids handed out so far *)
Fixpoint somes (l : list (option Z)) : list Z :=
  match l with [] => [] | Some z :: l => z :: somes l | None :: l => somes l end.
Definition handed (s : ids) : list Z := somes (i_creators s).

Definition rank (s : ids) : Z := Z.of_nat (length (handed s)).
