(** Property theorem C51 for variables of groups. *)
From stdpp Require Import gmap list.
From Coq Require Import ZArith.
From Verif Require Import RegionModel RegionSpec RegionThms RegionReads PropRegion.
Local Notation run f0 v0 := (exec (init_config f0 v0)).

(** The two evaluations of a variable of a group in one listing (a session that holds the group) give the same value,
    so what IsInfNaN checked is what is reported. *)
Theorem c51_groups_partial : ∀ f0 v0 tr1 tr2 c t r x a b time, run f0 v0 (tr1 ++ [LRead t r x a] ++ tr2 ++ [LRead t r x b]) c → holds t r tr1 = Some time →
  LClose t ∉ tr2 → a = b.
Proof. exact reads_agree. Qed.
Definition reads_cmds : list cmd := [Spawn (listing [(7, 0)]); Local 0 0; Local 0 0; Send 0; Handle 7 0; Write 7 0 42%Z; Handle 7 100%Z; Reply 0; Local 0 0; Local 0 0; Local 0 0; Local 0 0].
Example c51_groups_nonvacuous : ∃ c tr1 tr2, run (λ _, 0) (λ _ _, 0%Z) (tr1 ++ [LRead 0 7 0 42%Z] ++ tr2 ++ [LRead 0 7 0 42%Z]) c ∧ holds 0 7 tr1 = Some 100%Z ∧ LClose 0 ∉ tr2.
Proof.
  destruct (runf_labels (init_config (λ _, 0) (λ _ _, 0%Z)) reads_cmds
    ([LSpawn 0 (listing [(7, 0)]); LOpen 0; LVisitCall 0 7; LSend 0 7 MLock; LUpdBegin 7 0; LWrite 7 0 42%Z; LUpdEnd 7 0 100%Z; LReply 0 7; LVisit 0 7 100%Z] ++ [LRead 0 7 0 42%Z] ++ [LVisit 0 7 100%Z] ++ [LRead 0 7 0 42%Z])) as [c E]; [vm_compute; reflexivity|].
  eexists c, _, _. split; [exact E|]. split; [reflexivity|]. intros H%elem_of_list_singleton. discriminate H.
Qed.
Print Assumptions c51_groups_partial.
