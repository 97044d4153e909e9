(** Property theorems C15: paths. *)
From Verif Require Import GoBase PathModel PathSpec PathProofs.
Local Open Scope string_scope.

(** C15. newPathSpec yields exactly the non-blank components; hence two strings denote the same place iff they have
    the same components. *)
Theorem c15_components : forall s cs, newPathSpec s = cs <-> components s cs.
Proof. exact newPathSpec_iff. Qed.
Theorem c15_same_place : forall s t, newPathSpec s = newPathSpec t <-> exists cs, components s cs /\ components t cs.
Proof.
  intros s t. split.
  - intros E. exists (newPathSpec s). split; apply newPathSpec_iff; congruence.
  - intros (cs & A & B). apply newPathSpec_iff in A, B. congruence.
Qed.
(** Every component kept is legal, and printing a path and reading it again gives the same path. *)
Theorem c15_valid : forall s, Forall valid_component (newPathSpec s).
Proof. exact newPathSpec_valid. Qed.
Theorem c15_print_read : forall p, Forall valid_component p -> newPathSpec (join p) = p.
Proof. exact newPathSpec_join. Qed.
Theorem c15_concat : forall a b, newPathSpec (a ++ "/" ++ b) = (newPathSpec a ++ newPathSpec b)%list.
Proof. exact newPathSpec_app. Qed.
Example c15_nonvacuous : newPathSpec "//proc/ / go routines/" = ["proc"; " go routines"] /\
  components "proc/ go routines" ["proc"; " go routines"].
Proof. split; [vm_compute; reflexivity|]. apply newPathSpec_iff. vm_compute. reflexivity. Qed.
Print Assumptions c15_components.
Print Assumptions c15_same_place.
Print Assumptions c15_valid.
Print Assumptions c15_print_read.
Print Assumptions c15_concat.
