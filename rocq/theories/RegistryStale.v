(** A list entry that has been removed never comes back; listings that start after a directory was unregistered. *)
From stdpp Require Import gmap strings sorting.
From Verif Require Import PathModel PathSpec PathProofs RegistryModel RegistrySpec RegistryProofs RegistryConc RegistryConcProofs RegistryList.

Lemma change_back h h' d x e : change h h' → contents h' d !! x = Some e → contents h d !! x = Some e ∨ h_next h ≤ e_id e.
Proof.
  intros CH C. destruct CH as [Hc He Hh Hn|d0 n Hd Hc He Hh Hn|d0 n e0 Hd V C0 Ee Hc He Hh Hn|d0 n e0 m Hd V C0 Ee Hc He Hh Hn];
    rewrite Hc in C; [by left|..]; (destruct (decide (d = d0)) as [->|]; [|by left]).
  - apply lookup_delete_Some in C as [_ C]. by left.
  - apply lookup_insert_Some in C as [[<- <-]|[_ C]]; [right; subst; simpl; lia|by left].
  - apply lookup_insert_Some in C as [[<- <-]|[_ C]]; [right; subst; simpl; lia|by left].
Qed.
Lemma during_back c l c' d x e : during c l c' → cinv c → contents (c_heap c') d !! x = Some e →
  contents (c_heap c) d !! x = Some e ∨ h_next (c_heap c) ≤ e_id e.
Proof.
  intros D. induction D as [c|c c1 l c2 S D IH]; intros I C; [by left|].
  destruct (step_inv _ _ I S) as [I1 CH]. destruct (IH I1 C) as [C1|L].
  - exact (change_back _ _ _ _ _ CH C1).
  - right. destruct (change_ext _ _ (ci_wf _ I) CH) as [_ N]. lia.
Qed.

Section stale.
  Context (c c' : config) (l : list config) (D : during c l c') (Ci : cinv c).
  Let ok (d : nat) : Prop := ¬ dead (c_heap c) d.
  Let oke (e : entry) : Prop := ∀ d, parentDir e = Some d → ok d.
  Lemma child_ok h d y e d' : mem_heap l h → ok d → contents h d !! y = Some e → e_obj e = ODir d' → ok d'.
  Proof using D Ci.
    intros (x & Hx & <-) Od C O Dd. pose proof Dd as [H' N']. pose proof (ci_wf _ Ci) as W.
    destruct (during_split _ _ _ _ D Hx) as (l1 & l2 & D1 & _ & _).
    destruct (during_inv _ _ _ Ci D1) as [_ Cx]. destruct (wf_entry_dir _ (ci_wf _ Cx) _ _ _ _ C O) as (I & _ & _).
    destruct (during_back _ _ _ _ _ _ D1 Ci C) as [C0|L].
    - pose proof (contents_has _ _ _ _ C0) as H0. destruct (live_or_dead (c_heap c) d W) as [[a La]|N0]; [|by apply Od].
      apply (N' (a ++ [y])). unfold live, answer in *. rewrite find_snoc, La, C0. simpl. unfold node_of. by rewrite O.
    - apply (wf_fresh _ W) in H'. lia.
  Qed.
  Lemma hoare_ok p : ∀ d, ok d → hoare (mem_heap l) (getDirectory d p) (λ r, match r with Some d' => ok d' | None => True end).
  Proof using D Ci.
    induction p as [|x p IH]; intros d Od; [done|]. cbn [getDirectory bind atomic hoare]. intros h M. simpl.
    destruct (contents h d !! x) as [e|] eqn:C; [|done]. destruct (e_obj e) as [m|d'] eqn:O; [done|].
    apply IH. by eapply child_ok.
  Qed.
  Lemma entry_ok h d y e : mem_heap l h → ok d → contents h d !! y = Some e → oke e.
  Proof using D Ci.
    intros M Od C d' E. destruct (mem_heap_props _ _ _ h D Ci M) as [W _]. rewrite (parentDir_container _ _ _ _ W C) in E. by injection E as <-.
  Qed.
  Lemma listing_stale t s out : c_pool c !! t = None →
    c_pool c' !! t = Some (MkThread (CList root s) (TDone (RList out))) →
    ∀ e d, e ∈ out → parentDir e = Some d → ¬ dead (c_heap c) d.
  Proof using D Ci.
    intros N Done. set (p := newPathSpec s) in *.
    assert (Or : ok root). { intros [_ A]. by apply (A []). }
    assert (L : listing t (CList root s) (mem_heap l) (λ w out, Forall oke out ∧ Forall (λ i, match i with WDir d => ok d | WMetric e => oke e end) w) c').
    { eapply listing_step; [exact D|exact Ci|exact N|intros x Hx; by exists x| | |].
      - cbn [prog_of]. fold p. eapply hoare_bind with (Q := λ n, match n with Some (NDir d) => ok d | Some (NMetric e) => oke e | None => True end).
        + unfold getDirectoryOrMetric. destruct (Dir_Base p) as [[E ->]|(a & y & E & -> & ->)]; [done|].
          eapply hoare_bind; [by apply hoare_ok|]. intros [d|] Od; [|done]. cbn [bind atomic hoare]. intros h M. simpl.
          destruct (contents h d !! y) as [e|] eqn:C; [|done]. simpl. unfold node_of. destruct (e_obj e) as [m|d'] eqn:O.
          * by eapply entry_ok.
          * by eapply child_ok.
        + intros [[d|e]|] Q; simpl; (split; [constructor|]); repeat constructor; done.
      - intros e w o [K1 K2]. inversion K2; subst. split; [|done]. apply Forall_app. split; [done|]. by constructor.
      - intros x d es w o Hx Cx P [K1 K2] H. inversion K2 as [|? ? K3 K4]; subst. split; [done|]. apply Forall_app. split; [|done].
        apply Forall_forall. intros i Hi. apply elem_of_list_fmap in Hi as (e & -> & He). rewrite sort_perm, P in He.
        apply entries_of_elem in He as [y C]. assert (M : mem_heap l (c_heap x)) by (by exists x).
        unfold item_of. destruct (e_obj e) as [m|d'] eqn:O; [by eapply entry_ok|by eapply child_ok]. }
    unfold listing in L. rewrite Done in L. specialize (L eq_refl). destruct L as [L _].
    intros e d He Pe. by apply (proj1 (Forall_forall _ _) L e He).
  Qed.
End stale.
