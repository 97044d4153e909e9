From Coq Require Import ZArith Lia.
From stdpp Require Import gmap list.
From Verif Require Import MonitorSpec RegionModel RegionSpec RegionProofs RegionThms StampProofs.
Local Open Scope Z_scope.
Lemma visit_stamps f0 v0 tr c r t a t' b : exec (init_config f0 v0) tr c → (∀ f x g y, precedes tr (LUpdEnd r f x) (LUpdEnd r g y) → x ≤ y) →
  precedes tr (LVisit t r a) (LVisit t' r b) → a ≤ b.
Proof.
  intros E Clk (l1 & l2 & l3 & ->).
  assert (∃ c1, exec (init_config f0 v0) (l1 ++ [LVisit t r a]) c1) as [c1 E1].
  { change (LVisit t r a :: l2 ++ LVisit t' r b :: l3) with ([LVisit t r a] ++ l2 ++ LVisit t' r b :: l3) in E. rewrite app_assoc in E. apply exec_app in E as (c1 & ? & _). by exists c1. }
  assert (l1 ++ LVisit t r a :: l2 ++ LVisit t' r b :: l3 = ((l1 ++ LVisit t r a :: l2) ++ [LVisit t' r b]) ++ l3) as Q.
  { rewrite <- !app_assoc. simpl. done. }
  rewrite Q in E, Clk. pose proof E as E2. apply exec_app in E2 as (c2 & E2 & _).
  destruct (visit_time _ _ _ _ _ _ _ E1) as (va & x1 & f & x2 & x3 & L1 & _). destruct (visit_time _ _ _ _ _ _ _ E2) as (vb & y1 & g & y2 & y3 & L2 & _ & _ & Y & _).
  set (T := l1 ++ LVisit t r a :: l2) in *.
  assert (T !! length (x1 ++ [LUpdBegin r f] ++ x2) = Some (LUpdEnd r f a)) as I.
  { assert (T = (x1 ++ [LUpdBegin r f] ++ x2) ++ LUpdEnd r f a :: (x3 ++ LVisit t r a :: l2)) as ->.
    { unfold T. rewrite L1. simpl. rewrite <- ?app_assoc. simpl. rewrite <- ?app_assoc. done. }
    by apply list_lookup_middle. }
  assert (T !! length (y1 ++ [LUpdBegin r g] ++ y2) = Some (LUpdEnd r g b)) as J.
  { assert (T = (y1 ++ [LUpdBegin r g] ++ y2) ++ LUpdEnd r g b :: y3) as ->.
    { rewrite L2. simpl. rewrite <- ?app_assoc. simpl. rewrite <- ?app_assoc. done. }
    by apply list_lookup_middle. }
  set (i := length (x1 ++ [LUpdBegin r f] ++ x2)) in *. set (j := length (y1 ++ [LUpdBegin r g] ++ y2)) in *.
  destruct (decide (i = j)) as [Eq|Ne]; [rewrite Eq, J in I; injection I as _ ->; lia|].
  destruct (decide (i < j)%nat) as [Lt|Ge].
  - eapply Clk. apply precedes_more, precedes_more. by eapply precedes_lookup.
  - exfalso. assert (LUpdEnd r f a ∈ y3) as In.
    { assert (T = (y1 ++ [LUpdBegin r g] ++ y2) ++ LUpdEnd r g b :: y3) as L2' by (rewrite L2; rewrite <- !app_assoc; done).
      rewrite L2', lookup_app_r in I by (fold j; lia). fold j in I. replace (i - j)%nat with (S (i - j - 1)) in I by lia. simpl in I. by eapply elem_of_list_lookup_2. }
    apply Y in In. simpl in In. by rewrite bool_decide_true in In.
Qed.
