(** Property theorems C80: the time stamps that readers are shown do not go backwards. *)
From Coq Require Import ZArith Lia.
From Verif Require Import GoBase GoVal UnitsModel DurationModel TypesModel FloatBase.
From stdpp Require Import list.
From Verif Require Import MonitorModel MonitorSpec MonitorProofs DistModel DistConc ReflectModel ListModel ListConc StampSpec StampProofs.
From Verif Require RegionModel PropRegion StampRegion.
Local Open Scope Z_scope.

(** Groups: if the times that the update functions of a region return do not decrease, then neither do those that visits
    of the region return, whoever the visitors are. *)
Theorem c80_groups : ∀ f0 v0 tr c r t a t' b, RegionModel.exec (RegionModel.init_config f0 v0) tr c →
  (∀ f x g y, precedes tr (RegionModel.LUpdEnd r f x) (RegionModel.LUpdEnd r g y) → x ≤ y) →
  precedes tr (RegionModel.LVisit t r a) (RegionModel.LVisit t' r b) → a ≤ b.
Proof. exact StampRegion.visit_stamps. Qed.

(** The full property for distributions and for lists: a reader that starts after another has returned is shown a time
    stamp that is not earlier.  Neither holds, see below. *)
Definition dist_stamps_ascend : Prop := ∀ (pieces : list (piece num64)) nc ts tr c t1 r1 t2 c2 r2 a b,
  exec dist_monitor (start dist_monitor (newDistributionWithTimeStamp pieces nc ts)) tr c → clocked dist_monitor dist_now ts tr →
  precedes tr (LRet (M := dist_monitor) t1 r1) (LCall t2 c2) → LRet (M := dist_monitor) t2 r2 ∈ tr → dist_shows r1 = Some a → dist_shows r2 = Some b →
  instant a ≤ instant b.
Definition list_stamps_ascend : Prop := ∀ l0 tr c t1 r1 t2 c2 r2 a b,
  exec list_monitor (start list_monitor l0) tr c → clocked list_monitor list_now (l_ts l0) tr →
  precedes tr (LRet (M := list_monitor) t1 r1) (LCall t2 c2) → LRet (M := list_monitor) t2 r2 ∈ tr → list_shows r1 = Some a → list_shows r2 = Some b →
  instant a ≤ instant b.

(** What holds: it goes back only from a time stamp a to a time stamp b such that the call made at a was made while the
    one made at b was running.  Missing: that case. *)
Theorem c80_dist_partial : ∀ (pieces : list (piece num64)) nc ts tr c t1 r1 t2 c2 r2 a b,
  exec dist_monitor (start dist_monitor (newDistributionWithTimeStamp pieces nc ts)) tr c → clocked dist_monitor dist_now ts tr →
  precedes tr (LRet (M := dist_monitor) t1 r1) (LCall t2 c2) → LRet (M := dist_monitor) t2 r2 ∈ tr → dist_shows r1 = Some a → dist_shows r2 = Some b →
  instant a ≤ instant b ∨ ∃ t x t' x', overtaken dist_monitor tr t x t' x' ∧ dist_now x = Some b ∧ dist_now x' = Some a.
Proof.
  intros pieces nc ts tr c t1 r1 t2 c2 r2 a b E C P R S1 S2. destruct (Z.le_gt_cases (instant a) (instant b)) as [|L]; [by left|right].
  exact (dist_stamps _ tr c t1 r1 t2 c2 r2 a b E C P R S1 S2 L).
Qed.
Theorem c80_list_partial : ∀ l0 tr c t1 r1 t2 c2 r2 a b,
  exec list_monitor (start list_monitor l0) tr c → clocked list_monitor list_now (l_ts l0) tr →
  precedes tr (LRet (M := list_monitor) t1 r1) (LCall t2 c2) → LRet (M := list_monitor) t2 r2 ∈ tr → list_shows r1 = Some a → list_shows r2 = Some b →
  instant a ≤ instant b ∨ ∃ t x t' x', overtaken list_monitor tr t x t' x' ∧ list_now x = Some b ∧ list_now x' = Some a.
Proof.
  intros l0 tr c t1 r1 t2 c2 r2 a b E C P R S1 S2. destruct (Z.le_gt_cases (instant a) (instant b)) as [|L]; [by left|right].
  exact (list_stamps _ tr c t1 r1 t2 c2 r2 a b E C P R S1 S2 L).
Qed.

(** Two goroutines Add, at 1 s and at 2 s; the second gets the lock first.  A snapshot between them shows 2 s, a snapshot
    after both shows 1 s. *)
Definition ex_pieces : list (piece num64) := match newBucketerFromEndpoints (A := num64) [f64_of_Z 10] with Some ps => ps | None => [] end.
Definition ex_dist : dist num64 := newDistributionWithTimeStamp ex_pieces false (MkTime 0 0).
Definition ex_run : list (cmd dist_monitor) :=
  [Call (KCall (CSetUnit UNone) : m_call dist_monitor)] ++ replicate 5 (Do 0%nat) ++
  [Call (KCall (CAdd (DFloat64 (f64_of_Z 3)) (MkTime 1 0)) : m_call dist_monitor); Call (KCall (CAdd (DFloat64 (f64_of_Z 4)) (MkTime 2 0)) : m_call dist_monitor)] ++
  replicate 16 (Do 2%nat) ++ [Call (KSnapshot : m_call dist_monitor)] ++ replicate 18 (Do 3%nat) ++
  replicate 16 (Do 1%nat) ++ [Call (KSnapshot : m_call dist_monitor)] ++ replicate 18 (Do 4%nat).
Example c80_nonvacuous_dist : ∃ tr c, exec dist_monitor (start dist_monitor ex_dist) tr c ∧ clocked dist_monitor dist_now (MkTime 0 0) tr ∧ goes_back dist_monitor dist_shows tr = true.
Proof.
  destruct (go_check dist_monitor ex_dist ex_run (λ tr _, ascending_from (instant (MkTime 0 0)) (nows dist_monitor dist_now tr) && goes_back dist_monitor dist_shows tr))
    as (tr & c & E & P); [vm_compute; reflexivity|].
  apply andb_true_iff in P as [P1 P2]. exists tr, c. split; [exact E|]. split; [|exact P2]. apply clocked_check. exact P1.
Qed.
Theorem c80_dist_refuted : ¬ dist_stamps_ascend.
Proof.
  intros H. destruct c80_nonvacuous_dist as (tr & c & E & C & B). destruct (goes_back_sound _ _ _ B) as (t1 & r1 & t2 & c2 & r2 & a & b & P & R & S1 & S2 & L).
  pose proof (H _ _ _ tr c t1 r1 t2 c2 r2 a b E C P R S1 S2). lia.
Qed.
(** the same with Change *)
Definition win (off len : nat) : slice := MkSlice None (RBasic KString None) 1 off len.
Definition ex_list : alist := MkList TString (win 0 2) (MkTime 0 0).
Definition ex_list_run : list (cmd list_monitor) :=
  [Call (KChange (win 0 1) (MkTime 1 0) : m_call list_monitor); Call (KChange (win 1 1) (MkTime 2 0) : m_call list_monitor)] ++ replicate 4 (Do 1%nat) ++
  [Call (KGet : m_call list_monitor)] ++ replicate 4 (Do 2%nat) ++ replicate 4 (Do 0%nat) ++ [Call (KGet : m_call list_monitor)] ++ replicate 4 (Do 3%nat).
Example c80_nonvacuous_list : ∃ tr c, exec list_monitor (start list_monitor ex_list) tr c ∧ clocked list_monitor list_now (MkTime 0 0) tr ∧ goes_back list_monitor list_shows tr = true.
Proof.
  destruct (go_check list_monitor ex_list ex_list_run (λ tr _, ascending_from (instant (MkTime 0 0)) (nows list_monitor list_now tr) && goes_back list_monitor list_shows tr))
    as (tr & c & E & P); [vm_compute; reflexivity|].
  apply andb_true_iff in P as [P1 P2]. exists tr, c. split; [exact E|]. split; [|exact P2]. apply clocked_check. exact P1.
Qed.
Theorem c80_list_refuted : ¬ list_stamps_ascend.
Proof.
  intros H. destruct c80_nonvacuous_list as (tr & c & E & C & B). destruct (goes_back_sound _ _ _ B) as (t1 & r1 & t2 & c2 & r2 & a & b & P & R & S1 & S2 & L).
  pose proof (H ex_list tr c t1 r1 t2 c2 r2 a b E C P R S1 S2). lia.
Qed.

(** Two requests, one after the other, for a metric of a region; its update function runs at 100 and at 200. *)
Import RegionModel.
Definition ex_visits : list cmd :=
  [Spawn (rpc_singleton 7 0); Spawn (rpc_singleton 7 0);
   Local 0 0; Local 0 0; Send 0; Handle 7 0; Handle 7 100; Reply 0; Local 0 0; Local 0 0; Local 0 0; Local 0 0; Local 0 7; Send 0; Handle 7 0; Reply 0; Local 0 0;
   Local 1 0; Local 1 0; Send 1; Handle 7 0; Handle 7 200; Reply 1; Local 1 0].
Definition ex_labels : list label := Eval vm_compute in match PropRegion.runf (init_config PropRegion.ex_f PropRegion.ex_v) ex_visits with Some (tr, _) => tr | None => [] end.
Definition ex_time (l : label) : option gotime := match l with LUpdEnd 7 _ x => Some (MkTime x 0) | _ => None end.
Example c80_nonvacuous : (∃ c, exec (init_config PropRegion.ex_f PropRegion.ex_v) ex_labels c) ∧
  (∀ f x g y, precedes ex_labels (LUpdEnd 7 f x) (LUpdEnd 7 g y) → x ≤ y) ∧ precedes ex_labels (LVisit 0 7 100) (LVisit 1 7 200).
Proof.
  split; [apply (PropRegion.runf_labels _ ex_visits); vm_compute; reflexivity|]. split.
  - intros f x g y P. apply (precedes_omap ex_time _ _ _ (MkTime x 0) (MkTime y 0)) in P; [|done|done].
    apply (ascending_from_precedes _ 0) in P; [unfold instant in P; simpl in P; lia|reflexivity].
  - eapply (precedes_lookup _ 8 23); [reflexivity|reflexivity|lia].
Qed.
Print Assumptions c80_groups.
Print Assumptions c80_dist_partial.
Print Assumptions c80_list_partial.
Print Assumptions c80_dist_refuted.
Print Assumptions c80_list_refuted.
