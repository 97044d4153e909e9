(** Requests that wait for their clients: the groups they keep from being updated. *)
From stdpp Require Import gmap list.
From Coq Require Import ZArith Lia.
From Verif Require Import RegionModel RegionSpec RegionProofs RegionThms.
Local Open Scope Z_scope.
Section stall.
Variables (f0 : nat → nat) (v0 : nat → nat → Z).
Local Notation run := (exec (init_config f0 v0)).

(** *** Idle at some moment: what is read later is newer *)
Lemma idle_step tr c l c' r : inv f0 v0 tr c → view c l c' → r_lock (c_regs c r) = 0 → r_lock (c_regs c' r) = 0 ∨ ∃ f, l = LUpdBegin r f.
Proof.
  intros I V L.
  destruct V as [p B|t1 th1 l th' agg P1 L1|t1 th1 r1 m th' h P1 St Hx|t1 th1 r1 h th' P1 St Hx|r1 l x' St]; simpl; try (by left); unfold fupd;
    (destruct (decide (r = r1)) as [<-|N]; [|by left]); simpl; try (by left).
  inversion St; subst; simpl; eauto.
  - left. destruct (hgot_inc _ _ _ _ _ _ I H) as [-> | ->]; [lia|]. exfalso.
    pose proof (ri_peer _ _ _ _ _ (i_reg _ _ _ _ I r)) as Pe. rewrite H in Pe. destruct Pe as (t2 & th2 & P2 & [[? _]|[_ [todo C2]]] & _); [done|].
    pose proof (zsum_elem (cnt r (HGot (-1))) _ _ _ (cnt_nonneg _ _) P2) as Le. rewrite (cnt_unlockrecv _ _ _ _ C2) in Le. simpl in Le.
    pose proof (ri_lock _ _ _ _ _ (i_reg _ _ _ _ I r)) as LL. rewrite H in LL. lia.
  - exfalso. destruct (hgot_inc _ _ _ _ _ _ I H) as [-> | ->]; lia.
Qed.
Lemma idle_exec tr1 c1 tr2 c2 r : run tr1 c1 → exec c1 tr2 c2 → r_lock (c_regs c1 r) = 0 → r_lock (c_regs c2 r) = 0 ∨ ∃ f, LUpdBegin r f ∈ tr2.
Proof.
  intros R X Pr. induction X as [|tr2 c2 k l c3 X IH St]; [by left|]. destruct IH as [IH|[f Hf]]; [|right; exists f; apply elem_of_app; by left].
  destruct (idle_step _ _ _ _ r (exec_inv _ _ _ _ (exec_run _ _ _ _ _ _ R X)) (stepf_view _ _ _ _ St) IH) as [?|[f ->]]; [by left|].
  right. exists f. apply elem_of_app. right. by constructor.
Qed.
Lemma idle_lock tr c r : run tr c → (∀ t, engaged t r tr = false) → r_lock (c_regs c r) = 0.
Proof.
  intros E N. pose proof (exec_inv _ _ _ _ E) as I. rewrite (ri_lock _ _ _ _ _ (i_reg _ _ _ _ I r)). apply zsum_zero. intros t th P.
  by eapply engaged_cnt.
Qed.
Lemma since_idle tr1 tr2 t r time c : run (tr1 ++ tr2 ++ [LVisit t r time]) c → (∀ t', engaged t' r tr1 = false) → ∃ f, LUpdBegin r f ∈ tr2.
Proof.
  intros E N. apply exec_app in E as (c1 & E1 & E2). apply exec_last in E2 as (c2 & k & E2 & St).
  destruct (idle_exec _ _ _ _ r E1 E2 (idle_lock _ _ _ E1 N)) as [L|?]; [exfalso|done].
  pose proof (exec_inv _ _ _ _ (exec_run _ _ _ _ _ _ E1 E2)) as I. apply stepf_view in St.
  inversion St as [|t1 th1 l1 th1' agg P1 L1| | |r1 l1 x' St1]; subst; [|by inversion St1].
  pose proof (ri_lock _ _ _ _ _ (i_reg _ _ _ _ I r)) as LL.
  assert (cnt r (r_h (c_regs c2 r)) th1 = 1) as C.
  { inversion L1; subst; unfold cnt; simpl; [rewrite decide_True by eauto; done|by rewrite decide_True]. }
  pose proof (zsum_elem (cnt r (r_h (c_regs c2 r))) _ _ _ (cnt_nonneg _ _) P1) as Le. lia.
Qed.

(** *** Where programs write *)
Definition opened (th : thread) : bool :=
  match t_ctl th with CClosing _ | CUnlockSend _ _ | CUnlockRecv _ _ => false | _ => inopen th end.
Lemma emits_step c l c' t th : view c l c' → c_pool c !! t = Some th → emits_outside (opened th) (t_prog th) → tshape th →
  ∃ th', c_pool c' !! t = Some th' ∧ emits_outside (opened th') (t_prog th').
Proof.
  intros V P E Sh. destruct (step_thread c l c' t th V P) as [P'|[(th' & agg & L1 & P' & _)|[(r1 & m & th' & h & St & -> & P' & R' & Hi)|(r1 & h & th' & St & -> & P' & R' & Hi)]]].
  - eauto.
  - exists th'. split; [done|]. inversion L1; subst; unfold opened, inopen in *; simpl in *; try done; try (by destruct m). by destruct E.
  - exists th'. split; [done|]. inversion St; subst; unfold opened, inopen in *; simpl in *; done.
  - exists th'. split; [done|]. inversion St; subst; unfold opened, inopen in *; simpl in *; done.
Qed.
Lemma emits_run tr c t th : run tr c → (∀ t' p, LSpawn t' p ∈ tr → emits_outside false p) → c_pool c !! t = Some th → emits_outside (opened th) (t_prog th).
Proof.
  intros E. revert t th. induction E as [|tr c k l c' E IH St]; intros t th Sp P; [done|].
  assert (Sp' : ∀ t' p, LSpawn t' p ∈ tr → emits_outside false p) by (intros t' p Q; apply (Sp t'); apply elem_of_app; by left).
  pose proof (exec_inv _ _ _ _ E) as I. apply stepf_view in St. destruct (c_pool c !! t) as [th0|] eqn:P0.
  - destruct (emits_step _ _ _ _ _ St P0 (IH _ _ Sp' P0) (inv_shape _ _ _ _ I _ _ P0)) as (th' & P' & E'). congruence.
  - inversion St as [p B|t1 th1 l1 th1' agg P1 L1|t1 th1 r1 m th1' h P1 S1 Hx|t1 th1 r1 h th1' P1 S1 Hx|r1 l1 x' S1]; subst; simpl in P.
    + apply lookup_app_Some in P as [P|[_ P]]; [congruence|]. apply list_lookup_singleton_Some in P as [_ <-]. unfold opened, inopen. simpl.
      eapply Sp. apply elem_of_app. right. by constructor.
    + apply lookup_lt_Some in P. rewrite insert_length in P. apply lookup_lt_is_Some in P as [? ?]. congruence.
    + apply lookup_lt_Some in P. rewrite insert_length in P. apply lookup_lt_is_Some in P as [? ?]. congruence.
    + apply lookup_lt_Some in P. rewrite insert_length in P. apply lookup_lt_is_Some in P as [? ?]. congruence.
    + congruence.
Qed.
Lemma stalled_free tr c t th r : run tr c → (∀ t' p, LSpawn t' p ∈ tr → emits_outside false p) → c_pool c !! t = Some th → stalled th → engaged t r tr = false.
Proof.
  intros E Sp P (p & Pr & Ct). pose proof (emits_run _ _ _ _ E Sp P) as Em. rewrite Pr in Em. destruct Em as [Op _]. unfold opened in Op. rewrite Ct in Op.
  pose proof (exec_inv _ _ _ _ E) as I. destruct (engaged t r tr) eqn:En; [exfalso|done].
  apply (ti_engaged _ _ _ _ (i_thr _ _ _ _ I _ _ P)) in En as [(m & S & _)|En]; [unfold inopen in Op; by rewrite S in Op|]. unfold locking in En. by rewrite Ct in En.
Qed.
Lemma finished_free tr c t th r : run tr c → c_pool c !! t = Some th → finished th → engaged t r tr = false.
Proof.
  intros E P (_ & Se & Ct). pose proof (exec_inv _ _ _ _ E) as I. destruct (engaged t r tr) eqn:En; [exfalso|done].
  apply (ti_engaged _ _ _ _ (i_thr _ _ _ _ I _ _ P)) in En as [(m & S & _)|En]; [congruence|]. unfold locking in En. by rewrite Ct in En.
Qed.
Lemma absent_free tr c t r : run tr c → c_pool c !! t = None → engaged t r tr = false.
Proof. intros E P. apply (i_fresh _ _ _ _ (exec_inv _ _ _ _ E) t P). Qed.
(** *** A request that waits for its client inside its session *)
Lemma stall_step c l c' t th : view c l c' → c_pool c !! t = Some th → stalled th → l ≠ LEmit t → c_pool c' !! t = Some th ∧ l ≠ LClose t.
Proof.
  intros V P (p & Pr & Ct) NL. destruct (step_thread c l c' t th V P) as [P'|[(th' & agg & L1 & P' & _)|[(r1 & m & th' & h & St & -> & P' & R' & Hi)|(r1 & h & th' & St & -> & P' & R' & Hi)]]].
  - split; [done|]. intros Q. subst l.
    inversion V as [|t1 th1 l1 th1' agg P1 L1| | |r1 l1 x' S1]; subst; [|by inversion S1]. inversion L1; subst. rewrite P in P1. injection P1 as ->. done.
  - exfalso. inversion L1; subst; simpl in *; try done.
  - exfalso. inversion St; subst; simpl in *; done.
  - exfalso. inversion St; subst; simpl in *; done.
Qed.
Lemma stall_exec c tr2 c2 t th : exec c tr2 c2 → c_pool c !! t = Some th → stalled th → LEmit t ∉ tr2 → c_pool c2 !! t = Some th ∧ LClose t ∉ tr2.
Proof.
  intros X P S N. induction X as [|tr2 c2 k l c3 X IH St]; [split; [done|]; intros Q; by apply elem_of_nil in Q|].
  destruct IH as [P2 NC]; [intros Q; apply N; apply elem_of_app; by left|].
  destruct (stall_step _ _ _ _ _ (stepf_view _ _ _ _ St) P2 S) as [P3 Q3]; [intros ->; apply N; apply elem_of_app; right; by constructor|].
  split; [done|]. intros Q. apply elem_of_app in Q as [Q|Q]; [done|]. apply elem_of_list_singleton in Q. by destruct Q3.
Qed.
(** everybody else gets the same time stamp for the group as long as the client does not read *)
Lemma frozen tr c t th r time tr2 c2 t' time' : run tr c → c_pool c !! t = Some th → stalled th → holds t r tr = Some time →
  exec c tr2 c2 → LEmit t ∉ tr2 → LVisit t' r time' ∈ tr2 → time' = time.
Proof.
  intros E P S H X N V. apply elem_of_list_split in V as (tr3 & tr4 & ->).
  assert (X' : ∃ c3, exec c (tr3 ++ [LVisit t' r time']) c3).
  { change (LVisit t' r time' :: tr4) with ([LVisit t' r time'] ++ tr4) in X. rewrite (app_assoc tr3 [LVisit t' r time'] tr4) in X. apply exec_app in X as (c3 & X3 & _). eauto. }
  destruct X' as [c3 X3].
  assert (N3 : LEmit t ∉ tr3 ++ [LVisit t' r time']).
  { intros Q. apply N. apply elem_of_app in Q as [Q|Q]; apply elem_of_app; [by left|]. apply elem_of_list_singleton in Q. done. }
  destruct (stall_exec _ _ _ _ _ X3 P S N3) as [_ NC]. pose proof (exec_run _ _ _ _ _ _ E X3) as R.
  destruct (held_span _ _ _ _ _ _ _ _ R H NC) as [_ H'].
  destruct (decide (t' = t)) as [->|D].
  - rewrite app_assoc, holds_snoc in H'. simpl in H'. rewrite decide_True in H' by done. congruence.
  - eapply (overlap f0 v0 _ _ t' t r); [exact R| |exact H']. rewrite app_assoc, holds_snoc. simpl. by rewrite decide_True.
Qed.
End stall.
Lemma cut_bracketed n : ∀ b p, bracketed b p = true → bracketed b (cut n b p) = true.
Proof.
  induction n as [|n IH]; intros b p B; [destruct b; reflexivity|]. destruct p as [|a p]; [exact B|].
  destruct a; simpl in *; try (apply IH; exact B); apply andb_true_iff in B as [B1 B2]; apply andb_true_iff; (split; [exact B1|apply IH; exact B2]).
Qed.
Lemma bracketed_text_metric ms p : bracketed true ((ms ≫= text_metric) ++ p) = bracketed true p.
Proof. induction ms as [|[r x] ms IH]; simpl; done. Qed.
