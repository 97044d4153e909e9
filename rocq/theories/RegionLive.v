(** Progress, termination, registration of update functions, guarded reads, reported time stamps. *)
From stdpp Require Import gmap list.
From Coq Require Import ZArith Lia.
From Verif Require Import RegionModel RegionSpec RegionProofs RegionThms.
Local Open Scope Z_scope.

Section live.
Context (f0 : nat → nat) (v0 : nat → nat → Z).
Notation run := (exec (init_config f0 v0)).


Lemma handler_enabled tr c r : inv f0 v0 tr c → r_h (c_regs c r) ≠ HIdle → ∃ k, internal k ∧ enabled c k.
Proof.
  intros I H. pose proof (ri_peer _ _ _ _ _ (i_reg _ _ _ _ I r)) as Pe. destruct (r_h (c_regs c r)) eqn:Hh; [done|..];
  destruct Pe as (t & th & P & Pe & _).
  - exists (Handle r 0). split; [done|]. unfold enabled. simpl. unfold handlef. rewrite Hh. repeat case_decide; eauto.
  - exists (Handle r 0). split; [done|]. unfold enabled. simpl. unfold handlef. rewrite Hh. eauto.
  - exists (Reply t). split; [done|]. unfold enabled. simpl. rewrite P. unfold replyf. destruct Pe as [->|[todo ->]]; rewrite Hh; eauto.
  - exists (Handle r 0). split; [done|]. unfold enabled. simpl. unfold handlef. rewrite Hh. eauto.
  - exists (Reply t). split; [done|]. unfold enabled. simpl. rewrite P. unfold replyf. destruct Pe as [f ->]; rewrite Hh; eauto.
  - done.
Qed.
Lemma send_enabled tr c t th r : inv f0 v0 tr c → c_pool c !! t = Some th →
  (t_ctl th = CLockSend r ∨ (∃ todo, t_ctl th = CUnlockSend r todo) ∨ ∃ f, t_ctl th = CFuncSend r f) → ∃ k, internal k ∧ enabled c k.
Proof.
  intros I P C. destruct (r_h (c_regs c r)) eqn:Hh; try (by eapply handler_enabled; [done|rewrite Hh]).
  exists (Send t). split; [done|]. unfold enabled. simpl. rewrite P. unfold sendf. destruct C as [->|[[todo ->]|[f ->]]]; rewrite Hh; eauto.
Qed.
Lemma recv_enabled tr c t th r : inv f0 v0 tr c → c_pool c !! t = Some th → waits th = Some r → ∃ k, internal k ∧ enabled c k.
Proof.
  intros I P W. eapply (handler_enabled tr c r); [done|]. intros H. pose proof (ri_peer _ _ _ _ _ (i_reg _ _ _ _ I r)) as Pe. rewrite H in Pe. by eapply Pe.
Qed.
Lemma progress tr c t th : run tr c → c_pool c !! t = Some th → ¬ finished th → ∃ k, internal k ∧ enabled c k.
Proof.
  intros E P N. pose proof (exec_inv _ _ _ _ E) as I. pose proof (inv_shape _ _ _ _ I _ _ P) as Sh. destruct th as [p s k].
  unfold tshape in Sh; simpl in Sh. destruct k as [|r|r|r time|todo|r todo|r todo|r f|r f|r f].
  - exists (Local t 0). split; [done|]. unfold enabled. simpl. rewrite P. unfold localf.
    destruct p as [|[|r|r x| |r f|a ts|a|] p]; destruct s as [m|]; simpl in Sh; try done; eauto.
    + by destruct N.
    + destruct (m !! r); eauto.
  - eapply send_enabled; [done|done|simpl; eauto].
  - by eapply (recv_enabled _ _ _ _ r); [done|done|].
  - destruct Sh as [(m & -> & _) _]. exists (Local t 0). split; [done|]. unfold enabled. simpl. rewrite P. unfold localf. destruct p as [|[] p]; eauto.
  - destruct Sh as [(m & -> & _) _]. destruct (set_choose_or_empty todo) as [[r Hr]|Em].
    + exists (Local t r). split; [done|]. unfold enabled. simpl. rewrite P. unfold localf.
      destruct p as [|[] p]; (case_decide; [eauto|]); rewrite decide_True by done; eauto.
    + exists (Local t 0). split; [done|]. unfold enabled. simpl. rewrite P. unfold localf. apply leibniz_equiv in Em.
      destruct p as [|[] p]; rewrite decide_True by done; eauto.
  - eapply send_enabled; [done|done|simpl; eauto].
  - by eapply (recv_enabled _ _ _ _ r); [done|done|].
  - eapply send_enabled; [done|done|simpl; eauto].
  - by eapply (recv_enabled _ _ _ _ r); [done|done|].
  - exists (Local t 0). split; [done|]. unfold enabled. simpl. rewrite P. unfold localf. destruct p as [|[] p]; destruct s; eauto.
Qed.

(** a bound on the number of steps still to be made *)
Definition hweight (h : handler) : Z :=
  match h with HGot _ => 3 | HUpdating _ => 2 | HReply _ => 1 | HGotFunc _ => 2 | HReplyFunc => 1 | _ => 0 end.
Definition sz (m : option (gmap nat Z)) : Z := match m with Some m => Z.of_nat (size m) | None => 0 end.
Definition sset (s : gset nat) : Z := Z.of_nat (size s).
Definition weight (hs : nat → handler) (th : thread) : Z :=
  20 * Z.of_nat (length (t_prog th)) +
  match t_ctl th with
  | CReady => 9 * sz (t_sess th)
  | CLockSend r => 9 * sz (t_sess th) + 19
  | CLockRecv r => 9 * sz (t_sess th) + 14 + hweight (hs r)
  | CLockGot r _ => 9 * sz (t_sess th) + 13
  | CClosing todo => 9 * sset todo + 1
  | CUnlockSend r todo => 9 * sset todo + 9
  | CUnlockRecv r todo => 9 * sset todo + 3 + hweight (hs r)
  | CFuncSend r _ => 9 * sz (t_sess th) + 10
  | CFuncRecv r _ => 9 * sz (t_sess th) + 4 + hweight (hs r)
  | CFuncGot r _ => 9 * sz (t_sess th) + 3
  end.
Definition handlers (c : config) : nat → handler := λ r, r_h (c_regs c r).
Definition budget (c : config) : Z := zsum (weight (handlers c)) (c_pool c).
Lemma weight_nonneg hs th : 0 ≤ weight hs th.
Proof. unfold weight, sz, sset, hweight. destruct (t_ctl th); repeat case_match; lia. Qed.
Lemma budget_nonneg c : 0 ≤ budget c.
Proof. apply zsum_nonneg, weight_nonneg. Qed.
Lemma weight_ext hs hs' th : (∀ r, waits th = Some r → hweight (hs r) = hweight (hs' r)) → weight hs th = weight hs' th.
Proof. unfold waits, weight. destruct (t_ctl th); intros H; try done; by rewrite (H _ eq_refl). Qed.
Lemma budget_one c c' t th th' : c_pool c !! t = Some th → c_pool c' = <[t := th']> (c_pool c) →
  (∀ t' u, t' ≠ t → c_pool c !! t' = Some u → weight (handlers c) u = weight (handlers c') u) →
  weight (handlers c') th' < weight (handlers c) th → budget c' < budget c.
Proof. intros P E A L. unfold budget. rewrite E, (zsum_change _ _ _ _ _ th' P A). lia. Qed.
Lemma budget_step tr c l c' : inv f0 v0 tr c → view c l c' → is_spawn l = false →
  if is_write l then budget c' = budget c else budget c' < budget c.
Proof.
  intros I V NS. destruct V as [p B|t th l th' agg P L|t th r m th' h P St Hx|t th r h th' P St Hy|r l x' St].
  - done.
  - assert (is_write l = false) as -> by (by destruct L). eapply budget_one; [done|done|done|]. unfold handlers; simpl.
    unfold weight; destruct L; simpl; unfold sz, sset; simpl; try lia.
    + rewrite map_size_empty. lia.
    + pose proof (inv_shape _ _ _ _ I _ _ P) as [(m0 & [= <-] & N) _]. rewrite map_size_insert_None by done. lia.
    + rewrite size_dom. lia.
    + rewrite size_difference by (apply singleton_subseteq_l; done). rewrite size_singleton.
      assert (size todo ≠ 0%nat) by (apply size_non_empty_iff; set_solver). lia.
  - simpl. eapply (budget_one _ _ t th th'); [done|done| |].
    + intros t' u N E. apply weight_ext. intros r' W. unfold handlers, set_region, fupd; simpl. case_decide; [subst r'|done].
      exfalso. pose proof (ri_peer _ _ _ _ _ (i_reg _ _ _ _ I r)) as Pe. rewrite Hx in Pe. by eapply Pe.
    + unfold handlers, set_region; simpl. unfold weight. destruct St; simpl; rewrite fupd_same; simpl; lia.
  - simpl. eapply (budget_one _ _ t th th'); [done|done| |].
    + intros t' u N E. apply weight_ext. intros r' W. unfold handlers, set_region, fupd; simpl. case_decide; [subst r'|done].
      exfalso. pose proof (ri_peer _ _ _ _ _ (i_reg _ _ _ _ I r)) as Pe. rewrite Hy in Pe.
      assert (∃ t0, ∀ t' th', c_pool c !! t' = Some th' → waits th' = Some r → t' = t0) as [t0 Q].
      { clear Hy; destruct h; try (by inversion St); destruct Pe as (t0 & _ & _ & _ & _ & Q); by exists t0. }
      rewrite (Q _ _ E W) in N. rewrite (Q _ _ P) in N; [done|]. by destruct St.
    + unfold handlers, set_region; simpl. unfold weight. clear -Hy St. revert Hy. destruct St; intros Hy; simpl; rewrite ?Hy; simpl; try lia.
  - pose proof (ri_peer _ _ _ _ _ (i_reg _ _ _ _ I r)) as Pe.
    assert (∃ t th, c_pool c !! t = Some th ∧ waits th = Some r ∧ ∀ t' th', c_pool c !! t' = Some th' → waits th' = Some r → t' = t) as (t & th & P & W & Q).
    { destruct St as [x inc Hx C|x inc Hx C1 C2|x inc Hx C1 C2|x f time Hx|x f y v Hx|x f Hx]; rewrite Hx in Pe; destruct Pe as (t & th & P & Pe & _ & Q);
      exists t, th; (split; [done|]); (split; [by eapply peer_waits|done]). }
    destruct (is_write l) eqn:IW.
    + unfold budget. apply zsum_ext. intros t' u E. apply weight_ext. intros r' _. unfold handlers, set_region, fupd; simpl. case_decide; [subst r'|done].
      inversion St; subst; try done. simpl. match goal with H : r_h _ = _ |- _ => by rewrite H end.
    + eapply (budget_one _ _ t th th); [done|by rewrite list_insert_id| |].
      * intros t' u N E. apply weight_ext. intros r' W'. unfold handlers, set_region, fupd; simpl. case_decide; [subst r'|done]. exfalso. by apply N, (Q t' u).
      * unfold handlers, set_region; simpl. assert (hweight (r_h x') < hweight (r_h (c_regs c r))) as HW.
        { inversion St as [x inc Hx C|x inc Hx C1 C2|x inc Hx C1 C2|x f time Hx|x f y v Hx|x f Hx]; subst; rewrite Hx; simpl; try lia. done. }
        unfold weight, waits in *. destruct (t_ctl th); try done; injection W as ->; rewrite fupd_same; lia.
Qed.
Lemma bounded_steps tr1 c1 tr2 c2 : run tr1 c1 → exec c1 tr2 c2 → (∀ l, l ∈ tr2 → is_spawn l = false) →
  Z.of_nat (length (filter (λ l, is_write l = false) tr2)) + budget c2 ≤ budget c1.
Proof.
  intros R X NS. induction X as [|tr2 c2 k l c3 X IH St]; [simpl; lia|]. rewrite filter_app, app_length.
  specialize (IH (λ l' H, NS l' (proj2 (elem_of_app _ _ _) (or_introl H)))).
  pose proof (budget_step _ _ _ _ (exec_inv _ _ _ _ (exec_run _ _ _ _ _ _ R X)) (stepf_view _ _ _ _ St)) as B.
  specialize (B (NS l (proj2 (elem_of_app _ _ _) (or_intror (elem_of_list_here l []))))).
  destruct (is_write l) eqn:W; [rewrite filter_cons_False by congruence|rewrite filter_cons_True by done]; simpl; lia.
Qed.
Lemma all_finish tr c : run tr c → ∃ n, ∀ tr2 c2, exec c tr2 c2 → (∀ l, l ∈ tr2 → is_spawn l = false) →
  (length (filter (λ l, is_write l = false) tr2) ≤ n)%nat ∧
  ((∀ k, internal k → ¬ enabled c2 k) → ∀ t th, c_pool c2 !! t = Some th → finished th).
Proof.
  intros R. exists (Z.to_nat (budget c)). intros tr2 c2 X NS. split.
  - pose proof (bounded_steps _ _ _ _ R X NS). pose proof (budget_nonneg c2). pose proof (budget_nonneg c). lia.
  - intros D t th P. destruct th as [p s k].
    assert (finished (MkThread p s k) ∨ ¬ finished (MkThread p s k)) as [?|N]; [|done|].
    { unfold finished; simpl. destruct p; [|right; naive_solver]. destruct s; [right; naive_solver|]. destruct k; try (right; naive_solver). by left. }
    destruct (progress _ _ _ _ (exec_run _ _ _ _ _ _ R X) P N) as (k' & Ik & Ek). by destruct (D k' Ik).
Qed.

(** *** Registration of update functions *)
Definition allowed (tr0 : list label) (f r : nat) (tr : list label) (g : nat) : Prop :=
  g = f ∨ (∃ t, registering t r tr0 = Some g) ∨ ∃ t, LFuncCall t r g ∈ tr.
Lemma allowed_app tr0 f r tr tr' g : allowed tr0 f r tr g → allowed tr0 f r (tr ++ tr') g.
Proof. intros [?|[?|[t ?]]]; [by left|right; by left|right; right]. exists t. apply elem_of_app. by left. Qed.
Lemma registering_allowed tr0 t r f tr t' g : registering t' r ((tr0 ++ [LFuncCall t r f]) ++ tr) = Some g → allowed tr0 f r tr g.
Proof.
  induction tr as [|l tr IH] using rev_ind.
  - rewrite app_nil_r, registering_snoc. simpl. case_decide; [intros [= <-]; by left|]. right. left. eauto.
  - rewrite app_assoc, registering_snoc. intros H.
    assert (registering t' r ((tr0 ++ [LFuncCall t r f]) ++ tr) = Some g ∨ ∃ t, l = LFuncCall t r g) as [E|[t1 ->]].
    { destruct l; simpl in H; try (by left); case_decide as D; try (by left); try done. destruct D as [-> ->]. injection H as <-. right. eauto. }
    + by apply allowed_app, IH.
    + right. right. exists t1. apply elem_of_app. right. by constructor.
Qed.
Definition unapplied (t r f : nat) (c : config) : Prop :=
  ∃ th, c_pool c !! t = Some th ∧ (t_ctl th = CFuncSend r f ∨ (t_ctl th = CFuncRecv r f ∧ r_h (c_regs c r) = HGotFunc f)).
Lemma func_step tr0 t r f tr c l c' : run ((tr0 ++ [LFuncCall t r f]) ++ tr) c → view c l c' →
  (unapplied t r f c → unapplied t r f c' ∨ allowed tr0 f r tr (r_func (c_regs c' r))) ∧
  (allowed tr0 f r tr (r_func (c_regs c r)) → allowed tr0 f r tr (r_func (c_regs c' r))).
Proof.
  intros R V. pose proof (exec_inv _ _ _ _ R) as I.
  assert (∀ g, r_h (c_regs c r) = HGotFunc g → allowed tr0 f r tr g) as A.
  { intros g H. pose proof (ri_peer _ _ _ _ _ (i_reg _ _ _ _ I r)) as Pe. rewrite H in Pe. destruct Pe as (t1 & th1 & P1 & Ct & _).
    pose proof (ti_func _ _ _ _ (i_thr _ _ _ _ I _ _ P1) r) as F. unfold funcing in F. rewrite Ct, decide_True in F by done. by eapply registering_allowed. }
  assert ((r_func (c_regs c' r) = r_func (c_regs c r) ∧ (∀ g, r_h (c_regs c r) = HGotFunc g → r_h (c_regs c' r) = HGotFunc g)) ∨
    allowed tr0 f r tr (r_func (c_regs c' r))) as [[-> H]|?]; [| |by split; [right|]].
  { destruct V as [p B|t1 th1 l th' agg P1 L1|t1 th1 r1 m th' h P1 St Hx|t1 th1 r1 h th' P1 St Hx|r1 l x' St]; simpl; try (by left); unfold fupd;
      (destruct (decide (r = r1)) as [<-|N]; [|by left]); simpl.
    - left. by rewrite Hx.
    - left. rewrite Hx. split; [done|]. intros g ->. inversion St.
    - destruct St; simpl; try (left; split; [done|congruence]). right. by apply A. }
  split; [|done]. intros (th & P & Ct). left.
  destruct (step_thread c l c' t th V P) as [P'|[(th' & agg & L1 & P' & _)|[(r1 & m & th' & h & St & -> & P' & R' & Hi)|(r1 & h & th' & St & -> & P' & R' & Hi)]]].
  - exists th. split; [done|]. destruct Ct as [?|[? ?]]; auto.
  - exfalso. inversion L1; subst; simpl in Ct; destruct Ct as [?|[? ?]]; done.
  - exists th'. split; [done|]. right. inversion St; subst; simpl in Ct; destruct Ct as [E|[E ?]]; try done. injection E as -> ->. simpl.
    rewrite R', fupd_same. done.
  - exfalso. inversion St; subst; simpl in Ct; destruct Ct as [E|[E Q]]; try done. injection E as -> ->. congruence.
Qed.
Lemma func_exec tr0 t r f c0 tr c : run (tr0 ++ [LFuncCall t r f]) c0 → exec c0 tr c →
  (unapplied t r f c ∨ allowed tr0 f r tr (r_func (c_regs c r))) ∧ (∀ g, LFuncRet t r g ∈ tr → ∃ tr1 tr2, tr = tr1 ++ [LFuncRet t r g] ++ tr2 ∧ allowed tr0 f r tr (r_func (c_regs c r))).
Proof.
  intros R X. induction X as [|tr c1 k l c2 X IH St].
  - split; [|intros g Hg; by apply elem_of_nil in Hg]. left. apply exec_last in R as (c1 & k & E & St). apply stepf_view in St.
    inversion St as [|t1 th1 l1 th1' agg P1 L1| | |r1 l1 x' St1]; subst; [|by inversion St1]. inversion L1; subst. simpl.
    eexists. simpl. rewrite list_lookup_insert by (by eapply lookup_lt_Some). split; [done|]. by left.
  - destruct IH as [IH1 IH2]. pose proof (exec_run _ _ _ _ _ _ R X) as R1. pose proof (stepf_view _ _ _ _ St) as V.
    destruct (func_step _ _ _ _ _ _ _ _ R1 V) as [S1 S2]. split.
    + destruct IH1 as [U|A]; [destruct (S1 U); [by left|right; by apply allowed_app]|right; apply allowed_app; by apply S2].
    + intros g [Hg|<-%elem_of_list_singleton]%elem_of_app.
      * destruct (IH2 g Hg) as (tr1 & tr2 & -> & A). exists tr1, (tr2 ++ [l]). split; [by rewrite <- !app_assoc|]. apply allowed_app. by apply S2.
      * exists tr, []. split; [done|]. apply allowed_app. destruct IH1 as [(th & P & Ct)|A]; [exfalso|by apply S2].
        inversion V as [|t1 th1 l1 th1' agg P1 L1| | |r1 l1 x' St1]; subst; [|by inversion St1]. inversion L1; subst.
        rewrite P in P1. injection P1 as ->. simpl in Ct. destruct Ct as [?|[? ?]]; done.
Qed.
Lemma func_used tr0 t r f tr g c : run (tr0 ++ [LFuncCall t r f] ++ tr ++ [LUpdBegin r g]) c → (∃ f', LFuncRet t r f' ∈ tr) →
  g = f ∨ (∃ t', registering t' r tr0 = Some g) ∨ ∃ t', LFuncCall t' r g ∈ tr.
Proof.
  intros E [f' Hf]. rewrite app_assoc in E. apply exec_app in E as (c0 & R & X). apply exec_last in X as (c1 & k & X & St).
  destruct (func_exec _ _ _ _ _ _ _ R X) as [_ A]. destruct (A f' Hf) as (_ & _ & _ & Al). apply stepf_view in St.
  inversion St as [|t1 th1 l1 th1' agg P1 L1| | |r1 l1 x' St1]; subst; [by inversion L1|]. inversion St1; subst. exact Al.
Qed.
Lemma func_initial tr g r c : run (tr ++ [LUpdBegin r g]) c → g = f0 r ∨ ∃ t, LFuncCall t r g ∈ tr.
Proof.
  intros E. apply exec_last in E as (c1 & k & E & St). apply stepf_view in St.
  inversion St as [|t1 th1 l1 th1' agg P1 L1| | |r1 l1 x' St1]; subst; [by inversion L1|].
  assert (g = r_func (c_regs c1 r)) as -> by (by inversion St1; subst). clear -E.
  assert (A : (r_func (c_regs c1 r) = f0 r ∨ ∃ t, LFuncCall t r (r_func (c_regs c1 r)) ∈ tr) ∧ ∀ t g, registering t r tr = Some g → LFuncCall t r g ∈ tr); [|by apply A].
  induction E as [|tr c1 k l c2 E [IH1 IH2] St]; [split; [by left|done]|]. apply stepf_view in St.
  pose proof (exec_inv _ _ _ _ E) as I. split.
  - assert (r_func (c_regs c2 r) = r_func (c_regs c1 r) ∨ r_h (c_regs c1 r) = HGotFunc (r_func (c_regs c2 r))) as [-> |H].
    { destruct St as [p B|t1 th1 l th' agg P1 L1|t1 th1 r1 m th' h P1 St Hx|t1 th1 r1 h th' P1 St Hx|r1 l x' St]; simpl; try (by left); unfold fupd;
      (destruct (decide (r = r1)) as [<-|N]; [|by left]); simpl; try (by left). destruct St; simpl; try (by left). by right. }
    + destruct IH1 as [?|[t ?]]; [by left|right]. exists t. apply elem_of_app. by left.
    + pose proof (ri_peer _ _ _ _ _ (i_reg _ _ _ _ I r)) as Pe. rewrite H in Pe. destruct Pe as (t1 & th1 & P1 & Ct & _). simpl in Ct.
      pose proof (ti_func _ _ _ _ (i_thr _ _ _ _ I _ _ P1) r) as F. unfold funcing in F. rewrite Ct, decide_True in F by done.
      right. exists t1. apply elem_of_app. left. by apply IH2.
  - intros t g. rewrite registering_snoc. intros H.
    assert (registering t r tr = Some g ∨ l = LFuncCall t r g) as [E'| ->].
    { destruct l; simpl in H; try (by left); case_decide as D; try (by left); try done. destruct D as [-> ->]. injection H as <-. by right. }
    + apply elem_of_app. left. by apply IH2.
    + apply elem_of_app. right. by constructor.
Qed.
Lemma setfunc_quiet tr r f c c' k : run tr c → stepf c k = Some (LSetFunc r f, c') →
  c_pool c' = c_pool c ∧ ∀ r', r_lock (c_regs c' r') = r_lock (c_regs c r') ∧ r_time (c_regs c' r') = r_time (c_regs c r') ∧ r_vars (c_regs c' r') = r_vars (c_regs c r').
Proof.
  intros _ St. apply stepf_view in St. inversion St as [|t1 th1 l1 th1' agg P1 L1| | |r1 l1 x' St1]; subst; [by inversion L1|]. inversion St1; subst. simpl.
  split; [done|]. intros r'. unfold fupd. case_decide; by subst.
Qed.

(** *** Guarded reads, reported time stamps *)
Lemma guarded_read tr c t r x v p : run (tr ++ [LRead t r x v]) c → LSpawn t p ∈ tr → guarded ∅ p → ∃ time, holds t r tr = Some time.
Proof.
  intros E S G. apply exec_last in E as (c1 & k & E & St). pose proof (exec_inv _ _ _ _ E) as I. apply stepf_view in St.
  inversion St as [|t1 th1 l1 th1' agg P1 L1| | |r1 l1 x' St1]; subst; [|by inversion St1]. inversion L1; subst.
  pose proof (i_thr _ _ _ _ I _ _ P1) as TI. pose proof (ti_guard _ _ _ _ TI p S G) as [D _]. simpl in D. rewrite (ti_holds _ _ _ _ TI). unfold held. simpl.
  destruct m as [m|]; simpl in D; [|set_solver]. apply elem_of_dom in D as [time D]. simpl. eauto.
Qed.
Lemma report_region tr c t r a b : run tr c → (GRegion r, a) ∈ reported t tr → (GRegion r, b) ∈ reported t tr → a = b.
Proof.
  intros E A B. pose proof (exec_inv _ _ _ _ E) as I. destruct (c_pool c !! t) as [th|] eqn:P.
  - by eapply (ti_report _ _ _ _ (i_thr _ _ _ _ I _ _ P)).
  - destruct (i_fresh _ _ _ _ I t P) as (_ & R & _). rewrite R in A. by apply elem_of_nil in A.
Qed.
End live.
Lemma guarded_list_metric ms vis p : guarded (list_to_set (fst <$> ms) ∪ vis) p → guarded vis ((ms ≫= list_metric) ++ p).
Proof.
  revert vis. induction ms as [|[r x] ms IH]; intros vis G; simpl in *.
  - by rewrite (left_id_L ∅ (∪)) in G.
  - split; [set_solver|]. split; [set_solver|]. apply IH. by replace (list_to_set (fst <$> ms) ∪ ({[r]} ∪ ({[r]} ∪ ({[r]} ∪ vis)))) with ({[r]} ∪ list_to_set (fst <$> ms) ∪ vis : gset nat) by set_solver.
Qed.
Lemma guarded_listing ms : guarded ∅ (listing ms).
Proof. unfold listing. simpl. by apply guarded_list_metric. Qed.
Lemma bracketed_listing ms : bracketed false (listing ms) = true.
Proof. unfold listing. simpl. induction ms as [|[r x] ms IH]; simpl; done. Qed.
