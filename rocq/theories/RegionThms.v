(** Consequences of the invariant. *)
From stdpp Require Import gmap list.
From Coq Require Import ZArith Lia.
From Verif Require Import RegionModel RegionSpec RegionProofs.
Local Open Scope Z_scope.

Section thms.
Context (f0 : nat → nat) (v0 : nat → nat → Z).
Notation run := (exec (init_config f0 v0)).

Lemma inv_shape tr c : inv f0 v0 tr c → ∀ t th, c_pool c !! t = Some th → tshape th.
Proof. intros I t th P. by destruct (i_thr _ _ _ _ I t th P). Qed.
(** a holder is an existing goroutine with the region in its map *)
Lemma holds_inv tr c t r time : inv f0 v0 tr c → holds t r tr = Some time →
  ∃ th m, c_pool c !! t = Some th ∧ held th = Some m ∧ m !! r = Some time ∧ time = r_time (c_regs c r) ∧ 0 < r_lock (c_regs c r) ∧ ∀ f, r_h (c_regs c r) ≠ HUpdating f.
Proof.
  intros I H. destruct (c_pool c !! t) as [th|] eqn:P; [|destruct (i_fresh _ _ _ _ I t P) as [F _]; destruct (F r) as [E _]; congruence].
  pose proof (i_thr _ _ _ _ I t th P) as TI. rewrite (ti_holds _ _ _ _ TI) in H. destruct (held th) as [m|] eqn:Hm; [|done]. simpl in H.
  exists th, m. split; [done|]. split; [done|]. split; [done|]. split; [by eapply ti_time|].
  pose proof (i_reg _ _ _ _ I r) as RI. split.
  - rewrite (ri_lock _ _ _ _ _ RI). pose proof (zsum_elem (cnt r (r_h (c_regs c r))) _ _ _ (cnt_nonneg _ _) P) as Le.
    rewrite (held_cnt _ _ _ _ Hm ltac:(by eexists) (ti_shape _ _ _ _ TI)) in Le. lia.
  - intros f. eapply held_not_updating; [done|by eapply inv_shape|done|done|by eexists].
Qed.
Lemma holds_run tr c t r time : inv f0 v0 tr c → holds t r tr = Some time → last_run (v0 r) r tr time (r_vars (c_regs c r)).
Proof.
  intros I H. destruct (holds_inv _ _ _ _ _ I H) as (th & m & P & Hm & Em & -> & L & U).
  pose proof (ri_upd _ _ _ _ _ (i_reg _ _ _ _ I r)) as R. destruct (r_h (c_regs c r)) eqn:Hh; try (destruct R; [done|lia]).
  - by destruct (U f). - destruct R as [_ [R|R]]; [done|lia].
Qed.
Lemma no_update_while_held tr l c t r : run (tr ++ [l]) c → updates r l = true → holds t r tr = None.
Proof.
  intros E U. apply exec_last in E as (c1 & k & E & St). pose proof (exec_inv _ _ _ _ E) as I. apply stepf_view in St.
  destruct (holds t r tr) as [time|] eqn:H; [exfalso|done]. destruct (holds_inv _ _ _ _ _ I H) as (th & m & P & Hm & Em & _ & L & UU).
  inversion St as [p B Hl Hc|t1 th1 l1 th1' agg P1 L1 Hl Hc|t1 th1 r1 m1 th1' h P1 St1 Hx Hl Hc|t1 th1 r1 h th1' P1 St1 Hx Hl Hc|r1 l1 x' St1 Hl Hc]; subst; try done.
  - by destruct L1.
  - assert (r1 = r) as -> by (destruct St1; simpl in U; try done; by apply bool_decide_eq_true in U).
    inversion St1; subst; simpl in U; try done; try lia; by eapply UU.
Qed.
Lemma held_span tr1 tr2 c t r time : run (tr1 ++ tr2) c → holds t r tr1 = Some time → LClose t ∉ tr2 →
  (∀ l, l ∈ tr2 → updates r l = false) ∧ holds t r (tr1 ++ tr2) = Some time.
Proof.
  revert c. induction tr2 as [|l tr2 IH] using rev_ind; intros c E H N.
  - rewrite app_nil_r. split; [|done]. intros l Hl. by apply elem_of_nil in Hl.
  - rewrite app_assoc in E. pose proof E as E'. apply exec_last in E as (c1 & k & E & St).
    destruct (IH c1 E H) as [A B]; [intros Q; apply N, elem_of_app; by left|].
    assert (updates r l = false) as U.
    { destruct (updates r l) eqn:U; [|done]. pose proof (no_update_while_held _ _ _ t r E' U). congruence. }
    split.
    + intros l' [?|?%elem_of_list_singleton]%elem_of_app; [by apply A|by subst].
    + rewrite app_assoc. pose proof (exec_inv _ _ _ _ E) as I1. pose proof (exec_inv _ _ _ _ E') as I2.
      assert (is_Some (holds t r ((tr1 ++ tr2) ++ [l]))) as [time' H'].
      { rewrite holds_snoc, B. destruct l; simpl; eauto; case_decide; eauto. subst. destruct N. apply elem_of_app. right. by constructor. }
      rewrite H'. f_equal. destruct (holds_inv _ _ _ _ _ I1 B) as (_ & _ & _ & _ & _ & -> & _). destruct (holds_inv _ _ _ _ _ I2 H') as (_ & _ & _ & _ & _ & -> & _).
      apply stepf_view in St. inversion St as [| | | |r1 l1 x' St1]; subst; simpl; try done; unfold fupd; case_decide; subst; try done.
      destruct St1; simpl in *; try done. by rewrite bool_decide_true in U.
Qed.
Lemma read_value tr c t r x v : run (tr ++ [LRead t r x v]) c → v = written (v0 r) r tr x.
Proof.
  intros E. apply exec_last in E as (c1 & k & E & St). pose proof (exec_inv _ _ _ _ E) as I. apply stepf_view in St.
  inversion St as [|t1 th1 l1 th1' agg P1 L1| | |r1 l1 x' St1]; subst; [|by inversion St1]. inversion L1; subst. by apply (ri_vars _ _ _ _ _ (i_reg _ _ _ _ I r)).
Qed.
Lemma read_held tr c t r x v time : run (tr ++ [LRead t r x v]) c → holds t r tr = Some time →
  ∃ vals, last_run (v0 r) r tr time vals ∧ v = vals x.
Proof.
  intros E H. pose proof (read_value _ _ _ _ _ _ E) as ->. apply exec_last in E as (c1 & k & E & St). pose proof (exec_inv _ _ _ _ E) as I.
  eexists. split; [by eapply holds_run|]. symmetry. apply (ri_vars _ _ _ _ _ (i_reg _ _ _ _ I r)).
Qed.
Lemma visit_time tr c t r time : run (tr ++ [LVisit t r time]) c → ∃ vals, last_run (v0 r) r tr time vals.
Proof.
  intros E. pose proof (exec_inv _ _ _ _ E) as I. assert (holds t r (tr ++ [LVisit t r time]) = Some time) as H.
  { rewrite holds_snoc. simpl. by rewrite decide_True. }
  pose proof (holds_run _ _ _ _ _ I H) as (tr1 & f & tr2 & tr3 & Eq & A & B & C & D).
  destruct tr3 as [|l tr3 _] using rev_ind.
  - rewrite !app_nil_r in Eq. assert (tr ++ [LVisit t r time] = (tr1 ++ [LUpdBegin r f] ++ tr2) ++ [LUpdEnd r f time]) as Eq' by (by rewrite <- !app_assoc).
    by apply app_inj_tail in Eq' as [_ ?].
  - assert (tr ++ [LVisit t r time] = (tr1 ++ [LUpdBegin r f] ++ tr2 ++ [LUpdEnd r f time] ++ tr3) ++ [l]) as Eq' by (rewrite Eq; by rewrite <- !app_assoc).
    apply app_inj_tail in Eq' as [-> _]. eexists. exists tr1, f, tr2, tr3. split; [done|]. split; [done|]. split; [done|].
    split; [intros l' Hl'; apply C, elem_of_app; by left|]. intros x. done.
Qed.
Lemma overlap tr c t1 t2 r a b : run tr c → holds t1 r tr = Some a → holds t2 r tr = Some b → a = b.
Proof.
  intros E H1 H2. pose proof (exec_inv _ _ _ _ E) as I. destruct (holds_inv _ _ _ _ _ I H1) as (_ & _ & _ & _ & _ & -> & _).
  by destruct (holds_inv _ _ _ _ _ I H2) as (_ & _ & _ & _ & _ & -> & _).
Qed.
(** an update only starts because of a visit in progress *)
Lemma begin_visitor tr c r f : run (tr ++ [LUpdBegin r f]) c → ∃ t, engaged t r tr = true ∧ holds t r tr = None ∧ last_sender r tr = Some t.
Proof.
  intros E. pose proof E as E'. apply exec_last in E as (c1 & k & E & St). pose proof (exec_inv _ _ _ _ E) as I. apply stepf_view in St.
  inversion St as [|t1 th1 l1 th1' agg P1 L1| | |r1 l1 x' St1]; subst; [by inversion L1|]. inversion St1 as [|x inc Hx C1 C2| | | |]; subst.
  pose proof (ri_peer _ _ _ _ _ (i_reg _ _ _ _ I r)) as Pe. rewrite Hx in Pe. destruct Pe as (t & th & P & Pe & LS & _).
  assert (t_ctl th = CLockRecv r) as Ct by (destruct Pe as [[_ ?]|[-> _]]; [done|lia]).
  exists t. pose proof (i_thr _ _ _ _ I t th P) as TI. split; [apply (ti_engaged _ _ _ _ TI); right; unfold locking; by rewrite Ct|].
  split; [|done]. eapply no_update_while_held; [exact E'|]. simpl. by rewrite bool_decide_true.
Qed.

(** a visit of a region nobody is engaged with *)
Lemma engaged_cnt tr c t th r h : inv f0 v0 tr c → c_pool c !! t = Some th → engaged t r tr = false → cnt r h th = 0 ∧ locking th ≠ Some r ∧ ∀ todo, t_ctl th ≠ CUnlockRecv r todo.
Proof.
  intros I P H. pose proof (i_thr _ _ _ _ I t th P) as TI. pose proof (ti_shape _ _ _ _ TI) as Sh.
  assert (N : ∀ m, t_sess th = Some m → m !! r = None).
  { intros m E. destruct (m !! r) eqn:Em; [|done]. assert (engaged t r tr = true); [|congruence]. apply (ti_engaged _ _ _ _ TI). left. eauto. }
  assert (N2 : locking th ≠ Some r).
  { intros E. assert (engaged t r tr = true); [|congruence]. apply (ti_engaged _ _ _ _ TI). by right. }
  assert (inmap r (t_sess th) = 0) as Z.
  { unfold inmap. destruct (t_sess th) as [m|] eqn:Em; [|done]. rewrite (N m eq_refl). rewrite decide_False; [done|]. by intros [? ?]. }
  assert (∀ m (s : gset nat), t_sess th = Some m → s ⊆ dom m → inset r s = 0) as Z2.
  { intros m s E S. unfold inset. rewrite decide_False; [done|]. intros Q. apply S, elem_of_dom in Q. rewrite (N m E) in Q. by destruct Q. }
  assert (∀ m, t_sess th = Some m → r ∉ dom m) as Z3 by (intros m E; apply not_elem_of_dom; by apply N).
  split; [|split; [done|]].
  - unfold cnt, tshape, locking in *. destruct (t_ctl th) as [|r1|r1|r1 time1|todo|r1 todo|r1 todo|r1 f|r1 f|r1 f]; try done.
    + rewrite decide_False by congruence. done. + rewrite decide_False by congruence. done.
    + destruct Sh as [(m & E & S) _]. by eapply Z2.
    + destruct Sh as [(m & E & S & D & _) _]. rewrite decide_False; [by eapply Z2|]. intros ->. by eapply Z3.
    + destruct Sh as [(m & E & S & D & _) _]. rewrite decide_False; [by eapply Z2|]. intros ->. by eapply Z3.
  - intros todo E. unfold tshape in Sh. rewrite E in Sh. destruct Sh as [(m & Em & S & D & _) _]. by eapply Z3.
Qed.
(** what one step can do to the lock count of a region *)
Lemma step_lock c l c' r : view c l c' → r_lock (c_regs c' r) = r_lock (c_regs c r) ∨ ∃ inc, r_h (c_regs c r) = HGot inc ∧ r_lock (c_regs c' r) = r_lock (c_regs c r) + inc.
Proof.
  intros V. destruct V as [p B|t th l th' agg P L|t th r1 m th' h P St Hx|t th r1 h th' P St Hx|r1 l x' St]; simpl; try (by left);
  unfold fupd; case_decide; subst; try (by left). destruct St; simpl; try (by left); right; eauto.
Qed.
Lemma step_handler c l c' r : view c l c' → r_h (c_regs c' r) = r_h (c_regs c r) ∨ (∃ t m, l = LSend t r m) ∨ (∃ t, l = LReply t r) ∨ (∃ x', hstep r (c_regs c r) l x' ∧ c_regs c' r = x' ∧ c_pool c' = c_pool c).
Proof.
  intros V. destruct V as [p B|t th l th' agg P L|t th r1 m th' h P St Hx|t th r1 h th' P St Hx|r1 l x' St]; simpl; try (by left);
  unfold fupd; case_decide; subst; try (by left).
  - right. left. eauto. - right. right. left. eauto. - right. right. right. eauto.
Qed.
(** a goroutine's state only changes by its own steps *)
Lemma step_thread c l c' t th : view c l c' → c_pool c !! t = Some th → c_pool c' !! t = Some th ∨
  (∃ th' agg, lstep t c th l th' agg ∧ c_pool c' !! t = Some th' ∧ c_regs c' = c_regs c) ∨
  (∃ r m th' h, sstep t th r m th' h ∧ l = LSend t r m ∧ c_pool c' !! t = Some th' ∧ c_regs c' = fupd r (set_h h (c_regs c r)) (c_regs c) ∧ r_h (c_regs c r) = HIdle) ∨
  (∃ r h th', rstep th r h th' ∧ l = LReply t r ∧ c_pool c' !! t = Some th' ∧ c_regs c' = fupd r (set_h HIdle (c_regs c r)) (c_regs c) ∧ r_h (c_regs c r) = h).
Proof.
  intros V P. destruct V as [p B|t1 th1 l th' agg P1 L|t1 th1 r1 m th' h P1 St Hx|t1 th1 r1 h th' P1 St Hx|r1 l x' St]; simpl.
  - left. by apply lookup_app_l_Some.
  - destruct (decide (t1 = t)) as [->|N]; [|left; by rewrite list_lookup_insert_ne]. rewrite P in P1. injection P1 as <-. right. left.
    exists th', agg. rewrite list_lookup_insert by (by eapply lookup_lt_Some). done.
  - destruct (decide (t1 = t)) as [->|N]; [|left; by rewrite list_lookup_insert_ne]. rewrite P in P1. injection P1 as <-. right. right. left.
    exists r1, m, th', h. rewrite list_lookup_insert by (by eapply lookup_lt_Some). done.
  - destruct (decide (t1 = t)) as [->|N]; [|left; by rewrite list_lookup_insert_ne]. rewrite P in P1. injection P1 as <-. right. right. right.
    exists r1, h, th'. rewrite list_lookup_insert by (by eapply lookup_lt_Some). done.
  - by left.
Qed.

(** *** A visit of a region that nobody is engaged with *)
Definition pre (t r : nat) (c : config) : Prop :=
  r_lock (c_regs c r) = 0 ∧ ∃ th, c_pool c !! t = Some th ∧ (t_ctl th = CLockSend r ∨ (t_ctl th = CLockRecv r ∧ r_h (c_regs c r) = HGot 1)).
Lemma hgot_inc tr c r inc : inv f0 v0 tr c → r_h (c_regs c r) = HGot inc → inc = 1 ∨ inc = -1.
Proof.
  intros I H. pose proof (ri_peer _ _ _ _ _ (i_reg _ _ _ _ I r)) as Pe. rewrite H in Pe. destruct Pe as (t & th & _ & [[-> _]|[-> _]] & _); auto.
Qed.
Lemma pre_step tr c l c' t r : inv f0 v0 tr c → view c l c' → pre t r c → pre t r c' ∨ ∃ f, l = LUpdBegin r f.
Proof.
  intros I V (L & th & P & Ct).
  assert ((∃ f, l = LUpdBegin r f) ∨ (r_lock (c_regs c' r) = 0 ∧ (r_h (c_regs c r) = HGot 1 → r_h (c_regs c' r) = HGot 1))) as [?|[L' H']]; [|by right|left].
  { destruct V as [p B|t1 th1 l th' agg P1 L1|t1 th1 r1 m th' h P1 St Hx|t1 th1 r1 h th' P1 St Hx|r1 l x' St]; simpl; try (by right); unfold fupd;
      (destruct (decide (r = r1)) as [<-|N]; [|by right]); simpl.
    - right. rewrite Hx. done.
    - right. rewrite Hx. split; [done|]. intros ->. inversion St.
    - inversion St; subst; simpl; eauto; try (right; split; [done|congruence]).
      + right. destruct (hgot_inc _ _ _ _ I H) as [-> | ->]; [lia|]. exfalso.
        pose proof (ri_peer _ _ _ _ _ (i_reg _ _ _ _ I r)) as Pe. rewrite H in Pe. destruct Pe as (t2 & th2 & P2 & [[? _]|[_ [todo C2]]] & _); [done|].
        pose proof (zsum_elem (cnt r (HGot (-1))) _ _ _ (cnt_nonneg _ _) P2) as Le. rewrite (cnt_unlockrecv _ _ _ _ C2) in Le. simpl in Le.
        pose proof (ri_lock _ _ _ _ _ (i_reg _ _ _ _ I r)) as LL. rewrite H in LL. lia.
      + exfalso. destruct (hgot_inc _ _ _ _ I H) as [-> | ->]; lia. }
  split; [done|].
  destruct (step_thread c l c' t th V P) as [P'|[(th' & agg & L1 & P' & _)|[(r1 & m & th' & h & St & -> & P' & R' & Hi)|(r1 & h & th' & St & -> & P' & R' & Hi)]]].
  - exists th. split; [done|]. destruct Ct as [?|[? ?]]; auto.
  - exfalso. inversion L1; subst; simpl in Ct; destruct Ct as [?|[? ?]]; done.
  - exists th'. split; [done|]. right. inversion St; subst; simpl in Ct; destruct Ct as [E|[E ?]]; try done. injection E as ->. simpl.
    rewrite R', fupd_same. done.
  - exfalso. inversion St; subst; simpl in Ct; destruct Ct as [E|[E Q]]; try done. injection E as ->. congruence.
Qed.
Lemma pre_start tr c t r : run (tr ++ [LVisitCall t r]) c → (∀ t', engaged t' r tr = false) → pre t r c.
Proof.
  intros E N. apply exec_last in E as (c1 & k & E & St). pose proof (exec_inv _ _ _ _ E) as I. apply stepf_view in St.
  inversion St as [|t1 th1 l1 th1' agg P1 L1| | |r1 l1 x' St1]; subst; [|by inversion St1]. inversion L1; subst. split; simpl.
  - rewrite (ri_lock _ _ _ _ _ (i_reg _ _ _ _ I r)). apply zsum_zero. intros t' th' P'. by eapply engaged_cnt.
  - eexists. rewrite list_lookup_insert by (by eapply lookup_lt_Some). split; [done|]. by left.
Qed.
Lemma exec_run tr1 c1 tr2 c2 : run tr1 c1 → exec c1 tr2 c2 → run (tr1 ++ tr2) c2.
Proof. intros. apply exec_app. eauto. Qed.
Lemma pre_exec tr1 c1 tr2 c2 t r : run tr1 c1 → exec c1 tr2 c2 → pre t r c1 → pre t r c2 ∨ ∃ f, LUpdBegin r f ∈ tr2.
Proof.
  intros R X Pr. induction X as [|tr2 c2 k l c3 X IH St]; [by left|]. destruct IH as [IH|[f Hf]]; [|right; exists f; apply elem_of_app; by left].
  destruct (pre_step _ _ _ _ t r (exec_inv _ _ _ _ (exec_run _ _ _ _ R X)) (stepf_view _ _ _ _ St) IH) as [?|[f ->]]; [by left|].
  right. exists f. apply elem_of_app. right. by constructor.
Qed.
Lemma fresh_update tr1 t r tr2 time c : run (tr1 ++ [LVisitCall t r] ++ tr2 ++ [LVisit t r time]) c → (∀ t', engaged t' r tr1 = false) →
  ∃ f, LUpdBegin r f ∈ tr2.
Proof.
  intros E N. rewrite app_assoc in E. apply exec_app in E as (c1 & E1 & E2). pose proof (pre_start _ _ _ _ E1 N) as Pr.
  apply exec_last in E2 as (c2 & k & E2 & St). destruct (pre_exec _ _ _ _ _ _ E1 E2 Pr) as [(_ & th & P & Ct)|?]; [|done].
  exfalso. apply stepf_view in St. inversion St as [|t1 th1 l1 th1' agg P1 L1| | |r1 l1 x' St1]; subst; [|by inversion St1].
  inversion L1; subst; rewrite P in P1; injection P1 as ->; simpl in Ct; destruct Ct as [?|[? ?]]; done.
Qed.
(** ... and nobody else starts to visit it meanwhile: exactly one update *)
Definition post (t r : nat) (c : config) : Prop :=
  ∃ th, c_pool c !! t = Some th ∧ ((t_ctl th = CLockRecv r ∧ got (r_h (c_regs c r)) = false) ∨ ∃ time, t_ctl th = CLockGot r time).
Definition sole (t r : nat) (tr : list label) : Prop := ∀ t', t' ≠ t → engaged t' r tr = false.
Lemma post_no_begin tr c t r l c' : inv f0 v0 tr c → view c l c' → sole t r tr → post t r c → begins_update r l = false.
Proof.
  intros I V S (th & P & Ct). destruct (begins_update r l) eqn:B; [exfalso|done]. destruct l; try done. simpl in B. apply bool_decide_eq_true in B as ->.
  inversion V as [|t1 th1 l1 th1' agg P1 L1| | |r1 l1 x' St1]; subst; [by inversion L1|]. inversion St1 as [|x inc Hx C1 C2| | | |]; subst.
  pose proof (ri_peer _ _ _ _ _ (i_reg _ _ _ _ I r)) as Pe. rewrite Hx in Pe. destruct Pe as (t2 & th2 & P2 & Pe & _).
  destruct (decide (t2 = t)) as [->|N].
  - rewrite P in P2. injection P2 as <-. destruct Ct as [[_ G]|[time Ct]]; [by rewrite Hx in G|]. destruct Pe as [[_ E]|[_ [todo E]]]; congruence.
  - destruct (engaged_cnt _ _ _ _ r HIdle I P2 (S _ N)) as (_ & K1 & K2). destruct Pe as [[_ E]|[_ [todo E]]]; [|by eapply K2].
    apply K1. unfold locking. by rewrite E.
Qed.
Lemma post_step tr c t r l c' : inv f0 v0 tr c → view c l c' → sole t r tr → post t r c → (∀ time, l ≠ LVisit t r time) → post t r c'.
Proof.
  intros I V S (th & P & Ct) NV.
  assert (t_ctl th = CLockRecv r → got (r_h (c_regs c r)) = false → r_h (c_regs c' r) ≠ r_h (c_regs c r) → got (r_h (c_regs c' r)) = false ∨ l = LReply t r) as G.
  { intros C1 G1 D. destruct V as [p B|t1 th1 l th' agg P1 L1|t1 th1 r1 m th' h P1 St Hx|t1 th1 r1 h th' P1 St Hx|r1 l x' St]; simpl in *; try done;
    unfold fupd in *; (destruct (decide (r = r1)) as [<-|N]; [|done]); simpl in *.
    - exfalso. pose proof (ri_peer _ _ _ _ _ (i_reg _ _ _ _ I r)) as Pe. rewrite Hx in Pe. eapply Pe; [exact P|]. unfold waits. by rewrite C1.
    - by left.
    - left. inversion St; subst; simpl in *; done. }
  destruct (step_thread c l c' t th V P) as [P'|[(th' & agg & L1 & P' & _)|[(r1 & m & th' & h & St & -> & P' & R' & Hi)|(r1 & h & th' & St & -> & P' & R' & Hi)]]].
  - exists th. split; [done|]. destruct Ct as [[C1 G1]|?]; [left|by right]. split; [done|].
    destruct (got (r_h (c_regs c' r))) eqn:D; [|done].
    destruct (G C1 G1) as [?|Hl]; [congruence|congruence|]. exfalso. rewrite Hl in V.
    inversion V as [|t2 th2 l2 th2' agg P2 L2| |t2 th2 r2 h2 th2' P2 St2 Hx2|r2 l2 x2 St2]; subst; [inversion L2| |inversion St2].
    rewrite P in P2. injection P2 as <-. simpl in P'. rewrite list_lookup_insert in P' by (by eapply lookup_lt_Some). injection P' as ->. inversion St2; subst; done.
  - exfalso. inversion L1; subst; simpl in Ct; destruct Ct as [[E _]|[time' E]]; try done. injection E as -> ->. by eapply NV.
  - exfalso. inversion St; subst; simpl in Ct; destruct Ct as [[E _]|[time' E]]; done.
  - exists th'. split; [done|]. right. inversion St; subst; simpl in Ct; destruct Ct as [[E _]|[time' E]]; try done. injection E as ->. eauto.
Qed.
Lemma pre_begin tr c t r f c' : inv f0 v0 tr c → view c (LUpdBegin r f) c' → sole t r tr → post t r c'.
Proof.
  intros I V S. inversion V as [|t1 th1 l1 th1' agg P1 L1| | |r1 l1 x' St1]; subst; [by inversion L1|]. inversion St1 as [|x inc Hx C1 C2| | | |]; subst.
  pose proof (ri_peer _ _ _ _ _ (i_reg _ _ _ _ I r)) as Pe. rewrite Hx in Pe. destruct Pe as (t2 & th2 & P2 & Pe & _).
  assert (t_ctl th2 = CLockRecv r) as Ct by (destruct Pe as [[_ ?]|[-> _]]; [done|lia]).
  destruct (decide (t2 = t)) as [->|N].
  - exists th2. split; [done|]. left. split; [done|]. simpl. by rewrite fupd_same.
  - exfalso. destruct (engaged_cnt _ _ _ _ r HIdle I P2 (S _ N)) as (_ & K1 & _). apply K1. unfold locking. by rewrite Ct.
Qed.
Lemma engaged_no_call t r tr1 tr2 : engaged t r tr1 = false → LVisitCall t r ∉ tr2 → engaged t r (tr1 ++ tr2) = false.
Proof.
  induction tr2 as [|l tr2 IH] using rev_ind; intros E N; [by rewrite app_nil_r|]. rewrite app_assoc, engaged_snoc, IH;
    [|done|intros Q; apply N, elem_of_app; by left].
  destruct l; simpl; try done; case_decide as D; try done. destruct D as [-> ->]. destruct N. apply elem_of_app. right. by constructor.
Qed.
Lemma one_update tr1 t r tr2 time c : run (tr1 ++ [LVisitCall t r] ++ tr2 ++ [LVisit t r time]) c → (∀ t', engaged t' r tr1 = false) →
  (∀ t', t' ≠ t → LVisitCall t' r ∉ tr2) → (∀ time', LVisit t r time' ∉ tr2) → length (filter (λ l, begins_update r l = true) tr2) = 1%nat.
Proof.
  intros E N NC NV. rewrite app_assoc in E. apply exec_app in E as (c1 & E1 & E2). pose proof (pre_start _ _ _ _ E1 N) as Pr.
  apply exec_last in E2 as (c2 & k & E2 & St).
  assert (sole t r (tr1 ++ [LVisitCall t r])) as S1.
  { intros t' D. rewrite engaged_snoc. simpl. rewrite decide_False by naive_solver. apply N. }
  assert ((length (filter (λ l, begins_update r l = true) tr2) = 0%nat ∧ pre t r c2) ∨ (length (filter (λ l, begins_update r l = true) tr2) = 1%nat ∧ post t r c2)) as [[_ (_ & th & P & Ct)]|[? _]]; [| |done].
  - clear St. induction E2 as [|tr2 c2 k2 l c3 X IH St]; [by left|].
    assert (sole t r ((tr1 ++ [LVisitCall t r]) ++ tr2)) as S2.
    { intros t' D. apply engaged_no_call; [by apply S1|]. intros Q. eapply NC; [exact D|]. apply elem_of_app. by left. }
    pose proof (exec_inv _ _ _ _ (exec_run _ _ _ _ E1 X)) as I. apply stepf_view in St.
    assert (∀ time', l ≠ LVisit t r time') as NL by (intros time' ->; eapply NV; apply elem_of_app; right; by constructor).
    rewrite filter_app, app_length. destruct IH as [[C0 Pre]|[C1 Po]].
    + intros t' D Q. eapply NC; [exact D|]. apply elem_of_app. by left.
    + intros time' Q. eapply NV. apply elem_of_app. by left.
    + rewrite C0. destruct (pre_step _ _ _ _ t r I St Pre) as [Pre'|[f ->]].
      * destruct (begins_update r l) eqn:B.
        -- right. destruct l; try done. pose proof B as B'. simpl in B'. apply bool_decide_eq_true in B' as ->. rewrite filter_cons_True by done. split; [done|by eapply pre_begin].
        -- left. rewrite filter_cons_False by congruence. done.
      * right. rewrite filter_cons_True by (simpl; by rewrite bool_decide_true). split; [done|by eapply pre_begin].
    + right. rewrite C1. rewrite filter_cons_False by (rewrite (post_no_begin _ _ _ _ _ _ I St S2 Po); done). split; [done|]. by eapply post_step.
  - exfalso. apply stepf_view in St. inversion St as [|t1 th1 l1 th1' agg P1 L1| | |r1 l1 x' St1]; subst; [|by inversion St1].
    inversion L1; subst; rewrite P in P1; injection P1 as ->; simpl in Ct; destruct Ct as [?|[? ?]]; done.
Qed.

(** *** Replies, lock counts *)
Lemma own_reply tr c t r : run (tr ++ [LReply t r]) c → last_sender r tr = Some t.
Proof.
  intros E. apply exec_last in E as (c1 & k & E & St). pose proof (exec_inv _ _ _ _ E) as I. apply stepf_view in St. by eapply inv_step.
Qed.
Lemma never_dies tr c r : run tr c → LDie r ∉ tr ∧ r_h (c_regs c r) ≠ HDead.
Proof.
  intros E. split; [|intros H; pose proof (ri_peer _ _ _ _ _ (i_reg _ _ _ _ (exec_inv _ _ _ _ E) r)) as Pe; rewrite H in Pe; by destruct Pe as (? & ? & _ & ? & _)].
  induction E as [|tr c1 k l c2 E IH St]; [apply not_elem_of_nil|]. intros [?|?%elem_of_list_singleton]%elem_of_app; [done|]. subst.
  apply stepf_view in St. by eapply (inv_step _ _ _ _ _ _ (exec_inv _ _ _ _ E) St).
Qed.
Lemma locked_snoc t r tr l : locked t r (tr ++ [l]) = locked1 t r (locked t r tr) l.
Proof. unfold locked. by rewrite foldl_app. Qed.
Lemma locked_cnt tr c : run tr c → ∀ t r, match c_pool c !! t with Some th => cnt r HIdle th = if locked t r tr then 1 else 0 | None => locked t r tr = false end.
Proof.
  induction 1 as [|tr c1 k l c2 E IH St]; [done|]. intros t r. specialize (IH t r). pose proof (exec_inv _ _ _ _ E) as I. apply stepf_view in St.
  rewrite locked_snoc. destruct (c_pool c1 !! t) as [th|] eqn:P.
  - destruct (step_thread _ _ _ _ _ St P) as [P'|[(th' & agg & L1 & P' & _)|[(r1 & m & th' & h & S1 & -> & P' & R' & Hi)|(r1 & h & th' & S1 & -> & P' & R' & Hi)]]]; rewrite P'.
    + rewrite IH. assert (locked1 t r (locked t r tr) l = locked t r tr) as ->; [|done]. destruct l; try done. destruct m; simpl; try done;
      (case_decide as D; [|done]); destruct D as [-> ->]; exfalso;
      (inversion St as [|t2 th2 l2 th2' agg P2 L2|t2 th2 r2 m2 th2' h2 P2 St2 Hx2| |r2 l2 x2 St2]; subst; [by inversion L2| |by inversion St2]);
      rewrite P in P2; injection P2 as <-; simpl in P'; rewrite list_lookup_insert in P' by (by eapply lookup_lt_Some); injection P' as ->; inversion St2.
    + destruct (lstep_frame _ _ _ _ _ _ L1 (inv_shape _ _ I _ _ P)) as (_ & _ & C & _). rewrite C, IH. by destruct L1.
    + destruct (decide (r = r1)) as [<-|N].
      * pose proof (inv_shape _ _ I _ _ P) as Sh.
        inversion S1; subst; unfold cnt in *; simpl in *; rewrite ?decide_True in * by done; try done.
      * destruct (sstep_other _ _ _ _ _ _ _ S1 N) as (_ & _ & C). rewrite C, IH. destruct m; simpl; try done; by rewrite decide_False by naive_solver.
    + destruct (decide (r = r1)) as [<-|N].
      * pose proof (inv_shape _ _ I _ _ P) as Sh. simpl.
        inversion S1; subst; unfold cnt in *; simpl in *; rewrite ?decide_True in * by done; try done.
        destruct Sh as [(m0 & _ & _ & _ & Nn) _]. unfold inset. rewrite decide_False by done. done.
      * destruct (rstep_other _ _ _ _ _ S1 N) as (_ & _ & C). by rewrite C, IH.
  - assert (LT : (length (c_pool c1) ≤ t)%nat) by (by apply lookup_ge_None).
    inversion St as [p B|t2 th2 l2 th2' agg P2 L2|t2 th2 r2 m2 th2' h2 P2 St2 Hx2|t2 th2 r2 h2 th2' P2 St2 Hx2|r2 l2 x2 St2]; subst; simpl.
    + destruct ((c_pool c1 ++ [MkThread p None CReady]) !! t) as [th|] eqn:P'; [|done]. apply lookup_app_Some in P' as [?|[_ E']]; [congruence|].
      apply list_lookup_singleton_Some in E' as [_ <-]. by rewrite IH.
    + rewrite list_lookup_insert_ne by congruence. rewrite P. by destruct L2.
    + rewrite list_lookup_insert_ne by congruence. rewrite P. destruct m2; simpl; try done; rewrite decide_False; try done; intros [-> _]; congruence.
    + rewrite list_lookup_insert_ne by congruence. by rewrite P.
    + rewrite P. by destruct St2.
Qed.
Lemma zsum_seq (g : nat → bool) l f : (∀ t th, l !! t = Some th → f th = if g t then 1 else 0) →
  zsum f l = Z.of_nat (length (filter (λ t, g t = true) (seq 0 (length l)))).
Proof.
  revert g. induction l as [|th l IH] using rev_ind; intros g H; [done|]. rewrite zsum_app, app_length. simpl. rewrite Nat.add_1_r, seq_S, filter_app, app_length.
  rewrite (IH g); [|intros t u E; apply H; by apply lookup_app_l_Some]. rewrite (H (length l) th); [|rewrite lookup_app_r by lia; by rewrite Nat.sub_diag].
  rewrite Nat.add_0_l. destruct (g (length l)) eqn:G; [rewrite filter_cons_True by done|rewrite filter_cons_False by congruence]; simpl; lia.
Qed.
Lemma lock_count tr c r : run tr c → r_h (c_regs c r) = HIdle →
  r_lock (c_regs c r) = Z.of_nat (length (filter (λ t, locked t r tr = true) (seq 0 (length (c_pool c))))).
Proof.
  intros E H. pose proof (ri_lock _ _ _ _ _ (i_reg _ _ _ _ (exec_inv _ _ _ _ E) r)) as L. rewrite H in L. rewrite L. apply zsum_seq.
  intros t th P. pose proof (locked_cnt _ _ E t r) as Q. by rewrite P in Q.
Qed.
End thms.
