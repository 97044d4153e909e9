(** Invariants of executions of requests over regions. *)
From stdpp Require Import gmap list.
From Coq Require Import ZArith Lia.
From Verif Require Import RegionModel RegionSpec.
Local Open Scope Z_scope.

(** *** The steps, one constructor per kind of step *)
Inductive lstep (t : nat) (c : config) : thread → label → thread → (nat → Z) → Prop :=
  | l_open p : lstep t c (MkThread (AOpen :: p) None CReady) (LOpen t) (MkThread p (Some ∅) CReady) (c_agg c)
  | l_revisit p m r time : m !! r = Some time →
      lstep t c (MkThread (AVisit r :: p) (Some m) CReady) (LVisit t r time) (MkThread p (Some m) CReady) (c_agg c)
  | l_visit p m r : m !! r = None →
      lstep t c (MkThread (AVisit r :: p) (Some m) CReady) (LVisitCall t r) (MkThread p (Some m) (CLockSend r)) (c_agg c)
  | l_visited p m r time :
      lstep t c (MkThread p (Some m) (CLockGot r time)) (LVisit t r time) (MkThread p (Some (<[r := time]> m)) CReady) (c_agg c)
  | l_read p m r x : lstep t c (MkThread (ARead r x :: p) m CReady) (LRead t r x (r_vars (c_regs c r) x)) (MkThread p m CReady) (c_agg c)
  | l_close p m : lstep t c (MkThread (AClose :: p) (Some m) CReady) (LClose t) (MkThread p (Some m) (CClosing (dom m))) (c_agg c)
  | l_closed p m : lstep t c (MkThread p (Some m) (CClosing ∅)) (LClosed t) (MkThread p None CReady) (c_agg c)
  | l_next p m todo r : r ∈ todo →
      lstep t c (MkThread p (Some m) (CClosing todo)) (LCloseNext t r) (MkThread p (Some m) (CUnlockSend r (todo ∖ {[r]}))) (c_agg c)
  | l_func p m r f : lstep t c (MkThread (ARegister r f :: p) m CReady) (LFuncCall t r f) (MkThread p m (CFuncSend r f)) (c_agg c)
  | l_funced p m r f : lstep t c (MkThread p m (CFuncGot r f)) (LFuncRet t r f) (MkThread p m CReady) (c_agg c)
  | l_aggset p m a ts : lstep t c (MkThread (AAggSet a ts :: p) m CReady) (LAggSet t a ts) (MkThread p m CReady) (fupd a ts (c_agg c))
  | l_aggread p m a : lstep t c (MkThread (AAggRead a :: p) m CReady) (LAggRead t a (c_agg c a)) (MkThread p m CReady) (c_agg c)
  | l_emit p m : lstep t c (MkThread (AEmit :: p) m CReady) (LEmit t) (MkThread p m CReady) (c_agg c).
Inductive sstep (t : nat) : thread → nat → msg → thread → handler → Prop :=
  | s_lock p m r : sstep t (MkThread p m (CLockSend r)) r MLock (MkThread p m (CLockRecv r)) (HGot 1)
  | s_unlock p m r todo : sstep t (MkThread p m (CUnlockSend r todo)) r MUnlock (MkThread p m (CUnlockRecv r todo)) (HGot (-1))
  | s_func p m r f : sstep t (MkThread p m (CFuncSend r f)) r (MFunc f) (MkThread p m (CFuncRecv r f)) (HGotFunc f).
Inductive rstep : thread → nat → handler → thread → Prop :=
  | rv_lock p m r time : rstep (MkThread p m (CLockRecv r)) r (HReply time) (MkThread p m (CLockGot r time))
  | rv_unlock p m r todo time : rstep (MkThread p m (CUnlockRecv r todo)) r (HReply time) (MkThread p m (CClosing todo))
  | rv_func p m r f : rstep (MkThread p m (CFuncRecv r f)) r HReplyFunc (MkThread p m (CFuncGot r f)).
Inductive hstep (r : nat) : region → label → region → Prop :=
  | h_die x inc : r_h x = HGot inc → r_lock x + inc < 0 → hstep r x (LDie r) (MkRegion (r_lock x + inc) (r_func x) (r_time x) (r_vars x) HDead)
  | h_begin x inc : r_h x = HGot inc → r_lock x = 0 → r_lock x + inc > 0 →
      hstep r x (LUpdBegin r (r_func x)) (MkRegion (r_lock x + inc) (r_func x) (r_time x) (r_vars x) (HUpdating (r_func x)))
  | h_handled x inc : r_h x = HGot inc → 0 ≤ r_lock x + inc → ¬ (r_lock x = 0 ∧ r_lock x + inc > 0) →
      hstep r x (LHandled r) (MkRegion (r_lock x + inc) (r_func x) (r_time x) (r_vars x) (HReply (r_time x)))
  | h_end x f time : r_h x = HUpdating f → hstep r x (LUpdEnd r f time) (MkRegion (r_lock x) (r_func x) time (r_vars x) (HReply time))
  | h_write x f y v : r_h x = HUpdating f → hstep r x (LWrite r y v) (MkRegion (r_lock x) (r_func x) (r_time x) (fupd y v (r_vars x)) (HUpdating f))
  | h_func x f : r_h x = HGotFunc f → hstep r x (LSetFunc r f) (MkRegion (r_lock x) f (r_time x) (r_vars x) HReplyFunc).
Inductive view (c : config) : label → config → Prop :=
  | v_spawn p : bracketed false p = true → view c (LSpawn (length (c_pool c)) p) (MkConfig (c_regs c) (c_pool c ++ [MkThread p None CReady]) (c_agg c))
  | v_local t th l th' agg : c_pool c !! t = Some th → lstep t c th l th' agg → view c l (MkConfig (c_regs c) (<[t := th']> (c_pool c)) agg)
  | v_send t th r m th' h : c_pool c !! t = Some th → sstep t th r m th' h → r_h (c_regs c r) = HIdle →
      view c (LSend t r m) (set_region r (set_h h (c_regs c r)) (set_thread t th' c))
  | v_reply t th r h th' : c_pool c !! t = Some th → rstep th r h th' → r_h (c_regs c r) = h →
      view c (LReply t r) (set_region r (set_h HIdle (c_regs c r)) (set_thread t th' c))
  | v_handle r l x' : hstep r (c_regs c r) l x' → view c l (set_region r x' c).
Lemma stepf_view c k l c' : stepf c k = Some (l, c') → view c l c'.
Proof.
  destruct k as [p|t ch|t|t|r time|r x v]; simpl.
  - destruct (bracketed false p) eqn:B; [|done]. intros [= <- <-]. by constructor.
  - destruct (c_pool c !! t) as [th|] eqn:P; [|done]. intros E.
    assert (∃ th' agg, lstep t c th l th' agg ∧ c' = MkConfig (c_regs c) (<[t:=th']> (c_pool c)) agg) as (th' & agg & L & ->).
    { destruct th as [p s k]. unfold localf in E.
      destruct k as [|r|r|r time|todo|r todo|r todo|r f|r f|r f]; destruct p as [|[|r1|r1 x1| |r1 f1|a1 ts1|a1|] p]; destruct s as [m|]; try done;
      repeat match type of E with
      | context [match ?m !! ?r with _ => _ end] => destruct (m !! r) eqn:?
      | context [decide ?P] => destruct (decide P); [subst|]
      end; try discriminate E; injection E as <- <-; eexists _, _; (split; [by constructor|done]). }
    by econstructor.
  - destruct (c_pool c !! t) as [th|] eqn:P; [|done]. intros E. unfold sendf in E. destruct th as [p s k]; simpl in E.
    destruct k as [|r|r|r time|todo|r todo|r todo|r f|r f|r f]; try done; destruct (r_h (c_regs c r)) eqn:H; try done; injection E as <- <-;
    (eapply v_send; [done|constructor|done]).
  - destruct (c_pool c !! t) as [th|] eqn:P; [|done]. intros E. unfold replyf in E. destruct th as [p s k]; simpl in E.
    destruct k as [|r|r|r time|todo|r todo|r todo|r f|r f|r f]; try done; destruct (r_h (c_regs c r)) eqn:H; try done; injection E as <- <-;
    (eapply v_reply; [done|constructor|done]).
  - destruct (handlef r time (c_regs c r)) as [[l0 x]|] eqn:E; [|done]. intros [= <- <-]. constructor. revert E. unfold handlef.
    destruct (r_h (c_regs c r)) eqn:H; try done.
    + case_decide; [intros [= <- <-]; by constructor|]. case_decide as D; [destruct D|]; intros [= <- <-]; (econstructor; [done|lia..]).
    + intros [= <- <-]. by constructor.
    + intros [= <- <-]. by constructor.
  - destruct (r_h (c_regs c r)) eqn:H; try done. intros [= <- <-]. constructor. by constructor.
Qed.

(** *** Sums over threads *)
Definition zsum (f : thread → Z) (l : list thread) : Z := foldr (λ th s, f th + s) 0 l.
Lemma zsum_app f l1 l2 : zsum f (l1 ++ l2) = zsum f l1 + zsum f l2.
Proof. induction l1; simpl; lia. Qed.
Lemma zsum_ext f g l : (∀ t th, l !! t = Some th → f th = g th) → zsum f l = zsum g l.
Proof.
  induction l as [|th l IH]; simpl; intros H; [done|]. rewrite (H 0%nat th eq_refl). rewrite IH; [done|]. intros t th' E. exact (H (S t) th' E).
Qed.
Lemma zsum_insert f l t th th' : l !! t = Some th → zsum f (<[t := th']> l) = zsum f l - f th + f th'.
Proof.
  revert t. induction l as [|u l IH]; intros [|t]; simpl; [done|done|intros [= ->]; lia|]. intros E. rewrite (IH t E). lia.
Qed.
(** change one thread and the way of counting, which only matters for that thread *)
Lemma zsum_change f g l t th th' : l !! t = Some th → (∀ t' u, t' ≠ t → l !! t' = Some u → f u = g u) →
  zsum g (<[t := th']> l) = zsum f l - f th + g th'.
Proof.
  revert t. induction l as [|u l IH]; intros [|t]; simpl; [done|done|intros [= ->] H|intros E H].
  - rewrite (zsum_ext g f l); [lia|]. intros t u E. symmetry. exact (H (S t) u ltac:(done) E).
  - rewrite (IH t E); [|intros t' v N; exact (H (S t') v ltac:(congruence))]. rewrite (H 0%nat u); [lia|done|done].
Qed.
Lemma zsum_change_id f g l t th : l !! t = Some th → (∀ t' u, t' ≠ t → l !! t' = Some u → f u = g u) →
  zsum g l = zsum f l - f th + g th.
Proof. intros E H. rewrite <- (zsum_change f g l t th th E H), list_insert_id; done. Qed.
Lemma zsum_nonneg f l : (∀ th, 0 ≤ f th) → 0 ≤ zsum f l.
Proof. intros H. induction l as [|u l IH]; simpl; [lia|]. specialize (H u). lia. Qed.
Lemma zsum_elem f l t th : (∀ th, 0 ≤ f th) → l !! t = Some th → f th ≤ zsum f l.
Proof.
  intros H. revert t. induction l as [|u l IH]; intros [|t]; simpl; [done|done|intros [= ->]|intros E].
  - pose proof (zsum_nonneg f l H). lia.
  - pose proof (IH t E). specialize (H u). lia.
Qed.
Lemma zsum_two f l t1 t2 u1 u2 : (∀ th, 0 ≤ f th) → t1 ≠ t2 → l !! t1 = Some u1 → l !! t2 = Some u2 → f u1 + f u2 ≤ zsum f l.
Proof.
  intros H. revert t1 t2. induction l as [|u l IH]; intros [|t1] [|t2]; simpl; try done.
  - intros _ [= ->] E. pose proof (zsum_elem f l t2 u2 H E). lia.
  - intros _ E [= ->]. pose proof (zsum_elem f l t1 u1 H E). lia.
  - intros N E1 E2. pose proof (IH t1 t2 ltac:(congruence) E1 E2). specialize (H u). lia.
Qed.
Lemma zsum_zero f l : (∀ t th, l !! t = Some th → f th = 0) → zsum f l = 0.
Proof. intros H. rewrite (zsum_ext f (λ _, 0) l H). clear H. induction l; simpl; lia. Qed.
Lemma zsum_pos f l : (∀ th, 0 ≤ f th) → 0 < zsum f l → ∃ t th, l !! t = Some th ∧ 0 < f th.
Proof.
  intros H. induction l as [|u l IH]; simpl; intros P; [lia|]. destruct (decide (0 < f u)); [by exists 0%nat, u|].
  destruct IH as (t & th & E & Q); [lia|]. by exists (S t), th.
Qed.

(** *** The invariant *)
(** the region whose reply a goroutine waits for *)
Definition waits (th : thread) : option nat :=
  match t_ctl th with CLockRecv r | CUnlockRecv r _ | CFuncRecv r _ => Some r | _ => None end.
Definition inmap (r : nat) (m : option (gmap nat Z)) : Z := match m with Some m => if decide (is_Some (m !! r)) then 1 else 0 | None => 0 end.
Definition inset (r : nat) (s : gset nat) : Z := if decide (r ∈ s) then 1 else 0.
Definition got (h : handler) : bool := match h with HGot _ => true | _ => false end.
(** does the lock count of r include this goroutine's session? *)
Definition cnt (r : nat) (h : handler) (th : thread) : Z :=
  match t_ctl th with
  | CReady | CFuncSend _ _ | CFuncRecv _ _ | CFuncGot _ _ | CLockSend _ => inmap r (t_sess th)
  | CLockRecv r' => if decide (r' = r) then (if got h then 0 else 1) else inmap r (t_sess th)
  | CLockGot r' _ => if decide (r' = r) then 1 else inmap r (t_sess th)
  | CClosing todo => inset r todo
  | CUnlockSend r' todo => if decide (r' = r) then 1 else inset r todo
  | CUnlockRecv r' todo => if decide (r' = r) then (if got h then 1 else 0) else inset r todo
  end.
Definition peer (h : handler) (r : nat) (k : ctl) : Prop :=
  match h with
  | HGot inc => (inc = 1 ∧ k = CLockRecv r) ∨ (inc = -1 ∧ ∃ todo, k = CUnlockRecv r todo)
  | HUpdating _ => k = CLockRecv r
  | HReply _ => k = CLockRecv r ∨ ∃ todo, k = CUnlockRecv r todo
  | HGotFunc f => k = CFuncRecv r f
  | HReplyFunc => ∃ f, k = CFuncRecv r f
  | HIdle | HDead => False
  end.
Definition running (v0 : nat → Z) (r : nat) (tr : list label) (f : nat) (vals : nat → Z) : Prop :=
  ∃ tr1 tr2, tr = tr1 ++ [LUpdBegin r f] ++ tr2 ∧ (∀ g, LUpdBegin r g ∉ tr2) ∧ (∀ g time', LUpdEnd r g time' ∉ tr2) ∧
    (∀ x, vals x = written v0 r (tr1 ++ tr2) x).
Record rinv (v0 : nat → Z) (r : nat) (tr : list label) (x : region) (pool : list thread) : Prop := {
  ri_peer : match r_h x with
    | HIdle => ∀ t th, pool !! t = Some th → waits th ≠ Some r
    | h => ∃ t th, pool !! t = Some th ∧ peer h r (t_ctl th) ∧ last_sender r tr = Some t ∧
        ∀ t' th', pool !! t' = Some th' → waits th' = Some r → t' = t
    end;
  ri_lock : r_lock x = zsum (cnt r (r_h x)) pool;
  ri_upd : match r_h x with HUpdating f => r_lock x = 1 ∧ running v0 r tr f (r_vars x)
    | HReply time => time = r_time x ∧ (last_run v0 r tr (r_time x) (r_vars x) ∨ r_lock x = 0)
    | _ => last_run v0 r tr (r_time x) (r_vars x) ∨ r_lock x = 0 end;
  ri_vars : ∀ y, r_vars x y = written v0 r tr y }.

Definition inopen (th : thread) : bool := match t_sess th with Some _ => true | None => false end.
Definition tshape (th : thread) : Prop :=
  match t_ctl th with
  | CReady | CFuncSend _ _ | CFuncRecv _ _ | CFuncGot _ _ => bracketed (inopen th) (t_prog th) = true
  | CLockSend r | CLockRecv r | CLockGot r _ => (∃ m, t_sess th = Some m ∧ m !! r = None) ∧ bracketed true (t_prog th) = true
  | CClosing todo => (∃ m, t_sess th = Some m ∧ todo ⊆ dom m) ∧ bracketed false (t_prog th) = true
  | CUnlockSend r todo | CUnlockRecv r todo => (∃ m, t_sess th = Some m ∧ todo ⊆ dom m ∧ r ∈ dom m ∧ r ∉ todo) ∧ bracketed false (t_prog th) = true
  end.
(** the session's map as long as it is not being closed *)
Definition held (th : thread) : option (gmap nat Z) :=
  match t_ctl th with CClosing _ | CUnlockSend _ _ | CUnlockRecv _ _ => None | _ => t_sess th end.
Definition locking (th : thread) : option nat :=
  match t_ctl th with CLockSend r | CLockRecv r | CLockGot r _ => Some r | _ => None end.
Definition funcing (r : nat) (th : thread) : option nat :=
  match t_ctl th with CFuncSend r' f | CFuncRecv r' f | CFuncGot r' f => if decide (r' = r) then Some f else None | _ => None end.
Record tinv (regs : nat → region) (tr : list label) (t : nat) (th : thread) : Prop := {
  ti_shape : tshape th;
  ti_holds : ∀ r, holds t r tr = held th ≫= lookup r;
  ti_time : ∀ r m time, held th = Some m → m !! r = Some time → time = r_time (regs r);
  ti_got : ∀ r time, t_ctl th = CLockGot r time → time = r_time (regs r);
  ti_engaged : ∀ r, engaged t r tr = true ↔ (∃ m, t_sess th = Some m ∧ is_Some (m !! r)) ∨ locking th = Some r;
  ti_func : ∀ r, registering t r tr = funcing r th;
  ti_report : ∀ r a b, (GRegion r, a) ∈ reported t tr → (GRegion r, b) ∈ reported t tr → a = b;
  ti_report' : ∀ r a m, (GRegion r, a) ∈ reported t tr → t_sess th = Some m → m !! r = Some a;
  ti_spawned : ∃ p, LSpawn t p ∈ tr;
  ti_guard : ∀ p, LSpawn t p ∈ tr → guarded ∅ p →
    match t_ctl th with
    | CLockSend r | CLockRecv r | CLockGot r _ => guarded ({[r]} ∪ default ∅ (dom <$> t_sess th)) (t_prog th)
    | CClosing _ | CUnlockSend _ _ | CUnlockRecv _ _ => guarded ∅ (t_prog th)
    | _ => guarded (default ∅ (dom <$> t_sess th)) (t_prog th)
    end }.
(** nothing is known about goroutines that do not exist yet *)
Definition fresh (tr : list label) (t : nat) : Prop :=
  (∀ r, holds t r tr = None ∧ engaged t r tr = false ∧ registering t r tr = None) ∧ reported t tr = [] ∧ ∀ p, LSpawn t p ∉ tr.
Record inv (f0 : nat → nat) (v0 : nat → nat → Z) (tr : list label) (c : config) : Prop := {
  i_reg : ∀ r, rinv (v0 r) r tr (c_regs c r) (c_pool c);
  i_thr : ∀ t th, c_pool c !! t = Some th → tinv (c_regs c) tr t th;
  i_fresh : ∀ t, c_pool c !! t = None → fresh tr t }.

(** *** Effect of one more label *)
Definition mine (t : nat) (l : label) : bool :=
  match l with
  | LSpawn t' _ | LOpen t' | LVisitCall t' _ | LVisit t' _ _ | LRead t' _ _ _ | LClose t' | LCloseNext t' _ | LClosed t'
  | LFuncCall t' _ _ | LFuncRet t' _ _ | LSend t' _ _ | LReply t' _ | LAggSet t' _ _ | LAggRead t' _ _ | LEmit t' => bool_decide (t' = t)
  | _ => false
  end.
Lemma holds_snoc t r tr l : holds t r (tr ++ [l]) = holds1 t r (holds t r tr) l.
Proof. unfold holds. by rewrite foldl_app. Qed.
Lemma engaged_snoc t r tr l : engaged t r (tr ++ [l]) = engaged1 t r (engaged t r tr) l.
Proof. unfold engaged. by rewrite foldl_app. Qed.
Lemma registering_snoc t r tr l : registering t r (tr ++ [l]) = registering1 t r (registering t r tr) l.
Proof. unfold registering. by rewrite foldl_app. Qed.
Lemma last_sender_snoc r tr l : last_sender r (tr ++ [l]) = last_sender1 r (last_sender r tr) l.
Proof. unfold last_sender. by rewrite foldl_app. Qed.
Lemma written_snoc v0 r tr l : written v0 r (tr ++ [l]) = written1 r (written v0 r tr) l.
Proof. unfold written. by rewrite foldl_app. Qed.
Lemma reported_snoc t tr l : reported t (tr ++ [l]) = reported1 t (reported t tr) l.
Proof. unfold reported. by rewrite foldl_app. Qed.
Lemma not_mine t r tr l : mine t l = false →
  holds t r (tr ++ [l]) = holds t r tr ∧ engaged t r (tr ++ [l]) = engaged t r tr ∧ registering t r (tr ++ [l]) = registering t r tr ∧
  reported t (tr ++ [l]) = reported t tr ∧ ∀ p, LSpawn t p ∈ tr ++ [l] ↔ LSpawn t p ∈ tr.
Proof.
  intros M. rewrite holds_snoc, engaged_snoc, registering_snoc, reported_snoc.
  assert (∀ p, LSpawn t p ∈ tr ++ [l] ↔ LSpawn t p ∈ tr).
  { intros p. rewrite elem_of_app, elem_of_list_singleton. split; [|by left]. intros [|<-]; [done|]. simpl in M. by rewrite bool_decide_true in M. }
  destruct l; simpl in *; rewrite ?bool_decide_eq_false in M; repeat case_decide; naive_solver.
Qed.
Lemma fresh_frame tr t l : fresh tr t → mine t l = false → fresh (tr ++ [l]) t.
Proof.
  intros (H & R & S) M. split; [|split].
  - intros r. destruct (not_mine t r tr l M) as (-> & -> & -> & _). by apply H.
  - destruct (not_mine t 0%nat tr l M) as (_ & _ & _ & -> & _). done.
  - intros p. destruct (not_mine t 0%nat tr l M) as (_ & _ & _ & _ & E). by rewrite E.
Qed.
Lemma tinv_frame regs regs' tr t th l : tinv regs tr t th → mine t l = false →
  (∀ r, r_time (regs' r) = r_time (regs r) ∨ (holds t r tr = None ∧ ∀ time, t_ctl th ≠ CLockGot r time)) → tinv regs' (tr ++ [l]) t th.
Proof.
  intros [] M T. split; try done.
  - intros r. destruct (not_mine t r tr l M) as (-> & _). done.
  - intros r m time H E. destruct (T r) as [->|[N _]]; [by eapply ti_time0|]. rewrite ti_holds0, H in N. simpl in N. congruence.
  - intros r time H. destruct (T r) as [->|[_ N]]; [by apply ti_got0|]. by apply N in H.
  - intros r. destruct (not_mine t r tr l M) as (_ & -> & _). done.
  - intros r. destruct (not_mine t r tr l M) as (_ & _ & -> & _). done.
  - destruct (not_mine t 0%nat tr l M) as (_ & _ & _ & -> & _). done.
  - destruct (not_mine t 0%nat tr l M) as (_ & _ & _ & -> & _). done.
  - destruct ti_spawned0 as [p S]. exists p. apply elem_of_app. by left.
  - intros p. destruct (not_mine t 0%nat tr l M) as (_ & _ & _ & _ & ->). apply ti_guard0.
Qed.
Lemma cnt_nonneg r h th : 0 ≤ cnt r h th.
Proof. unfold cnt, inmap, inset. repeat case_match; lia. Qed.
Lemma not_spawned_again t tr l p : LSpawn t p ∈ tr ++ [l] → (∀ p', l ≠ LSpawn t p') → LSpawn t p ∈ tr.
Proof. rewrite elem_of_app, elem_of_list_singleton. intros [H|<-] N; [done|]. by destruct (N p). Qed.

(** *** Goroutine steps *)
Ltac tinv_spawned := match goal with H : ∃ p, LSpawn _ p ∈ _ |- _ => destruct H as [?p ?]; eexists; apply elem_of_app; left; eassumption end.
Lemma lstep_tinv c tr t th l th' agg : lstep t c th l th' agg → tinv (c_regs c) tr t th → tinv (c_regs c) (tr ++ [l]) t th'.
Proof.
  intros L []. destruct L; unfold held in *; simpl in *;
    (split; unfold held, funcing, locking, tshape in *; simpl in *;
     [ | intros r0; rewrite holds_snoc; simpl | | | intros r0; rewrite engaged_snoc; simpl | intros r0; rewrite registering_snoc; simpl
     | rewrite reported_snoc; simpl | rewrite reported_snoc; simpl | tinv_spawned
     | intros p0 S0 G0; apply not_spawned_again in S0; [specialize (ti_guard0 p0 S0 G0); simpl in ti_guard0|done] ]); try done.
  all: try (by apply ti_holds0). all: try (by apply ti_engaged0). all: try (by apply ti_func0).
  (* open *)
  - intros r m time [= <-]. by rewrite lookup_empty.
  - rewrite ti_engaged0. simpl. split; intros [(m & E & S)|]; [done|done| |done]. injection E as <-. rewrite lookup_empty in S. by destruct S.
  - rewrite decide_True by done. intros r a b H. by apply elem_of_nil in H.
  - rewrite decide_True by done. intros r a m H. by apply elem_of_nil in H.
  - by rewrite dom_empty_L.
  (* revisit *)
  - case_decide as D; [destruct D as [_ ->]; by rewrite H|]. apply ti_holds0.
  - rewrite decide_True by done. intros r1 a b Ha Hb. rewrite elem_of_app, elem_of_list_singleton in Ha, Hb.
    destruct Ha as [Ha|Ha], Hb as [Hb|Hb]; simplify_eq; [by eapply ti_report0| | |done].
    + pose proof (ti_report'0 _ _ _ Ha eq_refl). congruence.
    + pose proof (ti_report'0 _ _ _ Hb eq_refl). congruence.
  - rewrite decide_True by done. intros r1 a m0 Ha [= <-]. rewrite elem_of_app, elem_of_list_singleton in Ha.
    destruct Ha as [Ha|[= -> ->]]; [by apply ti_report'0|done].
  - assert ({[r]} ∪ dom m = dom m) as E by (apply subseteq_union_1_L, singleton_subseteq_l, elem_of_dom; eauto). by rewrite E in ti_guard0.
  (* visit *)
  - split; [by exists m|done].
  - case_decide as D; [destruct D as [_ ->]|].
    + split; [intros _; by right|done].
    + rewrite ti_engaged0. split; [intros [?|?]; [by left|done]|]. intros [?|[= ->]]; [by left|]. by destruct D.
  (* visited *)
  - by destruct ti_shape0.
  - destruct ti_shape0 as [(m0 & [= <-] & N) B]. case_decide as D; [destruct D as [_ ->]; by rewrite lookup_insert|].
    rewrite ti_holds0. simpl. rewrite lookup_insert_ne; [done|]. intros ->. by destruct D.
  - intros r1 m1 time1 [= <-]. destruct (decide (r = r1)) as [->|N1]; [rewrite lookup_insert; intros [= <-]; by apply ti_got0|].
    rewrite lookup_insert_ne by done. by apply ti_time0.
  - rewrite ti_engaged0. split.
    + intros [(m1 & [= <-] & S)|[= ->]]; left; eexists; (split; [done|]); [|rewrite lookup_insert; eauto]. by apply lookup_insert_is_Some'; right.
    + intros [(m1 & [= <-] & S)|?]; [|done]. apply lookup_insert_is_Some' in S as [->|S]; [by right|left; eauto].
  - destruct ti_shape0 as [(m0 & [= <-] & N) B]. rewrite decide_True by done. intros r1 a b Ha Hb. rewrite elem_of_app, elem_of_list_singleton in Ha, Hb.
    destruct Ha as [Ha|Ha], Hb as [Hb|Hb]; simplify_eq; [by eapply ti_report0| | |done].
    + pose proof (ti_report'0 _ _ _ Ha eq_refl). congruence.
    + pose proof (ti_report'0 _ _ _ Hb eq_refl). congruence.
  - destruct ti_shape0 as [(m0 & [= <-] & N) B]. rewrite decide_True by done. intros r1 a m1 Ha [= <-]. rewrite elem_of_app, elem_of_list_singleton in Ha.
    destruct Ha as [Ha|[= -> ->]]; [|by rewrite lookup_insert]. pose proof (ti_report'0 _ _ _ Ha eq_refl) as E.
    rewrite lookup_insert_ne; [done|]. intros ->. congruence.
  - by rewrite dom_insert_L.
  (* read *)
  - by destruct ti_guard0.
  (* close *)
  - split; [by exists m|done].
  - rewrite decide_True by done. done.
  (* closed *)
  - by destruct ti_shape0.
  - rewrite decide_True by done. split; [done|]. intros [(m1 & ? & _)|?]; done.
  (* next *)
  - destruct ti_shape0 as [(m0 & [= <-] & Sub) B]. split; [|done]. exists m. set_solver.
  (* func *)
  - destruct (decide (t = t ∧ r = r0)) as [[_ ->]|D]; [by rewrite decide_True|]. rewrite ti_func0. simpl. rewrite decide_False; [done|]. intros ->. by destruct D.
  (* funced *)
  - rewrite ti_func0. destruct (decide (t = t ∧ r = r0)) as [[_ ->]|D]; [done|]. rewrite decide_False; [done|]. intros ->. by destruct D.
  (* aggregates *)
  - rewrite decide_True by done. intros r1 a1 b Ha Hb. rewrite elem_of_app, elem_of_list_singleton in Ha, Hb.
    destruct Ha as [Ha|?], Hb as [Hb|?]; try done. by eapply ti_report0.
  - rewrite decide_True by done. intros r1 a1 m0 Ha. rewrite elem_of_app, elem_of_list_singleton in Ha. destruct Ha as [Ha|?]; [|done]. by apply ti_report'0.
Qed.

(** *** Region steps *)
Lemma last_run_snoc v0 r tr l time vals : last_run v0 r tr time vals → updates r l = false → last_run v0 r (tr ++ [l]) time vals.
Proof.
  intros (tr1 & f & tr2 & tr3 & -> & B & E & U & V) N. exists tr1, f, tr2, (tr3 ++ [l]). split; [by rewrite <- !app_assoc|].
  split; [done|]. split; [done|]. split; [|done]. intros l' [?|?%elem_of_list_singleton]%elem_of_app; [by apply U|by subst].
Qed.
Lemma running_snoc v0 r tr l f vals vals' : running v0 r tr f vals → (∀ g, l ≠ LUpdBegin r g) → (∀ g time, l ≠ LUpdEnd r g time) →
  (∀ x, vals' x = written1 r vals l x) → running v0 r (tr ++ [l]) f vals'.
Proof.
  intros (tr1 & tr2 & -> & B & E & V) N1 N2 W. exists tr1, (tr2 ++ [l]). split; [by rewrite <- !app_assoc|].
  split; [intros g [?|?%elem_of_list_singleton]%elem_of_app; [by eapply B|by eapply N1]|].
  split; [intros g time [?|?%elem_of_list_singleton]%elem_of_app; [by eapply E|by eapply N2]|].
  intros x. rewrite W, app_assoc, written_snoc. unfold written1. destruct l; try apply V. repeat case_decide; try done; apply V.
Qed.
Lemma written_other v0 r tr l : updates r l = false → written v0 r (tr ++ [l]) = written v0 r tr.
Proof. intros U. rewrite written_snoc. destruct l; simpl in *; try done. apply bool_decide_eq_false in U. by rewrite decide_False. Qed.
Lemma last_sender_other r tr l : (∀ t m, l ≠ LSend t r m) → last_sender r (tr ++ [l]) = last_sender r tr.
Proof. intros U. rewrite last_sender_snoc. destruct l; simpl; try done. case_decide; [|done]. subst. by destruct (U t m). Qed.
Lemma ri_upd_frame v0 r tr l x : updates r l = false →
  match r_h x with HUpdating f => r_lock x = 1 ∧ running v0 r tr f (r_vars x)
    | HReply time => time = r_time x ∧ (last_run v0 r tr (r_time x) (r_vars x) ∨ r_lock x = 0)
    | _ => last_run v0 r tr (r_time x) (r_vars x) ∨ r_lock x = 0 end →
  match r_h x with HUpdating f => r_lock x = 1 ∧ running v0 r (tr ++ [l]) f (r_vars x)
    | HReply time => time = r_time x ∧ (last_run v0 r (tr ++ [l]) (r_time x) (r_vars x) ∨ r_lock x = 0)
    | _ => last_run v0 r (tr ++ [l]) (r_time x) (r_vars x) ∨ r_lock x = 0 end.
Proof.
  intros U. assert (last_run v0 r tr (r_time x) (r_vars x) ∨ r_lock x = 0 → last_run v0 r (tr ++ [l]) (r_time x) (r_vars x) ∨ r_lock x = 0) as A.
  { intros [?|?]; [left; by apply last_run_snoc|by right]. }
  destruct (r_h x); try done; intros [H1 H2]; (split; [done|]); [|by apply A].
  eapply running_snoc; [done| | |].
  - intros g ->. simpl in U. by rewrite bool_decide_true in U.
  - intros g time ->. simpl in U. by rewrite bool_decide_true in U.
  - intros y. destruct l; simpl in *; try done. apply bool_decide_eq_false in U. by rewrite decide_False.
Qed.
Lemma cnt_handler r h h' th : waits th ≠ Some r ∨ got h = got h' → cnt r h th = cnt r h' th.
Proof.
  unfold waits, cnt. destruct (t_ctl th); try done; (destruct (decide _) as [->|]; [|done]); (intros [?| ->]; [congruence|done]).
Qed.
Lemma peer_waits h r th : peer h r (t_ctl th) → waits th = Some r.
Proof. unfold peer, waits. destruct h as [|inc| | | | |]; [done|intros [[_ ->]|[_ [? ->]]]|intros ->|intros [-> | [? ->]]|intros ->|intros [? ->]|]; done. Qed.
(** the region is not involved *)
Lemma rinv_frame v0 r tr l x pool t th th' : rinv v0 r tr x pool → pool !! t = Some th → waits th ≠ Some r → waits th' ≠ Some r →
  (∀ h, cnt r h th' = cnt r h th) → updates r l = false → (∀ t' m, l ≠ LSend t' r m) → rinv v0 r (tr ++ [l]) x (<[t := th']> pool).
Proof.
  intros [] P W W' C U S. pose proof (lookup_lt_Some _ _ _ P) as LT. split.
  - rewrite last_sender_other by done. destruct (r_h x);
    [intros t1 th1 E; destruct (decide (t = t1)) as [<-|N]; [rewrite list_lookup_insert in E by done; congruence|
       rewrite list_lookup_insert_ne in E by done; by eapply ri_peer0]|..];
    destruct ri_peer0 as (t0 & th0 & P0 & Pe & L & Q);
    (assert (t ≠ t0) by (intros ->; rewrite P in P0; injection P0 as <-; by apply peer_waits in Pe));
    (exists t0, th0; rewrite list_lookup_insert_ne by done; repeat (split; [done|]); intros t' u E Wu;
     destruct (decide (t = t')) as [<-|N]; [rewrite list_lookup_insert in E by done; congruence|
       rewrite list_lookup_insert_ne in E by done; by eapply Q]).
  - rewrite (zsum_insert _ _ _ _ _ P), C. lia.
  - by apply ri_upd_frame.
  - by rewrite written_other.
Qed.
Lemma rinv_label v0 r tr l x pool : rinv v0 r tr x pool → updates r l = false → (∀ t' m, l ≠ LSend t' r m) → rinv v0 r (tr ++ [l]) x pool.
Proof.
  intros [] U S. split; [by rewrite last_sender_other| done | by apply ri_upd_frame | by rewrite written_other].
Qed.
Lemma rinv_spawn v0 r tr l x pool p : rinv v0 r tr x pool → updates r l = false → (∀ t' m, l ≠ LSend t' r m) →
  rinv v0 r (tr ++ [l]) x (pool ++ [MkThread p None CReady]).
Proof.
  intros I U S. destruct (rinv_label _ _ _ l _ _ I U S). split; [|rewrite zsum_app; assert (zsum (cnt r (r_h x)) [MkThread p None CReady] = 0) as -> by done; lia|done|done].
  assert (∀ t th, (pool ++ [MkThread p None CReady]) !! t = Some th → waits th = Some r → pool !! t = Some th) as A.
  { intros t th [E|[_ E]]%lookup_app_Some W; [done|]. apply list_lookup_singleton_Some in E as [_ <-]. done. }
  destruct (r_h x);
  [intros t1 th1 E W; by eapply ri_peer0; [eapply A|]|..];
  destruct ri_peer0 as (t0 & th0 & P0 & Pe & L & Q);
  (exists t0, th0; split; [by apply lookup_app_l_Some|]; repeat (split; [done|]); intros t' u E Wu; eapply Q; [by apply A|done]).
Qed.
Lemma lstep_frame t c th l th' agg : lstep t c th l th' agg → tshape th →
  waits th = None ∧ waits th' = None ∧ (∀ r h, cnt r h th' = cnt r h th) ∧ (∀ r, updates r l = false) ∧ (∀ r t' m, l ≠ LSend t' r m).
Proof.
  intros L Sh. destruct L; (split; [done|]); (split; [done|]); (split; [intros r1 h; unfold cnt, inmap, inset; simpl|done]); try done.
  - destruct (decide (r = r1)) as [->|N]; [rewrite lookup_insert; by rewrite decide_True by eauto|by rewrite lookup_insert_ne].
  - apply decide_ext. apply elem_of_dom.
  - destruct (decide (r = r1)) as [->|N]; [by rewrite decide_True|]. apply decide_ext. set_solver.
Qed.
Lemma fupd_same {A} k (v : A) m : fupd k v m k = v.
Proof. unfold fupd. by rewrite decide_True. Qed.
Lemma fupd_other {A} k (v : A) m i : i ≠ k → fupd k v m i = m i.
Proof. intros. unfold fupd. by rewrite decide_False. Qed.
Lemma sstep_rinv v0 r tr x pool t th m th' h : rinv v0 r tr x pool → pool !! t = Some th → tshape th → sstep t th r m th' h → r_h x = HIdle →
  rinv v0 r (tr ++ [LSend t r m]) (set_h h x) (<[t := th']> pool).
Proof.
  intros [] P Sh St Hx. pose proof (lookup_lt_Some _ _ _ P) as LT. rewrite Hx in *.
  assert (W : ∀ t' u, pool !! t' = Some u → waits u ≠ Some r) by exact ri_peer0.
  assert (last_sender r (tr ++ [LSend t r m]) = Some t) as LS by (rewrite last_sender_snoc; simpl; by rewrite decide_True).
  assert (∀ t' u, <[t:=th']> pool !! t' = Some u → waits u = Some r → t' = t) as Q.
  { intros t' u E Wu. destruct (decide (t = t')) as [->|N]; [done|]. rewrite list_lookup_insert_ne in E by done. by destruct (W t' u). }
  assert (zsum (cnt r h) (<[t:=th']> pool) = zsum (cnt r HIdle) pool) as Z.
  { rewrite (zsum_change (cnt r HIdle) (cnt r h) _ _ _ th' P); [|intros t' u N E; apply cnt_handler; left; by eapply W].
    destruct St; unfold cnt; simpl; rewrite ?decide_True by done; simpl; try lia.
    destruct Sh as [(m0 & Em & N) B]. simpl in Em. subst m. simpl. rewrite decide_False; [lia|]. rewrite N. by intros [? ?]. }
  assert (updates r (LSend t r m) = false) as U by done.
  split; simpl.
  - assert (peer h r (t_ctl th')) by (destruct St; simpl; eauto).
    destruct h; try (by exfalso; simpl in *); exists t, th'; rewrite list_lookup_insert by done; done.
  - by rewrite Z.
  - assert (last_run v0 r (tr ++ [LSend t r m]) (r_time x) (r_vars x) ∨ r_lock x = 0) by (destruct ri_upd0; [left; by apply last_run_snoc|by right]).
    by destruct St.
  - by rewrite written_other.
Qed.
Lemma rstep_rinv v0 r tr x pool t th th' h : rinv v0 r tr x pool → pool !! t = Some th → tshape th → rstep th r h th' → r_h x = h →
  rinv v0 r (tr ++ [LReply t r]) (set_h HIdle x) (<[t := th']> pool) ∧ last_sender r tr = Some t.
Proof.
  intros [] P Sh St Hx. pose proof (lookup_lt_Some _ _ _ P) as LT. rewrite Hx in *.
  assert (∃ t0 th0, pool !! t0 = Some th0 ∧ peer h r (t_ctl th0) ∧ last_sender r tr = Some t0 ∧
    ∀ t' th', pool !! t' = Some th' → waits th' = Some r → t' = t0) as (t0 & th0 & P0 & Pe & LS & Q) by (by destruct St).
  assert (t = t0) as <- by (eapply Q; [done|by destruct St]). rewrite P in P0. injection P0 as <-.
  split; [|done].
  assert (∀ t' u, t' ≠ t → pool !! t' = Some u → waits u ≠ Some r) as W by (intros t' u N E Wu; by destruct N; eapply Q).
  split; simpl.
  - intros t' u E. destruct (decide (t = t')) as [<-|N]; [|rewrite list_lookup_insert_ne in E by done; by eapply W].
    rewrite list_lookup_insert in E by done. injection E as <-. by destruct St.
  - rewrite ri_lock0. rewrite (zsum_change (cnt r h) (cnt r HIdle) _ _ _ th' P); [|intros t' u N E; apply cnt_handler; left; by eapply W].
    destruct St; unfold cnt; simpl; rewrite ?decide_True by done; simpl; try lia.
    destruct Sh as [(m0 & _ & _ & _ & N) _]. unfold inset. rewrite decide_False by done. lia.
  - assert (last_run v0 r tr (r_time x) (r_vars x) ∨ r_lock x = 0) as [?|?] by (destruct St; naive_solver); [left; by apply last_run_snoc|by right].
  - by rewrite written_other.
Qed.

Lemma cnt_lockrecv r h th : t_ctl th = CLockRecv r → cnt r h th = if got h then 0 else 1.
Proof. intros E. unfold cnt. by rewrite E, decide_True. Qed.
Lemma cnt_unlockrecv r h th todo : t_ctl th = CUnlockRecv r todo → cnt r h th = if got h then 1 else 0.
Proof. intros E. unfold cnt. by rewrite E, decide_True. Qed.
Lemma hstep_rinv v0 r tr x pool l x' : rinv v0 r tr x pool → (∀ t th, pool !! t = Some th → tshape th) → hstep r x l x' →
  rinv v0 r (tr ++ [l]) x' pool ∧ l ≠ LDie r.
Proof.
  intros [] Sh St. destruct St as [x inc Hx C|x inc Hx C1 C2|x inc Hx C1 C2|x f time Hx|x f y v Hx|x f Hx]; rewrite Hx in *.
  - (* the lock count cannot fall below 0 *) exfalso. destruct ri_peer0 as (t & th & P & Pe & LS & Q).
    pose proof (zsum_elem (cnt r (HGot inc)) pool t th (cnt_nonneg _ _) P) as Le. destruct Pe as [[-> Pe]|[-> [todo Pe]]].
    + pose proof (zsum_nonneg (cnt r (HGot 1)) pool (cnt_nonneg _ _)). lia.
    + rewrite (cnt_unlockrecv _ _ _ _ Pe) in Le. simpl in Le. lia.
  - destruct ri_peer0 as (t & th & P & Pe & LS & Q). assert (inc = 1) as -> by (destruct Pe as [[-> _]|[-> _]]; lia).
    destruct Pe as [[_ Pe]|[? _]]; [|done]. split; [|done]. split; simpl.
    + exists t, th. rewrite last_sender_other by done. done.
    + rewrite (zsum_change_id (cnt r (HGot 1)) (cnt r (HUpdating (r_func x))) pool t th P).
      * rewrite !(cnt_lockrecv _ _ _ Pe). simpl. lia.
      * intros t' u N E. apply cnt_handler. left. intros Wu. by destruct N; eapply Q.
    + split; [lia|]. exists tr, []. split; [done|]. split; [intros g; apply not_elem_of_nil|]. split; [intros g time; apply not_elem_of_nil|].
      intros y. rewrite app_nil_r. apply ri_vars0.
    + intros y. rewrite written_snoc. simpl. apply ri_vars0.
  - destruct ri_peer0 as (t & th & P & Pe & LS & Q). split; [|done].
    assert (∀ t' u, t' ≠ t → pool !! t' = Some u → cnt r (HGot inc) u = cnt r (HReply (r_time x)) u) as A.
    { intros t' u N E. apply cnt_handler. left. intros Wu. by destruct N; eapply Q. }
    assert (r_lock x + inc = zsum (cnt r (HReply (r_time x))) pool) as Z.
    { rewrite (zsum_change_id _ _ pool t th P A). destruct Pe as [[-> Pe]|[-> [todo Pe]]]; rewrite ?(cnt_lockrecv _ _ _ Pe), ?(cnt_unlockrecv _ _ _ _ Pe); simpl; lia. }
    split; simpl.
    + exists t, th. rewrite last_sender_other by done. split; [done|]. split; [|done]. destruct Pe as [[_ Pe]|[_ Pe]]; eauto.
    + done.
    + split; [done|]. destruct ri_upd0 as [?|L0]; [left; by apply last_run_snoc|].
      destruct Pe as [[-> _]|[-> _]]; [|exfalso; lia]. destruct C2. lia.
    + by rewrite written_other.
  - destruct ri_peer0 as (t & th & P & Pe & LS & Q). destruct ri_upd0 as [L1 (tr1 & tr2 & -> & B & E & V)]. split; [|done]. split; simpl.
    + exists t, th. rewrite last_sender_other by done. split; [done|]. split; [by left|done].
    + rewrite ri_lock0. apply zsum_ext. intros t' u _. apply cnt_handler. by right.
    + split; [done|]. left. exists tr1, f, tr2, []. split; [by rewrite <- !app_assoc|]. split; [done|]. split; [done|]. split; [|done].
      intros l Hl. by apply elem_of_nil in Hl.
    + intros y. rewrite written_snoc. apply ri_vars0.
  - destruct ri_peer0 as (t & th & P & Pe & LS & Q). destruct ri_upd0 as [L1 Run]. split; [|done]. split; simpl.
    + exists t, th. rewrite last_sender_other by done. done.
    + done.
    + split; [done|]. eapply running_snoc; [done|done|done|]. intros z. simpl. rewrite decide_True by done. done.
    + intros z. rewrite written_snoc. simpl. rewrite decide_True by done. unfold fupd. case_decide; [done|]. apply ri_vars0.
  - destruct ri_peer0 as (t & th & P & Pe & LS & Q). split; [|done]. split; simpl.
    + exists t, th. rewrite last_sender_other by done. split; [done|]. split; [by exists f|done].
    + rewrite ri_lock0. apply zsum_ext. intros t' u _. apply cnt_handler. by right.
    + destruct ri_upd0 as [?|?]; [left; by apply last_run_snoc|by right].
    + by rewrite written_other.
Qed.
(** regions with a holder are not being updated *)
Lemma held_cnt r h th m : held th = Some m → is_Some (m !! r) → tshape th → cnt r h th = 1.
Proof.
  unfold held, cnt, tshape. intros H [time E] Sh. destruct th as [p s k]; simpl in *.
  destruct k as [|r1|r1|r1 time1|todo|r1 todo|r1 todo|r1 f|r1 f|r1 f]; simpl in *; subst; try done;
  try (by simpl; rewrite decide_True by eauto).
  - destruct (decide (r1 = r)) as [->|]; [|by simpl; rewrite decide_True by eauto]. destruct Sh as [(m0 & [= <-] & N) _]. congruence.
  - destruct (decide (r1 = r)) as [->|]; [done|by simpl; rewrite decide_True by eauto].
Qed.
Lemma held_not_updating v0 r tr x pool t th m f : rinv v0 r tr x pool → (∀ t th, pool !! t = Some th → tshape th) →
  pool !! t = Some th → held th = Some m → is_Some (m !! r) → r_h x ≠ HUpdating f.
Proof.
  intros [] Sh P H S Hx. rewrite Hx in *. destruct ri_peer0 as (t0 & th0 & P0 & Pe & _ & _). destruct ri_upd0 as [L _].
  pose proof (held_cnt r (HUpdating f) th m H S (Sh _ _ P)) as C.
  destruct (decide (t = t0)) as [->|N].
  - rewrite P in P0. injection P0 as <-. pose proof (Sh _ _ P) as Sht. unfold tshape in Sht. unfold held in H. rewrite Pe in Sht, H.
    destruct Sht as [(m0 & E & Nn) _]. rewrite H in E. injection E as <-. rewrite Nn in S. by destruct S.
  - pose proof (zsum_two (cnt r (HUpdating f)) pool t t0 th th0 (cnt_nonneg _ _) N P P0) as Le.
    assert (cnt r (HUpdating f) th0 = 1) as C0 by (unfold cnt; rewrite Pe, decide_True by done; done). lia.
Qed.
Lemma got_not_updating v0 r tr x pool t th time f : rinv v0 r tr x pool →
  pool !! t = Some th → t_ctl th = CLockGot r time → r_h x ≠ HUpdating f.
Proof.
  intros [] P H Hx. rewrite Hx in *. destruct ri_peer0 as (t0 & th0 & P0 & Pe & _ & _). destruct ri_upd0 as [L _].
  destruct (decide (t = t0)) as [->|N].
  - rewrite P in P0. injection P0 as <-. simpl in Pe. congruence.
  - pose proof (zsum_two (cnt r (HUpdating f)) pool t t0 th th0 (cnt_nonneg _ _) N P P0) as Le.
    assert (cnt r (HUpdating f) th0 = 1) as C0 by (unfold cnt; rewrite Pe, decide_True by done; done).
    assert (cnt r (HUpdating f) th = 1) as C1 by (unfold cnt; rewrite H, decide_True by done; done). lia.
Qed.
Lemma sstep_tinv regs regs' tr t th r m th' h : sstep t th r m th' h → tinv regs tr t th → (∀ r, r_time (regs' r) = r_time (regs r)) →
  tinv regs' (tr ++ [LSend t r m]) t th'.
Proof.
  intros St I T. assert (held th' = held th ∧ (∀ r, funcing r th' = funcing r th) ∧ locking th' = locking th ∧ t_sess th' = t_sess th ∧ (tshape th → tshape th')) as (E1 & E2 & E3 & E4 & E5).
  { destruct St; split_and!; done. }
  destruct I. split; try done.
  - by apply E5.
  - intros r0. rewrite holds_snoc, E1. apply ti_holds0.
  - intros r0 m0 time. rewrite E1, T. apply ti_time0.
  - intros r0 time H. by destruct St.
  - intros r0. rewrite engaged_snoc, E3, E4. apply ti_engaged0.
  - intros r0. rewrite registering_snoc, E2. apply ti_func0.
  - rewrite reported_snoc. apply ti_report0.
  - rewrite reported_snoc, E4. apply ti_report'0.
  - destruct ti_spawned0 as [p S]. exists p. apply elem_of_app. by left.
  - intros p S G. apply not_spawned_again in S; [|done]. specialize (ti_guard0 p S G). by destruct St.
Qed.
Lemma rstep_tinv regs regs' tr t th r h th' : rstep th r h th' → tinv regs tr t th → (∀ r, r_time (regs' r) = r_time (regs r)) →
  (∀ time, h = HReply time → time = r_time (regs r)) → tinv regs' (tr ++ [LReply t r]) t th'.
Proof.
  intros St I T Ht. assert (held th' = held th ∧ (∀ r, funcing r th' = funcing r th) ∧ locking th' = locking th ∧ t_sess th' = t_sess th ∧ (tshape th → tshape th')) as (E1 & E2 & E3 & E4 & E5).
  { destruct St; split_and!; try done. intros [(m0 & ? & ? & ?) ?]. split; [by exists m0|done]. }
  destruct I. split; try done.
  - by apply E5.
  - intros r0. rewrite holds_snoc, E1. apply ti_holds0.
  - intros r0 m0 time. rewrite E1, T. apply ti_time0.
  - intros r0 time H. rewrite T. destruct St; simplify_eq/=. by apply Ht.
  - intros r0. rewrite engaged_snoc, E3, E4. apply ti_engaged0.
  - intros r0. rewrite registering_snoc, E2. apply ti_func0.
  - rewrite reported_snoc. apply ti_report0.
  - rewrite reported_snoc, E4. apply ti_report'0.
  - destruct ti_spawned0 as [p S]. exists p. apply elem_of_app. by left.
  - intros p S G. apply not_spawned_again in S; [|done]. specialize (ti_guard0 p S G). by destruct St.
Qed.

(** *** Every execution keeps the invariant *)
Lemma inv_init f0 v0 : inv f0 v0 [] (init_config f0 v0).
Proof.
  split; simpl; [|done|intros t _; split; [done|]; split; [done|]; intros p; apply not_elem_of_nil].
  intros r. split; simpl; try done. by right.
Qed.
Lemma sstep_other r r' t th m th' h : sstep t th r m th' h → r' ≠ r → waits th = None ∧ waits th' ≠ Some r' ∧ ∀ h', cnt r' h' th' = cnt r' h' th.
Proof.
  intros St N. destruct St; unfold waits, cnt; simpl; (split; [done|]); (split; [congruence|]); intros h'; try done; by repeat rewrite decide_False by done.
Qed.
Lemma rstep_other r r' th th' h : rstep th r h th' → r' ≠ r → waits th ≠ Some r' ∧ waits th' = None ∧ ∀ h', cnt r' h' th' = cnt r' h' th.
Proof.
  intros St N. destruct St; unfold waits, cnt; simpl; (split; [congruence|]); (split; [done|]); intros h'; try done; by repeat rewrite decide_False by done.
Qed.
Lemma inv_step f0 v0 tr c l c' : inv f0 v0 tr c → view c l c' → inv f0 v0 (tr ++ [l]) c' ∧ (∀ r, l ≠ LDie r) ∧
  (∀ t r, l = LReply t r → last_sender r tr = Some t).
Proof.
  intros [IR IT IF] V.
  assert (Sh : ∀ t th, c_pool c !! t = Some th → tshape th) by (intros t th P; apply (IT t th P)).
  destruct V as [p B|t th l th' agg P L|t th r m th' h P St Hx|t th r h th' P St Hx|r l x' St].
  - split; [|done]. split; simpl.
    + intros r. by apply rinv_spawn.
    + intros t th [E|[Le E]]%lookup_app_Some.
      * eapply tinv_frame; [by apply IT| |by left]. simpl. apply bool_decide_eq_false. apply lookup_lt_Some in E. lia.
      * apply list_lookup_singleton_Some in E as [E0 <-]. assert (t = length (c_pool c)) as -> by lia.
        destruct (IF (length (c_pool c))) as (F1 & F2 & F3); [by apply lookup_ge_None|].
        split; simpl.
        -- done.
        -- intros r. rewrite holds_snoc. simpl. apply F1.
        -- done.
        -- done.
        -- intros r. rewrite engaged_snoc. simpl. destruct (F1 r) as (_ & -> & _). split; [done|]. unfold locking. simpl. by intros [(? & ? & _)|?].
        -- intros r. rewrite registering_snoc. simpl. apply F1.
        -- rewrite reported_snoc. simpl. rewrite F2. intros r a b H. by apply elem_of_nil in H.
        -- done.
        -- exists p. apply elem_of_app. right. by constructor.
        -- intros p' [S|S%elem_of_list_singleton]%elem_of_app G; [by destruct (F3 p')|]. by injection S as ->.
    + intros t E. apply lookup_ge_None in E. rewrite app_length in E. simpl in E.
      apply fresh_frame; [apply IF, lookup_ge_None; lia|]. simpl. apply bool_decide_eq_false. lia.
  - pose proof (lstep_frame _ _ _ _ _ _ L (Sh _ _ P)) as (W1 & W2 & C & U & S). pose proof (lookup_lt_Some _ _ _ P) as LT.
    assert (∀ t', t' ≠ t → mine t' l = false) as M by (intros t' N; destruct L; simpl; apply bool_decide_eq_false; congruence).
    split; [|split; [by destruct L|by destruct L]].
    split; simpl.
    + intros r. eapply rinv_frame; [by apply IR|done|by rewrite W1|by rewrite W2|by apply C|by apply U|by apply S].
    + intros t' u E. destruct (decide (t = t')) as [<-|N].
      * rewrite list_lookup_insert in E by done. injection E as <-. eapply lstep_tinv; [done|by apply IT].
      * rewrite list_lookup_insert_ne in E by done. eapply tinv_frame; [by apply IT|by apply M|by left].
    + intros t' E. assert (t' ≠ t) by (intros ->; by rewrite list_lookup_insert in E). rewrite list_lookup_insert_ne in E by done.
      apply fresh_frame; [by apply IF|by apply M].
  - pose proof (lookup_lt_Some _ _ _ P) as LT.
    assert (∀ t', t' ≠ t → mine t' (LSend t r m) = false) as M by (intros t' N; simpl; apply bool_decide_eq_false; congruence).
    assert (∀ r', r_time (fupd r (set_h h (c_regs c r)) (c_regs c) r') = r_time (c_regs c r')) as T by (intros r'; unfold fupd; case_decide; by subst).
    split; [|done]. split; simpl.
    + intros r'. destruct (decide (r' = r)) as [->|N].
      * rewrite fupd_same. eapply sstep_rinv; [by apply IR|done|by eapply Sh|done|done].
      * rewrite fupd_other by done. pose proof (sstep_other _ _ _ _ _ _ _ St N) as (W1 & W2 & C).
        eapply rinv_frame; [by apply IR|done|by rewrite W1|done|by apply C|done|]. intros t' m' [= -> -> ->]. by destruct N.
    + intros t' u E. destruct (decide (t = t')) as [<-|N].
      * rewrite list_lookup_insert in E by done. injection E as <-. eapply sstep_tinv; [done|by apply IT|done].
      * rewrite list_lookup_insert_ne in E by done. eapply tinv_frame; [by apply IT|by apply M|by left].
    + intros t' E. assert (t' ≠ t) by (intros ->; by rewrite list_lookup_insert in E). rewrite list_lookup_insert_ne in E by done.
      apply fresh_frame; [by apply IF|by apply M].
  - pose proof (lookup_lt_Some _ _ _ P) as LT.
    assert (∀ t', t' ≠ t → mine t' (LReply t r) = false) as M by (intros t' N; simpl; apply bool_decide_eq_false; congruence).
    assert (∀ r', r_time (fupd r (set_h HIdle (c_regs c r)) (c_regs c) r') = r_time (c_regs c r')) as T by (intros r'; unfold fupd; case_decide; by subst).
    destruct (rstep_rinv _ _ _ _ _ _ _ _ _ (IR r) P (Sh _ _ P) St Hx) as [RI LS].
    split; [|split; [done|by intros ? ? [= <- <-]]]. split; simpl.
    + intros r'. destruct (decide (r' = r)) as [->|N].
      * by rewrite fupd_same.
      * rewrite fupd_other by done. pose proof (rstep_other _ _ _ _ _ St N) as (W1 & W2 & C).
        eapply rinv_frame; [by apply IR|done|done|by rewrite W2|by apply C|done|done].
    + intros t' u E. destruct (decide (t = t')) as [<-|N].
      * rewrite list_lookup_insert in E by done. injection E as <-. eapply rstep_tinv; [done|by apply IT|done|].
        intros time ->. pose proof (ri_upd _ _ _ _ _ (IR r)) as UU. rewrite Hx in UU. by destruct UU.
      * rewrite list_lookup_insert_ne in E by done. eapply tinv_frame; [by apply IT|by apply M|by left].
    + intros t' E. assert (t' ≠ t) by (intros ->; by rewrite list_lookup_insert in E). rewrite list_lookup_insert_ne in E by done.
      apply fresh_frame; [by apply IF|by apply M].
  - destruct (hstep_rinv _ _ _ _ _ _ _ (IR r) Sh St) as [RI ND].
    assert (∀ t', mine t' l = false) as M by (intros t'; by destruct St).
    split; [|split; [intros r' ->; inversion St; subst; done|intros ? ? ->; inversion St]]. split; simpl.
    + intros r'. destruct (decide (r' = r)) as [->|N]; [by rewrite fupd_same|]. rewrite fupd_other by done.
      apply rinv_label; [by apply IR|destruct St; simpl; try done; by apply bool_decide_eq_false, not_eq_sym|by destruct St].
    + intros t' u E. eapply tinv_frame; [by apply IT|by apply M|]. intros r'. destruct (decide (r' = r)) as [->|N]; [|left; by rewrite fupd_other].
      rewrite fupd_same. destruct (r_h (c_regs c r)) eqn:Hr; try (left; inversion St; simpl; congruence).
      right. split.
      * rewrite (ti_holds _ _ _ _ (IT _ _ E)). destruct (held u) as [m|] eqn:Hm; [|done]. simpl. destruct (m !! r) eqn:Em; [|done].
        exfalso. eapply held_not_updating; [by apply IR|by apply Sh|done|done|by eexists|done].
      * intros time Ec. eapply got_not_updating; [by apply IR|done|done|done].
    + intros t' E. apply fresh_frame; [by apply IF|by apply M].
Qed.
Lemma exec_inv f0 v0 tr c : exec (init_config f0 v0) tr c → inv f0 v0 tr c.
Proof.
  induction 1 as [|tr c1 k l c2 _ IH St]; [apply inv_init|]. apply stepf_view in St. by eapply inv_step.
Qed.
Lemma exec_app c tr1 tr2 c' : exec c (tr1 ++ tr2) c' ↔ ∃ c1, exec c tr1 c1 ∧ exec c1 tr2 c'.
Proof.
  split.
  - revert c'. induction tr2 as [|l tr2 IH] using rev_ind; intros c' E; [rewrite app_nil_r in E; exists c'; split; [done|constructor]|].
    rewrite app_assoc in E. inversion E as [|tr c1 k l0 c2 E1 St X Y]; [by destruct (tr1 ++ tr2)|]. apply app_inj_tail in X as [-> ->].
    destruct (IH _ E1) as (c0 & A & B). exists c0. split; [done|]. by econstructor.
  - intros (c1 & A & B). induction B as [|tr2 c1' k l c2 B IH St]; [by rewrite app_nil_r|]. rewrite app_assoc. econstructor; [exact IH|done].
Qed.
Lemma exec_last c tr l c' : exec c (tr ++ [l]) c' → ∃ c1 k, exec c tr c1 ∧ stepf c1 k = Some (l, c').
Proof.
  intros E. inversion E as [|tr' c1 k l0 c2 E1 St X Y]; [by destruct tr|]. apply app_inj_tail in X as [-> ->]. by exists c1, k.
Qed.
