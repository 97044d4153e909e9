From Coq Require Import ZArith Lia.
From Verif Require Import GoBase GoVal UnitsModel DurationModel TypesModel FloatBase.
From stdpp Require Import list sets.
From Verif Require Import MonitorModel MonitorSpec MonitorProofs DistModel DistConc DistConcProofs ReflectModel ListModel ListConc ListConcProofs StampSpec.
Local Open Scope Z_scope.

Lemma precedes_either {X} (l : list X) a b : a ∈ l → b ∈ l → a ≠ b → precedes l a b ∨ precedes l b a.
Proof.
  induction l as [|x l IH]; intros A B N; [by apply elem_of_nil in A|].
  apply elem_of_cons in A as [->|A]; apply elem_of_cons in B as [->|B]; [done| | |].
  - left. apply elem_of_list_split in B as (l1 & l2 & ->). by exists [], l1, l2.
  - right. apply elem_of_list_split in A as (l1 & l2 & ->). by exists [], l1, l2.
  - destruct (IH A B N) as [(l1 & l2 & l3 & ->)|(l1 & l2 & l3 & ->)]; [left|right]; by exists (x :: l1), l2, l3.
Qed.
Lemma precedes_both {X} (l : list X) e e' : precedes l e e' → e ∈ l ∧ e' ∈ l.
Proof. intros (l1 & l2 & l3 & ->). set_solver. Qed.
(** in a list whose keys differ, the order is an order *)
Lemma precedes_asym {X} (f : X → nat) (l : list X) a b : NoDup (f <$> l) → precedes l a b → ¬ precedes l b a.
Proof.
  intros N (l1 & l2 & l3 & E) (k1 & k2 & k3 & E').
  assert (∀ i j x y, l !! i = Some x → l !! j = Some y → f x = f y → i = j) as U.
  { intros i j x y I J F. apply (NoDup_lookup (f <$> l) i j (f x)); [done| |]; rewrite list_lookup_fmap; [by rewrite I|rewrite J; simpl; by rewrite F]. }
  assert (∀ (p1 p2 p3 : list X) x y, l = p1 ++ x :: p2 ++ y :: p3 → ∃ i j, (i < j)%nat ∧ l !! i = Some x ∧ l !! j = Some y) as P.
  { intros p1 p2 p3 x y ->. exists (length p1), (length p1 + S (length p2))%nat. split; [lia|]. split.
    - by rewrite list_lookup_middle.
    - rewrite lookup_app_r by lia. replace (length p1 + S (length p2) - length p1)%nat with (S (length p2)) by lia. simpl. by rewrite list_lookup_middle. }
  destruct (P _ _ _ _ _ E) as (i & j & L & I & J). destruct (P _ _ _ _ _ E') as (i' & j' & L' & I' & J').
  rewrite (U i j' a a I J' eq_refl) in L. rewrite (U j i' b b J I' eq_refl) in L. lia.
Qed.

Section Generic.
  Context (M : monitor) (seq : m_call M → m_state M → m_state M * m_res M) (now : m_call M → option gotime).
  Context (stamp : m_state M → gotime) (shows : m_res M → option gotime).
  Context (Sets : ∀ c s s' r, seq c s = (s', r) → stamp s' = stamp s ∨ now c = Some (stamp s')).
  Context (Show : ∀ c s s' r a, seq c s = (s', r) → shows r = Some a → stamp s = a ∧ stamp s' = a).
  Notation sequential := (sequential M seq).

  Lemma sequential_app s0 l1 l2 s : sequential s0 (l1 ++ l2) s → ∃ s1, sequential s0 l1 s1 ∧ sequential s1 l2 s.
  Proof.
    revert s. induction l2 as [|e l2 IH] using rev_ind; intros s H; [rewrite app_nil_r in H; exists s; split; [done|constructor]|].
    inversion H as [E|l s1 t c s2 r S E Eq]; [by destruct l1, l2|]. rewrite app_assoc in Eq. apply app_inj_tail in Eq as [-> <-].
    subst. destruct (IH _ S) as (s3 & S1 & S2). exists s3. split; [done|]. by econstructor.
  Qed.
  Lemma stamp_from s0 l s : sequential s0 l s → stamp s = stamp s0 ∨ ∃ t c r, (t, c, r) ∈ l ∧ now c = Some (stamp s).
  Proof using Sets.
    induction 1 as [|l s1 t c s2 r S IH E]; [by left|]. destruct (Sets _ _ _ _ E) as [Q|Q].
    - rewrite Q. destruct IH as [?|(t' & c' & r' & I & ?)]; [by left|]. right. exists t', c', r'. split; [apply elem_of_app; by left|done].
    - right. exists t, c, r. split; [apply elem_of_app; right; constructor|done].
  Qed.

  Lemma stamps s0 tr t1 r1 t2 c2 r2 a b : linearizable M seq s0 tr → clocked M now (stamp s0) tr →
    precedes tr (LRet t1 r1) (LCall t2 c2) → LRet t2 r2 ∈ tr → shows r1 = Some a → shows r2 = Some b → instant b < instant a →
    ∃ t c t' c', overtaken M tr t c t' c' ∧ now c = Some b ∧ now c' = Some a.
  Proof using Sets Show.
    intros (lin & N & (s & Q) & Called & Ret & Ord) (Clk0 & Clk) Pre R2 S1 S2 Lt.
    destruct (Ret t1 r1) as [c1 I1]; [by apply precedes_both in Pre as [? _]|]. destruct (Ret t2 r2 R2) as [c2' I2].
    pose proof (Ord _ _ _ _ Pre _ _ I1 I2 eq_refl eq_refl) as (l1 & l2 & l3 & ->).
    apply sequential_app in Q as (sa & Qa & Q). change ((t1, c1, r1) :: l2 ++ (t2, c2', r2) :: l3) with ([(t1, c1, r1)] ++ l2 ++ (t2, c2', r2) :: l3) in Q.
    apply sequential_app in Q as (sb & Qb & Q). apply sequential_app in Q as (sc & Qc & Q).
    change ((t2, c2', r2) :: l3) with ([(t2, c2', r2)] ++ l3) in Q. apply sequential_app in Q as (sd & Qd & _).
    assert (∀ x t c r y, sequential x [(t, c, r)] y → seq c x = (y, r)) as One.
    { intros x t c r y H. inversion H as [E|l z t' c' z' r' S E Eq]; subst. destruct l as [|? [|? ?]]; simplify_eq/=. inversion S as [|k ? ? ? ? ? ? ? Eq2]; [by subst|by destruct k]. }
    apply One in Qb, Qd. destruct (Show _ _ _ _ _ Qb S1) as [Ea Ea']. destruct (Show _ _ _ _ _ Qd S2) as [Eb _].
    destruct (stamp_from _ _ _ Qc) as [Z|(t & c & r & I & Nb)]; [rewrite Ea', Eb in Z; rewrite Z in Lt; lia|]. rewrite Eb in Nb.
    assert (LCall t c ∈ tr) as Ct by (eapply (Called _ _ r); set_solver).
    destruct (stamp_from _ _ _ Qa) as [Z|(t' & c' & r' & I' & Na)].
    { rewrite Ea in Z. rewrite <- Z in Clk0. specialize (Clk0 _ _ _ Ct Nb). lia. }
    rewrite Ea in Na. assert (LCall t' c' ∈ tr) as Ct' by (eapply (Called _ _ r'); set_solver).
    exists t, c, t', c'. split; [|done]. split.
    - destruct (precedes_either tr (LCall t c) (LCall t' c')) as [?|P]; [done|done| |done|].
      + intros [= -> ->]. rewrite Na in Nb. injection Nb as Nb. rewrite Nb in Lt. lia.
      + specialize (Clk _ _ _ _ _ _ P Na Nb). lia.
    - intros r0 P. apply elem_of_list_split in I as (x1 & x2 & ->). apply elem_of_list_split in I' as (y1 & y2 & ->).
      set (lin := (y1 ++ (t', c', r') :: y2) ++ (t1, c1, r1) :: (x1 ++ (t, c, r) :: x2) ++ (t2, c2', r2) :: l3) in *.
      assert (precedes lin (t', c', r') (t, c, r)) as P1.
      { exists y1, (y2 ++ (t1, c1, r1) :: x1), (x2 ++ (t2, c2', r2) :: l3). unfold lin. simpl. rewrite <- !app_assoc. simpl. rewrite <- ?app_assoc. done. }
      destruct (precedes_both _ _ _ P1) as [J1 J2].
      pose proof (Ord _ _ _ _ P _ _ J2 J1 eq_refl eq_refl) as P2. exact (precedes_asym (fst ∘ fst) lin _ _ N P1 P2).
  Qed.
End Generic.

Lemma dist_set c d d' r : dist_seq c d = (d', r) → d_ts d' = d_ts d ∨ dist_now c = Some (d_ts d').
Proof.
  destruct c as [[u|v ts|o v ts|v ts]| | |]; simpl; unfold newValueForDist, SetUnit, AddWithTs, UpdateWithTs, RemoveWithTs; intros E.
  - destruct (negb _); injection E as <- <-; by left.
  - destruct (valueToFloat d v); injection E as <- <-; [by left|right]. unfold add. simpl. repeat case_match; done.
  - destruct (valueToFloat d o); [injection E as <- <-; by left|]. destruct (valueToFloat d v); [injection E as <- <-; by left|].
    unfold update in E. destruct (negb _); [injection E as <- <-; by left|]. destruct (N.eqb _ _); [injection E as <- <-; by left|].
    right. destruct (decr _ _); injection E as <- <-; [|done]. simpl. repeat case_match; done.
  - destruct (valueToFloat d v); [injection E as <- <-; by left|].
    unfold remove in E. destruct (negb _); [injection E as <- <-; by left|]. destruct (N.eqb _ _); [injection E as <- <-; by left|].
    right. destruct (decr _ _); injection E as <- <-; done.
  - injection E as <- <-. by left.
  - injection E as <- <-. by left.
  - injection E as <- <-. by left.
Qed.
Lemma dist_show c d d' r a : dist_seq c d = (d', r) → dist_shows r = Some a → d_ts d = a ∧ d_ts d' = a.
Proof.
  destruct c as [c| | |]; simpl; intros E S.
  - destruct (callf c d). by injection E as <- <-.
  - injection E as <- <-. unfold dist_shows, Snapshot in S. destruct (N.eqb _ _); [by injection S as <-|]. destruct (calculateMedian d); [by injection S as <-|done].
  - by injection E as <- <-.
  - by injection E as <- <-.
Qed.
Lemma dist_stamps d0 tr c t1 r1 t2 c2 r2 a b : exec dist_monitor (start dist_monitor d0) tr c → clocked dist_monitor dist_now (d_ts d0) tr →
  precedes tr (LRet (M := dist_monitor) t1 r1) (LCall t2 c2) → LRet (M := dist_monitor) t2 r2 ∈ tr → dist_shows r1 = Some a → dist_shows r2 = Some b → instant b < instant a →
  ∃ t x t' x', overtaken dist_monitor tr t x t' x' ∧ dist_now x = Some b ∧ dist_now x' = Some a.
Proof. intros E. apply (stamps dist_monitor dist_seq dist_now d_ts dist_shows dist_set dist_show). by eapply dist_linearizable. Qed.

Lemma list_stamps l0 tr c t1 r1 t2 c2 r2 a b : exec list_monitor (start list_monitor l0) tr c → clocked list_monitor list_now (l_ts l0) tr →
  precedes tr (LRet (M := list_monitor) t1 r1) (LCall t2 c2) → LRet (M := list_monitor) t2 r2 ∈ tr → list_shows r1 = Some a → list_shows r2 = Some b → instant b < instant a →
  ∃ t x t' x', overtaken list_monitor tr t x t' x' ∧ list_now x = Some b ∧ list_now x' = Some a.
Proof.
  intros E. apply (stamps list_monitor list_seq list_now l_ts list_shows).
  - intros [s ts|] l l' r; simpl; intros [= <- <-]; [by right|by left].
  - intros [s ts|] l l' r x; simpl; intros [= <- <-]; simpl; [done|]. by intros [= <-].
  - by eapply list_linearizable.
Qed.

(** *** Groups *)
Lemma precedes_lookup {X} (l : list X) i j x y : l !! i = Some x → l !! j = Some y → (i < j)%nat → precedes l x y.
Proof.
  intros I J L. apply elem_of_list_split_length in I as (l1 & l2 & -> & ->). rewrite lookup_app_r in J by lia.
  replace (j - length l1)%nat with (S (j - length l1 - 1)) in J by lia. simpl in J. apply elem_of_list_split_length in J as (k1 & k2 & -> & _). by exists l1, k1, k2.
Qed.
Lemma precedes_more {X} (l k : list X) x y : precedes l x y → precedes (l ++ k) x y.
Proof. intros (l1 & l2 & l3 & ->). exists l1, l2, (l3 ++ k). rewrite <- !app_assoc. simpl. rewrite <- !app_assoc. done. Qed.

Lemma precedes_omap {X Y} (f : X → option Y) l x y a b : precedes l x y → f x = Some a → f y = Some b → precedes (omap f l) a b.
Proof. intros (l1 & l2 & l3 & ->) A B. exists (omap f l1), (omap f l2), (omap f l3). rewrite omap_app. simpl. rewrite A. rewrite omap_app. simpl. by rewrite B. Qed.

(** *** Checking the clock in concrete executions *)
Fixpoint ascending_from (t0 : Z) (l : list gotime) : bool := match l with [] => true | x :: l => (t0 <=? instant x) && ascending_from (instant x) l end.
Lemma ascending_from_all l t0 x : ascending_from t0 l = true → x ∈ l → t0 ≤ instant x.
Proof.
  revert t0. induction l as [|y l IH]; simpl; intros t0 H I; [by apply elem_of_nil in I|]. apply andb_true_iff in H as [H1 H2]. apply Z.leb_le in H1.
  apply elem_of_cons in I as [->|I]; [done|]. specialize (IH _ H2 I). lia.
Qed.
Lemma ascending_from_precedes l t0 x y : ascending_from t0 l = true → precedes l x y → instant x ≤ instant y.
Proof.
  intros H (l1 & l2 & l3 & ->). revert t0 H. induction l1 as [|z l1 IH]; simpl; intros t0 H; apply andb_true_iff in H as [_ H]; [|by eapply IH].
  eapply ascending_from_all; [exact H|]. set_solver.
Qed.
Definition nows M (now : m_call M → option gotime) (tr : list (label M)) : list gotime := omap (λ l, match l with LCall _ c => now c | _ => None end) tr.
Lemma clocked_check M now ts0 tr : ascending_from (instant ts0) (nows M now tr) = true → clocked M now ts0 tr.
Proof.
  intros H. split.
  - intros t c a I N. eapply ascending_from_all; [exact H|]. apply elem_of_list_omap. by exists (LCall t c).
  - intros t c t' c' a b (l1 & l2 & l3 & ->) Na Nb. eapply ascending_from_precedes; [exact H|]. unfold nows. rewrite omap_app. simpl. rewrite Na. simpl. rewrite omap_app. simpl. rewrite Nb.
    by eexists _, _, _.
Qed.

(** *** Finding a time stamp that goes back in concrete executions *)
Section GoesBack.
  Context (M : monitor) (shows : m_res M → option gotime).
  Definition returns_less (t : nat) (a : gotime) (l : label M) : bool :=
    match l with LRet t' r => Nat.eqb t' t && match shows r with Some b => instant b <? instant a | None => false end | _ => false end.
  Fixpoint calls_less (a : gotime) (tr : list (label M)) : bool :=
    match tr with [] => false | l :: tr => match l with LCall t _ => existsb (returns_less t a) tr | _ => false end || calls_less a tr end.
  Fixpoint goes_back (tr : list (label M)) : bool :=
    match tr with [] => false | l :: tr => match l with LRet _ r => match shows r with Some a => calls_less a tr | None => false end | _ => false end || goes_back tr end.
  Lemma calls_less_sound a tr : calls_less a tr = true → ∃ t2 c2 r2 b, LCall t2 c2 ∈ tr ∧ LRet t2 r2 ∈ tr ∧ shows r2 = Some b ∧ instant b < instant a.
  Proof.
    induction tr as [|l tr IH]; simpl; [done|]. intros H. apply orb_true_iff in H as [H|H].
    - destruct l as [t c|t|t|t r]; try done. apply existsb_exists in H as (l & I & H). apply elem_of_list_In in I. destruct l as [t2 c2|t2|t2|t' r]; try done. simpl in H. apply andb_true_iff in H as [E H].
      apply Nat.eqb_eq in E as ->. destruct (shows r) as [b|] eqn:Sh; [|done]. apply Z.ltb_lt in H. exists t, c, r, b. split_and!; [by constructor|by constructor|done|done].
    - destruct (IH H) as (t2 & c2 & r2 & b & ? & ? & ? & ?). exists t2, c2, r2, b. split_and!; [by constructor|by constructor|done|done].
  Qed.
  Lemma goes_back_sound tr : goes_back tr = true →
    ∃ t1 r1 t2 c2 r2 a b, precedes tr (LRet t1 r1) (LCall t2 c2) ∧ LRet t2 r2 ∈ tr ∧ shows r1 = Some a ∧ shows r2 = Some b ∧ instant b < instant a.
  Proof.
    induction tr as [|l tr IH]; simpl; [done|]. intros H. apply orb_true_iff in H as [H|H].
    - destruct l as [t2 c2|t2|t2|t r]; try done. destruct (shows r) as [a|] eqn:Sh; [|done]. destruct (calls_less_sound _ _ H) as (t2 & c2 & r2 & b & I & J & ? & ?).
      apply elem_of_list_split in I as (l1 & l2 & ->). exists t, r, t2, c2, r2, a, b. split_and!; try done; [by exists [], l1, l2|by constructor].
    - destruct (IH H) as (t1 & r1 & t2 & c2 & r2 & a & b & (l1 & l2 & l3 & ->) & ? & ? & ? & ?).
      exists t1, r1, t2, c2, r2, a, b. split_and!; try done; [by exists (l :: l1), l2, l3|by constructor].
  Qed.
End GoesBack.
