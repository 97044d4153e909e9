(** Every execution of a monitor whose readers do not write is linearizable, in the order of acquisition. *)
From Coq Require Import Lia.
From stdpp Require Import list sets.
From Verif Require Import MonitorModel MonitorSpec.

Fixpoint eval {S R} (p : prog S R) (s : S) : S * R :=
  match p with Done r => (s, r) | Step f => let '(s', p') := f s in eval p' s' end.
Inductive readonly {S R} : prog S R → Prop :=
  | ro_done r : readonly (Done r)
  | ro_step f : (∀ s, fst (f s) = s ∧ readonly (snd (f s))) → readonly (Step f).
Lemma readonly_rd {S R X} (f : S → X) (k : X → prog S R) : (∀ x, readonly (k x)) → readonly (rd f k).
Proof. intros H. constructor. intros s. simpl. auto. Qed.
Lemma eval_rd {S R X} (f : S → X) (k : X → prog S R) s : eval (rd f k) s = eval (k (f s)) s.
Proof. done. Qed.
Lemma eval_wr {S R} (f : S → S) (k : prog S R) s : eval (wr f k) s = eval k (f s).
Proof. done. Qed.

Lemma sequential_split M seq s l1 t c r l2 s' : sequential M seq s (l1 ++ (t, c, r) :: l2) s' → ∃ s1 s2, sequential M seq s l1 s1 ∧ seq c s1 = (s2, r).
Proof.
  revert s'. induction l2 as [|e l2 IH] using rev_ind; intros s' H.
  - inversion H as [E|l s1 t' c' s2 r' S E Eq]; [by destruct l1|]. apply app_inj_tail in Eq as [-> [= -> -> ->]]. eauto.
  - inversion H as [E|l s1 t' c' s2 r' S E Eq]; [by destruct l1|]. rewrite app_comm_cons, app_assoc in Eq. apply app_inj_tail in Eq as [-> _]. eauto.
Qed.

Section Lin.
  Context (M : monitor) (seq : m_call M → m_state M → m_state M * m_res M).
  Context (Body : ∀ c s, eval (m_body M c) s = seq c s) (Ro : ∀ c, m_mode M c = Rd → readonly (m_body M c)).
  Implicit Types (c : config M) (x : m_call M) (t : nat) (lin : list (entry M)).
  Definition inside (m : mode) (ph : phase M) : Prop := match ph with Inside x _ => m_mode M x = m | _ => False end.
  #[local] Instance inside_dec m ph : Decision (inside m ph).
  Proof. destruct ph; simpl; try (right; tauto). destruct (m_mode M c), m; (left; reflexivity) || (right; done). Defined.
  Definition sm (c : config M) (m : mode) : nat := length (filter (inside m) (c_threads c)).

  Record linv (s0 : m_state M) (tr : list (label M)) (c : config M) (lin : list (entry M)) (s : m_state M) : Prop := {
    li_seq : sequential M seq s0 lin s;
    li_nodup : NoDup (fst ∘ fst <$> lin);
    li_readers : c_readers c = sm c Rd;
    li_writers : sm c Wr = if c_writer c then 1 else 0;
    li_excl : c_writer c = true → c_readers c = 0;
    li_free : c_writer c = false → c_st c = s;
    li_in : ∀ t x p, c_threads c !! t = Some (Inside x p) → ∃ r, (t, x, r) ∈ lin ∧ eval p (c_st c) = (s, r) ∧ (m_mode M x = Rd → readonly p);
    li_entry : ∀ t x r, (t, x, r) ∈ lin → (∃ p, c_threads c !! t = Some (Inside x p)) ∨ (c_threads c !! t = Some (Returned x) ∧ LRet t r ∈ tr);
    li_ret : ∀ t r, LRet t r ∈ tr → ∃ x, c_threads c !! t = Some (Returned x) ∧ (t, x, r) ∈ lin;
    li_call : ∀ t x, LCall t x ∈ tr ↔ (c_threads c !! t = Some (Waiting x) ∨ (∃ p, c_threads c !! t = Some (Inside x p)) ∨ c_threads c !! t = Some (Returned x));
    li_order : ∀ t r t' x', precedes tr (LRet t r) (LCall t' x') → ∀ e e', e ∈ lin → e' ∈ lin → fst (fst e) = t → fst (fst e') = t' → precedes lin e e' }.

  Lemma filter_insert_length P `{∀ ph : phase M, Decision (P ph)} (l : list (phase M)) t a b : l !! t = Some a →
    length (filter P (<[t := b]> l)) + (if decide (P a) then 1 else 0) = length (filter P l) + (if decide (P b) then 1 else 0).
  Proof.
    revert t. induction l as [|y l IH]; intros [|t] L; simplify_eq/=.
    - rewrite !filter_cons. repeat case_decide; simpl; lia.
    - specialize (IH t L). rewrite !filter_cons. repeat case_decide; simpl in *; lia.
  Qed.
  Lemma sm_insert (c : config M) m t a b s w r : c_threads c !! t = Some a →
    sm (MkConfig M s w r (<[t := b]> (c_threads c))) m + (if decide (inside m a) then 1 else 0) = sm c m + (if decide (inside m b) then 1 else 0).
  Proof. intros L. unfold sm. simpl. by apply filter_insert_length. Qed.
  Lemma precedes_snoc {X} (l : list X) a e e' : precedes (l ++ [a]) e e' ↔ precedes l e e' ∨ (e ∈ l ∧ e' = a).
  Proof.
    split.
    - intros (l1 & l2 & l3 & E). destruct l3 as [|z l3 _] using rev_ind.
      + right. rewrite !app_comm_cons, app_assoc in E. change (e :: l2 ++ [e']) with ([e] ++ l2 ++ [e']) in E. assert (l ++ [a] = (l1 ++ e :: l2) ++ [e']) as E2.
        { rewrite E. by rewrite <- !app_assoc. }
        apply app_inj_tail in E2 as [-> ->]. split; [set_solver|done].
      + left. assert (l ++ [a] = (l1 ++ e :: l2 ++ e' :: l3) ++ [z]) as E2.
        { rewrite E. rewrite <- !app_assoc. simpl. rewrite <- !app_assoc. done. }
        apply app_inj_tail in E2 as [-> ->]. by exists l1, l2, l3.
    - intros [(l1 & l2 & l3 & ->)|[H ->]].
      + exists l1, l2, (l3 ++ [a]). rewrite <- !app_assoc. simpl. rewrite <- !app_assoc. done.
      + apply elem_of_list_split in H as (l1 & l2 & ->). exists l1, l2, []. rewrite <- !app_assoc. done.
  Qed.
  Lemma precedes_in {X} (l : list X) e e' : precedes l e e' → e ∈ l ∧ e' ∈ l.
  Proof. intros (l1 & l2 & l3 & ->). set_solver. Qed.
  Lemma eval_readonly {S R} : ∀ (p : prog S R) s, readonly p → fst (eval p s) = s.
  Proof.
    fix IH 1. intros p s. destruct p as [r|f]; intros H; [done|]. inversion H as [|f' Hf]; subst. destruct (Hf s) as [E1 E2]. simpl.
    specialize (IH (snd (f s)) s E2). destruct (f s) as [s' p']. simpl in *. by subst.
  Qed.
  Lemma sm_zero (c : config M) m t a : sm c m = 0 → c_threads c !! t = Some a → ¬ inside m a.
  Proof.
    unfold sm. intros Z L I. apply length_zero_iff_nil in Z. assert (a ∈ filter (inside m) (c_threads c)) as E by (apply elem_of_list_filter; split; [done|by eapply elem_of_list_lookup_2]).
    rewrite Z in E. by apply elem_of_nil in E.
  Qed.
  Lemma sm_one (c : config M) m t a : c_threads c !! t = Some a → inside m a → sm c m = 1 → ∀ t' a', c_threads c !! t' = Some a' → inside m a' → t' = t.
  Proof.
    unfold sm. intros L I O t' a' L' I'. pose proof (filter_insert_length (inside m) (c_threads c) t a (match a with Inside x _ => Returned x | _ => a end) L) as H.
    destruct (decide (t' = t)) as [|N]; [done|]. exfalso. destruct a as [x|x p|x]; try done. rewrite decide_True in H by done. rewrite decide_False in H by (simpl; tauto).
    assert (length (filter (inside m) (<[t:=Returned x]> (c_threads c))) = 0) as Z by lia. apply length_zero_iff_nil in Z.
    assert (a' ∈ filter (inside m) (<[t:=Returned x]> (c_threads c))) as E.
    { apply elem_of_list_filter; split; [done|]. eapply elem_of_list_lookup_2. rewrite list_lookup_insert_ne by done. exact L'. }
    rewrite Z in E. by apply elem_of_nil in E.
  Qed.

  Lemma linv_exec s0 tr c : exec M (start M s0) tr c → ∃ lin s, linv s0 tr c lin s.
  Proof using Body Ro.
    induction 1 as [|tr c l c' E IH St].
    { exists [], s0. split; simpl; try done; try constructor; try (by intros; set_solver). }
    destruct IH as (lin & s & I). destruct I as [I1 I2 I3 I4 I5 I6 I7 I8 I9 I10 I11]. destruct St as [c x|c t x w n L A|c t x f s1 p L F|c t x r w n L A].
    - (* call *)
      exists lin, s. assert (∀ t ph, c_threads c !! t = Some ph → (c_threads c ++ [Waiting x]) !! t = Some ph) as Keep by (intros t ph Hl; by apply lookup_app_l_Some).
      assert (∀ t ph, (c_threads c ++ [Waiting x]) !! t = Some ph → c_threads c !! t = Some ph ∨ (t = length (c_threads c) ∧ ph = Waiting x)) as Back.
      { intros t ph Hl. apply lookup_app_Some in Hl as [Hl|[Hl1 Hl2]]; [auto|]. right. apply list_lookup_singleton_Some in Hl2 as [? <-]. split; [lia|done]. }
      assert (∀ m, sm (MkConfig M (c_st c) (c_writer c) (c_readers c) (c_threads c ++ [Waiting x])) m = sm c m) as Sm.
      { intros m. unfold sm. simpl. rewrite filter_app, app_length. rewrite filter_cons_False by (simpl; tauto). simpl. lia. }
      split; simpl; rewrite ?Sm; try done.
      + intros t y p Hl. apply Back in Hl as [Hl|[_ Hl]]; [|done]. eauto.
      + intros t y r Hl. destruct (I8 t y r Hl) as [[p Hp]|[Hp Hr]]; [left; eauto|right; split; [auto|set_solver]].
      + intros t r Hl. apply elem_of_app in Hl as [Hl|Hl]; [|apply elem_of_list_singleton in Hl; done]. destruct (I9 t r Hl) as (y & ? & ?). eauto.
      + intros t y. rewrite elem_of_app, elem_of_list_singleton, I10. split.
        * intros [[Hl|[[p Hl]|Hl]]|[= -> ->]]; [auto|eauto|auto|]. left. by apply list_lookup_middle.
        * intros [Hl|[[p Hl]|Hl]]; apply Back in Hl as [Hl|[-> Hl]]; try done; [auto|right; by injection Hl as ->|eauto|auto].
      + intros t r t' x' P e e' He He' <- <-. apply precedes_snoc in P as [P|[P Q]]; [by eapply I11|]. injection Q as Q1 Q2.
        destruct e' as [[t1 x1] r1]. simpl in Q1. subst t1. apply I8 in He' as [[p Hp]|[Hp _]]; apply lookup_lt_Some in Hp; lia.
    - (* acquire *)
      assert (c_writer c = false) as W by (unfold acquire in A; destruct (m_mode M x), (c_writer c); try done). specialize (I6 W).
      destruct (seq x s) as [s2 r] eqn:Sq. exists (lin ++ [(t, x, r)]), s2. rewrite W in *.
      assert (∀ y r, (t, y, r) ∉ lin) as Fresh by (intros y r1 Hy; destruct (I8 _ _ _ Hy) as [[p Hp]|[Hp _]]; congruence).
      pose proof (sm_insert c Rd t _ (Inside x (m_body M x)) (c_st c) w n L) as R1. pose proof (sm_insert c Wr t _ (Inside x (m_body M x)) (c_st c) w n L) as R2.
      rewrite !(decide_False (P := inside _ (Waiting x))) in R1, R2 by (simpl; tauto).
      assert (w = true → ∀ t' x' p', c_threads c !! t' = Some (Inside x' p') → False) as NoIn.
      { intros -> t' x' p' L'. unfold acquire in A. destruct (m_mode M x); [by destruct (c_writer c)|]. rewrite W in A. destruct (Nat.eqb_spec (c_readers c) 0) as [Z|]; [|done].
        destruct (m_mode M x') eqn:Em; [eapply (sm_zero c Rd)|eapply (sm_zero c Wr)]; try exact L'; try exact Em; congruence || lia. }
      assert (m_mode M x = Rd → s2 = s) as Same.
      { intros Hm. pose proof (eval_readonly (m_body M x) s (Ro x Hm)) as Er. rewrite Body, Sq in Er. done. }
      assert (w = false → m_mode M x = Rd) as WR by (unfold acquire in A; destruct (m_mode M x); [done|]; rewrite W in A; simpl in A; destruct (negb _); by intros ->).
      assert (w = true → m_mode M x = Wr) as WW by (unfold acquire in A; destruct (m_mode M x); [|done]; rewrite W in A; injection A as <- <-; done).
      split; simpl.
      + econstructor; [exact I1|done].
      + rewrite fmap_app. apply NoDup_app. split_and!; [done| |by apply NoDup_singleton]. intros t1 H1 H2. apply elem_of_list_singleton in H2 as ->. apply elem_of_list_fmap in H1 as ([[? ?] ?] & H1 & H2). simpl in H1. subst. by eapply Fresh.
      + unfold acquire in A. rewrite W in A. destruct (m_mode M x) eqn:Em; simpl in A.
        * injection A as <- <-. rewrite decide_True in R1 by done. lia.
        * destruct (Nat.eqb_spec (c_readers c) 0) as [Z|]; simpl in A; [|done]. injection A as <- <-. rewrite decide_False in R1 by (simpl; congruence). lia.
      + destruct w.
        * rewrite decide_True in R2 by (simpl; auto). lia.
        * rewrite decide_False in R2 by (simpl; rewrite WR by done; done). lia.
      + intros ->. unfold acquire in A. rewrite W in A. destruct (m_mode M x); [done|]. simpl in A. destruct (negb _); [done|]. by injection A.
      + intros ->. rewrite Same by auto. done.
      + intros t' y p Hl. destruct (decide (t' = t)) as [->|N].
        * rewrite list_lookup_insert in Hl by (by eapply lookup_lt_Some). injection Hl as <- <-. exists r. split_and!; [set_solver| |auto]. rewrite I6, Body, Sq. done.
        * rewrite list_lookup_insert_ne in Hl by done. destruct w; [by destruct (NoIn eq_refl _ _ _ Hl)|]. destruct (I7 t' y p Hl) as (r' & J1 & J2 & J3).
          exists r'. split_and!; [set_solver| |done]. rewrite Same by auto. done.
      + intros t' y r' Hl. apply elem_of_app in Hl as [Hl|Hl].
        * destruct (decide (t' = t)) as [->|N]; [by apply Fresh in Hl|]. rewrite list_lookup_insert_ne by done. destruct (I8 _ _ _ Hl) as [?|[? ?]]; [auto|right; split; [done|set_solver]].
        * apply elem_of_list_singleton in Hl. injection Hl as -> -> ->. left. rewrite list_lookup_insert by (by eapply lookup_lt_Some). eauto.
      + intros t' r' Hl. apply elem_of_app in Hl as [Hl|Hl]; [|apply elem_of_list_singleton in Hl; done]. destruct (I9 _ _ Hl) as (y & J1 & J2). exists y.
        assert (t' ≠ t) as N by congruence. rewrite list_lookup_insert_ne by done. split; [done|set_solver].
      + intros t' y. rewrite elem_of_app, elem_of_list_singleton, I10. destruct (decide (t' = t)) as [->|N].
        * rewrite list_lookup_insert by (by eapply lookup_lt_Some). rewrite L. naive_solver.
        * rewrite list_lookup_insert_ne by done. naive_solver.
      + intros t1 r1 t2 x2 P e e' He He' <- <-. apply precedes_snoc in P as [P|[_ P]]; [|done].
        pose proof (precedes_in _ _ _ P) as [P1 P2]. apply precedes_snoc.
        apply elem_of_app in He as [He|He]; apply elem_of_app in He' as [He'|He'].
        * left. by eapply I11.
        * right. split; [done|]. by apply elem_of_list_singleton in He'.
        * apply elem_of_list_singleton in He. subst e. simpl in *. destruct (I9 _ _ P1) as (? & ? & ?). congruence.
        * apply elem_of_list_singleton in He. subst e. simpl in *. destruct (I9 _ _ P1) as (? & ? & ?). congruence.
    - (* run *)
      exists lin, s. destruct (I7 _ _ _ L) as (r & J1 & J2 & J3). simpl in J2. rewrite F in J2.
      pose proof (sm_insert c Rd t _ (Inside x p) s1 (c_writer c) (c_readers c) L) as R1. pose proof (sm_insert c Wr t _ (Inside x p) s1 (c_writer c) (c_readers c) L) as R2.
      assert (∀ m, (if decide (inside m (Inside x (Step f))) then 1 else 0) = (if decide (inside m (Inside x p)) then 1 else 0)) as Q by (intros m; repeat case_decide; done).
      rewrite Q in R1, R2. assert (m_mode M x = Rd → s1 = c_st c ∧ readonly p) as RO.
      { intros Hm. specialize (J3 Hm). inversion J3 as [|f' Hf]; subst. destruct (Hf (c_st c)) as [H1 H2]. rewrite F in H1, H2. done. }
      assert (m_mode M x = Wr → c_writer c = true) as WW.
      { intros Hm. destruct (c_writer c); [done|]. exfalso. by apply (sm_zero c Wr t _ I4 L). }
      split; simpl; try done; try lia.
      + intros W. destruct (m_mode M x) eqn:Em; [|specialize (WW eq_refl); congruence]. destruct (RO eq_refl) as [-> _]. auto.
      + intros t' y p' Hl. destruct (decide (t' = t)) as [->|N].
        * rewrite list_lookup_insert in Hl by (by eapply lookup_lt_Some). injection Hl as <- <-. exists r. split_and!; [done|done|]. intros Hm. by apply RO.
        * rewrite list_lookup_insert_ne in Hl by done. destruct (I7 _ _ _ Hl) as (r' & K1 & K2 & K3). exists r'. split_and!; [done| |done].
          destruct (m_mode M x) eqn:Em; [by destruct (RO eq_refl) as [-> _]|]. specialize (WW eq_refl). exfalso. rewrite WW in I4. specialize (I5 WW).
          destruct (m_mode M y) eqn:Ey; [by apply (sm_zero c Rd t' _ ltac:(congruence) Hl)|]. apply N. by eapply (sm_one c Wr t _ L Em I4 t' _ Hl).
      + intros t' y r' Hl. destruct (decide (t' = t)) as [->|N].
        * rewrite list_lookup_insert by (by eapply lookup_lt_Some). left. destruct (I8 _ _ _ Hl) as [[p' Hp]|[Hp _]]; [|congruence]. rewrite L in Hp. injection Hp as <- _. eauto.
        * rewrite list_lookup_insert_ne by done. destruct (I8 _ _ _ Hl) as [?|[? ?]]; [auto|right; split; [done|set_solver]].
      + intros t' r' Hl. apply elem_of_app in Hl as [Hl|Hl]; [|apply elem_of_list_singleton in Hl; done]. destruct (I9 _ _ Hl) as (y & K1 & K2). exists y.
        assert (t' ≠ t) as N by congruence. by rewrite list_lookup_insert_ne.
      + intros t' y. rewrite elem_of_app, elem_of_list_singleton, I10. destruct (decide (t' = t)) as [->|N].
        * rewrite list_lookup_insert by (by eapply lookup_lt_Some). rewrite L. naive_solver.
        * rewrite list_lookup_insert_ne by done. naive_solver.
      + intros t1 r1 t2 x2 P. apply precedes_snoc in P as [P|[_ P]]; [by eapply I11|done].
    - (* return *)
      exists lin, s. destruct (I7 _ _ _ L) as (r' & J1 & J2 & J3). simpl in J2. injection J2 as J2 <-.
      pose proof (sm_insert c Rd t _ (Returned x) (c_st c) w n L) as R1. pose proof (sm_insert c Wr t _ (Returned x) (c_st c) w n L) as R2.
      rewrite !(decide_False (P := inside _ (Returned x))) in R1, R2 by (simpl; tauto).
      assert (sm c (m_mode M x) ≠ 0) as Nz by (intros Z; by apply (sm_zero c _ t _ Z L)).
      split; simpl; try done.
      + unfold release in A. destruct (m_mode M x) eqn:Em; injection A as <- <-.
        * rewrite decide_True in R1 by done. lia.
        * rewrite decide_False in R1 by (simpl; congruence). lia.
      + unfold release in A. destruct (m_mode M x) eqn:Em; injection A as <- <-.
        * rewrite decide_False in R2 by (simpl; congruence). lia.
        * rewrite decide_True in R2 by done. destruct (c_writer c); lia.
      + unfold release in A. destruct (m_mode M x) eqn:Em; injection A as <- <-; [|done]. intros W. rewrite (I5 W). done.
      + intros t' y p Hl. assert (t' ≠ t) as N by (intros ->; rewrite list_lookup_insert in Hl by (by eapply lookup_lt_Some); done).
        rewrite list_lookup_insert_ne in Hl by done. eauto.
      + intros t' y r' Hl. destruct (decide (t' = t)) as [->|N].
        * rewrite list_lookup_insert by (by eapply lookup_lt_Some). right. assert ((t, y, r') = (t, x, r)) as Eq.
          { apply elem_of_list_lookup in Hl as [i Hi]. apply elem_of_list_lookup in J1 as [j Hj]. assert (i = j) as ->; [|congruence].
            eapply (NoDup_lookup _ _ _ t I2); rewrite list_lookup_fmap; [rewrite Hi|rewrite Hj]; done. }
          injection Eq as -> ->. split; [done|set_solver].
        * rewrite list_lookup_insert_ne by done. destruct (I8 _ _ _ Hl) as [?|[? ?]]; [auto|right; split; [done|set_solver]].
      + intros t' r' Hl. apply elem_of_app in Hl as [Hl|Hl].
        * destruct (I9 _ _ Hl) as (y & K1 & K2). exists y. assert (t' ≠ t) as N by congruence. by rewrite list_lookup_insert_ne.
        * apply elem_of_list_singleton in Hl. injection Hl as -> ->. exists x. rewrite list_lookup_insert by (by eapply lookup_lt_Some). done.
      + intros t' y. rewrite elem_of_app, elem_of_list_singleton, I10. destruct (decide (t' = t)) as [->|N].
        * rewrite list_lookup_insert by (by eapply lookup_lt_Some). rewrite L. naive_solver.
        * rewrite list_lookup_insert_ne by done. naive_solver.
      + intros t1 r1 t2 x2 P. apply precedes_snoc in P as [P|[_ P]]; [by eapply I11|done].
  Qed.

  Theorem monitor_linearizable s0 tr c : exec M (start M s0) tr c → linearizable M seq s0 tr.
  Proof using Body Ro.
    intros E. destruct (linv_exec s0 tr c E) as (lin & s & [I1 I2 I3 I4 I5 I6 I7 I8 I9 I10 I11]). exists lin. split_and!; [done|eauto| | |done].
    - intros t x r Hl. apply I10. destruct (I8 _ _ _ Hl) as [?|[? ?]]; auto.
    - intros t r Hl. destruct (I9 _ _ Hl) as (y & ? & ?). eauto.
  Qed.
  (** while nobody is inside, the fields hold the state after the linearized calls, and all of those returned *)
  Theorem monitor_quiescent s0 tr c : exec M (start M s0) tr c → (∀ t x p, c_threads c !! t ≠ Some (Inside x p)) →
    ∃ lin, linearization M seq s0 tr lin ∧ sequential M seq s0 lin (c_st c) ∧ ∀ t x r, (t, x, r) ∈ lin → LRet t r ∈ tr.
  Proof using Body Ro.
    intros E Q. destruct (linv_exec s0 tr c E) as (lin & s & [I1 I2 I3 I4 I5 I6 I7 I8 I9 I10 I11]). exists lin.
    assert (c_writer c = false) as W.
    { destruct (c_writer c); [|done]. exfalso. assert (∃ ph, ph ∈ filter (inside Wr) (c_threads c)) as [ph Hp].
      { unfold sm in I4. destruct (filter (inside Wr) (c_threads c)) as [|ph ?]; [done|]. exists ph. by left. }
      apply elem_of_list_filter in Hp as [Hp Hl]. apply elem_of_list_lookup in Hl as [t Hl]. destruct ph; try done. by eapply Q. }
    split_and!.
    - split_and!; [done|eauto| | |done].
      + intros t x r Hl. apply I10. destruct (I8 _ _ _ Hl) as [?|[? ?]]; auto.
      + intros t r Hl. destruct (I9 _ _ Hl) as (y & ? & ?). eauto.
    - by rewrite I6.
    - intros t x r Hl. destruct (I8 _ _ _ Hl) as [[p Hp]|[? ?]]; [by apply Q in Hp|done].
  Qed.
  (** some call can always take a step, unless all have returned *)
  Theorem monitor_progress s0 tr c : exec M (start M s0) tr c → (∀ ph, ph ∈ c_threads c → ∃ x, ph = Returned x) ∨
    (∃ l c', step M c l c' ∧ ∀ t x, l ≠ LCall t x).
  Proof using Body Ro.
    intros E. destruct (linv_exec s0 tr c E) as (lin & s & [I1 I2 I3 I4 I5 I6 I7 I8 I9 I10 I11]).
    destruct (decide (Exists (λ ph, inside Rd ph ∨ inside Wr ph) (c_threads c))) as [X|X].
    - right. apply Exists_exists in X as (ph & Hl & Hi). apply elem_of_list_lookup in Hl as [t Hl]. destruct ph as [x|x [r|f]|x]; try (by destruct Hi).
      + destruct (release M (m_mode M x) c) as [w n] eqn:A. eexists _, _. split; [by eapply step_ret|done].
      + destruct (f (c_st c)) as [s1 p] eqn:F. eexists _, _. split; [by eapply step_run|done].
    - assert (∀ m ph, ph ∈ c_threads c → ¬ inside m ph) as No.
      { intros m ph Hl Hi. apply X, Exists_exists. exists ph. split; [done|]. destruct m; auto. }
      assert (∀ m, sm c m = 0) as Z.
      { intros m. unfold sm. destruct (filter (inside m) (c_threads c)) as [|ph ?] eqn:F; [done|]. exfalso.
        assert (ph ∈ filter (inside m) (c_threads c)) as Hp by (rewrite F; by left). apply elem_of_list_filter in Hp as [? ?]. by eapply No. }
      assert (c_readers c = 0) as R0 by (by rewrite I3). assert (c_writer c = false) as W0 by (rewrite Z in I4; destruct (c_writer c); done).
      destruct (decide (Exists (λ ph, (match ph with Waiting _ => true | _ => false end) = true) (c_threads c))) as [Y|Y].
      + right. apply Exists_exists in Y as (ph & Hl & Hi). apply elem_of_list_lookup in Hl as [t Hl]. destruct ph as [x| |]; try done.
        destruct (acquire M (m_mode M x) c) as [[w n]|] eqn:A.
        * eexists _, _. split; [by eapply step_acq|done].
        * unfold acquire in A. rewrite W0, R0 in A. by destruct (m_mode M x).
      + left. intros ph Hl. destruct ph as [x|x p|x]; [|by destruct (No (m_mode M x) _ Hl)|eauto]. exfalso. apply Y, Exists_exists. eauto.
  Qed.
End Lin.

(** *** Running a schedule, for examples *)
Section Go.
  Context (M : monitor).
  (** a new call, or one step of goroutine t *)
  Inductive cmd := Call (x : m_call M) | Do (t : nat).
  Definition stepf (c : config M) (k : cmd) : option (label M * config M) :=
    match k with
    | Call x => Some (LCall (length (c_threads c)) x, MkConfig M (c_st c) (c_writer c) (c_readers c) (c_threads c ++ [Waiting x]))
    | Do t =>
        match c_threads c !! t with
        | Some (Waiting x) => match acquire M (m_mode M x) c with
                              | Some (w, r) => Some (LAcq t, MkConfig M (c_st c) w r (<[t := Inside x (m_body M x)]> (c_threads c)))
                              | None => None
                              end
        | Some (Inside x (Step f)) => let '(s, p) := f (c_st c) in Some (LRun t, MkConfig M s (c_writer c) (c_readers c) (<[t := Inside x p]> (c_threads c)))
        | Some (Inside x (Done r)) => let '(w, n) := release M (m_mode M x) c in Some (LRet t r, MkConfig M (c_st c) w n (<[t := Returned x]> (c_threads c)))
        | _ => None
        end
    end.
  Fixpoint go (c : config M) (acc : list (label M)) (ks : list cmd) : option (list (label M) * config M) :=
    match ks with [] => Some (acc, c) | k :: ks => match stepf c k with Some (l, c1) => go c1 (acc ++ [l]) ks | None => None end end.
  Lemma stepf_sound c k l c' : stepf c k = Some (l, c') → step M c l c'.
  Proof.
    destruct k as [x|t]; simpl; [intros [= <- <-]; constructor|]. destruct (c_threads c !! t) as [[x|x [r|f]|x]|] eqn:L; try done.
    - destruct (acquire M (m_mode M x) c) as [[w r]|] eqn:A; [|done]. intros [= <- <-]. by econstructor.
    - destruct (release M (m_mode M x) c) as [w n] eqn:A. intros [= <- <-]. by econstructor.
    - destruct (f (c_st c)) as [s p] eqn:F. intros [= <- <-]. by econstructor.
  Qed.
  Lemma go_sound ks : ∀ c0 c acc tr c', exec M c0 acc c → go c acc ks = Some (tr, c') → exec M c0 tr c'.
  Proof.
    induction ks as [|k ks IH]; simpl; intros c0 c acc tr c' E G; [by injection G as <- <-|].
    destruct (stepf c k) as [[l c1]|] eqn:S; [|done]. eapply IH; [|exact G]. econstructor; [done|by eapply stepf_sound].
  Qed.
  Lemma go_check s ks (P : list (label M) → config M → bool) : (match go (start M s) [] ks with Some (tr, c) => P tr c | None => false end) = true →
    ∃ tr c, exec M (start M s) tr c ∧ P tr c = true.
  Proof. destruct (go _ _ _) as [[tr c]|] eqn:G; [|done]. intros H. exists tr, c. split; [|done]. eapply go_sound; [constructor|exact G]. Qed.
End Go.
Arguments Call {M}. Arguments Do {M}.
