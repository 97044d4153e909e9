(** Update functions that call the library: projection to RegionModel.v, progress, deadlock. *)
From stdpp Require Import gmap list.
From Coq Require Import ZArith Lia.
From Verif Require Import RegionModel RegionSpec RegionProofs RegionThms RegionLive RegionNestModel RegionNestSpec.

Lemma over_finished th : over th = true ↔ finished th.
Proof. destruct th as [p s k]. unfold finished. simpl. destruct p, s, k; simpl; naive_solver. Qed.
Lemma nlift_some s x l s' : nlift s x = Some (l, s') → ∃ l0 c, x = Some (l0, c) ∧ l = NL l0 ∧ s' = MkN c (n_calls s).
Proof. destruct x as [[l0 c]|]; [|discriminate 1]. intros [= <- <-]. eauto. Qed.
(** what a step is *)
Inductive nview (s : nconfig) : nlabel → nconfig → Prop :=
  | nv_plain k l c : stepf (n_c s) k = Some (l, c) → (∀ r time, k = Handle r time → n_calls s r = None) →
      nview s (NL l) (MkN c (n_calls s))
  | nv_call r p f c : r_h (c_regs (n_c s) r) = HUpdating f → n_calls s r = None → stepf (n_c s) (Spawn p) = Some (LSpawn (length (c_pool (n_c s))) p, c) →
      nview s (NLCall r (length (c_pool (n_c s))) p) (MkN c (fupd r (Some (length (c_pool (n_c s)))) (n_calls s)))
  | nv_return r t th : n_calls s r = Some t → c_pool (n_c s) !! t = Some th → finished th → nview s (NLReturn r t) (MkN (n_c s) (fupd r None (n_calls s))).
Lemma nstepf_view s k l s' : nstepf s k = Some (l, s') → nview s l s'.
Proof.
  destruct k as [k|r p|r]; simpl.
  - assert (G : ∀ x, nlift s x = Some (l, s') → x = stepf (n_c s) k → (∀ r time, k = Handle r time → n_calls s r = None) → nview s l s').
    { intros x E -> N. apply nlift_some in E as (l0 & c & E & -> & ->). by econstructor. }
    destruct k as [p|t ch|t|t|r time|r x v]; intros E; try (eapply G; [exact E|reflexivity|discriminate]).
    + destruct (n_calls s r) eqn:C; [discriminate E|]. eapply G; [exact E|reflexivity|]. by intros ? ? [= <- _].
    + destruct (n_calls s r) eqn:C; [discriminate E|]. eapply G; [exact E|reflexivity|discriminate].
  - destruct (r_h _) eqn:Hh; try discriminate 1. destruct (n_calls s r) eqn:C; [discriminate 1|]. destruct (bracketed false p) eqn:B; [|discriminate 1].
    intros [= <- <-]. eapply nv_call; [done|done|]. simpl. by rewrite B.
  - destruct (n_calls s r) as [t|] eqn:C; [|discriminate 1]. destruct (c_pool (n_c s) !! t) as [th|] eqn:P; [|discriminate 1].
    destruct (over th) eqn:O; [|discriminate 1]. intros [= <- <-]. apply over_finished in O. by econstructor.
Qed.
Lemma nview_exec s l s' : nview s l s' → exec (n_c s) (plain l) (n_c s').
Proof.
  intros [k l0 c St _|r p f c _ _ St|]; simpl; [| |constructor].
  - change [l0] with ([] ++ [l0]). econstructor; [constructor|exact St].
  - change [LSpawn ?t p] with ([] ++ [LSpawn t p]). econstructor; [constructor|exact St].
Qed.
Lemma nexec_plain s tr s' : nexec s tr s' → exec (n_c s) (tr ≫= plain) (n_c s').
Proof.
  induction 1 as [|tr s1 k l s2 X IH St]; [constructor|]. rewrite bind_app. apply exec_app. exists (n_c s1). split; [exact IH|].
  simpl. rewrite app_nil_r. apply nview_exec. by eapply nstepf_view.
Qed.
Lemma nexec_trans s tr1 s1 tr2 s2 : nexec s tr1 s1 → nexec s1 tr2 s2 → nexec s (tr1 ++ tr2) s2.
Proof. intros X Y. induction Y as [|tr2 s2 k l s3 Y IH St]; [by rewrite app_nil_r|]. rewrite app_assoc. by econstructor. Qed.

Section nest.
Context (f0 : nat → nat) (v0 : nat → nat → Z).
Notation nrun := (nexec (ninit f0 v0)).
Lemma nrun_inv tr s : nrun tr s → inv f0 v0 (tr ≫= plain) (n_c s).
Proof. intros X. apply exec_inv. by apply nexec_plain in X. Qed.

(** the groups that a goroutine is going to use satisfy P *)
Definition within (P : nat → Prop) (th : thread) : Prop :=
  (∀ a r, a ∈ t_prog th → uses a r → P r) ∧ (∀ m r, t_sess th = Some m → r ∈ dom m → P r) ∧
  match t_ctl th with CLockSend r | CLockRecv r | CLockGot r _ | CFuncSend r _ | CFuncRecv r _ | CFuncGot r _ => P r | _ => True end.
Lemma within_step P c l c' t th : view c l c' → c_pool c !! t = Some th → within P th → tshape th → ∃ th', c_pool c' !! t = Some th' ∧ within P th'.
Proof.
  intros V Pt (W1 & W2 & W3) Sh. destruct (step_thread c l c' t th V Pt) as [P'|[(th' & agg & L1 & P' & _)|[(r1 & m & th' & h & St & -> & P' & R' & Hi)|(r1 & h & th' & St & -> & P' & R' & Hi)]]].
  - exists th. done.
  - exists th'. split; [exact P'|]. destruct L1; unfold within; simpl in *; (split; [intros a0 r0 Ha U; try (eapply W1; [by right|exact U]); try (by eapply W1)|split]).
    all: try exact I. all: try exact W2. all: try exact W3. all: try (by eapply W1; [left|]). all: try discriminate 1.
    + intros m0 r0 [= <-] D. rewrite dom_empty_L in D. set_solver.
    + intros m0 r0 [= <-] D. apply dom_insert, elem_of_union in D as [D|D]; [apply elem_of_singleton in D as ->; exact W3|by eapply W2].
  - exists th'. split; [exact P'|]. inversion St; subst; unfold within; simpl in *; done.
  - exists th'. split; [exact P'|]. inversion St; subst; unfold within; simpl in *; done.
Qed.
(** a region in an update function leaves it only by its own event loop *)
Lemma updating_stays c k l c' r f : stepf c k = Some (l, c') → r_h (c_regs c r) = HUpdating f → (∀ time, k ≠ Handle r time) → r_h (c_regs c' r) = HUpdating f.
Proof.
  intros St Hh N. destruct k as [p|t ch|t|t|r1 time|r1 x v]; simpl in St.
  - destruct (bracketed false p); [|discriminate St]. injection St as _ <-. exact Hh.
  - assert (c_regs c' = c_regs c) as ->; [|exact Hh]. destruct (c_pool c !! t) as [th|]; [|discriminate St]. destruct th as [p s k]. unfold localf in St.
    destruct k as [|r1|r1|r1 time|todo|r1 todo|r1 todo|r1 f1|r1 f1|r1 f1]; destruct p as [|[|r2|r2 x1| |r2 f2|a1 ts1|a1|] p]; destruct s as [m|]; try discriminate St;
    repeat match type of St with
    | context [match ?m !! ?r with _ => _ end] => destruct (m !! r) eqn:?
    | context [decide ?P] => destruct (decide P); [subst|]
    end; try discriminate St; injection St as _ <-; reflexivity.
  - destruct (c_pool c !! t) as [th|]; [|discriminate St]. unfold sendf in St. destruct (t_ctl th) as [|r1|r1|r1 time|todo|r1 todo|r1 todo|r1 f1|r1 f1|r1 f1]; try discriminate St;
    destruct (decide (r = r1)) as [<-|N1]; try (rewrite Hh in St; discriminate St); destruct (r_h (c_regs c r1)); try discriminate St; injection St as _ <-; simpl; by rewrite fupd_other by done.
  - destruct (c_pool c !! t) as [th|]; [|discriminate St]. unfold replyf in St. destruct (t_ctl th) as [|r1|r1|r1 time|todo|r1 todo|r1 todo|r1 f1|r1 f1|r1 f1]; try discriminate St;
    destruct (decide (r = r1)) as [<-|N1]; try (rewrite Hh in St; discriminate St); destruct (r_h (c_regs c r1)); try discriminate St; injection St as _ <-; simpl; by rewrite fupd_other by done.
  - destruct (handlef r1 time (c_regs c r1)) as [[l1 x1]|]; [|discriminate St]. injection St as _ <-. simpl. rewrite fupd_other; [exact Hh|]. intros <-. by apply (N time).
  - destruct (r_h (c_regs c r1)) eqn:H1; try discriminate St. injection St as _ <-. simpl. unfold fupd. case_decide as D; [|exact Hh]. subst. simpl. congruence.
Qed.

(** calls in progress *)
Definition calls_ok (level : nat → nat) (s : nconfig) : Prop :=
  ∀ r t, n_calls s r = Some t → (∃ f, r_h (c_regs (n_c s) r) = HUpdating f) ∧
    ∃ th, c_pool (n_c s) !! t = Some th ∧ within (λ r', level r' < level r) th.
Lemma calls_inv level tr s : nrun tr s → downwards level tr → calls_ok level s.
Proof.
  induction 1 as [|tr s1 k l s2 X IH St]; intros D; [intros r t [=]|].
  assert (calls_ok level s1) as C by (apply IH; intros r t p E; apply (D r t p), elem_of_app; by left). clear IH.
  pose proof (inv_shape f0 v0 _ _ (nrun_inv _ _ X)) as Sh. apply nstepf_view in St. intros r t E.
  inversion St as [k0 l0 c S0 N|r0 p f c Hh N S0|r0 t0 th0 N P0 F]; subst; clear St; simpl in *.
  - destruct (C r t E) as ((f & Hh) & th & P & W). split.
    + exists f. eapply updating_stays; [exact S0|exact Hh|]. intros time ->. rewrite (N r time eq_refl) in E. discriminate E.
    + eapply within_step; [by eapply stepf_view|exact P|exact W|by eapply Sh].
  - assert (c_regs c = c_regs (n_c s1) ∧ c_pool c = c_pool (n_c s1) ++ [MkThread p None CReady]) as [Rg Po].
    { destruct (bracketed false p); [|discriminate S0]. injection S0 as <-. done. }
    rewrite Rg, Po. unfold fupd in E. case_decide as D0.
    + injection E as <-. subst r0. split; [eauto|]. eexists. split; [by apply list_lookup_middle|]. split; [|split; [discriminate 1|exact I]].
      intros a r' Ha U. eapply (D r (length (c_pool (n_c s1))) p); [apply elem_of_app; right; by constructor|exact Ha|exact U].
    + destruct (C r t E) as (Hr & th & P & W). split; [exact Hr|]. exists th. split; [by apply lookup_app_l_Some|exact W].
  - unfold fupd in E. case_decide; [discriminate E|]. exact (C r t E).
Qed.

(** the group that a goroutine waits for *)
Definition blocks (th : thread) : option nat :=
  match t_ctl th with CLockSend r | CLockRecv r | CUnlockSend r _ | CUnlockRecv r _ | CFuncSend r _ | CFuncRecv r _ => Some r | _ => None end.
Lemma blocks_within P th r : within P th → tshape th → blocks th = Some r → P r.
Proof.
  intros (_ & W2 & W3) Sh. unfold blocks, tshape in *. destruct (t_ctl th); intros [= ->]; try exact W3;
  destruct Sh as [(m & E & _ & Hr & _) _]; by eapply W2.
Qed.
Lemma own_progress tr c t th : inv f0 v0 tr c → c_pool c !! t = Some th → ¬ finished th →
  (∃ ch, enabled c (Local t ch)) ∨ ∃ r, blocks th = Some r ∧ (r_h (c_regs c r) = HIdle → enabled c (Send t)).
Proof.
  intros I P N. pose proof (inv_shape _ _ _ _ I _ _ P) as Sh. destruct th as [p s k].
  assert (R : ∀ r, waits (MkThread p s k) = Some r → r_h (c_regs c r) ≠ HIdle).
  { intros r W H. pose proof (ri_peer _ _ _ _ _ (i_reg _ _ _ _ I r)) as Pe. rewrite H in Pe. by eapply Pe. }
  unfold tshape in Sh; simpl in Sh. destruct k as [|r|r|r time|todo|r todo|r todo|r f|r f|r f].
  - left. exists 0. unfold enabled. simpl. rewrite P. unfold localf.
    destruct p as [|[|r|r x| |r f|a ts|a|] p]; destruct s as [m|]; simpl in Sh; try done; eauto.
    + by destruct N.
    + destruct (m !! r); eauto.
  - right. exists r. split; [done|]. intros Hh. unfold enabled. simpl. rewrite P. unfold sendf; simpl. rewrite Hh. eauto.
  - right. exists r. split; [done|]. intros Hh. by destruct (R r eq_refl).
  - left. destruct Sh as [(m & -> & _) _]. exists 0. unfold enabled. simpl. rewrite P. unfold localf. destruct p as [|[] p]; eauto.
  - left. destruct Sh as [(m & -> & _) _]. destruct (set_choose_or_empty todo) as [[r Hr]|Em].
    + exists r. unfold enabled. simpl. rewrite P. unfold localf.
      destruct p as [|[] p]; (case_decide; [eauto|]); rewrite decide_True by done; eauto.
    + exists 0. unfold enabled. simpl. rewrite P. unfold localf. apply leibniz_equiv in Em.
      destruct p as [|[] p]; rewrite decide_True by done; eauto.
  - right. exists r. split; [done|]. intros Hh. unfold enabled. simpl. rewrite P. unfold sendf; simpl. rewrite Hh. eauto.
  - right. exists r. split; [done|]. intros Hh. by destruct (R r eq_refl).
  - right. exists r. split; [done|]. intros Hh. unfold enabled. simpl. rewrite P. unfold sendf; simpl. rewrite Hh. eauto.
  - right. exists r. split; [done|]. intros Hh. by destruct (R r eq_refl).
  - left. exists 0. unfold enabled. simpl. rewrite P. unfold localf. destruct p as [|[] p]; destruct s; eauto.
Qed.
Lemma handler_progress tr c r : inv f0 v0 tr c → r_h (c_regs c r) ≠ HIdle → (∃ t, enabled c (Reply t)) ∨ enabled c (Handle r 0).
Proof.
  intros I H. pose proof (ri_peer _ _ _ _ _ (i_reg _ _ _ _ I r)) as Pe. destruct (r_h (c_regs c r)) eqn:Hh; [done|..];
  destruct Pe as (t & th & P & Pe & _).
  - right. unfold enabled. simpl. unfold handlef. rewrite Hh. repeat case_decide; eauto.
  - right. unfold enabled. simpl. unfold handlef. rewrite Hh. eauto.
  - left. exists t. unfold enabled. simpl. rewrite P. unfold replyf. destruct Pe as [->|[todo ->]]; rewrite Hh; eauto.
  - right. unfold enabled. simpl. unfold handlef. rewrite Hh. eauto.
  - left. exists t. unfold enabled. simpl. rewrite P. unfold replyf. destruct Pe as [f ->]; rewrite Hh; eauto.
  - done.
Qed.
Lemma nenabled_plain s k : enabled (n_c s) k → match k with Handle r _ | Write r _ _ => n_calls s r = None | _ => True end → nenabled s (NPlain k).
Proof. intros (l & c' & E) N. exists (NL l), (MkN c' (n_calls s)). destruct k; simpl in *; rewrite ?N; rewrite E; reflexivity. Qed.
Definition can (s : nconfig) : Prop := ∃ k, ninternal k ∧ nenabled s k.
Lemma can_plain s k : internal k → enabled (n_c s) k → match k with Handle r _ | Write r _ _ => n_calls s r = None | _ => True end → can s.
Proof. intros Ik E N. exists (NPlain k). split; [exact Ik|]. by apply nenabled_plain. Qed.
Lemma over_dec th : finished th ∨ ¬ finished th.
Proof. rewrite <- over_finished. destruct (over th); [by left|by right]. Qed.
Lemma thread_can tr s t th : inv f0 v0 tr (n_c s) → c_pool (n_c s) !! t = Some th → ¬ finished th →
  (∀ r, blocks th = Some r → r_h (c_regs (n_c s) r) ≠ HIdle → can s) → can s.
Proof.
  intros I P N K. destruct (own_progress _ _ _ _ I P N) as [[ch E]|(r & B & E)]; [by apply (can_plain s (Local t ch))|].
  destruct (r_h (c_regs (n_c s) r)) eqn:Hh; [by apply (can_plain s (Send t)); [|apply E|]|..]; (apply (K r B); rewrite Hh; discriminate).
Qed.
Lemma region_can level tr s : inv f0 v0 tr (n_c s) → calls_ok level s → ∀ n r, level r < n → r_h (c_regs (n_c s) r) ≠ HIdle → can s.
Proof.
  intros I C. induction n as [|n IH]; intros r L H; [lia|].
  destruct (handler_progress _ _ r I H) as [[t E]|E]; [by apply (can_plain s (Reply t))|].
  destruct (n_calls s r) as [t|] eqn:Cr; [|by apply (can_plain s (Handle r 0))].
  destruct (C r t Cr) as (_ & th & P & W). destruct (over_dec th) as [F|F].
  - exists (NReturn r). split; [exact Logic.I|]. unfold nenabled. simpl. rewrite Cr, P. apply over_finished in F. rewrite F. eauto.
  - eapply thread_can; [exact I|exact P|exact F|]. intros r' B Hh. apply (IH r'); [|exact Hh].
    pose proof (blocks_within _ _ _ W (inv_shape _ _ _ _ I _ _ P) B) as L'. simpl in L'. lia.
Qed.
Lemma nprogress level tr s t th : nrun tr s → downwards level tr → c_pool (n_c s) !! t = Some th → ¬ finished th → can s.
Proof.
  intros X D P N. pose proof (nrun_inv _ _ X) as I. eapply thread_can; [exact I|exact P|exact N|].
  intros r _ Hh. eapply (region_can level _ _ I (calls_inv _ _ _ X D) (S (level r)) r); [lia|exact Hh].
Qed.
(** also every update function that is waiting for a call gets its answer *)
Lemma nquiet level tr s : nrun tr s → downwards level tr → (∀ k, ninternal k → ¬ nenabled s k) →
  (∀ t th, c_pool (n_c s) !! t = Some th → finished th) ∧ (∀ r, n_calls s r = None).
Proof.
  intros X D Q.
  assert (F : ∀ t th, c_pool (n_c s) !! t = Some th → finished th).
  { intros t th P. destruct (over_dec th) as [F|F]; [exact F|]. destruct (nprogress level _ _ _ _ X D P F) as (k & Ik & E). by destruct (Q k Ik). }
  split; [exact F|]. intros r. destruct (n_calls s r) as [t|] eqn:E; [|done]. destruct (calls_inv _ _ _ X D r t E) as (_ & th & P & _).
  destruct (Q (NReturn r) Logic.I). unfold nenabled. simpl. rewrite E, P. pose proof (F t th P) as Ft. apply over_finished in Ft. rewrite Ft. eauto.
Qed.

(** the number of calls in progress among L *)
Definition pend (L : list nat) (s : nconfig) : nat := foldr (λ r n, match n_calls s r with Some _ => 1 | None => 0 end + n) 0 L.
Lemma pend_return L s r c : n_calls s r ≠ None → pend L (MkN c (fupd r None (n_calls s))) + (if decide (r ∈ L) then 1 else 0) ≤ pend L s.
Proof.
  intros N. unfold pend; simpl. induction L as [|a L IH]; [done|]. simpl. change (fupd r None (n_calls s) a) with (if decide (a = r) then None else n_calls s a). destruct (decide (a = r)) as [->|D].
  - destruct (n_calls s r); [|done]. rewrite decide_True by constructor. case_decide; lia.
  - rewrite (decide_ext (r ∈ a :: L) (r ∈ L)).
    + lia.
    + rewrite elem_of_cons. naive_solver.
Qed.
Definition is_return (l : nlabel) : bool := match l with NLReturn _ _ => true | _ => false end.
Lemma returns_bounded L s tr s' : nexec s tr s' → (∀ l, l ∈ tr → quiet l) → (∀ r, n_calls s r ≠ None → r ∈ L) →
  (∀ r, n_calls s' r ≠ None → r ∈ L) ∧ length (filter (λ l, is_return l = true) tr) + pend L s' ≤ pend L s.
Proof.
  intros X. induction X as [|tr s1 k l s2 X IH St]; intros Q C; [done|].
  destruct IH as [C1 B]; [intros l' H; apply Q, elem_of_app; by left|exact C|]. assert (quiet l) as Ql by (apply Q, elem_of_app; right; by constructor).
  rewrite filter_app, app_length. apply nstepf_view in St. inversion St as [k0 l0 c S0 N|r0 p f c Hh N S0|r0 t0 th0 N P0 F]; subst; cbn [n_calls].
  - split; [exact C1|]. rewrite filter_cons_False by done. simpl. change (pend L (MkN c (n_calls s1))) with (pend L s1). lia.
  - done.
  - split.
    + intros r. unfold fupd. case_decide; [done|]. apply C1.
    + rewrite filter_cons_True by done. simpl. assert (n_calls s1 r0 ≠ None) as N0 by congruence.
      pose proof (pend_return L s1 r0 (n_c s1) N0) as B1. rewrite decide_True in B1 by (by apply C1). lia.
Qed.
Lemma calls_listed tr s : nrun tr s → ∃ L : list nat, ∀ r, n_calls s r ≠ None → r ∈ L.
Proof.
  induction 1 as [|tr s1 k l s2 X [L IH] St]; [by exists []|]. apply nstepf_view in St.
  inversion St as [k0 l0 c S0 N|r0 p f c Hh N S0|r0 t0 th0 N P0 F]; subst; simpl.
  - by exists L.
  - exists (r0 :: L). intros r. unfold fupd. case_decide; [subst; intros; by constructor|]. intros Hn. right. by apply IH.
  - exists L. intros r. unfold fupd. case_decide; [done|]. apply IH.
Qed.
Lemma plain_filter tr : (∀ l, l ∈ tr → quiet l) →
  length (filter (λ l, nwrite l = false) tr) =
  length (filter (λ l, is_write l = false) (tr ≫= plain)) + length (filter (λ l, is_return l = true) tr) ∧ ∀ l, l ∈ tr ≫= plain → is_spawn l = false.
Proof.
  induction tr as [|l tr IH]; intros Q; [split; [done|]; intros l H; by apply elem_of_nil in H|]. destruct IH as [E Sp]; [intros l' H; apply Q; by right|].
  pose proof (Q l (elem_of_list_here _ _)) as Ql. destruct l as [l|r t p|r t]; simpl in Ql; [|done|].
  - change ((NL l :: tr) ≫= plain) with (l :: (tr ≫= plain)). rewrite !(filter_cons _ (NL l)), (filter_cons _ l). split.
    + rewrite (decide_False (P := is_return (NL l) = true)) by done. change (nwrite (NL l)) with (is_write l). destruct (is_write l); [rewrite !decide_False by done|rewrite !decide_True by done]; cbn [length]; lia.
    + intros l' H. apply elem_of_cons in H as [->|H]; [exact Ql|by apply Sp].
  - change ((NLReturn r t :: tr) ≫= plain) with (tr ≫= plain). rewrite !(filter_cons _ (NLReturn r t)), !decide_True by done. simpl. split; [lia|exact Sp].
Qed.
Lemma nall_finish level tr s : nrun tr s → downwards level tr → ∃ n, ∀ tr2 s2, nexec s tr2 s2 → (∀ l, l ∈ tr2 → quiet l) →
  length (filter (λ l, nwrite l = false) tr2) ≤ n ∧
  ((∀ k, ninternal k → ¬ nenabled s2 k) → (∀ t th, c_pool (n_c s2) !! t = Some th → finished th) ∧ (∀ r, n_calls s2 r = None)).
Proof.
  intros X D. destruct (calls_listed _ _ X) as [L C]. exists (Z.to_nat (budget (n_c s)) + pend L s). intros tr2 s2 X2 Q. split.
  - destruct (plain_filter tr2 Q) as [-> Sp]. destruct (returns_bounded L _ _ _ X2 Q C) as [_ B].
    pose proof (bounded_steps f0 v0 _ _ _ _ (nexec_plain _ _ _ X) (nexec_plain _ _ _ X2) Sp) as B2. pose proof (budget_nonneg (n_c s2)). lia.
  - intros H. eapply (nquiet level); [by eapply nexec_trans| |exact H]. intros r t p E. apply elem_of_app in E as [E|E]; [by eapply D|]. by destruct (Q _ E).
Qed.

(** An update function that uses its own group *)
Definition doomed (r : nat) (th : thread) : Prop :=
  match t_ctl th with
  | CReady => (∃ f p, t_prog th = ARegister r f :: p) ∨ (∃ p, t_prog th = AOpen :: AVisit r :: p) ∨ (∃ p, t_prog th = AVisit r :: p ∧ t_sess th = Some ∅)
  | CFuncSend r' _ | CLockSend r' => r' = r
  | _ => False
  end.
Definition stuck (r t : nat) (s : nconfig) : Prop :=
  n_calls s r = Some t ∧ (∃ g, r_h (c_regs (n_c s) r) = HUpdating g) ∧
  ∃ th, c_pool (n_c s) !! t = Some th ∧ doomed r th.
Lemma stuck_step tr r t s k l s' : nrun tr s → stuck r t s → nstepf s k = Some (l, s') →
  stuck r t s' ∧ (∀ t' time, l ≠ NL (LVisit t' r time)) ∧ (∀ t', l ≠ NLReturn r t').
Proof.
  intros X (Cr & (g & Hh) & th & P & T) St. pose proof (nrun_inv _ _ X) as I. apply nstepf_view in St.
  inversion St as [k0 l0 c S0 N|r0 p f1 c Hh0 N S0|r0 t0 th0 N P0 F]; subst; clear St.
  - assert (r_h (c_regs c r) = HUpdating g) as Hh' by (eapply updating_stays; [exact S0|exact Hh|]; intros time ->; rewrite (N r time eq_refl) in Cr; discriminate Cr).
    pose proof (stepf_view _ _ _ _ S0) as V. split; [|split; [|discriminate]].
    + split; [exact Cr|]. split; [by exists g|]. simpl.
      destruct (step_thread _ _ _ t th V P) as [P'|[(th' & agg & L1 & P' & _)|[(r1 & m & th' & h & S1 & -> & P' & R' & Hi)|(r1 & h & th' & S1 & -> & P' & R' & Hi)]]].
      * exists th. done.
      * exists th'. split; [exact P'|]. unfold doomed in *. destruct L1; simpl in *; try done; naive_solver.
      * exfalso. unfold doomed in T. destruct S1; simpl in *; try contradiction; subst; congruence.
      * exfalso. unfold doomed in T. destruct S1; simpl in *; contradiction.
    + intros t' time E. injection E as ->.
      inversion V as [p B|t1 th1 l1 th' agg P1 L1|t1 th1 r1 m th' h P1 S1 Hx|t1 th1 r1 h th' P1 S1 Hx|r1 l1 x' S1]; subst.
      * inversion L1; subst.
        -- eapply (held_not_updating _ r); [apply (i_reg _ _ _ _ I r)|apply (inv_shape _ _ _ _ I)|exact P1|reflexivity| |exact Hh]. eauto.
        -- eapply (got_not_updating _ r); [apply (i_reg _ _ _ _ I r)|exact P1|reflexivity|exact Hh].
      * inversion S1.
  - split; [|split; discriminate]. assert (c_regs c = c_regs (n_c s) ∧ c_pool c = c_pool (n_c s) ++ [MkThread p None CReady]) as [Rg Po].
    { simpl in S0. destruct (bracketed false p); [|discriminate S0]. injection S0 as <-. done. }
    unfold stuck; simpl. rewrite Rg, Po. rewrite fupd_other by congruence. split; [exact Cr|]. split; [by exists g|]. exists th. split; [by apply lookup_app_l_Some|exact T].
  - assert (r0 ≠ r) as Nr. { intros ->. rewrite Cr in N. injection N as <-. rewrite P in P0. injection P0 as <-. destruct F as (Fp & _ & Fc). unfold doomed in T. rewrite Fc, Fp in T. naive_solver. }
    split; [|split; [discriminate|]].
    + unfold stuck; simpl. rewrite fupd_other by congruence. split; [exact Cr|]. split; [by exists g|]. exists th. done.
    + intros t' [= -> _]. done.
Qed.
Lemma own_group tr1 r t p tr2 s : nrun (tr1 ++ [NLCall r t p] ++ tr2) s → starts_with_own r p →
  (∀ t' time, NL (LVisit t' r time) ∉ tr2) ∧ (∀ t', NLReturn r t' ∉ tr2).
Proof.
  intros X0 Sw. revert X0. intros X. cut (stuck r t s ∧ (∀ t' time, NL (LVisit t' r time) ∉ tr2) ∧ (∀ t', NLReturn r t' ∉ tr2)); [by intros [_ ?]|].
  revert s X. induction tr2 as [|l tr2 IH] using rev_ind; intros s X.
  - split; [|by split; intros; apply not_elem_of_nil]. inversion X as [E|tr s1 k l s2 X1 St E]; subst; [by destruct tr1|]. apply app_inj_tail in E as [-> ->].
    apply nstepf_view in St. inversion St as [k0 l0 c S0 N|r0 p0 f1 c Hh0 N S0|]; subst. unfold stuck; simpl.
    simpl in S0. destruct (bracketed false p) eqn:B; [|discriminate S0]. injection S0 as <-. simpl. rewrite fupd_same. split; [done|]. split; [by exists f1|].
    eexists. split; [by apply list_lookup_middle|]. unfold doomed; simpl. destruct Sw as [(f & q & ->)|(q & ->)]; [left; eauto|right; left; eauto].
  - rewrite !app_assoc in X. inversion X as [E|tr s1 k l0 s2 X1 St E]; [by destruct (proj1 (app_nil _ _) (eq_sym E)) as [_ ?]|]. subst s2. apply app_inj_tail in E as [-> ->].
    rewrite <- !app_assoc in X1. pose proof (IH _ X1) as (Sk & V & R). destruct (stuck_step _ _ _ _ _ _ _ X1 Sk St) as (Sk' & V' & R').
    split; [exact Sk'|]. split; intros; apply not_elem_of_app; (split; [auto|]); intros E1; apply elem_of_list_singleton in E1; [eapply V'|eapply R']; symmetry; exact E1.
Qed.
End nest.
