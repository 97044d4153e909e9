(** Competing registrations of one path. *)
From stdpp Require Import gmap strings sorting.
From Verif Require Import PathModel PathSpec PathProofs RegistryModel RegistrySpec RegistryProofs RegistryConc RegistryConcProofs RegistryList.

Lemma keeps_trans P x y z : keeps P x y → keeps P y z → keeps P x z.
Proof. intros A B q Bq N. rewrite <- (A q Bq N). apply B; [done|]. by rewrite (A q Bq N). Qed.
Lemma during_keeps P c l c' : during c l c' → consecutive (keeps P) l → ∀ x, x ∈ l → keeps P x c'.
Proof.
  intros D. induction D as [c|c c1 l c2 S D IH]; intros K x Hx.
  - apply elem_of_list_singleton in Hx as ->. by intros q.
  - destruct K as [K1 K2]. apply elem_of_cons in Hx as [->|Hx]; [|by apply IH].
    assert (K : keeps P c c1) by (destruct D; done). eapply keeps_trans; [exact K|]. apply IH; [done|by eapply during_first].
Qed.
Lemma during_ind_cons (R : config → config → Prop) (J : config → Prop) c l c' : during c l c' → consecutive R l →
  (∀ a b, a ∈ l → b ∈ l → R a b → cinv a → step a b → J a → J b) → cinv c → J c → J c'.
Proof.
  intros D K H. assert (G : ∃ l', l ⊆ l' ∧ ∀ a b, a ∈ l' → b ∈ l' → R a b → cinv a → step a b → J a → J b) by (exists l; done).
  clear H. destruct G as (l' & Sub & H). revert Sub K. induction D as [c|c c1 l c2 S D IH]; intros Sub [K1 K2] I Jc; [done|].
  assert (Hc : c ∈ l') by (apply Sub; constructor).
  assert (Hc1 : c1 ∈ l') by (apply Sub; constructor; by eapply during_first).
  assert (Rc : R c c1) by (destruct D; done).
  apply IH; [intros x Hx; apply Sub; by constructor|done|by eapply step_inv|]. exact (H c c1 Hc Hc1 Rc I S Jc).
Qed.
Lemma live_back h h1 d a : wf h → wf h1 → extd h h1 → has h d → live h1 d a → live h d a.
Proof.
  intros W W1 [E Dd] H L. destruct (live_or_dead h d W) as [[b Lb]|N].
  - assert (b = a) as <-; [|done]. rewrite <- (live_path h b W d Lb), <- (live_path h1 a W1 d L). symmetry. by apply dpath_ext.
  - exfalso. by apply (proj2 (Dd d (conj H N)) a).
Qed.

Section race.
  Context (c c' : config) (l : list config) (D : during c l c') (Ci : cinv c).
  Context (P : list string) (K : consecutive (keeps P) l).
  Lemma mem_props h : mem_heap l h → wf h ∧ extd h (c_heap c') ∧ (∀ q, below q P → answer h q ≠ None → answer (c_heap c') q = answer h q).
  Proof using D Ci K.
    intros (x & Hx & <-). destruct (during_split _ _ _ _ D Hx) as (l1 & l2 & D1 & D2 & _).
    destruct (during_inv _ _ _ Ci D1) as [_ Cx]. split; [apply Cx|]. split; [by apply (during_extd _ _ _ Cx D2)|].
    by apply (during_keeps P _ _ _ D K).
  Qed.
  Lemma wf_last : wf (c_heap c').
  Proof using D Ci. destruct (during_inv _ _ _ Ci D) as [_ I]. apply I. Qed.
  Definition okres : reply + list witem := inl (RMetric MOk).
  Definition visible (m : minfo) (h : heap) : Prop := ∃ e, answer h P = Some (NMetric e) ∧ e_obj e = OMetric m.
  Fixpoint track (m : minfo) (p : prog (reply + list witem)) (h0 : heap) : Prop :=
    match p with
    | Ret r => match r with inl _ => True | inr _ => False end
    | Step o k => ∀ h, mem_heap l h → ext h0 h → mem_heap l (fst (op_sem o h)) →
        (k (snd (op_sem o h)) = Ret okres → answer h P = None ∧ visible m (fst (op_sem o h))) ∧
        track m (k (snd (op_sem o h))) (fst (op_sem o h))
    end.
  Lemma track_ext m p h h' : ext h h' → track m p h → track m p h'.
  Proof. intros E. destruct p as [a|B o k]; simpl; [done|]. intros T h2 M2 E2. apply T; [done|]. by eapply ext_trans. Qed.
  Lemma track_store m d b x h0 : has h0 d → live (c_heap c') d b → P = b ++ [x] → valid_component x →
    track m (do e <- atomic (StoreMetric d x m); Ret (inl (RMetric match (e : option err) with None => MOk | Some e => MErr e end))) h0.
  Proof using D Ci K.
    intros H L E V. cbn [bind atomic track]. intros h M Eh M'. split; [|done].
    destruct (mem_props h M) as (W & Ex & _).
    assert (Lh : live h d b) by (eapply live_back; [done|apply wf_last|done|by eapply ext_has|done]).
    pose proof (store_spec h d b x m W Lh V) as S. destruct (op_sem (StoreMetric d x m) h) as [h' [er|]]; simpl; [done|].
    intros _. destruct S as (_ & _ & _ & N & e & Oe & S). rewrite <- E in *. split; [done|].
    exists e. split; [|done]. rewrite S. by rewrite decide_True.
  Qed.
  Lemma track_register m p : Forall valid_component p → ∀ d a x h0, has h0 d → live (c_heap c') d a → P = a ++ p ++ [x] → valid_component x →
    track m (do r <- (do r <- registerDirectory d p;
                      match r with
                      | inr e => Ret (MErr e)
                      | inl current =>
                          do v <- newValue (mi_spec m) (mi_unit m);
                          match v with
                          | MOk => do e <- atomic (StoreMetric current x m);
                                   Ret (match (e : option err) with None => MOk | Some e => MErr e end)
                          | other => Ret other
                          end
                      end); Ret (inl (RMetric r))) h0.
  Proof using D Ci K.
    induction 1 as [|y p V _ IH]; intros d a x h0 H L E Vx.
    - cbn [registerDirectory bind]. destruct (mi_spec m) as [di|v|v|v]; cbn [newValue bind atomic]; try done.
      + cbn [track]. intros h M Eh M'. split.
        * destruct (snd (op_sem (SetUnit di (mi_unit m)) h)); done.
        * destruct (mem_props h M) as (W & _). pose proof (change_ext _ _ W (op_change (SetUnit di (mi_unit m)) h W I)) as E2.
          destruct (snd (op_sem (SetUnit di (mi_unit m)) h)); cbn [bind]; [|done].
          apply (track_ext m _ h0); [exact (ext_trans _ _ _ Eh E2)|]. by apply (track_store m d a x h0).
      + by apply (track_store m d a x h0).
    - cbn [registerDirectory bind atomic track]. intros h M Eh M'.
      destruct (mem_props h M) as (W & Ex & _).
      assert (Lh : live h d a) by (eapply live_back; [done|apply wf_last|done|by eapply ext_has|done]).
      pose proof (create_spec h d a y W Lh V) as S. destruct (op_sem (CreateDirIfNeeded d y) h) as [h' r]. simpl in *.
      destruct (mem_props h' M') as (W' & _ & Kp).
      destruct r as [d'|er]; [|split; [|done]; cbn; intros E0; discriminate].
      destruct S as (_ & E' & _ & L' & _). split.
      { destruct p; cbn; [|done]. destruct (mi_spec m) as [di|v|v|v]; cbn; intros E0; discriminate. }
      apply (IH d' (a ++ [y]) x h'); [by eapply live_exists| |rewrite E; by rewrite <- app_assoc|done].
      unfold live in *. rewrite Kp; [done| |congruence]. exists (p ++ [x]). rewrite E. by rewrite <- app_assoc.
  Qed.
  Lemma track_call m d s a h0 : has h0 d → live (c_heap c') d a → P = a ++ newPathSpec s →
    track m (prog_of (CRegMetric d s m)) h0 ∧ prog_of (CRegMetric d s m) ≠ Ret okres.
  Proof using D Ci K.
    intros H L E. cbn [prog_of]. unfold registerMetric. pose proof (newPathSpec_valid' s) as V.
    destruct (Dir_Base (newPathSpec s)) as [[-> ->]|(b & x & Eb & -> & ->)]; [done|].
    rewrite Eb in *. apply Forall_app in V as [Vb Vx]. inversion Vx; subst. split; [by eapply track_register|].
    destruct b; cbn; [|done]. destruct (mi_spec m) as [di|v|v|v]; cbn; intros E0; discriminate.
  Qed.
  (** thread t, running a registration of m at P, has succeeded *)
  Definition won (t : nat) (x : config) : Prop :=
    match c_pool x !! t with
    | Some (MkThread _ (TRun p)) => p = Ret okres
    | Some (MkThread _ (TDone r)) => r = RMetric MOk
    | _ => False
    end.
  Definition tracked (t : nat) (ca : call) (m : minfo) (x : config) : Prop :=
    match c_pool x !! t with
    | Some (MkThread ca' s) => ca' = ca ∧ match s with TRun p => track m p (c_heap x) | TList _ _ => False | TDone _ => True end
    | None => True
    end ∧ (won t x → visible m (c_heap x)).
  Lemma tracked_step t d s m a x y : live (c_heap c') d a → P = a ++ newPathSpec s →
    x ∈ l → y ∈ l → keeps P x y → cinv x → step x y → (∀ th, c_pool y !! t = Some th → t_call th = CRegMetric d s m) →
    tracked t (CRegMetric d s m) m x → tracked t (CRegMetric d s m) m y ∧ (won t y → won t x ∨ answer (c_heap x) P = None).
  Proof using D Ci K.
    intros L E Hx Hy Kp Cx St Hcall [T V].
    assert (V' : visible m (c_heap x) → visible m (c_heap y)).
    { intros (e & A & O). exists e. split; [|done]. rewrite Kp; [done|apply below_refl|congruence]. }
    destruct (step_inv _ _ Cx St) as [Cy CH]. pose proof (change_ext _ _ (ci_wf _ Cx) CH) as Ex.
    unfold tracked, won in *. revert Cy CH Ex V' Kp Hx Hy Hcall.
    destruct St as [h pool t' ca Nt H|h pool t' ca s0 h' s' Tt St]; simpl in *; intros Cy CH Ex V' Kp Hx Hy Hcall.
    - destruct (decide (t' = t)) as [->|Ne].
      + rewrite lookup_insert in *. specialize (Hcall _ eq_refl). simpl in Hcall. subst ca.
        destruct (track_call m d s a h H L E) as [T1 T2]. split; [split; [done|]|]; try (intros W0; by exfalso).
      + rewrite lookup_insert_ne by done. split; [|by left]. split; [done|]. intros W0. by apply V', V.
    - destruct (decide (t' = t)) as [->|Ne].
      2: { rewrite lookup_insert_ne by done. split; [|by left]. split; [|intros W0; by apply V', V].
           destruct (pool !! t) as [[ca' s1]|]; [|done]. destruct T as [-> T]. split; [done|].
           destruct s1; [|done|done]. by eapply track_ext. }
      rewrite lookup_insert, Tt in *. destruct T as [-> T].
      pose proof (tstep_inv _ _ _ _ St) as Si. destruct s0 as [[[r|w]|B o k]|w out|r]; simpl in *; try done.
      + destruct Si as [-> ->]. split; [|intros ->; by left]. split; [done|]. intros ->. by apply V.
      + destruct Si as [-> ->]. assert (M : mem_heap l h) by (by exists (MkConfig h pool)).
        assert (M' : mem_heap l (op_sem o h).1) by (eexists; split; [exact Hy|done]).
        destruct (T h M (ext_refl h) M') as [T1 T2]. split; [split; [done|]|]; intros E0; [exact (proj2 (T1 E0))|right; exact (proj1 (T1 E0))].
  Qed.
  Lemma pool_last x t ca : x ∈ l → t_call <$> c_pool x !! t = Some ca → t_call <$> c_pool c' !! t = Some ca.
  Proof using D.
    intros Hx. destruct (during_split _ _ _ _ D Hx) as (l1 & l2 & _ & D2 & _). clear -D2. intros H.
    induction D2 as [|x y l2 z St D2 IH]; [done|]. apply IH. clear IH D2.
    destruct St as [h pool t' c0 Nt _|h pool t' c0 s h' s' Tt _]; simpl in *;
      (destruct (decide (t' = t)) as [->|Ne]; [rewrite lookup_insert|by rewrite lookup_insert_ne]).
    - by rewrite Nt in H.
    - by rewrite Tt in H.
  Qed.
  Lemma step_one x y : step x y → ∃ t, ∀ t', t' ≠ t → c_pool y !! t' = c_pool x !! t'.
  Proof. intros [h pool t c0 _ _|h pool t c0 s h' s' _ _]; exists t; intros t' N; simpl; by rewrite lookup_insert_ne. Qed.
  Definition registers (t : nat) (m : minfo) : Prop :=
    c_pool c !! t = None ∧
    ∃ d s a, c_pool c' !! t = Some (MkThread (CRegMetric d s m) (TDone (RMetric MOk))) ∧ live (c_heap c') d a ∧ P = a ++ newPathSpec s.
  Lemma call_at t x ca s th : x ∈ l → c_pool c' !! t = Some (MkThread ca s) → c_pool x !! t = Some th → t_call th = ca.
  Proof using D.
    intros Hx E E'. assert (H : t_call <$> c_pool c' !! t = Some (t_call th)) by (apply (pool_last x); [done|by rewrite E']).
    rewrite E in H. simpl in H. by inversion H.
  Qed.
  Lemma race_winner t m : registers t m → visible m (c_heap c').
  Proof using D Ci K.
    intros (N & d & s & a & Et & L & EP).
    assert (T : tracked t (CRegMetric d s m) m c').
    { eapply (during_ind_cons (keeps P) (tracked t (CRegMetric d s m) m) c l c' D K); [|exact Ci|].
      - intros x y Hx Hy Kp Cx St T. eapply (proj1 (tracked_step t d s m a x y L EP Hx Hy Kp Cx St (λ th E, call_at t y _ _ th Hy Et E) T)).
      - unfold tracked, won. by rewrite N. }
    apply T. unfold won. by rewrite Et.
  Qed.
  Lemma race_one t1 t2 m1 m2 : t1 ≠ t2 → registers t1 m1 → registers t2 m2 → False.
  Proof using D Ci K.
    intros Ne (N1 & d1 & s1 & a1 & E1 & L1 & P1) (N2 & d2 & s2 & a2 & E2 & L2 & P2).
    assert (J : tracked t1 (CRegMetric d1 s1 m1) m1 c' ∧ tracked t2 (CRegMetric d2 s2 m2) m2 c' ∧ ¬ (won t1 c' ∧ won t2 c')).
    { eapply (during_ind_cons (keeps P) (λ x, tracked t1 (CRegMetric d1 s1 m1) m1 x ∧ tracked t2 (CRegMetric d2 s2 m2) m2 x ∧
        ¬ (won t1 x ∧ won t2 x)) c l c' D K); [|exact Ci|].
      - intros x y Hx Hy Kp Cx St (T1 & T2 & NW).
        destruct (tracked_step t1 d1 s1 m1 a1 x y L1 P1 Hx Hy Kp Cx St (λ th E, call_at t1 y _ _ th Hy E1 E) T1) as [T1' W1].
        destruct (tracked_step t2 d2 s2 m2 a2 x y L2 P2 Hx Hy Kp Cx St (λ th E, call_at t2 y _ _ th Hy E2 E) T2) as [T2' W2].
        split; [done|]. split; [done|]. intros [Y1 Y2].
        destruct (step_one x y St) as [t0 Ht0].
        assert (S : ∀ t, t ≠ t0 → won t y → won t x) by (intros t Nt; unfold won; by rewrite Ht0).
        assert (Vi : ∀ t ca m, tracked t ca m x → won t x → answer (c_heap x) P ≠ None).
        { intros t ca m [_ V] Wt. destruct (V Wt) as (e & A & _). congruence. }
        destruct (decide (t1 = t0)) as [->|N0].
        + assert (X2 : won t2 x) by (apply S; [congruence|done]).
          destruct (W1 Y1) as [X1|X1]; [by apply NW|]. by apply (Vi _ _ _ T2 X2).
        + assert (X1 : won t1 x) by (by apply S).
          destruct (W2 Y2) as [X2|X2]; [by apply NW|]. by apply (Vi _ _ _ T1 X1).
      - unfold tracked, won. rewrite N1, N2. naive_solver. }
    destruct J as (_ & _ & J). apply J. unfold won. by rewrite E1, E2.
  Qed.
End race.

(** ** Executions without unregistrations *)
Definition grows {B} (o : op B) : Prop := match o with RemoveListEntry _ _ | RemoveChildDirectory _ _ => False | _ => True end.
Fixpoint norem {A} (p : prog A) : Prop :=
  match p with
  | Ret _ => True
  | Step o k => grows o ∧ ∀ b, norem (k b)
  end.
Lemma norem_bind {A B} (p : prog A) (f : A → prog B) : norem p → (∀ a, norem (f a)) → norem (bind p f).
Proof. intros Np Nf. induction p as [a|C o k IH]; simpl in *; [apply Nf|]. destruct Np as [N1 N2]. split; [done|]. intros b. apply IH, N2. Qed.
Lemma find_mono h h' : (∀ d n e, contents h d !! n = Some e → contents h' d !! n = Some e) →
  ∀ q d r, find h d q = Some r → find h' d q = Some r.
Proof.
  intros M. induction q as [|x q IH]; intros d r; [done|]. rewrite !find_cons.
  destruct (contents h d !! x) as [e|] eqn:E; [|done]. rewrite (M _ _ _ E). destruct (e_obj e); [done|]. apply IH.
Qed.
Lemma grows_contents {B} (o : op B) h : grows o → wf h → op_ok o h →
  ∀ d n e, contents h d !! n = Some e → contents (fst (op_sem o h)) d !! n = Some e.
Proof.
  intros G W K d n e E. destruct o as [d0 n0|d0 n0|d0 e0|d0 n0|d0 n0 m|di u|d0]; simpl in G, K; try done.
  - destruct K as [H V]. destruct (contents h d0 !! n0) as [e1|] eqn:C; [unfold op_sem; rewrite C; by destruct (e_obj e1)|].
    destruct (create_change h d0 n0 W H V C) as (A & _). rewrite A. destruct (decide (d = d0)) as [->|]; [|done].
    rewrite lookup_insert_ne; [done|congruence].
  - destruct K as [H V]. destruct (contents h d0 !! n0) as [e1|] eqn:C; [unfold op_sem; by rewrite C|].
    destruct (store_change h d0 n0 m W H V C) as (A & _). rewrite A. destruct (decide (d = d0)) as [->|]; [|done].
    rewrite lookup_insert_ne; [done|congruence].
  - unfold op_sem. by destruct (h_units h !! di) as [[|]|].
Qed.
Lemma norem_getDirectory d p : norem (getDirectory d p).
Proof. revert d. induction p as [|x p IH]; intros d; [done|]. split; [done|]. intros [e|]; [|done]. cbn [bind]. destruct (e_obj e); [done|]. apply IH. Qed.
Lemma norem_getDirectoryAndError d p : norem (getDirectoryAndError d p).
Proof. revert d. induction p as [|x p IH]; intros d; [done|]. split; [done|]. intros [e|]; [|done]. cbn [bind]. destruct (e_obj e); [done|]. apply IH. Qed.
Lemma norem_getDirectoryOrMetric d p : norem (getDirectoryOrMetric d p).
Proof.
  unfold getDirectoryOrMetric. destruct (Dir p), (Base p); try done. apply norem_bind; [apply norem_getDirectory|]. by intros [?|].
Qed.
Lemma norem_registerDirectory d p : norem (registerDirectory d p).
Proof. revert d. induction p as [|x p IH]; intros d; [done|]. split; [done|]. intros [d'|er]; [|done]. cbn [bind]. apply IH. Qed.
Lemma norem_registerMetric d p m : norem (registerMetric d p m).
Proof.
  unfold registerMetric. destruct (Dir p), (Base p); try done. apply norem_bind; [apply norem_registerDirectory|]. intros [d'|er]; [|done].
  apply norem_bind; [destruct (mi_spec m); by cbn|]. by intros [].
Qed.
Lemma norem_prog_of ca : ¬ unregisters ca → norem (prog_of ca).
Proof.
  destruct ca; simpl; intros N; try done; apply norem_bind; auto using norem_registerMetric, norem_registerDirectory,
    norem_getDirectoryAndError, norem_getDirectoryOrMetric; by intros.
Qed.
Definition norem_inv (c : config) : Prop :=
  ∀ t th, c_pool c !! t = Some th → ¬ unregisters (t_call th) → match t_state th with TRun p => norem p | _ => True end.
Lemma norem_step c c' : norem_inv c → step c c' → norem_inv c'.
Proof.
  intros N St. revert N. destruct St as [h pool t' c0 Nt _|h pool t' c0 s h' s' Tt St]; intros N t th; simpl.
  - destruct (decide (t' = t)) as [->|Ne]; [rewrite lookup_insert|rewrite lookup_insert_ne by done; exact (N t th)].
    intros [= <-] U. by apply norem_prog_of.
  - destruct (decide (t' = t)) as [->|Ne]; [rewrite lookup_insert|rewrite lookup_insert_ne by done; exact (N t th)].
    intros [= <-] U. simpl in *. specialize (N _ _ Tt U). simpl in N. destruct St; try done. simpl in N. by destruct N.
Qed.
Lemma reachable_norem c : reachable c → norem_inv c.
Proof.
  intros [l D]. assert (N : norem_inv init_config) by (intros t th; simpl; by rewrite lookup_empty).
  induction D as [|c c1 l c2 St D IH]; [done|]. apply IH. by eapply norem_step.
Qed.
(** a step keeps all answers when no thread present afterwards is an unregistration *)
Lemma step_keeps_all c c' : cinv c → norem_inv c → step c c' → (∀ t th, c_pool c' !! t = Some th → ¬ unregisters (t_call th)) →
  ∀ q, answer (c_heap c) q ≠ None → answer (c_heap c') q = answer (c_heap c) q.
Proof.
  intros I N St U q A. destruct (answer (c_heap c) q) as [r|] eqn:E; [|done]. clear A. revert I N U E.
  destruct St as [h pool t c0 Nt _|h pool t c0 s h' s' Tt St]; simpl; intros I N U E; [done|].
  specialize (U t). rewrite lookup_insert in U. specialize (U _ eq_refl). specialize (N _ _ Tt U).
  pose proof (ci_threads _ I _ _ Tt) as S. pose proof (ci_wf _ I) as W. simpl in *. destruct St; try done. simpl in *.
  destruct N as [G _]. destruct (S h W (ext_refl h)) as [K _]. unfold answer. eapply find_mono; [|exact E]. by apply grows_contents.
Qed.
Lemma no_unregister_keeps c l c' P : reachable c → during c l c' → (∀ t th, c_pool c' !! t = Some th → ¬ unregisters (t_call th)) →
  consecutive (keeps P) l.
Proof.
  intros R D U. pose proof (reachable_inv c R) as I. pose proof (reachable_norem c R) as N. clear R. revert I N U.
  induction D as [c|c c1 l c2 St D IH]; intros I N U; [done|].
  destruct (step_inv _ _ I St) as [I1 _]. pose proof (norem_step _ _ N St) as N1. simpl. split; [|by apply IH].
  assert (U1 : ∀ t th, c_pool c1 !! t = Some th → ¬ unregisters (t_call th)).
  { intros t th E. assert (L : t_call <$> c_pool c2 !! t = Some (t_call th)).
    { eapply (pool_last c1 c2 l D c1); [by eapply during_first|by rewrite E]. }
    destruct (c_pool c2 !! t) as [th'|] eqn:E2; [|done]. simpl in L. injection L as <-. by eapply U. }
  assert (H : keeps P c c1) by (intros q _; by apply step_keeps_all). by destruct D.
Qed.
(** ** listings while nobody unregisters *)
Lemma step_mono c c' : cinv c → norem_inv c → step c c' → (∀ t th, c_pool c' !! t = Some th → ¬ unregisters (t_call th)) →
  ∀ d n e, contents (c_heap c) d !! n = Some e → contents (c_heap c') d !! n = Some e.
Proof.
  intros I N St U d n e. revert I N U.
  destruct St as [h pool t c0 Nt _|h pool t c0 s h' s' Tt St]; simpl; intros I N U E; [done|].
  specialize (U t). rewrite lookup_insert in U. specialize (U _ eq_refl). specialize (N _ _ Tt U).
  pose proof (ci_threads _ I _ _ Tt) as S. pose proof (ci_wf _ I) as W. simpl in *. destruct St; try done. simpl in *.
  destruct N as [G _]. destruct (S h W (ext_refl h)) as [K _]. by apply grows_contents.
Qed.
Lemma during_mono c l c' : cinv c → norem_inv c → during c l c' → (∀ t th, c_pool c' !! t = Some th → ¬ unregisters (t_call th)) →
  ∀ x, x ∈ l → ∀ d n e, contents (c_heap x) d !! n = Some e → contents (c_heap c') d !! n = Some e.
Proof.
  intros I N D U. induction D as [c|c c1 l c2 St D IH]; intros x Hx d n e E.
  - by apply elem_of_list_singleton in Hx as ->.
  - destruct (step_inv _ _ I St) as [I1 _]. pose proof (norem_step _ _ N St) as N1.
    apply elem_of_cons in Hx as [->|Hx]; [|by eapply IH]. apply (IH I1 N1 U c1 (during_first _ _ _ D)).
    eapply step_mono; [exact I|exact N|exact St| |exact E]. intros t th E1.
    assert (L : t_call <$> c_pool c2 !! t = Some (t_call th)).
    { eapply (pool_last c1 c2 l D c1); [by eapply during_first|by rewrite E1]. }
    destruct (c_pool c2 !! t) as [th'|] eqn:E2; [|done]. simpl in L. injection L as <-. by eapply U.
Qed.
Lemma listing_mono t s l c c' out : during c l c' → cinv c → c_pool c !! t = None →
  (∀ x, x ∈ l → ∀ d n e, contents (c_heap x) d !! n = Some e → contents (c_heap c') d !! n = Some e) →
  c_pool c' !! t = Some (MkThread (CList root s) (TDone (RList out))) →
  Forall (λ e, answer (c_heap c') (names e) = Some (NMetric e)) out.
Proof.
  intros D Ci N Mono Done. set (h := c_heap c') in *. assert (W : wf h) by (destruct (during_inv _ _ _ Ci D) as [_ I]; apply I).
  assert (Item : ∀ x d y e, x ∈ l → live h d (dpath h d) → contents (c_heap x) d !! y = Some e → live_item h (item_of e)).
  { intros x d y e Hx L C0. pose proof (Mono x Hx _ _ _ C0) as C. pose proof (entry_names _ _ _ _ W C) as Ne.
    assert (A : answer h (names e) = Some (node_of e)). { rewrite Ne. unfold answer, live in *. unfold answer in L. by rewrite find_snoc, L, C. }
    unfold item_of, node_of in *. destruct (e_obj e) as [m|d'] eqn:O; simpl; [done|]. by eapply live_dpath. }
  assert (Walk : ∀ p d, live h d (dpath h d) → hoare (mem_heap l) (getDirectory d p) (λ r, match r with Some d' => live h d' (dpath h d') | None => True end)).
  { induction p as [|x p IH]; intros d L; [done|]. cbn [getDirectory bind atomic hoare]. intros h0 (x0 & Hx & <-). simpl.
    destruct (contents (c_heap x0) d !! x) as [e|] eqn:C; [|done]. pose proof (Item _ _ _ _ Hx L C) as It. unfold item_of in It.
    destruct (e_obj e) as [m|d'] eqn:O; [done|]. by apply IH. }
  assert (L : listing t (CList root s) (mem_heap l) (λ w out, Forall (λ e, answer h (names e) = Some (NMetric e)) out ∧ Forall (live_item h) w) c').
  { eapply listing_step; [exact D|exact Ci|exact N|intros x Hx; by exists x| | |].
    - cbn [prog_of]. set (p := newPathSpec s).
      eapply hoare_bind with (Q := λ n, match n with Some (NDir d) => live_item h (WDir d) | Some (NMetric e) => live_item h (WMetric e) | None => True end).
      + unfold getDirectoryOrMetric. destruct (Dir_Base p) as [[E ->]|(a & y & E & -> & ->)]; [by apply (live_dpath h root [])|].
        eapply hoare_bind; [apply Walk; by apply (live_dpath h root [])|]. intros [d|] Od; [|done]. cbn [bind atomic hoare]. intros h0 (x0 & Hx & <-). simpl.
        destruct (contents (c_heap x0) d !! y) as [e|] eqn:C; [|done]. pose proof (Item _ _ _ _ Hx Od C) as It. simpl. unfold item_of, node_of in *.
        by destruct (e_obj e).
      + intros [[d|e]|] Q; simpl; (split; [constructor|]); repeat constructor; done.
    - intros e w o [K1 K2]. inversion K2; subst. split; [|done]. apply Forall_app. split; [done|by constructor].
    - intros x d es w o Hx Cx P [K1 K2] H. inversion K2 as [|? ? K3 K4]; subst. split; [done|]. apply Forall_app. split; [|done].
      apply Forall_forall. intros i Hi. apply elem_of_list_fmap in Hi as (e & -> & He).
      rewrite sort_perm, P in He. apply entries_of_elem in He as [y C]. by eapply Item. }
  unfold listing in L. rewrite Done in L. specialize (L eq_refl). by destruct L.
Qed.
