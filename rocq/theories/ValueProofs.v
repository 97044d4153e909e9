From Verif Require Import GoBase GoVal UnitsModel DurationModel TypesModel FloatBase.
From stdpp Require Import list.
From Flocq Require Import IEEE754.BinarySingleNaN.
From Verif Require Import ReflectModel ListModel ListSpec ListProofs ValueModel ValueSpec.

Section W.
  Context {W : Type} (w : wordsize).
  Implicit Types (sp : mspec W) (v : value W) (s : W).
  (** what valueToInterface makes of a value of the type it was registered with *)
  Lemma interface_plain x t p : getPrimitiveType w (rtype_of x) = Some (t, p) → plain (rtype_of x) = true →
    ∃ y, valueToInterface x t p = Some y ∧ documented t (rtype_of y).
  Proof.
    intros E P. destruct x as [k n z| |o|d|]; simpl in E.
    - destruct k, n, w; try discriminate P; injection E as <- <-; cbn; eexists; (split; [reflexivity|constructor]).
    - injection E as <- <-. cbn. eexists. split; [reflexivity|constructor].
    - injection E as <- <-. destruct o; cbn; eexists; (split; [reflexivity|constructor]).
    - injection E as <- <-. cbn. eexists. split; [reflexivity|constructor].
    - discriminate.
  Qed.
  Lemma interface_any x t p : getPrimitiveType w (rtype_of x) = Some (t, p) → ∃ y, valueToInterface x t p = Some y.
  Proof.
    intros E. destruct x as [k n z| |o|d|]; simpl in E.
    - destruct k, w; injection E as <- <-; cbn; eauto.
    - injection E as <- <-. cbn. eauto.
    - injection E as <- <-. destruct o; cbn; eauto.
    - injection E as <- <-. cbn. eauto.
    - discriminate.
  Qed.
  (** exactly *)
  Lemma interface_iff x t p y : getPrimitiveType w (rtype_of x) = Some (t, p) → valueToInterface x t p = Some y → (documented t (rtype_of y) ↔ plain (rtype_of x) = true).
  Proof.
    intros E V. split; [|intros P; destruct (interface_plain x t p E P) as (y' & V' & D); rewrite V in V'; by injection V' as <-].
    intros D. destruct x as [k n z| |o|d|]; simpl in E; try done.
    destruct k, w; injection E as <- <-; cbn in V; injection V as <-; destruct n; try done; inversion D.
  Qed.
  (** *** lists *)
  Definition out_plain (sl : slice) : Prop := s_named sl = None ∧ match s_elem sl with RBasic k n => n = None ∧ k ≠ KInt ∧ k ≠ KUint | _ => True end.
  Lemma asSlice_plain h sl m h' sl' t : plain_slice sl = true → asSliceValue w h (ISlice sl) m = Ok (h', sl', t) → out_plain sl'.
  Proof.
    intros P E. unfold asSliceValue in E. destruct (getPrimitiveType w (s_elem sl)) as [[t' []]|] eqn:G; try done.
    destruct (is_int_or_uint (s_elem sl)) eqn:I.
    - unfold convertFromIntOrUintSlice in E. destruct (s_elem sl) as [[] n| | | |] eqn:Es; try discriminate I; destruct w; simpl in G; injection G as <-; simpl in E;
        (destruct (mapM _ _); [|done]; injection E as <- <- <-; split; [done|]; done).
    - assert (O : out_plain sl).
      { unfold plain_slice in P. unfold out_plain. destruct (s_elem sl) as [[] []| | | |]; destruct (s_named sl); try done. }
      destruct m; simpl in E; injection E as <- <- <-; done.
  Qed.
  Definition lists_plain (st : world) : Prop :=
    (∀ l al, w_lists st !! l = Some al → out_plain (l_slice al)) ∧ (∀ p pe, w_pending st !! p = Some pe → out_plain (p_slice pe)).
  Lemma step_plain st e st' r : (∀ sl m ts, e = ENewList (ISlice sl) m ts → plain_slice sl = true) → (∀ l sl m ts, e = EPrepare l (ISlice sl) m ts → plain_slice sl = true) →
    step w st e = Some (st', r) → lists_plain st → lists_plain st'.
  Proof.
    intros N C E [L P]. destruct e as [a|a i v|x m ts|l x m ts|p]; simpl in E.
    - destruct (forallb _ _); [|done]. injection E as <- <-. done.
    - destruct (w_heap st !! a); [|done]. destruct (_ && _); [|done]. injection E as <- <-. done.
    - destruct (iface_ok _ _); [|done]. unfold newList in E. destruct (asSliceValue w (w_heap st) x m) as [[[h' s'] t]|msg] eqn:A; injection E as <- <-; [|done].
      destruct x as [sl| |]; try done. split; [|done]. simpl.
      intros l al [?|(_ & [_ <-]%list_lookup_singleton_Some)]%lookup_app_Some; [by eapply L|]. simpl. eapply asSlice_plain; [by eapply N|exact A].
    - destruct (w_lists st !! l) as [al|]; [|done]. destruct (iface_ok _ _); [|done]. unfold prepare in E.
      destruct (asSliceValue w (w_heap st) x m) as [[[h' s'] t]|msg] eqn:A; [|by injection E as <- <-].
      destruct x as [sl| |]; try done. destruct (String.eqb _ _); injection E as <- <-; [|done]. split; [done|]. simpl.
      intros p pe [?|(_ & [_ <-]%list_lookup_singleton_Some)]%lookup_app_Some; [by eapply P|]. simpl. eapply asSlice_plain; [by eapply C|exact A].
    - destruct (w_pending st !! p) as [pe|] eqn:Lp; [|done]. destruct (w_lists st !! p_list pe) as [al|]; [|done]. injection E as <- <-. split; [|done]. simpl.
      intros l al' [(<- & <- & _)|(_ & ?)]%list_lookup_insert_Some; [|by eapply L]. simpl. by eapply P.
  Qed.
  Lemma run_plain es st st' : slices_plain es → run w st es = Some st' → lists_plain st → lists_plain st'.
  Proof.
    revert st. induction es as [|e es IH]; intros st [N C] E I; simpl in E; [by simplify_eq|].
    destruct (step w st e) as [[st1 r]|] eqn:S; [|done]. apply (IH st1); [|done|].
    - split; intros *; [intros H; eapply N|intros H; eapply C]; by constructor.
    - eapply step_plain; [| |exact S|exact I].
      + intros sl m ts ->. eapply N. constructor.
      + intros l sl m ts ->. eapply C. constructor.
  Qed.
  Lemma list_documented es st i al : run w init es = Some st → slices_plain es → w_lists st !! i = Some al →
    s_named (l_slice al) = None ∧ documented (l_subType al) (s_elem (l_slice al)).
  Proof.
    intros R P L. assert (LP : lists_plain st). { eapply run_plain; [done|exact R|]. split; intros * E; simpl in E; by rewrite lookup_nil in E. }
    destruct (proj1 LP _ _ L) as [Nm El]. split; [done|].
    destruct (inv_lists w st (reachable_inv w st (ex_intro _ es R)) _ _ L) as [_ Ra].
    inversion Ra; subst; rewrite <- H1 in El; simpl in El; destruct_and?; subst; try done; constructor.
  Qed.
  Lemma bits_scalar k t : documented k t → Bits k = documented_bits t.
  Proof. by intros []. Qed.

  Lemma documented_rpc sp s0 v s m : well_typed w sp → newValue w s0 sp = NVOk v → plain_spec w sp → rpcMetric v s = Some m →
    documented_value (mm_kind m) (mm_sub m) (mm_value m) ∧ mm_bits m = documented_bits (value_type (mm_value m)).
  Proof.
    intros T E P R.
    (* one scalar *)
    assert (Sc : ∀ isf f t p, (∀ x, f s = Some x → getPrimitiveType w (rtype_of x) = Some (t, p) ∧ plain (rtype_of x) = true) →
      rpcMetric (MkValue (SrcVal isf f) t p) s = Some m → documented_value (mm_kind m) (mm_sub m) (mm_value m) ∧ mm_bits m = documented_bits (value_type (mm_value m))).
    { intros isf f t p F R'. unfold rpcMetric, AsInterface, evaluate in R'. simpl in R'. destruct (f s) as [x|] eqn:Fx; [|done]. destruct (F x eq_refl) as [G Pl].
      destruct (interface_plain x t p G Pl) as (y & V & D). rewrite V in R'. simpl in R'. injection R' as <-. simpl. split; [by constructor|by apply bits_scalar]. }
    destruct sp as [[] d|l|get str|isnil args outs f|t f| | |]; simpl in E; try done.
    - injection E as <-. simpl in R. injection R as <-. simpl. split; [constructor|done].
    - injection E as <-. simpl in R. injection R as <-. simpl. destruct (P s) as (es & st & i & Ru & Pl & L). destruct (list_documented _ _ _ _ Ru Pl L) as [Nm D].
      split; [by constructor|by apply bits_scalar].
    - destruct get as [g|].
      + destruct (g s0) as [v0|] eqn:G0; [|done]. destruct P as (t & Ty & Pl). pose proof (Ty _ _ G0) as T0. rewrite T0 in E.
        destruct (getPrimitiveType w t) as [[k p]|] eqn:Gp; injection E as <-; (eapply Sc; [|exact R]).
        * intros x Ex. by rewrite (Ty _ _ Ex).
        * intros x [= <-]. done.
      + simpl in E. injection E as <-. eapply Sc; [|exact R]. intros x [= <-]. done.
    - destruct outs as [|t [|? ?]]; try done. destruct (getPrimitiveType w t) as [[k p]|] eqn:Gp; [|done]. injection E as <-. eapply Sc; [|exact R].
      intros x Ex. destruct (_ || _); [done|]. injection Ex as <-. destruct (T s) as [-> _]. done.
    - destruct (getPrimitiveType w t) as [[k p]|] eqn:Gp; [|done]. injection E as <-. eapply Sc; [|exact R]. intros x [= <-]. destruct (T s) as [-> _]. done.
  Qed.
  Lemma documented_iff sp t s0 v s : well_typed w sp → (∃ f, sp = SpPtr t f ∨ sp = SpFunc false 0 [t] f) → newValue w s0 sp = NVOk v →
    ∃ m, rpcMetric v s = Some m ∧ (documented_value (mm_kind m) (mm_sub m) (mm_value m) ↔ plain t = true).
  Proof.
    intros T (f & F) E. assert (Ty : rtype_of (f s) = t). { destruct F as [-> | ->]; by destruct (T s). }
    assert (∃ k p, getPrimitiveType w t = Some (k, p) ∧ v_type v = k ∧ v_isPtr v = p ∧ evaluate v s = Some (f s) ∧ ∃ b g, v_src v = SrcVal b g) as (k & p & G & <- & <- & Ev & b & g & Src).
    { destruct F as [-> | ->]; simpl in E; destruct (getPrimitiveType w t) as [[k p]|]; try done; injection E as <-; eexists _, _; split_and!; eauto. }
    rewrite <- Ty in G. destruct (interface_any _ _ _ G) as [y V]. unfold rpcMetric, AsInterface. rewrite Src, Ev, V. simpl. eexists. split; [done|]. simpl.
    rewrite <- Ty, <- (interface_iff _ _ _ _ G V). unfold SubType. rewrite Src. split; [by inversion 1|by constructor].
  Qed.
  (** *** evaluation does not panic *)
  Lemma float_ok x t p : getPrimitiveType w (rtype_of x) = Some (t, p) → IsFloat t = true → ∃ f, value_Float x = Some f.
  Proof. destruct x as [[] n z| | | |]; simpl; intros E F; try destruct w; try discriminate E; injection E as <- <-; try discriminate F; eauto. Qed.
  Lemma reads sp s0 v s : well_typed w sp → readable sp → newValue w s0 sp = NVOk v → (∃ m, rpcMetric v s = Some m) ∧ ∃ b, IsInfNaN v s = Some b.
  Proof.
    intros T R E.
    assert (Sc : ∀ isf f t p x, f s = Some x → getPrimitiveType w (rtype_of x) = Some (t, p) →
      (∃ m, rpcMetric (MkValue (SrcVal isf f) t p) s = Some m) ∧ ∃ b, IsInfNaN (MkValue (W := W) (SrcVal isf f) t p) s = Some b).
    { intros isf f t p x Fx G. unfold rpcMetric, AsInterface, IsInfNaN, evaluate. simpl. rewrite Fx. destruct (interface_any x t p G) as [y V]. rewrite V. split; [simpl; eauto|].
      destruct (IsFloat t) eqn:F; [|eauto]. destruct (float_ok x t p G F) as [fl ->]. simpl. eauto. }
    destruct sp as [[] d|l|get str|isnil args outs f|t f| | |]; simpl in E; try done.
    - injection E as <-. split; [eexists; reflexivity|]. eexists. reflexivity.
    - injection E as <-. split; [eexists; reflexivity|]. eexists. reflexivity.
    - destruct get as [g|].
      + destruct R as [t R]. destruct (R s0) as (v0 & G0 & T0). rewrite G0, T0 in E. destruct (R s) as (v1 & G1 & T1).
        destruct (getPrimitiveType w t) as [[k p]|] eqn:Gp; injection E as <-.
        * eapply Sc; [exact G1|by rewrite T1].
        * eapply Sc; [reflexivity|done].
      + simpl in E. injection E as <-. eapply Sc; [reflexivity|done].
    - destruct R as [-> ->]. destruct outs as [|t [|? ?]]; try done. destruct (getPrimitiveType w t) as [[k p]|] eqn:Gp; [|done]. injection E as <-.
      eapply Sc; [reflexivity|]. destruct (T s) as [-> _]. done.
    - destruct (getPrimitiveType w t) as [[k p]|] eqn:Gp; [|done]. injection E as <-. eapply Sc; [reflexivity|]. destruct (T s) as [-> _]. done.
  Qed.
  (** *** NaN and infinities *)
  Lemma bad_number x f : value_Float x = Some f → float_bad f = negb (number x).
  Proof.
    destruct x as [[] n z| | | |]; simpl; try discriminate; intros [= <-]; simpl; destruct z; done.
  Qed.
  Lemma interface_number x t p y : getPrimitiveType w (rtype_of x) = Some (t, p) → IsFloat t = true → valueToInterface x t p = Some y → y = x.
  Proof. destruct x as [[] n z| | | |]; simpl; intros E F; try destruct w; try discriminate E; injection E as <- <-; try discriminate F; cbn; congruence. Qed.
  Lemma nonfloat_number x t p y : getPrimitiveType w (rtype_of x) = Some (t, p) → IsFloat t = false → valueToInterface x t p = Some y → number y = true.
  Proof.
    destruct x as [[] n z| |o|d|]; simpl; intros E F; try destruct w; try discriminate E; injection E as <- <-; try discriminate F; cbn; try (destruct o; simpl); intros [= <-]; done.
  Qed.
  Lemma eval_typed sp s0 v : well_typed w sp → readable sp → newValue w s0 sp = NVOk v →
    (∃ b f, v_src v = SrcVal b f ∧ ∀ s, ∃ x, f s = Some x ∧ getPrimitiveType w (rtype_of x) = Some (v_type v, v_isPtr v)) ∨
    (∀ b f, v_src v ≠ SrcVal b f) ∧ IsFloat (v_type v) = false.
  Proof.
    intros T R E. destruct sp as [[] d|l|get str|isnil args outs f|t f| | |]; simpl in E; try done.
    - injection E as <-. right. done.
    - injection E as <-. right. done.
    - left. destruct get as [g|].
      + destruct R as [t R]. destruct (R s0) as (v0 & G0 & T0). rewrite G0, T0 in E.
        destruct (getPrimitiveType w t) as [[k p]|] eqn:Gp; injection E as <-; eexists _, _; (split; [reflexivity|]); intros s; simpl.
        * destruct (R s) as (v1 & G1 & T1). exists v1. by rewrite T1.
        * eexists. split; [reflexivity|done].
      + simpl in E. injection E as <-. eexists _, _. split; [reflexivity|]. intros s. eexists. split; [reflexivity|done].
    - left. destruct R as [-> ->]. destruct outs as [|t [|? ?]]; try done. destruct (getPrimitiveType w t) as [[k p]|] eqn:Gp; [|done]. injection E as <-.
      eexists _, _. split; [reflexivity|]. intros s. eexists. split; [reflexivity|]. destruct (T s) as [-> _]. done.
    - left. destruct (getPrimitiveType w t) as [[k p]|] eqn:Gp; [|done]. injection E as <-.
      eexists _, _. split; [reflexivity|]. intros s. eexists. split; [reflexivity|]. destruct (T s) as [-> _]. done.
  Qed.
  Lemma left_out sp s0 v s1 s2 : well_typed w sp → readable sp → newValue w s0 sp = NVOk v →
    (collect v s1 s2 = Some None ↔ ∃ m x, rpcMetric v s1 = Some m ∧ mm_value m = MVScalar x ∧ number x = false).
  Proof.
    intros T R E. destruct (reads sp s0 v s2 T R E) as [[m2 M2] _]. destruct (eval_typed sp s0 v T R E) as [(b & f & Src & F)|[Src NF]].
    - destruct (F s1) as (x & Fx & G). unfold collect, IsInfNaN, rpcMetric at 2, AsInterface, evaluate. rewrite M2, Src, Fx.
      destruct (interface_any _ _ _ G) as [y V]. rewrite V. simpl. destruct (IsFloat (v_type v)) eqn:Fl.
      + destruct (float_ok _ _ _ G Fl) as [fl Hf]. rewrite Hf. simpl. rewrite (bad_number _ _ Hf).
        assert (y = x) as -> by (eapply interface_number; [exact G|exact Fl|exact V]).
        destruct (number x) eqn:Nx; simpl; (split; [|]); intros H; try done.
        * destruct H as (m & x' & [= <-] & [= <-] & N'). congruence.
        * eexists _, _. split; [reflexivity|]. done.
      + split; [done|]. intros (m & x' & [= <-] & [= <-] & N'). pose proof (nonfloat_number _ _ _ _ G Fl V). congruence.
    - unfold collect, IsInfNaN. rewrite NF, M2. simpl. split; [done|]. intros (m & x & M & Mx & _). exfalso. unfold rpcMetric in M.
      destruct (v_src v) as [d|l|b f] eqn:S; [..|by eapply Src]; injection M as <-; done.
  Qed.
  Lemma collected_state v s1 s2 m : collect v s1 s2 = Some (Some m) → rpcMetric v s2 = Some m.
  Proof. unfold collect. destruct (IsInfNaN v s1) as [[]|]; try done. destruct (rpcMetric v s2); simpl; congruence. Qed.
  Lemma stable_number sp s0 v s1 s2 m x : well_typed w sp → readable sp → newValue w s0 sp = NVOk v → rpcMetric v s1 = rpcMetric v s2 →
    collect v s1 s2 = Some (Some m) → mm_value m = MVScalar x → number x = true.
  Proof.
    intros T R E St C Mx. destruct (number x) eqn:N; [done|]. exfalso. pose proof (collected_state _ _ _ _ C) as M2.
    assert (collect v s1 s2 = Some None); [|congruence]. eapply (left_out sp s0); [done..|]. exists m, x. split_and!; [congruence|done..].
  Qed.
  Definition registered (v : value W) : Prop := ∃ sp s0, well_typed w sp ∧ readable sp ∧ newValue w s0 sp = NVOk v.
  Lemma listing_numbers ms l : (∀ v s1 s2, (v, s1, s2) ∈ ms → registered v ∧ rpcMetric v s1 = rpcMetric v s2) → collectAll ms = Some l →
    ∀ m x, m ∈ l → mm_value m = MVScalar x → number x = true.
  Proof.
    revert l. induction ms as [|[[v s1] s2] ms IH]; intros l H E m x Hm Mx; simpl in E.
    - injection E as <-. by apply elem_of_nil in Hm.
    - destruct (collect v s1 s2) as [o|] eqn:C; [|done]. destruct (collectAll ms) as [l'|]; [|done]. injection E as <-.
      destruct (H v s1 s2) as [(sp & s0 & T & R & N) St]; [constructor|].
      assert (IH' : m ∈ l' → number x = true). { intros Hm'. eapply IH; [|reflexivity|exact Hm'|exact Mx]. intros v' a b Hin. apply H. by constructor. }
      destruct o as [m'|]; [|by apply IH']. apply elem_of_cons in Hm as [->|Hm]; [|by apply IH']. by eapply stable_number.
  Qed.
  (** *** what the values are *)
  Lemma interface_content x t p y : rval_ok w x = true → getPrimitiveType w (rtype_of x) = Some (t, p) → valueToInterface x t p = Some y → content_of y = content_of x.
  Proof.
    intros O E V. destruct x as [k n z| |o|d|]; simpl in E, O.
    - destruct k; try destruct w; injection E as <- <-; cbn in V; injection V as <-; cbn; try done; unfold kind_ok, between in O;
        rewrite andb_true_iff, Z.leb_le, Z.ltb_lt in O; f_equal;
        first [unfold wrap32; rewrite Z.mod_small; lia | unfold to_uint; apply Z.mod_small; simpl in O; lia].
    - injection E as <- <-. cbn in V. injection V as <-. done.
    - injection E as <- <-. destruct o; cbn in V; injection V as <-; done.
    - injection E as <- <-. cbn in V. injection V as <-. done.
    - discriminate.
  Qed.
  Lemma reports_current sp s0 v s c : well_typed w sp → readable sp → newValue w s0 sp = NVOk v → current sp s = Some c →
    ∃ m x, rpcMetric v s = Some m ∧ mm_value m = MVScalar x ∧ content_of x = c.
  Proof.
    intros T R E C.
    assert (Sc : ∀ isf f t p x, f s = Some x → rval_ok w x = true → getPrimitiveType w (rtype_of x) = Some (t, p) → content_of x = c →
      ∃ m x, rpcMetric (MkValue (W := W) (SrcVal isf f) t p) s = Some m ∧ mm_value m = MVScalar x ∧ content_of x = c).
    { intros isf f t p x Fx O G <-. unfold rpcMetric, AsInterface, evaluate. simpl. rewrite Fx. destruct (interface_any x t p G) as [y V]. rewrite V. simpl.
      eexists _, _. split; [reflexivity|]. split; [reflexivity|]. by eapply interface_content. }
    destruct sp as [[] d|l|get str|isnil args outs f|t f| | |]; simpl in E, C; try done.
    - destruct get as [g|].
      + destruct R as [t R]. destruct (R s0) as (v0 & G0 & T0). rewrite G0, T0 in E. destruct (R s) as (v1 & G1 & T1). rewrite G1, T1 in C.
        destruct (getPrimitiveType w t) as [[k p]|] eqn:Gp; injection E as <-.
        * eapply Sc; [exact G1|by eapply T|by rewrite T1|]. destruct t; try done; injection C as <-; done.
        * eapply Sc; [reflexivity|done|done|]. destruct t; try done. injection C as <-. done.
      + simpl in E. injection E as <-. injection C as <-. eapply Sc; [reflexivity|done..].
    - destruct R as [-> ->]. destruct outs as [|t [|? ?]]; try done. destruct (getPrimitiveType w t) as [[k p]|] eqn:Gp; [|done]. injection E as <-. injection C as C.
      destruct (T s) as [Tt To]. eapply Sc; [reflexivity|done|by rewrite Tt|done].
    - destruct (getPrimitiveType w t) as [[k p]|] eqn:Gp; [|done]. injection E as <-. injection C as C. destruct (T s) as [Tt To].
      eapply Sc; [reflexivity|done|by rewrite Tt|done].
  Qed.
End W.
