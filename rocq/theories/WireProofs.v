(** Proofs about replies, compression and JSON read back. *)
From Verif Require Import GoBase GoVal UnitsModel DurationModel TypesModel FloatBase MessagesModel MessagesSpec MessagesProofs.
From stdpp Require Import gmap strings.
From Verif Require Import StrLemmas.
From Verif Require Import ReflectModel ListModel ListSpec ListProofs ValueModel ValueSpec ValueProofs.
From Verif Require Import PathModel PathSpec PathProofs RegistryModel RegistrySpec RegistryProofs RegistryConc HttpModel HttpSpec HttpProofs HttpText WireModel WireSpec.
Local Open Scope string_scope.
Local Open Scope list_scope.

(** ** Go RPC *)
Lemma known_sendable h v : gob_known (goval_of h v) = true ↔ sendable v.
Proof.
  destruct v as [d|s|x]; simpl.
  - done.
  - unfold slice_goval. destruct (s_named s) as [n|]; [split; [done|by intros [? _]]|].
    assert ((∃ k, documented k (s_elem s)) ↔ is_Some (sty_of (s_elem s))) as E.
    { split; [intros [k D]; by destruct D; eexists|]. intros [t H]. destruct (s_elem s) as [k [n|]| | | |]; try (destruct k); try discriminate H; eexists; constructor. }
    destruct (sty_of (s_elem s)) as [t|]; simpl; split; [intros _; split; [done|]; apply E; eauto|done|done|intros [_ D]; apply E in D as [? ?]; done].
  - split.
    + intros H. destruct x as [k [n|] z| | | |]; try (destruct k); try discriminate H; eexists; constructor.
    + intros [k D]. destruct x as [k' [n|] z| | | |]; simpl in *; [inversion D| |done|inversion D|done|inversion D]. destruct k'; try done; inversion D.
Qed.
Lemma forallb_Forall2 {A B} (f : B → bool) (P : A → Prop) (l : list A) (m : list B) (R : A → B → Prop) : Forall2 R l m → (∀ a b, R a b → f b = true ↔ P a) → forallb f m = true ↔ ∀ a, a ∈ l → P a.
Proof.
  intros F E. rewrite <- Forall_forall. induction F as [|a b l m H F IH]; simpl; [by split|]. rewrite andb_true_iff, IH, Forall_cons. by rewrite (E a b H).
Qed.
Section Rpc.
  Context {W : Type} (w : wordsize) (val : RegistryModel.mspec → value W) (arrays : W → list array) (stamp : minfo → W → gotime) (group : minfo → W → Z).
  Lemma gob_sendable e mi m s : e_obj e = OMetric mi → InitRpcMetric val arrays stamp group e s = Some m → gob_metric m = true ↔ sendable_metric val s mi.
  Proof.
    intros Oe. unfold InitRpcMetric, info. rewrite Oe. unfold sendable_metric. destruct (rpcMetric (val (mi_spec mi)) s) as [x|] eqn:E; [|discriminate]. intros H. injection H as <-. unfold gob_metric. cbn [m_value m_timeStamp]. unfold VTime. simpl gob_known at 2. rewrite andb_true_r.
    rewrite known_sendable. split; [intros H y E'; injection E' as <-; exact H|intros H; by apply H].
  Qed.
  Lemma list_reply (O : objects w val arrays) h path p out s : traversed h path out → components path p →
    (serveListMetrics val arrays stamp group out s = RpcClosed ∨ ∃ ms, serveListMetrics val arrays stamp group out s = RpcReply ms ∧ rpcListMetrics val arrays stamp group out s = Some ms) ∧
    ((∃ ms, serveListMetrics val arrays stamp group out s = RpcReply ms) ↔ ∀ q e mi, metric_at h p q e mi → ¬ no_number val s mi → sendable_metric val s mi).
  Proof.
    intros T C. destruct (listing_entries w val arrays O h path p out s T C) as (es & E & _ & H1 & H2). unfold serveListMetrics.
    destruct (rpc_list w val arrays stamp group (λ _, "") O h path p out s T C) as (rs & _ & R & _). rewrite R. split; [destruct (forallb _ rs); eauto|].
    unfold rpcListMetrics in R. rewrite E in R. apply mapM_Some in R.
    assert (forallb gob_metric rs = true ↔ ∀ e, e ∈ es → ∀ mi, e_obj e = OMetric mi → sendable_metric val s mi) as K.
    { eapply forallb_Forall2; [exact R|]. intros e m J. simpl in J. assert (∃ mi, e_obj e = OMetric mi) as [mi Oe].
      { unfold InitRpcMetric, info in J. destruct (e_obj e); try discriminate; eauto. }
      rewrite (gob_sendable e mi m s Oe J). split; [intros H mi' Oe'; rewrite Oe in Oe'; by injection Oe' as <-|eauto]. }
    transitivity (forallb gob_metric rs = true). { destruct (forallb gob_metric rs); split; try done; [eauto|intros [? ?]; done]. }
    rewrite K. split.
    - intros H q e mi M N. eapply H; [by eapply H2|]. apply M.
    - intros H e He mi Oe. destruct (H1 e He) as (q & mi' & M & N & _). assert (mi' = mi) as ->. { destruct M as (_ & _ & Oe'). rewrite Oe in Oe'. by injection Oe' as <-. } eauto.
  Qed.
  Lemma get_reply (O : objects w val arrays) h path p e mi s : components path p → answer h p = Some (NMetric e) → e_obj e = OMetric mi →
    (∃ m, serveGetMetric val arrays stamp group (looked_up h path) s = RpcReply m) ↔ sendable_metric val s mi.
  Proof.
    intros C A Oe. rewrite (looked_up_answer _ _ _ C), A. unfold serveGetMetric, rpcGetMetric.
    destruct (InitRpcMetric val arrays stamp group e s) as [m|] eqn:J.
    - rewrite <- (gob_sendable e mi m s Oe J). cbn [fmap option_fmap option_map]. destruct (gob_metric m); split; try done; [eauto|intros [? ?]; done].
    - exfalso. unfold InitRpcMetric, info in J. rewrite Oe in J. destruct (reads_env w val arrays O (mi_spec mi) s) as [[m E] _]. rewrite E in J. discriminate J.
  Qed.
  Lemma plain_sendable (P : plain_objects w val) s mi : sendable_metric val s mi.
  Proof.
    intros m R. destruct (P (mi_spec mi)) as (o & s0 & T & Pl & N). destruct (documented_rpc w o s0 _ s m T N Pl R) as [D _]. destruct D as [k v D|d|k sl Nm D]; simpl; eauto.
  Qed.
End Rpc.

(** ** Compression *)
Lemma contains_spec s sub : contains s sub = true ↔ occurs sub s.
Proof.
  assert (Pf : ∀ a b, String.prefix a b = true ↔ ∃ r, b = a +:+ r).
  { induction a as [|x a IH]; intros b; [by split; [intros _; exists b|destruct b]|]. destruct b as [|y b]; simpl; [by split; [|intros [? ?]]|]. destruct (ascii_dec x y) as [->|N].
    - rewrite IH. split; intros [r E]; exists r; [by rewrite E|]. by injection E.
    - split; [done|]. intros [r E]. injection E as E1 E2. by destruct N. }
  induction s as [|c s IH].
  - change (contains "" sub) with (String.prefix sub "" || false). rewrite orb_false_r, Pf. split; [intros [r E]; exists "", r; done|]. intros (a & b & E). destruct a; [exists b; done|done].
  - change (contains (String c s) sub) with (String.prefix sub (String c s) || contains s sub). rewrite orb_true_iff, Pf, IH. split.
    + intros [[r E]|(a & b & E)]; [exists "", r; done|exists (String c a), b; simpl; by rewrite E].
    + intros (a & b & E). destruct a as [|x a]; [left; exists b; done|]. right. injection E as <- E. exists a, b. done.
Qed.
Lemma split_on_ne c s : split_on c s ≠ [].
Proof. destruct s as [|a r]; simpl; [done|]. destruct (Ascii.eqb a c); [done|]. by destruct (split_on c r). Qed.
Lemma append_occurs sub a s : occurs sub s → occurs sub (String a s).
Proof. intros (x & y & ->). by exists (String a x), y. Qed.
Lemma occurs_app sub a s b : occurs sub s → occurs sub (a +:+ s +:+ b).
Proof. intros (x & y & ->). exists (a +:+ x), (y +:+ b). by rewrite !app_assoc_str. Qed.
Lemma split_on_piece c s x : x ∈ split_on c s → ∃ a b, s = a +:+ x +:+ b.
Proof.
  revert x. induction s as [|a r IH]; intros x H; simpl in H. { apply elem_of_list_singleton in H as ->. by exists "", "". }
  destruct (Ascii.eqb a c).
  - apply elem_of_cons in H as [->|H]; [by exists "", (String a r)|]. destruct (IH x H) as (u & v & ->). by exists (String a u), v.
  - destruct (split_on c r) as [|y ys] eqn:E; [by destruct (split_on_ne c r)|]. apply elem_of_cons in H as [->|H].
    + assert (∃ v, r = y +:+ v) as [v ->]; [|by exists "", v]. clear -E. revert y ys E. induction r as [|d r IH]; intros y ys E; simpl in E; [injection E as <- <-; by exists ""|].
      destruct (Ascii.eqb d c); [injection E as <- <-; by exists (String d r)|]. destruct (split_on c r) as [|z zs] eqn:E'; [by destruct (split_on_ne c r)|]. injection E as <- <-. destruct (IH _ _ eq_refl) as [v ->]. by exists v.
    + destruct (IH x) as (u & v & ->); [by constructor|]. by exists (String a u), v.
Qed.
(** a text without the separator lies in one piece *)
Fixpoint lacks (c : ascii) (s : string) : bool := match s with "" => true | String a r => negb (Ascii.eqb a c) && lacks c r end.
Lemma split_on_app c x s : lacks c x = true → split_on c (x +:+ s) = match split_on c s with y :: ys => (x +:+ y) :: ys | [] => [x] end.
Proof.
  induction x as [|a x IH]; intros L. { change ("" +:+ s) with s. destruct (split_on c s) eqn:E; [by destruct (split_on_ne c s)|done]. }
  cbn [lacks] in L. apply andb_true_iff in L as [N L]. apply negb_true_iff in N. change (String a x +:+ s) with (String a (x +:+ s)). cbn [split_on]. rewrite N, (IH L). by destruct (split_on c s).
Qed.
Lemma split_on_occurs c sub s : lacks c sub = true → occurs sub s → ∃ x, x ∈ split_on c s ∧ occurs sub x.
Proof.
  intros L (a & b & ->). induction a as [|d a IH].
  - change ("" +:+ sub +:+ b) with (sub +:+ b). rewrite (split_on_app c sub b L). destruct (split_on c b) as [|y ys] eqn:E; [by destruct (split_on_ne c b)|]. exists (sub +:+ y). split; [constructor|]. by exists "", y.
  - change (String d a +:+ sub +:+ b) with (String d (a +:+ sub +:+ b)). cbn [split_on]. destruct IH as (x & Hx & Ox). destruct (Ascii.eqb d c); [exists x; split; [by constructor|done]|].
    destruct (split_on c (a +:+ sub +:+ b)) as [|y ys]; [by apply elem_of_nil in Hx|]. apply elem_of_cons in Hx as [->|Hx].
    + exists (String d y). split; [constructor|]. by apply append_occurs.
    + exists x. split; [by constructor|done].
Qed.
Lemma trim_left_piece s : ∃ a, s = a +:+ trim_left s.
Proof. induction s as [|c s [a IH]]; simpl; [by exists ""|]. destruct (blank c); [|by exists ""]. exists (String c a). change (String c a +:+ trim_left s) with (String c (a +:+ trim_left s)). by rewrite <- IH. Qed.
Lemma trim_right_piece s : ∃ b, s = trim_right s +:+ b.
Proof.
  induction s as [|c s [b IH]]; simpl; [by exists ""|]. destruct (trim_right s) as [|d r] eqn:E.
  - destruct (blank c); [by exists (String c s)|by exists s].
  - exists b. change (String c (String d r) +:+ b) with (String c (String d r +:+ b)). by rewrite <- IH.
Qed.
Lemma trim_occurs sub s : occurs sub (trim s) → occurs sub s.
Proof.
  intros H. unfold trim in H. destruct (trim_right_piece (trim_left s)) as [b E]. destruct (trim_left_piece s) as [a E']. rewrite E', E. by apply occurs_app.
Qed.
Lemma coding_occurs e : is_gzip e → occurs "gzip" e.
Proof.
  intros H. assert (occurs "gzip" (coding e)) as O. { destruct H as [->| ->]; [by exists "", ""|by exists "x-", ""]. }
  unfold coding in O. apply trim_occurs in O. destruct (split_on ";" e) as [|x xs] eqn:E; [by destruct (split_on_ne ";" e)|].
  destruct (split_on_piece ";" e x) as (a & b & ->); [rewrite E; constructor|]. by apply occurs_app.
Qed.
Lemma gzip_iff lines : gzipped lines = true ↔ ∃ l ls e, lines = l :: ls ∧ e ∈ split_on "," l ∧ occurs "gzip" e.
Proof.
  unfold gzipped. rewrite contains_spec. split.
  - intros H. destruct lines as [|l ls]; [destruct H as ([|] & b & E); discriminate E|]. destruct (split_on_occurs "," "gzip" l eq_refl H) as (e & He & Oe). by exists l, ls, e.
  - intros (l & ls & e & -> & He & Oe). destruct (split_on_piece _ _ _ He) as (a & b & ->). by apply occurs_app.
Qed.

(** ** JSON read back *)
Lemma byte_in_iff c lo hi : byte_in c lo hi = true ↔ in_range c lo hi.
Proof. unfold byte_in, in_range. rewrite andb_true_iff, !N.leb_le. done. Qed.
Lemma byte_in_false c lo hi : byte_in c lo hi = false ↔ ¬ in_range c lo hi.
Proof. rewrite <- byte_in_iff. by destruct (byte_in c lo hi). Qed.
Ltac ranges := repeat match goal with
  | |- context [byte_in ?c ?l ?h] => first
      [rewrite (proj2 (byte_in_iff c l h)) by (unfold in_range in *; lia)|rewrite (proj2 (byte_in_false c l h)) by (unfold in_range in *; lia)]
  end.
Lemma json_text_id s : utf8 s → json_text s = s.
Proof.
  induction 1 as [|a r A U IH|a b r A B U IH|a b c r AB C U IH|a b c d r AB C D U IH]; [done|..].
  - cbn [json_text]. ranges. by rewrite IH.
  - cbn [json_text]. unfold fits, second2. ranges. by rewrite IH.
  - cbn [json_text]. unfold fits, second2, second3.
    destruct AB as [[A B]|[[A B]|[[A B]|[A B]]]]; ranges; cbn [andb]; by rewrite IH.
  - cbn [json_text]. unfold fits, second2, second3, second4.
    destruct AB as [[A B]|[[A B]|[A B]]]; ranges; cbn [andb]; by rewrite IH.
Qed.
(** what comes out is valid *)
Lemma json_text_valid s : utf8 (json_text s).
Proof.
  enough (∀ n s, String.length s ≤ n → utf8 (json_text s)) by eauto. clear s. induction n as [|n IH]; intros s L. { destruct s; [constructor|simpl in L; lia]. }
  destruct s as [|a r]; [constructor|]. simpl in L. assert (R : utf8 (replacement (json_text r))).
  { unfold replacement. apply u_3; [do 3 right; unfold in_range; vm_compute; split; split; discriminate|unfold in_range; vm_compute; split; discriminate|]. apply IH. lia. }
  cbn [json_text]. destruct (byte_in a 0 127) eqn:A. { apply u_1; [by apply byte_in_iff|]. apply IH. lia. }
  destruct r as [|b r2]; [exact R|]. simpl in L. unfold fits, second2, second3, second4.
  destruct (byte_in a 194 223) eqn:A2; [destruct (byte_in b 128 191) eqn:B2|].
  - apply u_2; [by apply byte_in_iff..|]. apply IH. lia.
  - destruct r2 as [|c r3]; [exact R|]. assert (byte_in a 224 224 = false ∧ byte_in a 237 237 = false ∧ byte_in a 225 239 = false ∧ byte_in a 240 240 = false ∧ byte_in a 244 244 = false ∧ byte_in a 241 243 = false) as (-> & -> & -> & -> & -> & ->).
    { apply byte_in_iff in A2. rewrite !byte_in_false. unfold in_range in *. lia. } simpl. by destruct r3.
  - destruct r2 as [|c r3]; [exact R|]. simpl in L.
    assert (K : ∀ o3 o4, (∀ lo hi, o3 = Some (lo, hi) → in_range b lo hi → in_range c 128 191 → utf8 (String a (String b (String c (json_text r3))))) →
      (∀ lo hi d r4, r3 = String d r4 → o4 = Some (lo, hi) → in_range b lo hi → in_range c 128 191 → in_range d 128 191 → utf8 (String a (String b (String c (String d (json_text r4)))))) →
      utf8 (if match o3 with Some (lo, hi) => byte_in b lo hi | None => false end && byte_in c 128 191 then String a (String b (String c (json_text r3)))
        else match r3 with
             | String d r4 => if match o4 with Some (lo, hi) => byte_in b lo hi | None => false end && byte_in c 128 191 && byte_in d 128 191 then String a (String b (String c (String d (json_text r4))))
                              else replacement (json_text (String b (String c r3)))
             | "" => replacement (json_text (String b (String c r3)))
             end)).
    { intros o3 o4 K3 K4. destruct (_ && byte_in c 128 191) eqn:E3.
      - apply andb_true_iff in E3 as [E3 Ec]. destruct o3 as [[lo hi]|]; [|discriminate]. apply byte_in_iff in E3, Ec. by eapply K3.
      - destruct r3 as [|d r4]; [exact R|]. destruct (_ && byte_in d 128 191) eqn:E4; [|exact R]. apply andb_true_iff in E4 as [E4 Ed]. apply andb_true_iff in E4 as [E4 Ec]. destruct o4 as [[lo hi]|]; [|discriminate]. apply byte_in_iff in E4, Ec, Ed. by eapply K4. }
    refine (K (if byte_in a 224 224 then _ else _) (if byte_in a 240 240 then _ else _) _ _).
    + intros lo hi E B C. apply u_3; [|done|apply IH; lia]. destruct (byte_in a 224 224) eqn:X1; [injection E as <- <-; apply byte_in_iff in X1; auto|]. destruct (byte_in a 237 237) eqn:X2; [injection E as <- <-; apply byte_in_iff in X2; auto|].
      destruct (byte_in a 225 239) eqn:X3; [|discriminate]. injection E as <- <-. apply byte_in_iff in X3. apply byte_in_false in X1, X2. unfold in_range in *. lia.
    + intros lo hi d r4 -> E B C D. simpl in L. apply u_4; [|done|done|apply IH; lia]. destruct (byte_in a 240 240) eqn:X1; [injection E as <- <-; apply byte_in_iff in X1; auto|]. destruct (byte_in a 244 244) eqn:X2; [injection E as <- <-; apply byte_in_iff in X2; auto|].
      destruct (byte_in a 241 243) eqn:X3; [|discriminate]. injection E as <- <-. apply byte_in_iff in X3. auto.
Qed.
(** numbers, times and durations are written in ASCII *)
Definition ascii7 (s : string) : Prop := str_all (λ c, byte_in c 0 127) s = true.
Lemma ascii7_utf8 s : ascii7 s → utf8 s.
Proof. unfold ascii7. induction s as [|c s IH]; simpl; [constructor|]. rewrite andb_true_iff. intros [C A]. constructor; [by apply byte_in_iff|auto]. Qed.
Lemma ascii7_app a b : ascii7 (a +:+ b) ↔ ascii7 a ∧ ascii7 b.
Proof. unfold ascii7. by rewrite str_all_app, andb_true_iff. Qed.
Lemma digits_ascii7 s : str_all is_digit s = true → ascii7 s.
Proof. apply str_all_impl. intros c D. apply byte_in_iff. unfold in_range. unfold is_digit in D. apply andb_true_iff in D as [D1 D2]. apply N.leb_le in D1, D2. lia. Qed.
Lemma fmt_d_ascii7 z : ascii7 (fmt_d z).
Proof. unfold fmt_d. destruct (Z.ltb _ _); [apply ascii7_app; split; [done|]|]; apply digits_ascii7, dec_of_N_canonical. Qed.
Lemma fmt_0d_ascii7 k z : ascii7 (fmt_0d k z).
Proof. unfold fmt_0d, pad0. destruct (Z.ltb _ _); repeat (apply ascii7_app; split); try done; apply digits_ascii7; first [apply zeros_digits|apply dec_of_N_canonical]. Qed.
Lemma toString_ascii7 d : ascii7 (toString d).
Proof. unfold toString. destruct (isNegative _); cbv zeta; repeat (apply ascii7_app; split); try done; first [apply fmt_d_ascii7|apply fmt_0d_ascii7]. Qed.
Lemma toString_text d : json_text (toString d) = toString d.
Proof. apply json_text_id, ascii7_utf8, toString_ascii7. Qed.

Section Read.
  Context (sp : goval → string) (widen : float32 → float64) (base64 : list Z → string).
  Notation read := (json_read_metric widen base64).
  (** the metric that is sent, and what is read *)
  Lemma sent_metric m : rpc_metric m → readable_text m → ∃ v k s ts, asJson (m_value m) (m_kind m) (m_subType m) (m_unit m) = Some (v, k, s) ∧
    convertToJson sp m = Some (set_conv m v k s (VString ts)) ∧ json_text ts = ts ∧ json_text k = k ∧ json_text s = s ∧
    json_read_metric widen base64 (set_conv m v k s (VString ts)) = set_conv m (json_read widen base64 v) k s (VString ts).
  Proof.
    intros (T & P & TS) RT.
    assert (∃ v k s, asJson (m_value m) (m_kind m) (m_subType m) (m_unit m) = Some (v, k, s) ∧ json_text k = k ∧ json_text s = s) as (v & k & s & E & K & S).
    { destruct T as [t v OK|t|t l OK|d]; [destruct t..|]; do 3 eexists; (split; [reflexivity|split; reflexivity]). }
    assert (∃ ts, convertToJson sp m = Some (set_conv m v k s (VString ts)) ∧ json_text ts = ts) as (ts & C & Ts).
    { unfold convertToJson. rewrite E. destruct TS as [-> |(t & -> & _ & _)]; [by exists ""|]. exists (toString (sinceEpoch t)). split; [reflexivity|apply toString_text]. }
    exists v, k, s, ts. split; [exact E|]. split; [exact C|]. split; [exact Ts|]. split; [exact K|]. split; [exact S|].
    unfold json_read_metric, set_conv. cbn [m_path m_description m_unit m_kind m_subType m_bits m_value m_timeStamp m_groupId]. rewrite K, S.
    unfold readable_text in RT. rewrite Forall_app in RT. destruct RT as [RT _]. rewrite !Forall_cons in RT. destruct RT as (R1 & R2 & R3 & _). rewrite !json_text_id by assumption.
    unfold VString. cbn [json_read]. by rewrite Ts.
  Qed.
  Lemma read_survives m t x : rpc_metric m → ¬ In zero_time (times_of (m_value m)) → readable_text m → m_value m = VScalar t x → survives t = true →
    ∃ j, convertToJson sp m = Some j ∧ convertToGoRPC (read j) = (false, m).
  Proof.
    intros R Z RT V S. destruct (metric_roundtrip sp m R Z) as (j & J & B). destruct (sent_metric m R RT) as (v & k & s & ts & E & C & _ & _ & _ & Rd). rewrite C in J. injection J as <-.
    eexists. split; [exact C|]. rewrite Rd. assert (json_read widen base64 v = v) as ->.
    { rewrite V in E. destruct R as (T & _ & _). rewrite V in T. unfold readable_text in RT. rewrite Forall_app in RT. destruct RT as [_ RT]. rewrite V in RT.
      inversion T as [t' x' OK Et Ek Es| | |]; subst t'. rewrite <- Ek, <- Es in E. destruct t; try discriminate S.
      - injection E as <- <- <-. reflexivity.
      - injection E as <- <- <-. reflexivity.
      - injection E as <- <- <-. cbn [json_read]. cbn [strings_of] in RT. rewrite Forall_cons in RT. by rewrite json_text_id by apply RT.
      - injection E as <- <- <-. unfold VString. cbn [json_read]. unfold timeAsString, StringUsingUnits. by rewrite toString_text.
      - injection E as <- <- <-. unfold VString. cbn [json_read]. unfold durationAsString, StringUsingUnits. by rewrite toString_text. }
    rewrite B. f_equal. destruct m as [mp md mu mk ms mb mv mt mg]. cbn [m_value] in V. subst mv. reflexivity.
  Qed.
  (** the other values *)
  Lemma read_back m v k s ts v' : rpc_metric m → convertToJson sp m = Some (set_conv m v k s (VString ts)) →
    match asGoRPC v' k s (m_unit m) with
    | None => fst (convertToGoRPC (set_conv m v' k s (VString ts))) = true
    | Some (v2, k2, s2) => convertToGoRPC (set_conv m v' k s (VString ts)) = (false, set_conv m v2 k2 s2 (m_timeStamp m))
    end.
  Proof.
    intros (_ & _ & TS) C. unfold convertToGoRPC. cbn [m_value m_kind m_subType m_unit m_timeStamp set_conv]. destruct (asGoRPC v' k s (m_unit m)) as [[[v2 k2] s2]|]; [|done].
    unfold convertToJson in C. destruct (asJson _ _ _ _) as [[[v0 k0] s0]|]; [|discriminate]. destruct TS as [Et|(t & Et & OK & PR)]; rewrite Et in C |- *.
    - apply (f_equal (λ o, match o with Some m => valueAsString (m_timeStamp m) | None => None end)) in C. cbn [m_timeStamp set_conv valueAsString VString] in C. injection C as <-. reflexivity.
    - apply (f_equal (λ o, match o with Some m => valueAsString (m_timeStamp m) | None => None end)) in C. cbn [m_timeStamp set_conv valueAsString VString] in C. injection C as <-. unfold VString. cbv beta iota. destruct (String.eqb_spec (toString (sinceEpoch t)) ""); [now apply timestamp_nonempty in e|]. rewrite timestamp_roundtrip by auto. reflexivity.
  Qed.
  Lemma read_other m : rpc_metric m → readable_text m →
    ∃ j, convertToJson sp m = Some j ∧
      match m_value m with
      | VScalar t x => survives t = false → convertToGoRPC (read j) = (false, with_value m (json_read widen base64 (m_value m)))
      | VSlice (STime | SDuration) _ => fst (convertToGoRPC (read j)) = true
      | VSlice _ _ => convertToGoRPC (read j) = (false, with_value m (json_read widen base64 (no_nil (m_value m))))
      | _ => convertToGoRPC (read j) = (false, with_value m (json_read widen base64 (m_value m)))
      end.
  Proof.
    intros R RT. destruct (sent_metric m R RT) as (v & k & s & ts & E & C & _ & _ & _ & Rd). eexists. split; [exact C|]. rewrite Rd. pose proof (read_back m v k s ts (json_read widen base64 v) R C) as B. clear C Rd RT.
    destruct R as (T & _ & _). destruct m as [mp md mu mk ms mb mv mt mg]. cbn [m_value m_kind m_subType m_unit m_timeStamp] in *. destruct T as [t x OK|t|t l OK|d].
    - destruct t; intros S; try discriminate S; injection E as <- <- <-; exact B.
    - destruct t; injection E as <- <- <-; exact B.
    - destruct t; injection E as <- <- <-; exact B.
    - destruct d; injection E as <- <- <-; exact B.
  Qed.
End Read.
