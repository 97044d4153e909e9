(** Lemmas about byte strings and decimal text. *)
From Verif Require Import GoBase TextSpec.
From Coq Require Import ZifyBool ZifyNat ZifyN.
Local Open Scope string_scope.

Lemma app_nil_r_s s : s ++ "" = s.
Proof. induction s as [|c r IH]; simpl; congruence. Qed.
Lemma app_assoc_s a b c : a ++ (b ++ c) = (a ++ b) ++ c.
Proof. induction a as [|x a IH]; simpl; congruence. Qed.
Lemma length_app_s a b : String.length (a ++ b) = (String.length a + String.length b)%nat.
Proof. induction a as [|x a IH]; simpl; congruence. Qed.
Lemma str_all_app p a b : str_all p (a ++ b) = andb (str_all p a) (str_all p b).
Proof. induction a as [|x a IH]; simpl; [reflexivity|]. rewrite IH, andb_assoc. reflexivity. Qed.
Lemma app_inj_l a b c : a ++ b = a ++ c -> b = c.
Proof. induction a as [|x a IH]; simpl; intros H; [exact H|]. injection H; exact IH. Qed.
Lemma app_inj_len a a' b b' :
  String.length a = String.length a' -> a ++ b = a' ++ b' -> a = a' /\ b = b'.
Proof.
  revert a'; induction a as [|x a IH]; intros [|y a'] HL H; simpl in *; try discriminate.
  - split; auto.
  - injection H; intros H2 ->. injection HL; intros HL2. destruct (IH a' HL2 H2) as [-> ->]. auto.
Qed.
Lemma length_zeros n : String.length (zeros n) = n.
Proof. induction n; simpl; congruence. Qed.
Lemma take_app_exact a b : str_take (String.length a) (a ++ b) = a.
Proof. induction a as [|x a IH]; simpl; [destruct b; reflexivity|congruence]. Qed.
Lemma take_drop n s : str_take n s ++ str_drop n s = s.
Proof. revert s; induction n; intros [|c s]; simpl; try reflexivity. rewrite IHn; reflexivity. Qed.
Lemma length_take n s : String.length (str_take n s) = Nat.min n (String.length s).
Proof. revert s; induction n; intros [|c s]; simpl; try reflexivity. rewrite IHn; reflexivity. Qed.
Lemma take_all n s : (String.length s <= n)%nat -> str_take n s = s.
Proof. revert s; induction n; intros [|c s]; simpl; intros H; try reflexivity; try lia. rewrite IHn by lia; reflexivity. Qed.
Lemma take_app_le n a b : (n <= String.length a)%nat -> str_take n (a ++ b) = str_take n a.
Proof. revert a; induction n; intros [|x a] H; simpl in *; try reflexivity; try lia; rewrite IHn by lia; reflexivity. Qed.

(** Digits *)
Lemma is_digit_range c : is_digit c = true <-> (48 <= N_of_ascii c <= 57)%N.
Proof. unfold is_digit. lia. Qed.
Lemma digit_char_is_digit n : (n < 10)%N -> is_digit (digit_char n) = true.
Proof.
  intros H. unfold digit_char. apply is_digit_range. rewrite N_ascii_embedding by lia. lia.
Qed.
Lemma digit_val_char n : (n < 10)%N -> digit_val (digit_char n) = n.
Proof. intros H. unfold digit_val, digit_char. rewrite N_ascii_embedding by lia. lia. Qed.
Lemma digit_val_lt c : is_digit c = true -> (digit_val c < 10)%N.
Proof. rewrite is_digit_range. unfold digit_val. lia. Qed.
Lemma digit_char_val c : is_digit c = true -> digit_char (digit_val c) = c.
Proof.
  rewrite is_digit_range. intros H. unfold digit_char, digit_val.
  replace (48 + (N_of_ascii c - 48))%N with (N_of_ascii c) by lia. apply ascii_N_embedding.
Qed.

Lemma digits_acc_spec acc s :
  digits_acc acc s = if str_all is_digit s then Some (dval acc s) else None.
Proof.
  revert acc; induction s as [|c r IH]; intros acc; simpl; [reflexivity|].
  destruct (is_digit c); simpl; auto.
Qed.
Lemma dval_app acc a b : dval acc (a ++ b) = dval (dval acc a) b.
Proof. revert acc; induction a as [|c r IH]; intros acc; simpl; auto. Qed.
Lemma dval_acc acc s : dval acc s = (acc * 10 ^ N.of_nat (String.length s) + dval 0 s)%N.
Proof.
  revert acc; induction s as [|c r IH]; intros acc; simpl String.length; cbn [dval].
  - change (N.of_nat 0) with 0%N. rewrite N.pow_0_r. lia.
  - rewrite IH. rewrite (IH (10 * 0 + digit_val c)%N).
    rewrite Nat2N.inj_succ, N.pow_succ_r'. lia.
Qed.
Lemma dval_app0 a b :
  digits_value (a ++ b) = (digits_value a * 10 ^ N.of_nat (String.length b) + digits_value b)%N.
Proof. unfold digits_value. rewrite dval_app, dval_acc. reflexivity. Qed.
Lemma dval_zeros acc n : dval acc (zeros n) = (acc * 10 ^ N.of_nat n)%N.
Proof.
  revert acc; induction n as [|n IH]; intros acc; cbn [zeros dval].
  - change (N.of_nat 0) with 0%N. rewrite N.pow_0_r. lia.
  - rewrite IH. change (digit_val "0") with 0%N. rewrite Nat2N.inj_succ, N.pow_succ_r'. lia.
Qed.
Lemma zeros_digits n : str_all is_digit (zeros n) = true.
Proof. induction n; simpl; auto. Qed.
Lemma dval_bound s : str_all is_digit s = true -> (digits_value s < 10 ^ N.of_nat (String.length s))%N.
Proof.
  induction s as [|c r IH]; cbn [str_all String.length].
  - intros _. vm_compute. reflexivity.
  - intros H. apply andb_true_iff in H as [Hc Hr]. specialize (IH Hr).
    unfold digits_value in *. cbn [dval]. rewrite dval_acc, Nat2N.inj_succ, N.pow_succ_r'.
    apply digit_val_lt in Hc. nia.
Qed.
Lemma digits_value_inj a b :
  String.length a = String.length b -> str_all is_digit a = true -> str_all is_digit b = true ->
  digits_value a = digits_value b -> a = b.
Proof.
  revert b; induction a as [|c a IH]; intros [|d b]; cbn [String.length str_all]; try discriminate; auto.
  intros HL Ha Hb HV. injection HL as HL. apply andb_true_iff in Ha as [Hc Ha]. apply andb_true_iff in Hb as [Hd Hb].
  unfold digits_value in HV. cbn [dval] in HV. rewrite (dval_acc (_ + digit_val c)), (dval_acc (_ + digit_val d)) in HV.
  pose proof (dval_bound a Ha) as Ba. pose proof (dval_bound b Hb) as Bb. unfold digits_value in Ba, Bb.
  rewrite <- HL in HV, Bb.
  set (P := (10 ^ N.of_nat (String.length a))%N) in *.
  assert (E : digit_val c = digit_val d) by nia.
  assert (E2 : dval 0 a = dval 0 b) by nia.
  rewrite <- (digit_char_val c Hc), <- (digit_char_val d Hd), E.
  f_equal. apply IH; auto.
Qed.

(** dec_of_N *)
Lemma dec_aux_app fuel n acc : dec_aux fuel n acc = dec_aux fuel n "" ++ acc.
Proof.
  revert n acc; induction fuel as [|f IH]; intros n acc; cbn [dec_aux]; [reflexivity|].
  destruct (N.eqb (n / 10) 0) eqn:E; [reflexivity|].
  rewrite IH, (IH _ (String _ "")). rewrite <- app_assoc_s. reflexivity.
Qed.

Lemma dec_aux_spec fuel n :
  (n < 2 ^ N.of_nat fuel)%N -> (fuel <> 0)%nat ->
  canonical_dec (dec_aux fuel n "") n.
Proof.
  revert n; induction fuel as [|f IH]; intros n Hn Hf; [lia|]. cbn [dec_aux].
  assert (Hm : (n mod 10 < 10)%N) by (apply N.mod_lt; lia).
  pose proof (N.div_mod n 10 ltac:(lia)) as DM.
  destruct (N.eqb_spec (n / 10) 0) as [E|E].
  - unfold canonical_dec, digits_value; cbn [str_all dval].
    rewrite digit_char_is_digit, digit_val_char by auto.
    repeat split; auto; try discriminate. lia.
  - rewrite dec_aux_app.
    assert (Hb : (n / 10 < 2 ^ N.of_nat f)%N).
    { rewrite Nat2N.inj_succ, N.pow_succ_r' in Hn. apply N.div_lt_upper_bound; lia. }
    assert (Hf0 : (f <> 0)%nat). { intros ->. change (N.of_nat 0) with 0%N in Hb. rewrite N.pow_0_r in Hb. lia. }
    destruct (IH _ Hb Hf0) as (H1 & H2 & H3 & H4).
    set (t := dec_aux f (n / 10) "") in *.
    unfold canonical_dec. repeat split.
    + destruct t; simpl; congruence.
    + rewrite str_all_app, H2. simpl. rewrite digit_char_is_digit by auto. reflexivity.
    + rewrite dval_app0, H3. unfold digits_value. cbn [dval String.length].
      rewrite digit_val_char by auto. change (N.of_nat 1) with 1%N. rewrite N.pow_1_r. lia.
    + destruct t as [|c [|d t']]; simpl; auto.
      intros ->. unfold digits_value in H3. cbn [dval] in H3. change (digit_val "0") with 0%N in H3. lia.
Qed.

Lemma dec_of_N_canonical n : canonical_dec (dec_of_N n) n.
Proof.
  unfold dec_of_N. apply dec_aux_spec; [|lia].
  rewrite Nat2N.inj_succ, N2Nat.id.
  destruct (N.eq_dec n 0) as [->|H]; [vm_compute; reflexivity|].
  apply N.log2_spec. lia.
Qed.

Lemma canonical_len s n k : canonical_dec s n -> (n < 10 ^ N.of_nat k)%N -> (1 <= k)%nat -> (String.length s <= k)%nat.
Proof.
  intros (H1 & H2 & H3 & H4) Hn Hk.
  destruct s as [|c [|d s']]; simpl; try lia.
  cbn [str_all] in H2. apply andb_true_iff in H2 as [Hc H2].
  assert (Hv : (1 <= digit_val c)%N).
  { destruct (N.eq_dec (digit_val c) 0) as [E|E]; [|lia]. exfalso. apply H4.
    rewrite <- (digit_char_val c Hc), E. reflexivity. }
  unfold digits_value in H3. cbn [dval] in H3. rewrite dval_acc in H3.
  apply Nat.nlt_ge. intros L.
  assert (10 ^ N.of_nat k <= 10 ^ N.of_nat (S (String.length s')))%N by (apply N.pow_le_mono_r; lia).
  rewrite Nat2N.inj_succ, N.pow_succ_r' in H. nia.
Qed.
Lemma canonical_unique s s' n : canonical_dec s n -> canonical_dec s' n -> s = s'.
Proof.
  intros C C'. apply digits_value_inj; try apply C; try apply C'.
  2:{ destruct C as (_&_&->&_), C' as (_&_&->&_); auto. }
  assert (forall a b, canonical_dec a n -> canonical_dec b n -> (String.length a <= String.length b)%nat).
  { clear. intros a b Ca Cb. apply (canonical_len a n); auto.
    - destruct Cb as (_ & D & <- & _). apply dval_bound; auto.
    - destruct Cb as (B & _). destruct b; simpl; [congruence|lia]. }
  apply Nat.le_antisymm; auto.
Qed.
Lemma pad0_spec w n : (n < 10 ^ N.of_nat w)%N -> (1 <= w)%nat ->
  String.length (pad0 w (dec_of_N n)) = w /\ str_all is_digit (pad0 w (dec_of_N n)) = true /\
  digits_value (pad0 w (dec_of_N n)) = n.
Proof.
  intros H Hw. pose proof (dec_of_N_canonical n) as C. pose proof (canonical_len _ _ _ C H Hw) as L.
  destruct C as (C1 & C2 & C3 & C4). unfold pad0. repeat split.
  - rewrite length_app_s, length_zeros. lia.
  - rewrite str_all_app, zeros_digits, C2. reflexivity.
  - rewrite dval_app0. unfold digits_value at 1. rewrite dval_zeros. lia.
Qed.
