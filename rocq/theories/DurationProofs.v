(** Proofs about the duration package model. *)
From Verif Require Import GoBase TextSpec StrLemmas UnitsModel DurationModel DurationSpec.
From Coq Require Import ZifyBool ZifyNat ZifyN.
Ltac Zify.zify_post_hook ::= Z.to_euclidean_division_equations.
Local Open Scope Z_scope.

Lemma wrap64_id z : in64 z -> wrap64 z = z.
Proof. unfold in64, wrap64. intros H. rewrite Z.mod_small; lia. Qed.
Lemma wrap32_id z : in32 z -> wrap32 z = z.
Proof. unfold in32, wrap32. intros H. rewrite Z.mod_small; lia. Qed.
Lemma wrap64_in z : in64 (wrap64 z).
Proof. unfold in64, wrap64. pose proof (Z.mod_pos_bound (z + 2^63) (2^64) ltac:(lia)). lia. Qed.
Lemma wrap64_mod z : exists k, wrap64 z = z + k * 2^64.
Proof. unfold wrap64. exists (- ((z + 2^63) / 2^64)). pose proof (Z.div_mod (z + 2^63) (2^64) ltac:(lia)). lia. Qed.

Definition dvalue (d : Duration) : Z := Seconds d * billion + Nanoseconds d.
Definition dnorm (d : Duration) : Prop := normalised (Seconds d) (Nanoseconds d).

Lemma dnorm_unique d1 d2 : dnorm d1 -> dnorm d2 -> dvalue d1 = dvalue d2 -> d1 = d2.
Proof.
  destruct d1 as [s1 n1], d2 as [s2 n2]; unfold dnorm, normalised, dvalue, billion; simpl.
  intros H1 H2 E. f_equal; lia.
Qed.

Lemma newDuration_spec d : in64 d -> dnorm (newDuration d) /\ dvalue (newDuration d) = d /\ in64 (Seconds (newDuration d)) /\ Z.abs (Seconds (newDuration d)) <= 9223372036.
Proof.
  unfold in64, dnorm, dvalue, newDuration, normalised, time_Second, time_Nanosecond, billion. cbn [Seconds Nanoseconds].
  intros H. rewrite wrap32_id by (unfold in32; lia). lia.
Qed.

Lemma asGoDuration_spec d : in64 (dvalue d) -> in64 (Seconds d * billion) -> in64 (Nanoseconds d) ->
  asGoDuration d = dvalue d.
Proof.
  unfold asGoDuration, dvalue, time_Second, time_Nanosecond, billion. intros H1 H2 H3.
  rewrite (wrap64_id (1000000000 * _)) by (unfold in64 in *; lia).
  rewrite (wrap64_id (_ * 1)) by (unfold in64 in *; lia).
  rewrite wrap64_id; unfold in64 in *; lia.
Qed.
(** In general the result is the exact value modulo 2^64. *)
Lemma asGoDuration_mod d : asGoDuration d = wrap64 (dvalue d).
Proof.
  unfold asGoDuration, dvalue, time_Second, time_Nanosecond, billion, wrap64.
  destruct (wrap64_mod (1000000000 * Seconds d)) as [k1 E1].
  destruct (wrap64_mod (Nanoseconds d * 1)) as [k2 E2].
  unfold wrap64 in E1, E2. rewrite E1, E2.
  replace (1000000000 * Seconds d + k1 * 2^64 + (Nanoseconds d * 1 + k2 * 2^64) + 2^63)
    with ((Seconds d * 1000000000 + Nanoseconds d + 2^63) + (k1 + k2) * 2^64) by lia.
  rewrite Z_mod_plus_full. reflexivity.
Qed.

Lemma asGoDuration_of_norm d : dnorm d -> in64 (dvalue d) -> asGoDuration d = dvalue d.
Proof. intros _ H. rewrite asGoDuration_mod. apply wrap64_id, H. Qed.

Lemma newDuration_roundtrip d : in64 d -> asGoDuration (newDuration d) = d.
Proof.
  intros H. destruct (newDuration_spec d H) as (N & V & _). rewrite asGoDuration_mod, V. apply wrap64_id, H.
Qed.

(** Times *)
Definition valid_time (t : gotime) : Prop := in64 (t_sec t) /\ 0 <= t_nsec t < billion.
Definition time_ns (t : gotime) : Z := t_sec t * billion + t_nsec t.

Lemma sinceEpoch_spec t : valid_time t -> dnorm (sinceEpoch t) /\ dvalue (sinceEpoch t) = time_ns t /\ in64 (Seconds (sinceEpoch t)).
Proof.
  destruct t as [s n]. unfold valid_time, dnorm, dvalue, time_ns, sinceEpoch, oneBillion, normalised, billion, in64.
  cbn [t_sec t_nsec]. intros [Hs Hn].
  rewrite (wrap32_id n) by (unfold in32; lia).
  destruct (Z.ltb_spec s 0), (Z.ltb_spec 0 n); cbn [andb Seconds Nanoseconds]; try lia.
  rewrite wrap32_id by (unfold in32; lia). rewrite wrap64_id by (unfold in64; lia). lia.
Qed.

Lemma time_ns_unique t1 t2 : valid_time t1 -> valid_time t2 -> time_ns t1 = time_ns t2 -> t1 = t2.
Proof.
  destruct t1 as [s1 n1], t2 as [s2 n2]; unfold valid_time, time_ns, billion; simpl. intros H1 H2 E. f_equal; lia.
Qed.

Lemma asGoTime_spec d : dnorm d -> in64 (Seconds d) -> - 2^63 * billion <= dvalue d ->
  valid_time (asGoTime d) /\ time_ns (asGoTime d) = dvalue d.
Proof.
  destruct d as [s n]. unfold dnorm, normalised, dvalue, asGoTime, time_Unix, valid_time, time_ns, billion, in64.
  cbn [Seconds Nanoseconds]. intros N Hs Hv.
  destruct (Z.ltb_spec n 0) as [L|L]; cbn [orb].
  - replace (Z.quot n 1000000000) with 0 by lia.
    rewrite (wrap64_id (0 * _)) by (unfold in64; lia).
    rewrite (wrap64_id (n - _)) by (unfold in64; lia).
    rewrite (wrap64_id (s + 0)) by (unfold in64; lia).
    replace (n - 0 * 1000000000 <? 0) with true by lia.
    rewrite wrap64_id by (unfold in64; lia). cbn [t_sec t_nsec]. lia.
  - replace (1000000000 <=? n) with false by lia. cbn [t_sec t_nsec]. lia.
Qed.

Lemma sinceEpoch_roundtrip t : valid_time t -> asGoTime (sinceEpoch t) = t.
Proof.
  intros V. destruct (sinceEpoch_spec t V) as (N & Hv & HS).
  destruct (asGoTime_spec (sinceEpoch t) N HS) as [V' E].
  - rewrite Hv. unfold valid_time, time_ns, in64, billion in *. lia.
  - apply time_ns_unique; auto. congruence.
Qed.

(** mult / div / convert *)
Lemma mult_spec d k : dnorm d -> Z.abs k <= 1000 -> in64 (Seconds d * k) ->
  in64 (Seconds d * k + Z.quot (Nanoseconds d * k) billion) ->
  dnorm (mult d k) /\ dvalue (mult d k) = k * dvalue d /\
  Seconds (mult d k) = Seconds d * k + Z.quot (Nanoseconds d * k) billion.
Proof.
  destruct d as [s n]. unfold dnorm, normalised, dvalue, mult, oneBillion, billion. cbn [Seconds Nanoseconds].
  intros N Hk H1 H2.
  assert (Hb : Z.abs (n * k) < 1000000000000) by nia.
  rewrite (wrap64_id (n * k)) by (unfold in64; lia).
  rewrite (wrap64_id (s * k)) by auto. rewrite (wrap64_id (_ + _)) by auto.
  rewrite wrap32_id by (unfold in32; lia).
  assert (Hsg : (0 <= s * k /\ 0 <= n * k) \/ (s * k <= 0 /\ n * k <= 0)) by nia.
  replace (k * (s * 1000000000 + n)) with (s * k * 1000000000 + n * k) by lia.
  generalize dependent (s * k). generalize dependent (n * k). intros; lia.
Qed.

Lemma mult_1 d : dnorm d -> in64 (Seconds d) -> mult d 1 = d.
Proof.
  intros N H. assert (Q : Z.quot (Nanoseconds d * 1) billion = 0).
  { unfold dnorm, normalised, billion in *. lia. }
  destruct (mult_spec d 1 N) as (A & B & _); try lia.
  - rewrite Z.mul_1_r; auto.
  - rewrite Q. rewrite Z.mul_1_r, Z.add_0_r; auto.
  - apply dnorm_unique; auto. lia.
Qed.

Lemma div_spec d k : dnorm d -> (k = 1 \/ k = 1000) -> in64 (Seconds d) ->
  dnorm (div d k) /\ dvalue (div d k) = Z.quot (dvalue d) k /\ in64 (Seconds (div d k)).
Proof.
  destruct d as [s n]. unfold dnorm, normalised, dvalue, div, oneBillion, billion, in64. cbn [Seconds Nanoseconds].
  intros N [-> | ->] H.
  - rewrite Z.quot_1_r, Z.rem_1_r, !Z.quot_1_r.
    rewrite (wrap64_id (0 * _)) by (unfold in64; lia).
    rewrite (wrap64_id (n + _)) by (unfold in64; lia).
    rewrite (wrap64_id (n + _)) by (unfold in64; lia).
    rewrite (wrap64_id s) by (unfold in64; lia).
    rewrite wrap32_id by (unfold in32; lia). lia.
  - rewrite (wrap64_id (Z.quot s 1000)) by (unfold in64; lia).
    rewrite (wrap64_id (Z.rem s 1000 * _)) by (unfold in64; lia).
    rewrite (wrap64_id (n + _)) by (unfold in64; lia).
    rewrite (wrap64_id (Z.quot _ 1000)) by (unfold in64; lia).
    rewrite wrap32_id by (unfold in32; lia). lia.
Qed.

Lemma div_1 d : dnorm d -> in64 (Seconds d) -> div d 1 = d.
Proof.
  intros N H. destruct (div_spec d 1 N) as (A & B & C); auto.
  apply dnorm_unique; auto. rewrite B, Z.quot_1_r. reflexivity.
Qed.

Definition dfits (d : Duration) (k : Z) : Prop :=
  in64 (Seconds d * k) /\ in64 (Seconds d * k + Z.quot (Nanoseconds d * k) billion).

Lemma convert_out d u : dnorm d -> dfits d (per_second u) ->
  dnorm (convert d USecond u) /\ dvalue (convert d USecond u) = per_second u * dvalue d /\
  in64 (Seconds (convert d USecond u)) /\
  Seconds (convert d USecond u) = Seconds d * per_second u + Z.quot (Nanoseconds d * per_second u) billion.
Proof.
  intros N [F1 F2]. unfold convert, per_second in *.
  change (FromSecondsRational USecond) with (1, 1). unfold FromSecondsRational, UMillisecond.
  destruct (String.eqb u "Milliseconds").
  - change (wrap64 (1000 * 1)) with 1000. change (wrap64 (1 * 1)) with 1.
    destruct (mult_spec d 1000 N) as (A & B & C); auto; try lia.
    rewrite div_1; auto; rewrite C; auto.
  - change (wrap64 (1 * 1)) with 1.
    destruct (mult_spec d 1 N) as (A & B & C); auto; try lia.
    rewrite div_1; auto; rewrite C; auto.
Qed.

Lemma convert_in d u : dnorm d -> in64 (Seconds d) ->
  dnorm (convert d u USecond) /\ dvalue (convert d u USecond) = Z.quot (dvalue d) (per_second u) /\
  in64 (Seconds (convert d u USecond)).
Proof.
  intros N F. unfold convert, per_second in *.
  change (FromSecondsRational USecond) with (1, 1). unfold FromSecondsRational, UMillisecond.
  destruct (String.eqb u "Milliseconds").
  - change (wrap64 (1 * 1000)) with 1000. change (wrap64 (1 * 1)) with 1.
    rewrite mult_1 by auto. apply div_spec; auto.
  - change (wrap64 (1 * 1)) with 1. rewrite mult_1 by auto. apply div_spec; auto.
Qed.

(** Text *)
Lemma fmt_0d_9 n : 0 <= n < billion ->
  String.length (fmt_0d 9 n) = 9%nat /\ str_all is_digit (fmt_0d 9 n) = true /\ Z.of_N (digits_value (fmt_0d 9 n)) = n.
Proof.
  intros H. unfold fmt_0d. replace (n <? 0) with false by lia.
  destruct (pad0_spec 9 (Z.to_N n)) as (A & B & C).
  - change (10 ^ N.of_nat 9)%N with 1000000000%N. unfold billion in H. lia.
  - lia.
  - rewrite C. repeat split; auto. lia.
Qed.

Lemma fmt_d_nonneg n : 0 <= n -> canonical_dec (fmt_d n) (Z.to_N n).
Proof. intros H. unfold fmt_d. replace (n <? 0) with false by lia. apply dec_of_N_canonical. Qed.

Lemma toString_spec d : dnorm d -> -2^63 < Seconds d < 2^63 -> decimal9 (toString d) (dvalue d).
Proof.
  intros N HS. unfold toString. destruct (isNegative d) eqn:NG.
  - assert (HN : dvalue d < 0 /\ Seconds d <= 0 /\ -billion < Nanoseconds d <= 0).
    { unfold isNegative, dnorm, normalised, dvalue, billion in *. lia. }
    destruct (mult_spec d (-1) N) as (A & B & C).
    + lia.
    + unfold in64; lia.
    + unfold in64, billion in *. lia.
    + unfold dnorm, normalised in A.
      assert (HP : 0 <= Seconds (mult d (-1)) /\ 0 <= Nanoseconds (mult d (-1)) < billion).
      { unfold dvalue, billion in *. lia. }
      destruct (fmt_0d_9 _ (proj2 HP)) as (F1 & F2 & F3).
      exists (fmt_d (Seconds (mult d (-1)))), (fmt_0d 9 (Nanoseconds (mult d (-1)))), (Z.to_N (Seconds (mult d (-1)))).
      replace (dvalue d <? 0) with true by lia. repeat split; auto; try (apply fmt_d_nonneg; lia).
      rewrite F3. unfold dvalue, billion in *. lia.
  - assert (HP : 0 <= Seconds d /\ 0 <= Nanoseconds d < billion).
    { unfold isNegative, dnorm, normalised, billion in *. lia. }
    destruct (fmt_0d_9 _ (proj2 HP)) as (F1 & F2 & F3).
    exists (fmt_d (Seconds d)), (fmt_0d 9 (Nanoseconds d)), (Z.to_N (Seconds d)).
    replace (dvalue d <? 0) with false by (unfold dvalue, billion; lia).
    repeat split; auto; try (apply fmt_d_nonneg; lia).
    rewrite F3. unfold dvalue, billion in *. lia.
Qed.

Lemma digit_not_dot c : is_digit c = true -> byte_is c 46 = false.
Proof. rewrite is_digit_range. unfold byte_is. lia. Qed.
Lemma digits_no_dot s : str_all is_digit s = true -> no_dot s = true.
Proof.
  unfold no_dot. induction s as [|c r IH]; simpl; [auto|]. intros H. apply andb_true_iff in H as [H1 H2].
  rewrite digit_not_dot by auto. simpl. auto.
Qed.
Lemma splitDot_app w r : no_dot w = true -> splitDot (w ++ r) = (w ++ fst (splitDot r), snd (splitDot r))%string.
Proof.
  unfold no_dot. induction w as [|c w IH]; simpl; intros H; [destruct (splitDot r); reflexivity|].
  apply andb_true_iff in H as [H1 H2]. destruct (byte_is c 46); [discriminate|]. rewrite IH by auto. reflexivity.
Qed.
Lemma splitDot_spec s a b : splitDot s = (a, b) ->
  no_dot a = true /\ match b with None => s = a | Some f => s = (a ++ "." ++ f)%string end.
Proof.
  revert a b; induction s as [|c r IH]; simpl; intros a b H.
  - inversion H; subst; auto.
  - destruct (byte_is c 46) eqn:E.
    + inversion H; subst. split; [reflexivity|]. simpl. f_equal. unfold byte_is in E. apply N.eqb_eq in E.
      rewrite <- (ascii_N_embedding c), E. reflexivity.
    + destruct (splitDot r) as [a' b']. inversion H; subst. destruct (IH a' b eq_refl) as [A B].
      unfold no_dot in *. simpl. rewrite E. simpl. split; auto. destruct b; rewrite B; reflexivity.
Qed.

Lemma byte_is_char c n : (n < 256)%N -> byte_is c n = true <-> c = ascii_of_N n.
Proof.
  intros H. unfold byte_is. rewrite N.eqb_eq. split.
  - intros <-. symmetry; apply ascii_N_embedding.
  - intros ->. apply N_ascii_embedding; auto.
Qed.

Lemma frac_text_model f :
  (if Nat.ltb (String.length f) 9 then (f ++ zeros (9 - String.length f))%string else str_take 9 f) = frac_text f.
Proof.
  unfold frac_text. change "000000000"%string with (zeros 9).
  assert (G : forall n f, (if Nat.ltb (String.length f) n then (f ++ zeros (n - String.length f))%string else str_take n f) = str_take n (f ++ zeros n)).
  { clear f. intros n f. destruct (Nat.ltb_spec (String.length f) n) as [L|L].
    - assert (Z : forall a b, (b <= a)%nat -> str_take b (zeros a) = zeros b).
      { induction a; destruct b; simpl; intros; try reflexivity; try lia. rewrite IHa by lia. reflexivity. }
      assert (G : forall f k m, (k <= m)%nat -> str_take (String.length f + k) (f ++ zeros m) = (f ++ zeros k)%string).
      { clear -Z. induction f as [|c f IH]; intros k m Hk; simpl; [apply Z; auto|]. rewrite IH by auto. reflexivity. }
      replace n with (String.length f + (n - String.length f))%nat at 2 by lia. rewrite G by lia. reflexivity.
    - symmetry. apply take_app_le. lia. }
  apply G.
Qed.
Lemma frac_text_length f : String.length (frac_text f) = 9%nat.
Proof. unfold frac_text. rewrite length_take, length_app_s. simpl String.length. lia. Qed.

Lemma parse_uint_spec bits s n :
  parse_uint bits s = Some n <->
  s <> ""%string /\ str_all is_digit s = true /\ digits_value s = n /\ (n < 2 ^ bits)%N.
Proof.
  unfold parse_uint. destruct s as [|c r]; [split; [discriminate|intros [H _]; congruence]|].
  rewrite digits_acc_spec. fold (digits_value (String c r)).
  destruct (str_all is_digit (String c r)).
  - destruct (N.ltb_spec (digits_value (String c r)) (2 ^ bits)).
    + split; [intros E; injection E as <-; repeat split; auto; discriminate|intros (_ & _ & <- & _); reflexivity].
    + split; [discriminate|intros (_ & _ & <- & ?); lia].
  - split; [discriminate|intros (_ & ? & _); discriminate].
Qed.

Lemma parse_int64_whole w n : (parse_int64 w = Some n /\ 0 <= n) <-> whole_text w n.
Proof.
  unfold whole_text. split.
  - intros [H Hn]. unfold parse_int64 in H. destruct w as [|c r]; [discriminate|].
    destruct (parse_uint 64 _) as [un|] eqn:PU; [|discriminate].
    apply parse_uint_spec in PU as (P1 & P2 & P3 & P4).
    destruct (byte_is c 45) eqn:E45.
    + rewrite orb_true_r in *. apply byte_is_char in E45; [|lia]. subst c.
      cbn [negb andb] in H. destruct (2^63 <? un)%N; [discriminate|]. injection H as <-.
      exists "-"%string, r. split; [reflexivity|]. split; [right; right; split; [reflexivity|lia]|].
      repeat split; auto; lia.
    + rewrite orb_false_r in *. cbn [negb andb] in H. destruct (N.leb_spec (2^63) un) as [L|L]; [discriminate|].
      injection H as <-.
      destruct (byte_is c 43) eqn:E43.
      * apply byte_is_char in E43; [|lia]. subst c. exists "+"%string, r. repeat split; auto; lia.
      * exists ""%string, (String c r). repeat split; auto; lia.
  - intros (sg & ds & -> & Hsg & D1 & D2 & D3 & D4). split; [|lia].
    assert (PU : parse_uint 64 ds = Some (digits_value ds)).
    { apply parse_uint_spec. repeat split; auto. lia. }
    destruct Hsg as [-> | [-> | [-> ->]]].
    + destruct ds as [|c r]; [congruence|]. cbn [append]. unfold parse_int64.
      simpl in D2. apply andb_true_iff in D2 as [Dc _]. apply is_digit_range in Dc.
      replace (byte_is c 45) with false by (unfold byte_is; lia).
      replace (byte_is c 43) with false by (unfold byte_is; lia). cbn [orb]. rewrite PU. cbn [andb negb].
      replace (2^63 <=? _)%N with false by lia. f_equal. lia.
    + cbn [append]. unfold parse_int64. change (byte_is "+" 45) with false. change (byte_is "+" 43) with true. cbn [orb].
      rewrite PU. cbn [andb negb]. replace (2^63 <=? _)%N with false by lia. f_equal. lia.
    + cbn [append]. unfold parse_int64. change (byte_is "-" 45) with true. change (byte_is "-" 43) with false. cbn [orb].
      rewrite PU. cbn [andb negb]. replace (2^63 <? _)%N with false by lia. f_equal. lia.
Qed.

Lemma whole_text_no_dot w n : whole_text w n -> no_dot w = true.
Proof.
  intros (sg & ds & -> & Hsg & _ & D & _). unfold no_dot. rewrite str_all_app.
  fold (no_dot sg); fold (no_dot ds). rewrite (digits_no_dot ds) by auto.
  destruct Hsg as [-> | [-> | [-> _]]]; reflexivity.
Qed.

(** Everything after the optional leading minus. *)
Definition parse_body (neg : bool) (str : string) : option Duration :=
  let '(number0, number1) := splitDot str in
  match parse_int64 number0 with
  | None => None
  | Some whole =>
      if Z.ltb whole 0 then None
      else
        match (match number1 with None => Some 0%N | Some f => parse_uint 32 (frac_text f) end) with
        | None => None
        | Some frac =>
            if N.ltb 999999999 frac then None
            else if neg then Some (MkDur (wrap64 (-1 * whole)) (wrap32 (-1 * wrap32 (Z.of_N frac))))
            else Some (MkDur whole (wrap32 (Z.of_N frac)))
        end
  end.
Lemma parse_unfold str :
  parse str = match str with
              | String c r => if byte_is c 45 then parse_body true r else parse_body false str
              | EmptyString => parse_body false str
              end.
Proof.
  unfold parse, parse_body. destruct str as [|c r]; [reflexivity|].
  destruct (byte_is c 45); destruct (splitDot _) as [a [f|]]; try reflexivity;
    destruct (parse_int64 a); try reflexivity; destruct (z <? 0); try reflexivity; rewrite frac_text_model; reflexivity.
Qed.

Lemma parse_body_iff neg str d :
  parse_body neg str = Some d <->
  exists w rest whole frac,
    str = (w ++ rest)%string /\ whole_text w whole /\
    ((rest = ""%string /\ frac = 0) \/
     (exists f, rest = ("." ++ f)%string /\ str_all is_digit (frac_text f) = true /\
                frac = Z.of_N (digits_value (frac_text f)))) /\
    d = MkDur (if neg then - whole else whole) (if neg then - frac else frac).
Proof.
  unfold parse_body. split.
  - destruct (splitDot str) as [a b] eqn:SD. apply splitDot_spec in SD as [ND Hb].
    destruct (parse_int64 a) as [whole|] eqn:PI; [|discriminate].
    destruct (Z.ltb_spec whole 0) as [|HW]; [discriminate|].
    assert (WT : whole_text a whole) by (apply parse_int64_whole; auto).
    assert (HW2 : whole < 2^63) by (destruct WT as (? & ? & ? & ? & ? & ? & ? & ?); auto).
    intros H.
    assert (exists frac rest, str = (a ++ rest)%string /\ 
      ((rest = ""%string /\ frac = 0) \/
     (exists f, rest = ("." ++ f)%string /\ str_all is_digit (frac_text f) = true /\
                frac = Z.of_N (digits_value (frac_text f)))) /\ 0 <= frac < billion /\
       d = (if neg then MkDur (wrap64 (-1 * whole)) (wrap32 (-1 * wrap32 frac)) else MkDur whole (wrap32 frac)))
      as (frac & rest & E1 & E2 & E3 & E4).
    { destruct b as [f|].
      - destruct (parse_uint 32 (frac_text f)) as [fr|] eqn:PF; [|discriminate].
        apply parse_uint_spec in PF as (_ & P2 & P3 & _).
        destruct (N.ltb_spec 999999999 fr); [discriminate|].
        exists (Z.of_N fr), ("." ++ f)%string. repeat split; auto; try lia.
        + right. exists f. subst fr. auto.
        + unfold billion; lia.
        + destruct neg; congruence.
      - cbn in H. exists 0, ""%string. rewrite app_nil_r_s. repeat split; auto; try lia. destruct neg; congruence. }
    exists a, rest, whole, frac. repeat split; auto. rewrite E4.
    unfold billion in E3. rewrite (wrap32_id frac) by (unfold in32; lia).
    destruct neg; [|reflexivity]. rewrite wrap32_id by (unfold in32; lia). rewrite wrap64_id by (unfold in64; lia).
    f_equal; lia.
  - intros (w & rest & whole & frac & -> & WT & HR & ->).
    pose proof (whole_text_no_dot _ _ WT) as ND. assert (HW2 : whole < 2^63) by (destruct WT as (? & ? & ? & ? & ? & ? & ? & ?); auto).
    apply parse_int64_whole in WT as [PI HW].
    rewrite splitDot_app by auto.
    destruct HR as [[-> ->] | (f & -> & HD & ->)].
    + cbn [splitDot fst snd]. rewrite app_nil_r_s, PI. replace (whole <? 0) with false by lia.
      change (999999999 <? 0)%N with false. change (wrap32 (Z.of_N 0)) with 0. change (wrap32 (-1 * 0)) with 0.
      destruct neg; [|reflexivity]. rewrite wrap64_id by (unfold in64; lia). f_equal; f_equal; lia.
    + change (splitDot ("." ++ f)) with (""%string, Some f). cbn [fst snd]. rewrite app_nil_r_s, PI.
      replace (whole <? 0) with false by lia.
      pose proof (dval_bound _ HD) as B. rewrite frac_text_length in B. change (10 ^ N.of_nat 9)%N with 1000000000%N in B.
      assert (PU : parse_uint 32 (frac_text f) = Some (digits_value (frac_text f))).
      { apply parse_uint_spec. repeat split; auto; try lia. intros E. pose proof (frac_text_length f) as L. rewrite E in L. discriminate. }
      rewrite PU. replace (999999999 <? _)%N with false by lia.
      rewrite (wrap32_id (Z.of_N _)) by (unfold in32; lia).
      destruct neg; [|reflexivity]. rewrite wrap32_id by (unfold in32; lia). rewrite wrap64_id by (unfold in64; lia). f_equal; f_equal; lia.
Qed.

Lemma parse_iff str sec ns : parse str = Some (MkDur sec ns) <-> parses str sec ns.
Proof.
  rewrite parse_unfold. unfold parses. split.
  - intros H.
    assert (exists (neg : bool) (body : string), str = ((if neg then "-" else "") ++ body)%string /\ (neg = false -> forall r, str <> String "-" r) /\
             parse_body neg body = Some (MkDur sec ns)) as (neg & body & E & HN & PB).
    { destruct str as [|c r].
      - exists false, ""%string. repeat split; auto. intros _ r E. discriminate.
      - destruct (byte_is c 45) eqn:E.
        + apply byte_is_char in E; [|lia]. subst c. exists true, r. repeat split; auto. discriminate.
        + exists false, (String c r). repeat split; auto. intros _ r' E'. injection E' as -> ->. discriminate. }
    apply parse_body_iff in PB as (w & rest & whole & frac & -> & WT & HR & Hd). injection Hd as Hd1 Hd2.
    exists neg, w, rest, whole, frac. auto 6.
  - intros (neg & w & rest & whole & frac & E & HN & WT & HR & -> & ->).
    assert (PB : parse_body neg (w ++ rest) = Some (MkDur (if neg then - whole else whole) (if neg then - frac else frac))).
    { apply parse_body_iff. exists w, rest, whole, frac. auto 6. }
    destruct neg; cbn [append] in E.
    + subst str. exact PB.
    + subst str. destruct (w ++ rest)%string as [|c r] eqn:EW; [exact PB|].
      destruct (byte_is c 45) eqn:E45; [|exact PB].
      apply byte_is_char in E45; [|lia]. subst c. exfalso. apply (HN eq_refl r). reflexivity.
Qed.

(** Printing then parsing. *)
Lemma dec_first_not_minus s n : canonical_dec s n -> forall r x, (s ++ x)%string <> String "-" r.
Proof.
  intros (H1 & H2 & _) r x E. destruct s as [|c s]; [congruence|]. cbn in E. injection E as -> _. cbn in H2. discriminate.
Qed.

Lemma decimal9_parse s n : decimal9 s n -> - 2^63 * billion < n < 2^63 * billion ->
  exists d, parse s = Some d /\ dnorm d /\ dvalue d = n /\ in64 (Seconds d) /\ - 2^63 < Seconds d.
Proof.
  intros (ip & fp & ipn & -> & C & L & D & V) HB.
  assert (FT : frac_text fp = fp).
  { unfold frac_text. rewrite <- L. apply take_app_exact. }
  pose proof (dval_bound _ D) as B. rewrite L in B. change (10 ^ N.of_nat 9)%N with 1000000000%N in B.
  assert (WT : whole_text ip (Z.of_N ipn)).
  { exists ""%string, ip. destruct C as (C1 & C2 & C3 & _). repeat split; auto; unfold billion in *; lia. }
  pose (sec := if n <? 0 then - Z.of_N ipn else Z.of_N ipn).
  pose (ns := if n <? 0 then - Z.of_N (digits_value fp) else Z.of_N (digits_value fp)).
  exists (MkDur sec ns). split; [|].
  - apply parse_iff. exists (n <? 0), ip, ("." ++ fp)%string, (Z.of_N ipn), (Z.of_N (digits_value fp)).
    repeat split; auto.
    + intros -> r. cbn [append]. eapply dec_first_not_minus; eauto.
    + right. exists fp. rewrite FT. auto.
  - unfold dnorm, normalised, dvalue, in64, sec, ns, billion in *. cbn [Seconds Nanoseconds].
    destruct (Z.ltb_spec n 0); lia.
Qed.

Lemma string_parse_roundtrip d u : dnorm d -> dfits d (per_second u) -> -2^63 * billion < per_second u * dvalue d ->
  ParseWithUnit (StringUsingUnits d u) u = Some d.
Proof.
  intros N F HL. destruct (convert_out d u N F) as (A & B & C & _).
  set (c := convert d USecond u) in *.
  assert (HS : -2^63 < Seconds c < 2^63).
  { unfold in64, dnorm, normalised, dvalue, billion in *. lia. }
  pose proof (toString_spec c A HS) as T.
  destruct (decimal9_parse _ _ T) as (d' & P & N' & V' & I' & _).
  { unfold dnorm, normalised, dvalue, billion in *. lia. }
  assert (d' = c) by (apply dnorm_unique; auto). subst d'.
  unfold ParseWithUnit, StringUsingUnits. fold c. rewrite P. f_equal.
  destruct (convert_in c u A C) as (A2 & B2 & _).
  apply dnorm_unique; auto. rewrite B2, B.
  unfold per_second. destruct (String.eqb u "Milliseconds"); rewrite Z.mul_comm; apply Z.quot_mul; lia.
Qed.

Lemma dfits_duration d u : in64 d -> dfits (newDuration d) (per_second u).
Proof.
  intros H. destruct (newDuration_spec d H) as (N & V & _ & HS).
  unfold dfits, per_second, in64, dnorm, normalised, billion in *.
  destruct (String.eqb u "Milliseconds"); lia.
Qed.

Lemma newDuration_text d u : in64 d -> decimal9 (StringUsingUnits (newDuration d) u) (per_second u * d).
Proof.
  intros H. destruct (newDuration_spec d H) as (N & V & _ & HS).
  destruct (convert_out _ u N (dfits_duration d u H)) as (A & B & C & D).
  rewrite <- V at 2. rewrite <- B. apply toString_spec; auto.
  rewrite D. unfold per_second, dnorm, normalised, billion in *. destruct (String.eqb u "Milliseconds"); lia.
Qed.

Lemma newDuration_text_roundtrip d u : in64 d ->
  ParseWithUnit (StringUsingUnits (newDuration d) u) u = Some (newDuration d).
Proof.
  intros H. destruct (newDuration_spec d H) as (N & V & _ & HS).
  apply string_parse_roundtrip; auto. { apply dfits_duration; auto. }
  rewrite V. unfold in64, per_second, billion in *. destruct (String.eqb u "Milliseconds"); lia.
Qed.

(** Pretty format *)
Lemma dec_fmt_d n : 0 <= n -> dec (fmt_d n) n.
Proof. intros H. split; auto. apply fmt_d_nonneg; auto. Qed.
Lemma dec3_fmt n : 0 <= n < 1000 -> dec3 (fmt_0d 3 n) n.
Proof.
  intros H. unfold dec3, fmt_0d. replace (n <? 0) with false by lia.
  destruct (pad0_spec 3 (Z.to_N n)) as (A & B & C).
  - change (10 ^ N.of_nat 3)%N with 1000%N. lia.
  - lia.
  - repeat split; auto; lia.
Qed.

Lemma prettyFormat_spec d : dnorm d ->
  (isNegative d = true -> prettyFormat d = None) /\
  (0 <= dvalue d -> exists s q g, prettyFormat d = Some s /\ shows s q g /\ q <= dvalue d < q + g).
Proof.
  intros N. split.
  - intros H. unfold prettyFormat. rewrite H. reflexivity.
  - intros H. assert (NG : isNegative d = false /\ 0 <= Seconds d /\ 0 <= Nanoseconds d < billion).
    { unfold isNegative, dnorm, normalised, dvalue, billion in *. lia. }
    destruct NG as (NG & HS & HN). unfold prettyFormat. rewrite NG.
    unfold dvalue, billion in *. destruct d as [s n]; cbn [Seconds Nanoseconds] in *.
    destruct (Z.eqb_spec s 0) as [->|NZ]; cbn [andb].
    { destruct (Z.ltb_spec n 10000).
      { eexists _, _, _. split; [reflexivity|]. split; [apply ShowNs; [apply dec_fmt_d|]|]; lia. }
      destruct (Z.ltb_spec n 10000000).
      { eexists _, _, _. split; [reflexivity|]. split; [apply ShowUs; [apply dec_fmt_d|]|]; lia. }
      eexists _, _, _. split; [reflexivity|]. split; [apply ShowMs; [apply dec_fmt_d|]|]; lia. }
    destruct (Z.ltb_spec s 60).
    { eexists _, _, _. split; [reflexivity|]. split; [apply ShowS; [apply dec_fmt_d|apply dec3_fmt| |]; lia|]. unfold billion. lia. }
    destruct (Z.ltb_spec s (60*60)).
    { eexists _, _, _. split; [reflexivity|]. split; [apply ShowM; [apply dec_fmt_d|apply dec_fmt_d|apply dec3_fmt| | |]; lia|]. unfold billion. lia. }
    destruct (Z.ltb_spec s (24*60*60)).
    { eexists _, _, _. split; [reflexivity|]. split; [apply ShowH; try apply dec_fmt_d; lia|]. unfold billion. lia. }
    eexists _, _, _. split; [reflexivity|]. split; [apply ShowD; try apply dec_fmt_d; lia|]. unfold billion. lia.
Qed.

Lemma prettyFormat_exact d : dnorm d ->
  (prettyFormat d = None <-> dvalue d < 0) /\
  (0 <= dvalue d -> exists s q g, prettyFormat d = Some s /\ shows s q g /\ q <= dvalue d < q + g).
Proof.
  intros N. destruct (prettyFormat_spec d N) as [A B]. split; [|exact B]. split.
  - intros H. destruct (Z.ltb_spec (dvalue d) 0); auto. destruct (B H0) as (s & q & g & E & _). congruence.
  - intros H. apply A. unfold isNegative, dnorm, normalised, dvalue, billion in *. lia.
Qed.

Lemma decimal9_unique s s' n : decimal9 s n -> decimal9 s' n -> s = s'.
Proof.
  intros (ip & fp & ipn & -> & C & L & D & V) (ip' & fp' & ipn' & -> & C' & L' & D' & V').
  pose proof (dval_bound _ D) as B. pose proof (dval_bound _ D') as B'. rewrite L in B. rewrite L' in B'.
  change (10 ^ N.of_nat 9)%N with 1000000000%N in *. unfold billion in *.
  assert (ipn = ipn') by lia. subst ipn'. assert (E : digits_value fp = digits_value fp') by lia.
  rewrite (canonical_unique _ _ _ C C'). rewrite (digits_value_inj fp fp'); auto. congruence.
Qed.

Lemma dfits_time t u : valid_time t -> (Z.abs (t_sec t) + 1) * per_second u < 2^63 ->
  dfits (sinceEpoch t) (per_second u) /\ - 2^63 * billion < per_second u * dvalue (sinceEpoch t).
Proof.
  intros V H. destruct (sinceEpoch_spec t V) as (N & E & _).
  unfold dfits, dnorm, normalised, valid_time, time_ns, dvalue, in64, billion in *.
  unfold per_second in *. destruct (String.eqb u "Milliseconds"); lia.
Qed.
Lemma sinceEpoch_text_roundtrip t u : valid_time t -> (Z.abs (t_sec t) + 1) * per_second u < 2^63 ->
  ParseWithUnit (StringUsingUnits (sinceEpoch t) u) u = Some (sinceEpoch t).
Proof.
  intros V H. destruct (dfits_time t u V H) as [F G]. destruct (sinceEpoch_spec t V) as (N & E & _).
  apply string_parse_roundtrip; auto.
Qed.
Lemma sinceEpoch_text t u : valid_time t -> (Z.abs (t_sec t) + 1) * per_second u < 2^63 ->
  decimal9 (StringUsingUnits (sinceEpoch t) u) (per_second u * time_ns t).
Proof.
  intros V H. destruct (dfits_time t u V H) as [F G]. destruct (sinceEpoch_spec t V) as (N & E & _).
  destruct (convert_out _ u N F) as (A & B & C & D). rewrite <- E, <- B. apply toString_spec; auto.
  unfold dvalue, dnorm, normalised, billion, in64 in *. lia.
Qed.

Lemma parse_norm s d : parse s = Some d -> dnorm d /\ in64 (Seconds d).
Proof.
  destruct d as [sec ns]. intros H. apply parse_iff in H as (neg & w & rest & whole & frac & _ & _ & WT & HR & -> & ->).
  destruct WT as (sg & ds & _ & _ & _ & _ & HV & HW).
  assert (0 <= frac < billion).
  { destruct HR as [[_ ->] | (f & _ & D & ->)]; [unfold billion; lia|].
    pose proof (dval_bound _ D) as B. rewrite frac_text_length in B. change (10 ^ N.of_nat 9)%N with 1000000000%N in B. unfold billion; lia. }
  unfold dnorm, normalised, in64. cbn [Seconds Nanoseconds]. destruct neg; lia.
Qed.
Lemma parse_with_unit_none s u : ParseWithUnit s u = None <-> ~ (exists sec ns, parses s sec ns).
Proof.
  unfold ParseWithUnit. destruct (parse s) as [[sec ns]|] eqn:P.
  - split; [discriminate|]. intros H. exfalso. apply H. exists sec, ns. apply parse_iff; auto.
  - split; auto. intros _ (sec & ns & H). apply parse_iff in H. congruence.
Qed.
Lemma parse_with_unit_value s u sec ns : parses s sec ns ->
  exists d, ParseWithUnit s u = Some d /\ dnorm d /\ dvalue d = Z.quot (sec * billion + ns) (per_second u).
Proof.
  intros H. apply parse_iff in H. destruct (parse_norm _ _ H) as [N I].
  unfold ParseWithUnit. rewrite H. eexists. split; [reflexivity|].
  destruct (convert_in _ u N I) as (A & B & _). auto.
Qed.
