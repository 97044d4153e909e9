(** C13, C14 and C64: values converted to float64 and back. *)
From Coq Require Import ZArith Reals Lra Lia Bool String List.
From Flocq Require Import Core.Core IEEE754.BinarySingleNaN.
From Verif Require Import GoBase UnitsModel DurationModel DurationSpec DurationProofs GoVal TypesModel FloatBase FloatLemmas FloatConvModel FloatConvSpec FloatConvProofs FloatConvTime FloatConvNear.

Lemma rounded_odd z : odd_53 z -> rounded z = (z + Z.sgn z)%Z.
Proof. intros (O & B). unfold rounded. rewrite O. now rewrite (proj2 (Z.leb_le _ _)), (proj2 (Z.ltb_lt _ _)) by lia. Qed.
Lemma rounded_same z : ~ odd_53 z -> rounded z = z.
Proof.
  intros H. unfold rounded. destruct (_ && _ && _)%bool eqn:E; [|reflexivity]. exfalso. apply H. unfold odd_53. apply andb_prop in E as (E & E3). apply andb_prop in E as (E1 & E2).
  apply Z.leb_le in E2. apply Z.ltb_lt in E3. auto.
Qed.
Lemma rep_fmt r : representable r -> fmt64 r.
Proof. intros (f & _ & <-). apply fmt_B2R. Qed.
Lemma int_back st (mk : Z -> denote st) lo hi z : (Z.abs z <= 2 ^ 64)%Z -> representable (IZR z) -> ~ odd_53 z -> (lo <= z <= hi)%Z ->
  from_int st mk lo hi (f64_of_Z z) = ConvOk (VScalar st (mk z)).
Proof. intros B R O L. rewrite (from_int_spec st mk lo hi z B (rep_fmt _ R)); rewrite rounded_same by exact O; auto. Qed.

(** ** C13 *)
(** Every value that is exactly a float64 comes back, except those in [may_change]; whether or not the compiler fuses multiplications and additions. *)
Theorem c13_exact_partial : forall fused fused' st (v : denote st) r, exact_real (VScalar st v) = Some r -> scalar_ok st v -> representable r -> ~ may_change (VScalar st v) ->
  exists f, ToFloat fused (scalar_type st) (VScalar st v) = ConvOk f /\ FromFloat fused' (scalar_type st) f = ConvOk (VScalar st v).
Proof.
  intros fused fused' st v r E V R C.
  destruct st; cbn [exact_real] in E; try discriminate; cbn [scalar_ok denote may_change] in *.
  - injection E as <-. eexists. split; [reflexivity|]. apply int_back; [lia|exact R|unfold odd_53; lia|lia].
  - injection E as <-. eexists. split; [reflexivity|]. apply int_back; [lia|exact R|unfold odd_53; lia|lia].
  - injection E as <-. eexists. split; [reflexivity|]. apply int_back; [lia|exact R|unfold odd_53; lia|lia].
  - injection E as <-. eexists. split; [reflexivity|]. apply int_back; [lia|exact R|exact C|lia].
  - injection E as <-. eexists. split; [reflexivity|]. apply int_back; [lia|exact R|unfold odd_53; lia|lia].
  - injection E as <-. eexists. split; [reflexivity|]. apply int_back; [lia|exact R|unfold odd_53; lia|lia].
  - injection E as <-. eexists. split; [reflexivity|]. apply int_back; [lia|exact R|unfold odd_53; lia|lia].
  - injection E as <-. eexists. split; [reflexivity|]. apply int_back; [lia|exact R|exact C|lia].
  - eexists. split; [reflexivity|]. unfold FromFloat. cbn [String.eqb Ascii.eqb Bool.eqb Int8 Int16 Int32 Int64 Uint8 Uint16 Uint32 Uint64 Float32 scalar_type]. now rewrite f32_round_trip.
  - now eexists.
  - injection E as <-. eexists. split; [reflexivity|].
    change (match FloatToTime (TimeToFloat fused v) with ConvOk x => ConvOk (VTime x) | _ => ConvUnspecified end = ConvOk (VTime v)).
    rewrite time_round_trip; [reflexivity| |exact R]. unfold valid_time, in64. exact V.
  - injection E as <-. eexists. split; [reflexivity|].
    change (match dur_FromFloat fused' (dur_ToFloat v) with ConvOk x => ConvOk (VDuration x) | _ => ConvUnspecified end = ConvOk (VDuration v)).
    assert (0 <= v)%Z as P by lia. assert (fmt64 (IZR v)) as F.
    { destruct (of_Z_rnd v ltac:(lia)) as (Ff & Ef). destruct (Req_dec (rnd64 (IZR v)) (IZR v)) as [Q|Q]; [rewrite <- Q; apply rnd_fmt_rnd|].
      exfalso. apply C. right. right. intros Y. apply Q, rnd_fmt, rep_fmt, Y. }
    destruct (dur_exact fused' v ltac:(lia) F (rep_fmt _ R)) as (_ & _ & D). rewrite D, rounded_same; [reflexivity|]. intros O. apply C. auto.
Qed.
(** float32 and float64 also come back when they are infinite or not a number. *)
Theorem c13_floats_partial : forall fused fused',
  (forall v, exists f, ToFloat fused Float32 (VScalar SFloat32 v) = ConvOk f /\ FromFloat fused' Float32 f = ConvOk (VScalar SFloat32 v)) /\
  (forall v, exists f, ToFloat fused Float64 (VScalar SFloat64 v) = ConvOk f /\ FromFloat fused' Float64 f = ConvOk (VScalar SFloat64 v)).
Proof.
  intros fused fused'. split; intros v; eexists; (split; [reflexivity|]); [|reflexivity].
  change (ConvOk (VScalar SFloat32 (f32_of_f64 (f64_of_f32 v))) = ConvOk (VScalar SFloat32 v)). now rewrite f32_round_trip.
Qed.
(** Exactly the types that claim to support it can be converted, and only values of the right type. *)
Theorem c13_supported_partial : forall fused t,
  (forall f, FromFloat fused t f = ConvPanic <-> CanToFromFloat t = false) /\
  (forall x, ToFloat fused t x = ConvPanic <-> ~ (CanToFromFloat t = true /\ exists st v, x = VScalar st v /\ scalar_type st = t)).
Proof.
  intros fused t. unfold FromFloat, ToFloat, CanToFromFloat, is_one_of. cbn [existsb].
  assert (forall A (c : conv A) (g : A -> goval), match c with ConvOk x => ConvOk (g x) | _ => ConvUnspecified end <> @ConvPanic goval) as NP by (intros A [| |] g; discriminate).
  split; [intros f|intros x].
  - repeat match goal with |- context [String.eqb t ?k] => destruct (String.eqb_spec t k) as [->|?]; [cbn [orb]; split; [intros Q; exfalso; revert Q; try unfold from_int; solve [apply NP|discriminate]|discriminate]|] end.
    now cbn.
  - repeat match goal with |- context [String.eqb t ?k] => destruct (String.eqb_spec t k) as [->|?];
      [cbn [orb]; split; [intros Q (_ & st & v & -> & T); destruct st; vm_compute in T; discriminate|
        intros Q; destruct x as [|st v|? ?|?|? ?|? ? ?]; try reflexivity; destruct st; try reflexivity; exfalso; apply Q; split; [reflexivity|now eexists _, _]]|] end.
    cbn. split; [intros _ (Q & _); discriminate|reflexivity].
Qed.
(** The code violates the property: every odd int64 of magnitude between 2^52 and 2^53 comes back as its neighbour. *)
Theorem c13_refuted : forall fused z, odd_53 z ->
  representable (IZR z) /\ scalar_ok SInt64 z /\ exists f, ToFloat fused Int64 (VScalar SInt64 z) = ConvOk f /\ FromFloat fused Int64 f = ConvOk (VScalar SInt64 (z + Z.sgn z)%Z) /\ (z + Z.sgn z <> z)%Z.
Proof.
  intros fused z O. assert (Z.abs z < 2 ^ 53)%Z as B by apply O. assert (2 ^ 52 <= Z.abs z)%Z as L by apply O. split; [|split; [cbn; lia|]].
  - exists (f64_of_Z z). destruct (f64_of_Z_exact z ltac:(lia)) as (E & F). auto.
  - eexists. split; [reflexivity|]. split; [|lia].
    change (from_int SInt64 (fun z => z) (-2 ^ 63) (2 ^ 63 - 1) (f64_of_Z z) = ConvOk (VScalar SInt64 (z + Z.sgn z)%Z)).
    rewrite from_int_spec; [now rewrite rounded_odd|lia|apply fmt_Z; lia|]. rewrite rounded_odd by exact O. lia.
Qed.
Definition rt (fused : bool) (st : sty) (v : denote st) : conv goval :=
  match ToFloat fused (scalar_type st) (VScalar st v) with ConvOk f => FromFloat fused (scalar_type st) f | _ => ConvPanic end.
Definition is_z (st : sty) (z : Z) (c : conv goval) : bool :=
  match c with
  | ConvOk (VScalar SInt64 v) => match st with SInt64 => Z.eqb v z | _ => false end
  | ConvOk (VScalar SUint8 v) => match st with SUint8 => Z.eqb v z | _ => false end
  | ConvOk (VScalar SDuration v) => match st with SDuration => Z.eqb v z | _ => false end
  | _ => false
  end.
Example c13_nonvacuous : is_z SInt64 (- 2 ^ 63) (rt false SInt64 (- 2 ^ 63)%Z) = true /\ is_z SUint8 255 (rt false SUint8 255%Z) = true /\
  is_z SDuration 1500000000 (rt true SDuration 1500000000%Z) = true /\ odd_53 (- (2 ^ 52 + 1)) /\
  is_z SInt64 (- (2 ^ 52 + 2)) (rt false SInt64 (- (2 ^ 52 + 1))%Z) = true /\ representable (IZR 1500000000 / IZR 1000000000) /\ ~ may_change (VScalar SDuration 1500000000%Z).
Proof.
  split; [vm_compute; reflexivity|]. split; [vm_compute; reflexivity|]. split; [vm_compute; reflexivity|]. split; [vm_compute; repeat split; discriminate|]. split; [vm_compute; reflexivity|]. split.
  - exists (B754_finite (prec:=53) (emax:=1024) false 6755399441055744 (-52) eq_refl). split; [reflexivity|].
    change (IZR 6755399441055744 * / IZR (2 ^ 52) = IZR 1500000000 / IZR 1000000000)%R. change 6755399441055744%Z with (3 * 2 ^ 51)%Z. change (2 ^ 52)%Z with (2 * 2 ^ 51)%Z.
    change 1500000000%Z with (3 * 500000000)%Z. change 1000000000%Z with (2 * 500000000)%Z. rewrite !mult_IZR. assert (IZR (2 ^ 51) <> 0)%R by (apply not_0_IZR; discriminate). field. assumption.
  - cbn [may_change]. intros [H|[(H & _)|H]]; [lia|discriminate|]. apply H. exists (f64_of_Z 1500000000). destruct (f64_of_Z_exact 1500000000 ltac:(lia)) as (E & F). auto.
Qed.

(** ** C14 *)
(** Durations from 0 to 2^51 ns (26 days) come back. *)
Theorem c14_positive_partial : forall fused d, (0 <= d < 2 ^ 51)%Z -> dur_FromFloat fused (dur_ToFloat d) = ConvOk d.
Proof. exact dur_round_trip. Qed.
(** The code violates the property: every negative duration in this range comes back one nanosecond larger. *)
Theorem c14_refuted : forall fused d, (- 2 ^ 51 < d < 0)%Z -> dur_FromFloat fused (dur_ToFloat d) = ConvOk (d + 1)%Z.
Proof. exact dur_negative. Qed.
(** The bound 2^51 cannot be raised to 2^52. *)
Theorem c14_bound_refuted : exists d, (2 ^ 51 <= d < 2 ^ 52)%Z /\ dur_FromFloat false (dur_ToFloat d) <> ConvOk d.
Proof.
  exists 4311245198145853%Z. split; [lia|]. intros E.
  assert (match dur_FromFloat false (dur_ToFloat 4311245198145853) with ConvOk z => Z.eqb z 4311245198145853 | _ => true end = false) as C by (vm_compute; reflexivity).
  rewrite E in C. discriminate.
Qed.
Example c14_nonvacuous : match dur_FromFloat false (dur_ToFloat 1234567890123456) with ConvOk z => z = 1234567890123456%Z | _ => False end /\
  match dur_FromFloat false (dur_ToFloat (-1)) with ConvOk z => z = 0%Z | _ => False end /\ (0 <= 1234567890123456 < 2 ^ 51)%Z.
Proof. split; [vm_compute; reflexivity|]. split; [vm_compute; reflexivity|lia]. Qed.

(** ** C64 *)
(** Times from 1697 to 2242 come back within a microsecond. *)
Theorem c64_time : forall fused t, (- 2 ^ 33 < t_sec t < 2 ^ 33 - 1)%Z -> (0 <= t_nsec t < 1000000000)%Z ->
  exists t', FloatToTime (TimeToFloat fused t) = ConvOk t' /\ (0 <= t_nsec t' < 1000000000)%Z /\ (Z.abs (ns_of_time t' - ns_of_time t) < 1000)%Z.
Proof.
  intros fused t S N. destruct (time_near fused t) as (t' & E & V & D); [unfold valid_time, in64; split; [lia|exact N]|exact S|]. exists t'. split; [exact E|]. split; [apply V|exact D].
Qed.
(** The float64 itself is within a microsecond of the time. *)
Theorem c64_seconds : forall fused t, (- 2 ^ 33 < t_sec t < 2 ^ 33 - 1)%Z -> (0 <= t_nsec t < 1000000000)%Z ->
  is_finite (TimeToFloat fused t) = true /\ (Rabs (B2R (TimeToFloat fused t) - IZR (ns_of_time t) / 1000000000) < / 1000000)%R.
Proof.
  intros fused t S0 N0. assert (valid_time t) as V by (unfold valid_time, in64; split; [lia|exact N0]).
  destruct (sinceEpoch_spec t V) as (N & E & I). unfold TimeToFloat. destruct (sinceEpoch t) as [s n]. unfold dnorm, normalised, dvalue, billion, time_ns in *. cbn [Seconds Nanoseconds] in *.
  unfold billion in *. destruct (asFloat_near fused s n ltac:(lia) ltac:(lia)) as (F & _ & Err). split; [exact F|].
  assert (IZR (ns_of_time t) / 1000000000 = IZR s + IZR n / IZR 1000000000)%R as ->.
  { unfold ns_of_time. rewrite <- E, plus_IZR, mult_IZR. field. }
  eapply Rle_lt_trans; [exact Err|]. change (bpow radix2 (-20)) with (/ 1048576)%R. assert (bpow radix2 (-52) <= / 1000000000000)%R as L.
  { change (bpow radix2 (-52)) with (/ IZR (2 ^ 52))%R. apply Rinv_le; [lra|]. apply IZR_le. vm_compute. discriminate. }
  lra.
Qed.
(** FloatToTime gives the time within 1.01 ns of the float64. *)
Theorem c64_from : forall f : float64, is_finite f = true -> (Rabs (B2R f) <= IZR (2 ^ 33))%R ->
  exists t, FloatToTime f = ConvOk t /\ (0 <= t_nsec t < 1000000000)%Z /\ (Rabs (IZR (ns_of_time t) - B2R f * 1000000000) < 101 / 100)%R.
Proof. intros f F B. destruct (from_near f F B) as (t & E & V & D). exists t. split; [exact E|]. split; [apply V|exact D]. Qed.
Example c64_nonvacuous : match FloatToTime (TimeToFloat false (MkTime 1600000000 123456789)) with ConvOk t => t = MkTime 1600000000 123456716 | _ => False end /\
  match FloatToTime (TimeToFloat true (MkTime (-1600000000) 123456789)) with ConvOk t => (Z.abs (ns_of_time t - ns_of_time (MkTime (-1600000000) 123456789)) <? 1000)%Z = true | _ => False end.
Proof. split; vm_compute; reflexivity. Qed.

Print Assumptions c13_exact_partial.
Print Assumptions c13_floats_partial.
Print Assumptions c13_supported_partial.
Print Assumptions c13_refuted.
Print Assumptions c14_positive_partial.
Print Assumptions c14_refuted.
Print Assumptions c14_bound_refuted.
Print Assumptions c64_time.
Print Assumptions c64_seconds.
Print Assumptions c64_from.
