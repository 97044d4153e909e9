(** Proofs about the text of durations shown to people (C87): it says the duration up to its last digit. *)
From Verif Require Import GoBase TextSpec StrLemmas UnitsModel DurationModel DurationSpec DurationProofs PrettySpec.
From Coq Require Import ZifyBool.
Local Open Scope Z_scope.
Local Ltac Zify.zify_post_hook ::= Z.to_euclidean_division_equations.

Definition nodigit_first (r : string) : Prop := match r with String c _ => is_digit c = false | EmptyString => True end.

(** A run of digits ends where the digits end. *)
Lemma digits_split a b r r' : str_all is_digit a = true -> str_all is_digit b = true ->
  nodigit_first r -> nodigit_first r' -> (a ++ r = b ++ r')%string -> a = b /\ r = r'.
Proof.
  revert b. induction a as [|c a IH]; intros [|c' b] A B R R' H; cbn in *.
  - auto.
  - subst r. cbn in R. rewrite R in B. discriminate.
  - subst r'. cbn in R'. rewrite R' in A. discriminate.
  - injection H as -> H. apply andb_prop in A as [_ A]. apply andb_prop in B as [_ B].
    destruct (IH b A B R R' H) as [-> ->]. auto.
Qed.

Lemma dec_digits t n : dec t n -> str_all is_digit t = true.
Proof. intros [_ (_ & D & _)]. exact D. Qed.
Lemma dec3_digits t n : dec3 t n -> str_all is_digit t = true.
Proof. intros (_ & _ & D & _). exact D. Qed.
Lemma dec_value t n m : dec t n -> dec t m -> n = m.
Proof. intros [P (_ & _ & V & _)] [Q (_ & _ & W & _)]. lia. Qed.
Lemma dec3_value t n m : dec3 t n -> dec3 t m -> n = m.
Proof. intros (P & _ & _ & V) (Q & _ & _ & W). lia. Qed.
Lemma dec_text t t' n : dec t n -> dec t' n -> t = t'.
Proof. intros [_ A] [_ B]. exact (canonical_unique _ _ _ A B). Qed.
Lemma dec3_text t t' n : dec3 t n -> dec3 t' n -> t = t'.
Proof. intros (_ & L & D & V) (_ & L' & D' & V'). apply digits_value_inj; congruence. Qed.

Ltac digits := first [eapply dec_digits; eassumption | eapply dec3_digits; eassumption].
Ltac peel H :=
  let E := fresh "E" in
  apply digits_split in H as [E H]; [|digits|digits|reflexivity|reflexivity];
  cbn [append] in H; first [discriminate H | injection H as H | idtac].
Ltac values :=
  repeat match goal with
  | H : dec ?t ?n, H' : dec ?t ?m |- _ => pose proof (dec_value _ _ _ H H'); clear H'; try subst m
  | H : dec3 ?t ?n, H' : dec3 ?t ?m |- _ => pose proof (dec3_value _ _ _ H H'); clear H'; try subst m
  end.

(** What a text shows is unique. *)
Lemma shows_text s q g q' g' : shows s q g -> shows s q' g' -> q = q' /\ g = g'.
Proof.
  intros A B. inversion A; subst; inversion B; subst;
    match goal with H : (_ ++ _)%string = (_ ++ _)%string |- _ => peel H; repeat peel H end;
    subst; values; auto.
Qed.

Lemma dec_pos t n : dec t n -> 0 <= n.
Proof. intros [P _]. exact P. Qed.
Lemma dec3_pos t n : dec3 t n -> 0 <= n.
Proof. intros [P _]. exact P. Qed.
Ltac signs :=
  repeat match goal with
  | H : dec _ _ |- _ => let P := fresh "P" in pose proof (dec_pos _ _ H) as P; revert H
  | H : dec3 _ _ |- _ => let P := fresh "P" in pose proof (dec3_pos _ _ H) as P; revert H
  end; intros.

(** The size of the last digit and the quantity shown are those of the specification. *)
Lemma shows_cut s q g v : shows s q g -> q <= v < q + g -> g = precision v /\ q = cut v.
Proof.
  intros A V. assert (g = precision v /\ 0 < g /\ exists k, q = k * g) as (G & P & k & K).
  { unfold precision. inversion A; subst; signs; unfold billion in *;
      (split; [destruct (Z.ltb_spec v 10000), (Z.ltb_spec v 10000000), (Z.ltb_spec v 3600000000000); lia|]);
      (split; [lia|]); [exists q|exists n|exists n|exists (s0 * 1000 + m)|exists ((mi * 60 + s0) * 1000 + m)|
        exists (h * 3600 + mi * 60 + s0)|exists (d * 86400 + h * 3600 + mi * 60 + s0)]; lia. }
  split; [exact G|]. unfold cut. rewrite <-G.
  assert (v / g = k) as ->; [|exact K]. symmetry. apply (Z.div_unique v g k (v - q)); lia.
Qed.

(** A quantity has one text. *)
Lemma shows_quantity s s' q g : shows s q g -> shows s' q g -> s = s'.
Proof.
  intros A B. inversion A; subst; inversion B; subst; signs; unfold billion in *; try lia;
    repeat match goal with
    | H : dec ?t ?n, H' : dec ?t' ?m |- _ => assert_fails (constr_eq t t'); assert (m = n) by lia; try subst m;
        assert (t' = t) by exact (dec_text _ _ _ H' H); subst t'; clear H'
    | H : dec3 ?t ?n, H' : dec3 ?t' ?m |- _ => assert_fails (constr_eq t t'); assert (m = n) by lia; try subst m;
        assert (t' = t) by exact (dec3_text _ _ _ H' H); subst t'; clear H'
    end; reflexivity.
Qed.

(** The quantity shown grows with the duration. *)
Lemma precision_pos v : 0 < precision v.
Proof. unfold precision. destruct (v <? 10000), (v <? 10000000), (v <? 3600000000000); lia. Qed.
Lemma cut_below v : cut v <= v < cut v + precision v.
Proof.
  unfold cut. pose proof (precision_pos v). pose proof (Z.div_mod v (precision v) ltac:(lia)).
  pose proof (Z.mod_pos_bound v (precision v) ltac:(lia)). nia.
Qed.
Lemma cut_mono v w : 0 <= v <= w -> cut v <= cut w.
Proof.
  intros H. unfold cut, precision.
  destruct (Z.ltb_spec v 10000), (Z.ltb_spec v 10000000), (Z.ltb_spec v 3600000000000); try lia;
    destruct (Z.ltb_spec w 10000), (Z.ltb_spec w 10000000), (Z.ltb_spec w 3600000000000); lia.
Qed.
Lemma precision_cut v : 0 <= v -> precision (cut v) = precision v.
Proof.
  intros H. unfold cut. assert (0 <= v / precision v * precision v <= v) as B.
  { pose proof (precision_pos v). split; [apply Z.mul_nonneg_nonneg; [apply Z.div_pos|]; lia|].
    rewrite Z.mul_comm. apply Z.mul_div_le. lia. }
  revert B. unfold precision.
  destruct (Z.ltb_spec v 10000), (Z.ltb_spec v 10000000), (Z.ltb_spec v 3600000000000); try lia; intros B.
  all: repeat match goal with |- context[?a <? ?b] => destruct (Z.ltb_spec a b) end; lia.
Qed.

Section two.
Context (d1 d2 : Duration) (N1 : dnorm d1) (N2 : dnorm d2).

Lemma pretty_shows d : dnorm d -> 0 <= dvalue d ->
  exists s, prettyFormat d = Some s /\ shows s (cut (dvalue d)) (precision (dvalue d)).
Proof.
  intros N P. destruct (prettyFormat_exact d N) as [_ F]. destruct (F P) as (s & q & g & E & S & B).
  destruct (shows_cut _ _ _ _ S B) as [-> ->]. exists s. auto.
Qed.

Lemma pretty_same : 0 <= dvalue d1 -> 0 <= dvalue d2 ->
  prettyFormat d1 = prettyFormat d2 <-> cut (dvalue d1) = cut (dvalue d2).
Proof.
  intros P1 P2. destruct (pretty_shows d1 N1 P1) as (s1 & E1 & S1). destruct (pretty_shows d2 N2 P2) as (s2 & E2 & S2).
  rewrite E1, E2. split.
  - intros [= ->]. exact (proj1 (shows_text _ _ _ _ _ S1 S2)).
  - intros C. pose proof (precision_cut _ P1) as G1. rewrite C, (precision_cut _ P2) in G1. rewrite C, <-G1 in S1.
    rewrite (shows_quantity _ _ _ _ S1 S2). reflexivity.
Qed.

Lemma pretty_mono s1 s2 q1 q2 g1 g2 : prettyFormat d1 = Some s1 -> prettyFormat d2 = Some s2 ->
  shows s1 q1 g1 -> shows s2 q2 g2 -> dvalue d1 <= dvalue d2 -> q1 <= q2.
Proof.
  intros E1 E2 S1 S2 L.
  assert (0 <= dvalue d1) as P1. { destruct (prettyFormat_exact d1 N1) as [Z _]. destruct (Z.lt_ge_cases (dvalue d1) 0) as [X|X]; [|exact X]. apply Z in X. congruence. }
  destruct (pretty_shows d1 N1 P1) as (t1 & F1 & T1). destruct (pretty_shows d2 N2 ltac:(lia)) as (t2 & F2 & T2).
  assert (t1 = s1) by congruence. assert (t2 = s2) by congruence. subst t1 t2.
  destruct (shows_text _ _ _ _ _ S1 T1) as [-> _]. destruct (shows_text _ _ _ _ _ S2 T2) as [-> _].
  apply cut_mono. lia.
Qed.

Lemma pretty_reads s : prettyFormat d1 = Some s -> shows s (cut (dvalue d1)) (precision (dvalue d1)).
Proof.
  intros E.
  assert (0 <= dvalue d1) as P. { destruct (prettyFormat_exact d1 N1) as [Z _]. destruct (Z.lt_ge_cases (dvalue d1) 0) as [X|X]; [|exact X]. apply Z in X. congruence. }
  destruct (pretty_shows d1 N1 P) as (t & F & T). assert (t = s) by congruence. subst t. exact T.
Qed.

Lemma pretty_error s q g : prettyFormat d1 = Some s -> shows s q g ->
  q <= dvalue d1 < q + g /\ g = precision (dvalue d1) /\ (q = dvalue d1 \/ 10 * (dvalue d1 - q) < dvalue d1).
Proof.
  intros E S.
  assert (0 <= dvalue d1) as P. { destruct (prettyFormat_exact d1 N1) as [Z _]. destruct (Z.lt_ge_cases (dvalue d1) 0) as [X|X]; [|exact X]. apply Z in X. congruence. }
  destruct (pretty_shows d1 N1 P) as (t & F & T). assert (t = s) by congruence. subst t.
  destruct (shows_text _ _ _ _ _ S T) as [-> ->]. pose proof (cut_below (dvalue d1)) as B.
  split; [exact B|]. split; [reflexivity|]. revert B. generalize (cut (dvalue d1)). intros q B.
  unfold precision in B. destruct (Z.ltb_spec (dvalue d1) 10000), (Z.ltb_spec (dvalue d1) 10000000), (Z.ltb_spec (dvalue d1) 3600000000000); lia.
Qed.
End two.
