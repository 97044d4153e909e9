(** Proofs for C89: the text form of a value determines it. *)
From Verif Require Import GoBase StrLemmas TextSpec GoVal UnitsModel DurationModel DurationSpec DurationProofs TypesModel FloatBase.
From stdpp Require Import list.
From Verif Require Import ReflectModel ListModel ValueModel ValueSpec FormatModel FormatSpec FormatValueSpec FormatProofs FormatThms.
From Verif Require Import AlikeProofs TextAlikeSpec.
From Coq Require Import ZifyBool Lia.
Local Open Scope string_scope.

Lemma unset_dec (t : gotime) : t = MkTime (-62135596800) 0 ∨ t ≠ MkTime (-62135596800) 0.
Proof. destruct t as [s n]. destruct (Z.eq_dec s (-62135596800)%Z), (Z.eq_dec n 0%Z); [left|right..]; congruence. Qed.
Lemma same_instant t t' : (0 <= t_nsec t < 1000000000)%Z → (0 <= t_nsec t' < 1000000000)%Z → time_ns t = time_ns t' → t = t'.
Proof. destruct t as [s n], t' as [s' n']. unfold time_ns, billion. cbn. intros. assert (s = s') by lia. assert (n = n') by lia. congruence. Qed.

Lemma text_same u c c' s : text_shows u c s → text_shows u c' s → same_value u c c'.
Proof.
  pose proof (per_second_pos u) as P.
  destruct c, c'; cbn [text_shows same_value]; try done.
  - intros -> E. by destruct b, b0.
  - apply exact_same.
  - intros -> E. injection E as E. by apply app_inj_r in E.
  - intros [A A'] [B B'] (I & N & R) (I' & N' & R').
    destruct (unset_dec t) as [->|U], (unset_dec t0) as [->|U'].
    + by left.
    + right. left. split; [done|]. pose proof (decimal9_same _ _ _ (A eq_refl) (B' U' (conj I' N') R')) as E.
      apply same_instant; [done|done|]. change (time_ns (MkTime 0 0)) with 0%Z. nia.
    + right. right. split; [|done]. pose proof (decimal9_same _ _ _ (B eq_refl) (A' U (conj I N) R)) as E.
      apply same_instant; [done|done|]. change (time_ns (MkTime 0 0)) with 0%Z. nia.
    + left. pose proof (decimal9_same _ _ _ (A' U (conj I N) R) (B' U' (conj I' N') R')) as E. apply same_instant; [done|done|]. nia.
  - intros A B. pose proof (decimal9_same _ _ _ A B). nia.
Qed.

Lemma text_values_same FF w w' v v' t p t' p' u s :
  rval_ok w v = true → getPrimitiveType w (rtype_of v) = Some (t, p) →
  rval_ok w' v' = true → getPrimitiveType w' (rtype_of v') = Some (t', p') →
  valueToTextString FF v t u p = FmtOk s → valueToTextString FF v' t' u p' = FmtOk s →
  same_value u (content_of v) (content_of v').
Proof.
  intros R G R' G' E E'. destruct (text_content FF w v t p u R G) as (x & F & S).
  destruct (text_content FF w' v' t' p' u R' G') as (x' & F' & S').
  assert (x = s) as -> by congruence. assert (x' = s) as -> by congruence. exact (text_same u _ _ s S S').
Qed.
