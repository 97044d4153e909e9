(** Proofs for C88: texts in a browser are read in one way only. *)
From Verif Require Import GoBase StrLemmas TextSpec GoVal UnitsModel DurationModel DurationSpec DurationProofs TypesModel FloatBase.
From stdpp Require Import list.
From Verif Require Import ReflectModel ListModel ValueModel ValueSpec FormatModel FormatSpec FormatValueSpec FormatProofs FormatThms.
From Verif Require Import PrettySpec PrettyProofs AlikeSpec.
From Coq Require Import ZifyBool Lia.
Local Arguments String.append !_ _ : simpl nomatch.
Local Open Scope string_scope.

Lemma canonical_digits t n : canonical_dec t n → str_all is_digit t = true ∧ t ≠ "" ∧ digits_value t = n.
Proof. intros (A & B & C & _). auto. Qed.
Lemma minus_digits t r x : str_all is_digit t = true → t ≠ "" → t ++ r ≠ String "-" x.
Proof. intros D N. destruct t as [|c t]; [done|]. cbn in *. intros [= -> _]. by apply andb_prop in D as [D _]. Qed.

(** A sign is told from digits. *)
Lemma sign_split (a b : bool) t t' r r' : str_all is_digit t = true → t ≠ "" → str_all is_digit t' = true → t' ≠ "" →
  (if a then "-" else "") ++ t ++ r = (if b then "-" else "") ++ t' ++ r' → a = b ∧ t ++ r = t' ++ r'.
Proof.
  intros D N D' N' H. destruct a, b; cbn [append] in H.
  - by injection H as H.
  - by destruct (minus_digits t' r' (t ++ r) D' N').
  - by destruct (minus_digits t r (t' ++ r') D N).
  - auto.
Qed.

Lemma exact_same x y s : exact_text x s → exact_text y s → x = y.
Proof.
  intros (t & C & ->) (t' & C' & E). destruct (canonical_digits _ _ C) as (D & N & V). destruct (canonical_digits _ _ C') as (D' & N' & V').
  rewrite <-(app_nil_r_s t), <-(app_nil_r_s t') in E. apply sign_split in E as [S E]; try done.
  rewrite !app_nil_r_s in E. subst t'. assert (Z.abs_N x = Z.abs_N y) by congruence. lia.
Qed.

(** A suffix begins with neither a digit nor a dot. *)
Definition suffix_like (s : string) : Prop := match s with String c _ => is_digit c = false ∧ c ≠ "."%char | "" => False end.
Lemma suffix_first s : suffix_like s → nodigit_first s.
Proof. destruct s; [done|]. by intros [H _]. Qed.

Definition after (p : nat) (fp sfx : string) : string := (match p with O => "" | _ => "." ++ fp end) ++ sfx.
Lemma after_first p fp sfx : suffix_like sfx → nodigit_first (after p fp sfx).
Proof. intros S. unfold after. destruct p; [by apply suffix_first|done]. Qed.
Lemma after_same p fp sfx p' fp' sfx' : suffix_like sfx → suffix_like sfx' → String.length fp = p → String.length fp' = p' →
  str_all is_digit fp = true → str_all is_digit fp' = true → after p fp sfx = after p' fp' sfx' → fp = fp' ∧ sfx = sfx'.
Proof.
  intros S S' L L' D D' E. unfold after in E. destruct p, p'; cbn [append] in E.
  - destruct fp, fp'; done.
  - subst sfx. by destruct S.
  - subst sfx'. by destruct S'.
  - injection E as E. apply digits_split in E; try done; by apply suffix_first.
Qed.

Lemma decimal_same t t' n n' p p' sfx sfx' : suffix_like sfx → suffix_like sfx' → decimal_text t n p → decimal_text t' n' p' →
  t ++ sfx = t' ++ sfx' → n = n' ∧ p = p' ∧ sfx = sfx'.
Proof.
  intros S S' (ip & fp & k & -> & C & L & F & V) (ip' & fp' & k' & -> & C' & L' & F' & V') E.
  destruct (canonical_digits _ _ C) as (D & N & W). destruct (canonical_digits _ _ C') as (D' & N' & W').
  rewrite <-!app_assoc_s in E. fold (after p fp sfx) in E. fold (after p' fp' sfx') in E.
  apply sign_split in E as [G E]; try done. apply digits_split in E as [-> E]; try done; try by apply after_first.
  destruct (after_same p fp sfx p' fp' sfx' S S' L L' F F' E) as [-> ->]. subst p p'.
  assert (k = k') as -> by congruence. split_and!; [lia|done..].
Qed.

Lemma exact_not_decimal x t n p sfx : suffix_like sfx → decimal_text t n p → ¬ exact_text x (t ++ sfx).
Proof.
  intros S (ip & fp & k & -> & C & L & F & V) (t' & C' & E).
  destruct (canonical_digits _ _ C) as (D & N & W). destruct (canonical_digits _ _ C') as (D' & N' & W').
  rewrite <-!app_assoc_s, <-(app_nil_r_s t') in E. fold (after p fp sfx) in E.
  apply sign_split in E as [_ E]; try done. apply digits_split in E as [_ E]; try done; [|by apply after_first].
  unfold after in E. destruct p; cbn [append] in E; [by subst sfx|done].
Qed.

Section suffixes.
Context (suffix : string → Z → Prop) (SL : ∀ s k, suffix s k → suffix_like s) (SF : ∀ s k k', suffix s k → suffix s k' → k = k').
Lemma compact_same x y s : shows_compact suffix x s → shows_compact suffix y s →
  (100000 * Z.abs (x - y) <= 501 * (Z.abs x + Z.abs y))%Z.
Proof.
  intros (t & sfx & n & p & k & -> & K & P & D & _ & B) (t' & sfx' & n' & p' & k' & E & K' & P' & D' & _ & B').
  destruct (decimal_same t t' n n' p p' sfx sfx' (SL _ _ K) (SL _ _ K') D D' E) as (-> & -> & ->).
  rewrite (SF _ _ _ K K') in B. clear - B B'. assert (0 < 10 ^ Z.of_nat p')%Z as T by (apply Z.pow_pos_nonneg; lia).
  revert B B' T. generalize (10 ^ Z.of_nat p')%Z. intros T B B' P. nia.
Qed.
Lemma exact_or_compact_same r x y s :
  (if (Z.abs x <? r)%Z then exact_text x s else shows_compact suffix x s) →
  (if (Z.abs y <? r)%Z then exact_text y s else shows_compact suffix y s) →
  (100000 * Z.abs (x - y) <= 501 * (Z.abs x + Z.abs y))%Z.
Proof.
  destruct (Z.abs x <? r)%Z, (Z.abs y <? r)%Z; intros A B.
  - rewrite (exact_same x y s A B). lia.
  - destruct B as (t & sfx & n & p & k & -> & K & _ & D & _). by destruct (exact_not_decimal x t n p sfx (SL _ _ K) D).
  - destruct A as (t & sfx & n & p & k & -> & K & _ & D & _). by destruct (exact_not_decimal y t n p sfx (SL _ _ K) D).
  - exact (compact_same x y s A B).
Qed.
End suffixes.

Lemma multiple_like s k : multiple s k → suffix_like s.
Proof. by intros []. Qed.
Lemma multiple_fun s k k' : multiple s k → multiple s k' → k = k'.
Proof. intros [] H; by inversion H. Qed.
Lemma byte_like s k : multiple_byte s k → suffix_like s.
Proof. by intros []. Qed.
Lemma byte_fun s k k' : multiple_byte s k → multiple_byte s k' → k = k'.
Proof. intros [] H; by inversion H. Qed.
Lemma rate_like s k : multiple_rate s k → suffix_like s.
Proof. intros (t & H & ->). by destruct H. Qed.
Lemma rate_fun s k k' : multiple_rate s k → multiple_rate s k' → k = k'.
Proof. intros (t & H & ->) (t' & H' & E). destruct H, H'; first [reflexivity|discriminate E]. Qed.

Lemma exact_no_comma x t : exact_text x t → str_all (λ d, negb (is_byte "," d)) t = true.
Proof.
  intros (d & C & ->). destruct (canonical_digits _ _ C) as (D & _). clear C. rewrite str_all_app. apply andb_true_intro. split; [by destruct (x <? 0)%Z|].
  induction d as [|c d IH]; [done|]. cbn [str_all] in *. apply andb_prop in D as [A D]. apply andb_true_intro. split; [|auto].
  unfold is_byte. destruct (Ascii.eqb_spec "," c); [subst c; done|done].
Qed.

Lemma number_same u x y s : html_number u x s → html_number u y s →
  if String.eqb u "None" then x = y else (100000 * Z.abs (x - y) <= 501 * (Z.abs x + Z.abs y))%Z.
Proof.
  unfold html_number. destruct (String.eqb u "None").
  { intros (t & A & G) (t' & A' & G'). apply delete_separators in G, G'.
    rewrite (without_none "," t) in G by by eapply exact_no_comma. rewrite (without_none "," t') in G' by by eapply exact_no_comma.
    assert (t' = t) as -> by congruence. exact (exact_same x y t A A'). }
  destruct (String.eqb u "Bytes"); [apply (exact_or_compact_same _ byte_like byte_fun)|].
  destruct (String.eqb u "BytesPerSecond"); [apply (exact_or_compact_same _ rate_like rate_fun)|].
  apply (exact_or_compact_same _ multiple_like multiple_fun).
Qed.

Lemma decimal9_same s n m : decimal9 s n → decimal9 s m → n = m.
Proof.
  intros (ip & fp & k & -> & C & L & F & V) (ip' & fp' & k' & E & C' & L' & F' & V').
  destruct (canonical_digits _ _ C) as (D & N & W). destruct (canonical_digits _ _ C') as (D' & N' & W').
  apply sign_split in E as [G E]; try done. apply digits_split in E as [-> E]; try done.
  injection E as ->. assert (k = k') as -> by congruence. lia.
Qed.
Lemma shows_digit s q g : shows s q g → ∀ x, s ≠ String "-" x.
Proof.
  intros [] x; match goal with H : dec ?t _ |- ?t ++ _ ≠ _ => destruct H as [_ H]; apply canonical_digits in H as (? & ? & _) end; by apply minus_digits.
Qed.
Lemma decimal9_minus s n : (n < 0)%Z → decimal9 s n → ∃ x, s = String "-" x.
Proof. intros L (ip & fp & k & -> & _). rewrite (proj2 (Z.ltb_lt n 0) L). by eexists. Qed.
Lemma per_second_pos u : (0 < per_second u)%Z.
Proof. unfold per_second. by destruct (String.eqb u "Milliseconds"). Qed.

Lemma app_inj_r (a b c : string) : a ++ c = b ++ c → a = b.
Proof.
  intros E. assert (String.length a = String.length b) as L.
  { apply (f_equal String.length) in E. rewrite !length_app_s in E. lia. }
  by destruct (app_inj_len a b c c L E).
Qed.

Lemma html_alike u c c' s : html_shows u c s → html_shows u c' s → alike u c c'.
Proof.
  destruct c, c'; cbn [html_shows alike]; try done.
  - intros -> E. by destruct b, b0.
  - apply number_same.
  - intros -> E. injection E as E. by apply app_inj_r in E.
  - pose proof (per_second_pos u) as P.
    destruct (Z.ltb_spec d 0) as [L|L], (Z.ltb_spec d0 0) as [L'|L']; intros A B.
    + pose proof (decimal9_same _ _ _ A B). nia.
    + destruct B as (q & g & S & _). apply decimal9_minus in A as [x ->]; [|nia]. by destruct (shows_digit _ _ _ S x).
    + destruct A as (q & g & S & _). apply decimal9_minus in B as [x ->]; [|nia]. by destruct (shows_digit _ _ _ S x).
    + split; [lia|]. destruct A as (q & g & S & V), B as (q' & g' & S' & V').
      destruct (shows_cut _ _ _ _ S V) as [_ <-]. destruct (shows_cut _ _ _ _ S' V') as [_ <-]. by destruct (shows_text _ _ _ _ _ S S').
Qed.

Lemma html_values_alike FF FT w w' v v' t p t' p' u s :
  rval_ok w v = true → getPrimitiveType w (rtype_of v) = Some (t, p) →
  rval_ok w' v' = true → getPrimitiveType w' (rtype_of v') = Some (t', p') →
  valueToHtmlString FF FT v t u p = FmtOk s → valueToHtmlString FF FT v' t' u p' = FmtOk s →
  alike u (content_of v) (content_of v').
Proof.
  intros R G R' G' E E'. destruct (html_content FF FT w v t p u R G) as (x & F & S).
  destruct (html_content FF FT w' v' t' p' u R' G') as (x' & F' & S').
  assert (x = s) as -> by congruence. assert (x' = s) as -> by congruence. exact (html_alike u _ _ s S S').
Qed.
