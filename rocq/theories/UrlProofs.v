(** Which links lead where they should. *)
From stdpp Require Import list strings.
From Verif Require Import GoBase StrLemmas PathModel PathSpec PathProofs UrlModel UrlSpec.
Local Open Scope string_scope.
Local Open Scope list_scope.
Local Open Scope nat_scope.
Notation len := String.length.

(** ** Characters *)
Lemma each_ascii (f : ascii → bool) : forallb f (map ascii_of_nat (seq 0 256)) = true → ∀ c, f c = true.
Proof.
  intros H c. rewrite forallb_forall in H. apply H. apply in_map_iff. exists (nat_of_ascii c). split; [apply ascii_nat_embedding|].
  apply in_seq. pose proof (nat_ascii_bounded c). lia.
Qed.
Ltac each c := clear; revert c; apply each_ascii; vm_compute; reflexivity.
Lemma hexa_iff c : is_hex c = true ↔ hexadecimal c.
Proof.
  unfold hexadecimal. split.
  - intros H. assert ((if is_hex c then if in_dec ascii_dec c (list_ascii_of_string "0123456789abcdefABCDEF") then true else false else true) = true) as K by each c.
    rewrite H in K. by destruct (in_dec _ _ _).
  - intros H. cbn in H. repeat (destruct H as [<-|H]; [reflexivity|]). destruct H.
Qed.
Lemma hex_kept c : is_hex c = true → kept c = true.
Proof. intros H. assert ((if is_hex c then kept c else true) = true) as K by each c. by rewrite H in K. Qed.
Lemma hex_plain c : is_hex c = true → one_of "?#" c = false ∧ is_slash c = false ∧ Ascii.eqb c "%" = false.
Proof. intros H. assert ((if is_hex c then negb (one_of "?#" c) && negb (is_slash c) && negb (Ascii.eqb c "%") else true) = true) as K by each c. rewrite H in K. destruct (one_of _ _), (is_slash c), (Ascii.eqb c "%"); done. Qed.
Lemma hex2_back c : is_hex (hex_digit (N_of_ascii c / 16)) = true ∧ is_hex (hex_digit (N_of_ascii c mod 16)) = true ∧
  ascii_of_N (16 * hex_val (hex_digit (N_of_ascii c / 16)) + hex_val (hex_digit (N_of_ascii c mod 16))) = c.
Proof.
  assert ((is_hex (hex_digit (N_of_ascii c / 16)) && is_hex (hex_digit (N_of_ascii c mod 16)) &&
    Ascii.eqb (ascii_of_N (16 * hex_val (hex_digit (N_of_ascii c / 16)) + hex_val (hex_digit (N_of_ascii c mod 16)))) c) = true) as K by each c.
  apply andb_true_iff in K as [[K1 K2]%andb_true_iff K3]. apply Ascii.eqb_eq in K3. done.
Qed.
Lemma kept_percent c : kept c = true → Ascii.eqb c "%" = false.
Proof. intros H. assert ((if kept c then negb (Ascii.eqb c "%") else true) = true) as K by each c. rewrite H in K. by destruct (Ascii.eqb c "%"). Qed.
Lemma marks_kept c : one_of "?#" c = true ∨ is_slash c = true → kept c = true.
Proof.
  intros H. assert ((if one_of "?#" c || is_slash c then kept c else true) = true) as K by each c.
  destruct H as [H|H]; rewrite H in K; [done|]. by rewrite orb_true_r in K.
Qed.

(** ** Unescaping the normal form *)
Fixpoint has_escape (s : string) : bool :=
  match s with "" => false | String c r => (Ascii.eqb c "%" && starts_hex2 r) || has_escape r end.
Lemma has_escape_iff s : has_escape s = true ↔ escape_like s.
Proof.
  split.
  - induction s as [|c r IH]; [done|]. cbn [has_escape]. intros [[E H]%andb_true_iff|H]%orb_true_iff.
    + apply Ascii.eqb_eq in E. subst c. destruct r as [|x [|y b]]; try done. apply andb_true_iff in H as [H1 H2].
      exists "", x, y, b. split; [done|]. by rewrite <- !hexa_iff.
    + destruct (IH H) as (a & x & y & b & -> & K). by exists (String c a), x, y, b.
  - intros (a & x & y & b & -> & H1 & H2). apply hexa_iff in H1, H2. induction a as [|c a IH].
    + change (true && (is_hex x && is_hex y) || has_escape (String x (String y b)) = true). by rewrite H1, H2.
    + change (has_escape (String c (a +:+ String "%" (String x (String y b)))) = true). cbn [has_escape]. rewrite IH. apply orb_true_r.
Qed.
Lemma unescape_normalize n : ∀ s, len s ≤ n → ∃ z, unescape (normalize s) = Some z ∧ len z ≤ len s ∧ (has_escape s = false → z = s) ∧ (has_escape s = true → len z < len s).
Proof.
  induction n as [|n IH]; intros s L.
  - destruct s; [|cbn in L; lia]. exists "". cbn. done.
  - destruct s as [|c r]; [exists ""; done|]. cbn in L.
    cbn [normalize has_escape]. destruct (Ascii.eqb c "%" && starts_hex2 r) eqn:E.
    + rewrite orb_true_r. apply andb_true_iff in E as [E H]. apply Ascii.eqb_eq in E. subst c. destruct r as [|x [|y b]]; try done. cbn in H. apply andb_true_iff in H as [H1 H2].
      destruct (IH b) as (z & Z & Lz & _ & _); [cbn in L; lia|]. cbn [normalize]. rewrite (hex_kept x H1), (hex_kept y H2). cbn [orb unescape]. rewrite H1, H2. cbn. rewrite Z.
      eexists. split; [done|]. cbn. split; [lia|]. split; [done|lia].
    + rewrite orb_false_r. destruct (IH r) as (z & Z & Lz & Zs & Zl); [lia|]. exists (String c z). destruct (kept c) eqn:K.
      * cbn [unescape]. rewrite (kept_percent c K), Z. cbn. split; [done|]. split; [lia|]. split; [intros F; by rewrite Zs|intros F; apply Zl in F; lia].
      * destruct (hex2_back c) as (A & B & C). unfold hex2. cbn [unescape]. cbn [Ascii.eqb Bool.eqb andb]. rewrite A, B, Z, C. cbn. split; [done|]. split; [lia|].
        split; [intros F; by rewrite Zs|intros F; apply Zl in F; lia].
Qed.

(** ** Cutting and splitting commute with normalising *)
Lemma starts_hex2_cut r : starts_hex2 (cut r) = starts_hex2 r.
Proof.
  destruct r as [|x r]; [done|]. cbn [cut]. destruct (one_of "?#" x) eqn:X.
  - destruct r as [|y r]; [done|]. cbn [starts_hex2]. destruct (is_hex x) eqn:H; [|done]. apply hex_plain in H as [H _]. congruence.
  - destruct r as [|y r]; [done|]. cbn [cut]. destruct (one_of "?#" y) eqn:Y; [|done]. cbn. destruct (is_hex y) eqn:H; [|by rewrite andb_false_r]. apply hex_plain in H as [H _]. congruence.
Qed.
Lemma cut_normalize s : cut (normalize s) = normalize (cut s).
Proof.
  induction s as [|c r IH]; [done|]. cbn [normalize cut]. destruct (one_of "?#" c) eqn:X.
  - rewrite (marks_kept c) by auto. cbn [orb cut]. by rewrite X.
  - cbn [normalize]. rewrite starts_hex2_cut. destruct (kept c || _) eqn:K.
    + cbn [cut]. by rewrite X, IH.
    + destruct (hex2_back c) as (A & B & _). apply hex_plain in A as [A _], B as [B _]. unfold hex2. cbn [cut]. rewrite A, B. change (one_of "?#" "%") with false. cbn iota. by rewrite IH.
Qed.
Lemma split_cons c r : is_slash c = false → ∃ p ps, splitSlash r = p :: ps ∧ splitSlash (String c r) = String c p :: ps.
Proof. intros H. cbn. rewrite H. destruct (splitSlash r) as [|p ps] eqn:E; [by apply splitSlash_nonempty in E|]. eauto. Qed.
Lemma starts_hex2_split r p ps : splitSlash r = p :: ps → starts_hex2 p = starts_hex2 r.
Proof.
  destruct r as [|x r]; cbn [splitSlash]; [by intros [= <- <-]|]. destruct (is_slash x) eqn:X.
  - intros [= <- <-]. destruct r as [|y r]; [done|]. cbn. destruct (is_hex x) eqn:H; [|done]. apply hex_plain in H as (_ & H & _). congruence.
  - destruct r as [|y r]; cbn [splitSlash]; [by intros [= <- <-]|]. destruct (is_slash y) eqn:Y.
    + intros [= <- <-]. cbn. destruct (is_hex y) eqn:H; [|by rewrite andb_false_r]. apply hex_plain in H as (_ & H & _). congruence.
    + destruct (splitSlash r) as [|q qs]; by intros [= <- <-].
Qed.
Lemma split_normalize s : splitSlash (normalize s) = map normalize (splitSlash s).
Proof.
  induction s as [|c r IH]; [done|]. cbn [normalize]. destruct (is_slash c) eqn:S.
  - rewrite (marks_kept c) by auto. cbn [orb splitSlash]. rewrite S, IH. done.
  - destruct (split_cons c r S) as (p & ps & E & ->). cbn [map normalize]. rewrite (starts_hex2_split _ _ _ E). rewrite E in IH. cbn [map] in IH. destruct (kept c || _) eqn:K.
    + cbn [splitSlash]. by rewrite S, IH.
    + destruct (hex2_back c) as (A & B & _). apply hex_plain in A as (_ & A & _), B as (_ & B & _). unfold hex2. cbn [splitSlash]. rewrite A, B. change (is_slash "%") with false. cbn iota. by rewrite IH.
Qed.

(** ** Lengths *)
Fixpoint wt (l : list string) : nat := match l with [] => 0 | x :: l => S (len x) + wt l end.
Lemma wt_app a b : wt (a ++ b) = wt a + wt b.
Proof. induction a as [|x a IH]; cbn; [done|]. lia. Qed.
Lemma wt_rev a : wt (rev a) = wt a.
Proof. induction a as [|x a IH]; cbn; [done|]. rewrite wt_app. cbn. lia. Qed.
Lemma len_app a b : len (a +:+ b) = len a + len b.
Proof. induction a as [|x a IH]; [done|]. change (S (len (a +:+ b)) = S (len a) + len b). lia. Qed.
Lemma len_join l : l ≠ [] → S (len (join l)) = wt l.
Proof.
  induction l as [|x l IH]; [done|]. intros _. destruct l as [|y l]; [cbn; lia|]. change (join (x :: y :: l)) with (x +:+ "/" +:+ join (y :: l)). rewrite len_app. cbn [len wt] in *.
  change (len ("/" +:+ join (y :: l))) with (S (len (join (y :: l)))). specialize (IH ltac:(done)). lia.
Qed.
Lemma wt_split s : wt (splitSlash s) = S (len s).
Proof.
  induction s as [|c r IH]; [done|]. cbn [splitSlash]. destruct (is_slash c); cbn; [lia|]. destruct (splitSlash r) eqn:E; [by apply splitSlash_nonempty in E|]. cbn in *. lia.
Qed.
Lemma wt_filter (f : string → bool) l : wt (List.filter f l) ≤ wt l.
Proof. induction l as [|x l IH]; cbn; [done|]. destruct (f x); cbn; lia. Qed.
Lemma cut_len s : len (cut s) ≤ len s ∧ (contains "?" s ∨ contains "#" s → len (cut s) < len s).
Proof.
  induction s as [|c r [IH1 IH2]]; [split; [done|]; intros [([|] & b & H)|([|] & b & H)]; done|]. cbn [cut]. destruct (one_of "?#" c) eqn:X; cbn; [lia|]. split; [lia|].
  intros H. assert (contains "?" r ∨ contains "#" r) as K; [|apply IH2 in K; lia].
  destruct H as [([|x a] & b & H)|([|x a] & b & H)]; injection H as -> ->; try (vm_compute in X; discriminate X); [left|right]; by exists a, b.
Qed.
Lemma cut_id s : ¬ contains "?" s → ¬ contains "#" s → cut s = s.
Proof.
  induction s as [|c r IH]; [done|]. intros A B. cbn. destruct (one_of "?#" c) eqn:X.
  - change (negb (negb (Ascii.eqb "?" c) && (negb (Ascii.eqb "#" c) && true)) = true) in X. destruct (Ascii.eqb "?" c) eqn:Q; [apply Ascii.eqb_eq in Q; subst c; destruct A; by exists "", r|].
    destruct (Ascii.eqb "#" c) eqn:Q'; [apply Ascii.eqb_eq in Q'; subst c; destruct B; by exists "", r|]. discriminate X.
  - rewrite IH; [done| |]; intros (a & b & ->); [destruct A|destruct B]; by exists (String c a), b.
Qed.

(** ** The browser *)
Lemma lower_dot c : lower c = "."%char → c = "."%char.
Proof. intros H. assert ((if Ascii.eqb (lower c) "." then Ascii.eqb c "." else true) = true) as K by each c. rewrite H in K. by apply Ascii.eqb_eq. Qed.
Lemma lower_percent c : lower c = "%"%char → c = "%"%char.
Proof. intros H. assert ((if Ascii.eqb (lower c) "%" then Ascii.eqb c "%" else true) = true) as K by each c. rewrite H in K. by apply Ascii.eqb_eq. Qed.
Lemma lower_2 c : lower c = "2"%char → c = "2"%char.
Proof. intros H. assert ((if Ascii.eqb (lower c) "2" then Ascii.eqb c "2" else true) = true) as K by each c. rewrite H in K. by apply Ascii.eqb_eq. Qed.
Lemma lower_e c : lower c = "e"%char → c = "e"%char ∨ c = "E"%char.
Proof.
  intros H. assert ((if Ascii.eqb (lower c) "e" then Ascii.eqb c "e" || Ascii.eqb c "E" else true) = true) as K by each c. rewrite H in K.
  apply orb_true_iff in K as [K|K]; apply Ascii.eqb_eq in K; auto.
Qed.
Ltac inv_lower H :=
  repeat match type of H with
  | lower_string ?s = _ => destruct s as [|? s]; [try discriminate H|try discriminate H; cbn [lower_string] in H]
  | String _ _ = String _ _ => let K := fresh "K" in injection H as K H
  | "" = "" => clear H
  end.
Lemma single_dot_unescape y : single_dot y = true → unescape y = Some ".".
Proof.
  unfold single_dot, in_list. cbn [existsb]. intros [H|[H|H]%orb_true_iff]%orb_true_iff; [| |done]; apply String.eqb_eq in H.
  - inv_lower H. apply lower_dot in K as ->. done.
  - inv_lower H. apply lower_percent in K as ->. apply lower_2 in K0 as ->. apply lower_e in K1 as [-> | ->]; reflexivity.
Qed.
Lemma double_dot_unescape y : double_dot y = true → unescape y = Some "..".
Proof.
  unfold double_dot, in_list. cbn [existsb]. intros [H|[H|[H|[H|H]%orb_true_iff]%orb_true_iff]%orb_true_iff]%orb_true_iff; [| | | |done]; apply String.eqb_eq in H; inv_lower H;
    repeat match goal with
    | K : lower _ = "."%char |- _ => apply lower_dot in K as ->
    | K : lower _ = "%"%char |- _ => apply lower_percent in K as ->
    | K : lower _ = "2"%char |- _ => apply lower_2 in K as ->
    | K : lower _ = "e"%char |- _ => apply lower_e in K as [-> | ->]
    end; reflexivity.
Qed.
Definition un (y : string) : string := match unescape y with Some z => z | None => y end.
Lemma browser_weight segs : ∀ up, segs ≠ [] → wt (map un (browser_segments up segs)) ≤ wt (map un up) + wt (map un segs) ∧
  (Exists (λ x, single_dot x = true ∨ double_dot x = true) segs → wt (map un (browser_segments up segs)) < wt (map un up) + wt (map un segs)).
Proof.
  assert (∀ up, wt (map un (tl up)) ≤ wt (map un up)) as Tl by (intros [|? ?]; cbn; lia).
  induction segs as [|x segs IH]; intros up; [done|]. intros _. destruct segs as [|y segs].
  - cbn [browser_segments]. destruct (double_dot x) eqn:D; [|destruct (single_dot x) eqn:S].
    + rewrite map_rev, wt_rev. cbn [map wt]. specialize (Tl up). change (un "") with "". cbn [len]. assert (len (un x) = 2) by (unfold un; by rewrite (double_dot_unescape x D)). lia.
    + rewrite map_rev, wt_rev. cbn [map wt]. change (un "") with "". cbn [len]. assert (len (un x) = 1) by (unfold un; by rewrite (single_dot_unescape x S)). lia.
    + rewrite map_rev, wt_rev. cbn [map wt]. split; [lia|]. intros E. inversion E as [? ? [H|H]|? ? H]; subst; [congruence..|inversion H].
  - change (browser_segments up (x :: y :: segs)) with (browser_segments (if double_dot x then tl up else if single_dot x then up else x :: up) (y :: segs)).
    destruct (IH (if double_dot x then tl up else if single_dot x then up else x :: up) ltac:(done)) as [I1 I2]. cbn [map wt] in *.
    destruct (double_dot x) eqn:D; [|destruct (single_dot x) eqn:S].
    + specialize (Tl up). assert (len (un x) = 2) by (unfold un; by rewrite (double_dot_unescape x D)). lia.
    + assert (len (un x) = 1) by (unfold un; by rewrite (single_dot_unescape x S)). lia.
    + cbn [map wt] in *. split; [lia|]. intros E. inversion E as [? ? [H|H]|? ? H]; subst; [congruence..|]. specialize (I2 H). lia.
Qed.
Lemma browser_forall (P : string → Prop) segs : P "" → Forall P segs → ∀ up, Forall P up → Forall P (browser_segments up segs).
Proof.
  intros P0. assert (∀ up, Forall P up → Forall P (tl up)) as Tl by (intros [|? ?] F; [done|by inversion F]). assert (∀ up, Forall P up → Forall P (rev up)) as R by (intros up F; by apply List.Forall_rev).
  induction segs as [|x segs IH]; intros F up Fu; [by apply R|]. inversion F; subst. destruct segs as [|y segs].
  - cbn [browser_segments]. destruct (double_dot x); [|destruct (single_dot x)]; apply R; constructor; auto.
  - change (browser_segments up (x :: y :: segs)) with (browser_segments (if double_dot x then tl up else if single_dot x then up else x :: up) (y :: segs)).
    apply IH; [done|]. destruct (double_dot x); [auto|]. destruct (single_dot x); [done|]. by constructor.
Qed.
Lemma browser_nonempty segs : segs ≠ [] → ∀ up, browser_segments up segs ≠ [].
Proof.
  induction segs as [|x segs IH]; [done|]. intros _ up. destruct segs as [|y segs].
  - cbn [browser_segments]. assert (∀ (z : string) l, rev (z :: l) ≠ []) as H by (intros z l E; apply (f_equal length) in E; rewrite rev_length in E; done).
    destruct (double_dot x); [|destruct (single_dot x)]; apply H.
  - change (browser_segments up (x :: y :: segs)) with (browser_segments (if double_dot x then tl up else if single_dot x then up else x :: up) (y :: segs)). by apply IH.
Qed.
Lemma browser_id segs : segs ≠ [] → Forall (λ x, single_dot x = false ∧ double_dot x = false) segs → ∀ up, browser_segments up segs = rev up ++ segs.
Proof.
  induction segs as [|x segs IH]; [done|]. intros _ F up. inversion F as [|? ? [S D]]; subst. destruct segs as [|y segs].
  - cbn [browser_segments]. by rewrite S, D.
  - change (browser_segments up (x :: y :: segs)) with (browser_segments (if double_dot x then tl up else if single_dot x then up else x :: up) (y :: segs)).
    rewrite S, D, IH by done. cbn. by rewrite <- app_assoc.
Qed.

(** ** The server *)
Lemma unescape_app a : ∀ b z, unescape a = Some z → unescape (a +:+ b) = option_map (String.append z) (unescape b).
Proof.
  assert (∀ n a, len a ≤ n → ∀ b z, unescape a = Some z → unescape (a +:+ b) = option_map (String.append z) (unescape b)) as K; [|by apply (K (len a))].
  clear a. induction n as [|n IH]; intros a L b z E.
  - destruct a; [|cbn in L; lia]. injection E as <-. change ("" +:+ b) with b. by destruct (unescape b).
  - destruct a as [|c a]; [injection E as <-; change ("" +:+ b) with b; by destruct (unescape b)|]. change (String c a +:+ b) with (String c (a +:+ b)). cbn [unescape] in *. destruct (Ascii.eqb c "%").
    + destruct a as [|x [|y a]]; try done. change (String x (String y a) +:+ b) with (String x (String y (a +:+ b))). cbn iota. destruct (is_hex x && is_hex y); [|done]. destruct (unescape a) as [z'|] eqn:Z; [|done]. injection E as <-.
      rewrite (IH a) with (z := z') by (done || cbn in L; lia). by destruct (unescape b).
    + destruct (unescape a) as [z'|] eqn:Z; [|done]. injection E as <-. rewrite (IH a) with (z := z') by (done || cbn in L; lia). by destruct (unescape b).
Qed.
Lemma unescape_join l : Forall (λ y, is_Some (unescape y)) l → unescape (join l) = Some (join (map un l)).
Proof.
  induction l as [|x l IH]; [done|]. intros F. inversion F as [|? ? [z Z] F']; subst. assert (un x = z) as U by (unfold un; by rewrite Z). destruct l as [|y l]; [cbn; by rewrite U|].
  change (join (x :: y :: l)) with (x +:+ "/" +:+ join (y :: l)). rewrite (unescape_app _ _ _ Z). change ("/" +:+ join (y :: l)) with (String "/" (join (y :: l))). cbn [unescape]. rewrite IH by done.
  cbn [map join]. rewrite U. done.
Qed.
Lemma clean_weight segs : ∀ up, wt (clean_segments up segs) ≤ wt up + wt segs.
Proof.
  assert (∀ up, wt (tl up) ≤ wt up) as Tl by (intros [|? ?]; cbn; lia).
  induction segs as [|x segs IH]; intros up; cbn [clean_segments]; [rewrite wt_rev; cbn; lia|]. rewrite IH. specialize (Tl up). cbn. destruct (String.eqb x ".."); [lia|]. destruct (_ || _); cbn; lia.
Qed.
Lemma clean_snoc segs : ∀ up, clean_segments up (segs ++ [""]) = clean_segments up segs.
Proof. induction segs as [|x segs IH]; intros up; [done|]. cbn. apply IH. Qed.
Lemma clean_len r : len (cleanPath (String "/" r)) ≤ S (len r).
Proof.
  unfold cleanPath, ends_slash. change (splitSlash (String "/" r)) with ("" :: splitSlash r). assert (∀ l, wt l ≤ S (len r) → len (String "/" (join l)) ≤ S (len r)) as K.
  { intros [|x l] H; [cbn; lia|]. cbn [len]. by rewrite (len_join (x :: l)). }
  change (clean_segments [] ("" :: splitSlash r)) with (clean_segments [] (splitSlash r)). pose proof (clean_weight (splitSlash r) []) as C. rewrite wt_split in C. cbn in C.
  destruct (match rev ("" :: splitSlash r) with "" :: _ => true | _ => false end && _) eqn:E; [|by apply K]. apply andb_true_iff in E as [E N].
  assert (∃ segs, splitSlash r = segs ++ [""]) as [segs S].
  { cbn [rev] in E. destruct (rev (splitSlash r)) as [|z l] eqn:Z.
    - apply (f_equal length) in Z. rewrite rev_length in Z. destruct (splitSlash r) eqn:Y; [by apply splitSlash_nonempty in Y|done].
    - cbn in E. destruct z; [|done]. exists (rev l). apply (f_equal (@rev string)) in Z. by rewrite rev_involutive in Z. }
  rewrite S, clean_snoc in *. pose proof (clean_weight segs []) as C'. pose proof (wt_split r) as Wr. rewrite S, wt_app in Wr. cbn in Wr, C'. rewrite len_app. cbn [len].
  destruct (clean_segments [] segs) as [|x l] eqn:Y; [done|]. rewrite (len_join (x :: l)) by done. lia.
Qed.
Lemma clean_id p : p ≠ [] → Forall (λ x, no_slash x ∧ x ≠ "" ∧ x ≠ "." ∧ x ≠ "..") p → cleanPath (String "/" (join p)) = String "/" (join p).
Proof.
  intros Ne F. unfold cleanPath, ends_slash. change (splitSlash (String "/" (join p))) with ("" :: splitSlash (join p)).
  rewrite split_join; [|eapply List.Forall_impl; [|exact F]; by intros ? []|done].
  assert (∀ q up, Forall (λ x, no_slash x ∧ x ≠ "" ∧ x ≠ "." ∧ x ≠ "..") q → clean_segments up q = rev up ++ q) as K.
  { intros q. induction q as [|x q IH]; intros up Fq; [by rewrite app_nil_r|]. inversion Fq as [|? ? (_ & A & B & C)]; subst. cbn [clean_segments].
    rewrite (proj2 (String.eqb_neq _ _) C), (proj2 (String.eqb_neq _ _) A), (proj2 (String.eqb_neq _ _) B). cbn [orb]. rewrite IH by done. cbn. by rewrite <- app_assoc. }
  change (clean_segments [] ("" :: p)) with (clean_segments [] p). rewrite K by done. cbn [rev app].
  assert (match rev p ++ [""] with "" :: _ => true | _ => false end = false) as ->; [|done].
  destruct (rev p) as [|z l] eqn:Z; [apply (f_equal length) in Z; rewrite rev_length in Z; by destruct p|].
  assert (z ∈ p) as In by (rewrite <- (rev_involutive p), Z; cbn [rev]; apply elem_of_list_In, in_or_app; right; by left). rewrite list.Forall_forall in F. destruct (F z In) as (_ & Nz & _). by destruct z.
Qed.

(** ** The whole way *)
Lemma append_assoc a b c : (a +:+ b) +:+ c = a +:+ (b +:+ c).
Proof. induction a as [|x a IH]; [done|]. change (String x ((a +:+ b) +:+ c) = String x (a +:+ (b +:+ c))). by rewrite IH. Qed.
Lemma contains_app c a b : contains c (a +:+ b) ↔ contains c a ∨ contains c b.
Proof.
  split.
  - revert b. induction a as [|x a IH]; intros b (u & v & E); [by right; exists u, v|]. change (String x a +:+ b) with (String x (a +:+ b)) in E.
    destruct u as [|y u]; [injection E as -> _; left; by exists "", a|]. injection E as -> E. destruct (IH b) as [(u' & v' & ->)|H]; [by exists u, v| |by right]. left. by exists (String y u'), v'.
  - intros [(u & v & ->)|(u & v & ->)].
    + exists u, (v +:+ b). by rewrite append_assoc.
    + exists (a +:+ u), v. by rewrite append_assoc.
Qed.
Lemma contains_join c l : c ≠ "/"%char → (contains c (join l) ↔ Exists (contains c) l).
Proof.
  intros N. assert (∀ x, ¬ contains x "") as E0 by (intros x ([|] & b & E); done).
  induction l as [|x l IH]; [split; [intros H; by apply E0 in H|intros H; inversion H]|]. rewrite Exists_cons. destruct l as [|y l].
  - cbn. rewrite Exists_nil. tauto.
  - change (join (x :: y :: l)) with (x +:+ "/" +:+ join (y :: l)). rewrite !contains_app, IH. assert (¬ contains c "/") as N'; [|tauto].
    intros ([|z [|]] & b & E); [injection E as E _; congruence|injection E as _ E; done|injection E as _ E; done].
Qed.
Lemma contains_dec c s : contains c s ∨ ¬ contains c s.
Proof.
  induction s as [|x s IH]; [right; intros ([|] & b & E); done|]. destruct (ascii_dec x c) as [->|N]; [left; by exists "", s|]. destruct IH as [(u & v & ->)|IH]; [left; by exists (String x u), v|].
  right. intros ([|y u] & v & E); [injection E as E _; congruence|]. injection E as _ ->. destruct IH. by exists u, v.
Qed.
Lemma link_safe_dec x : link_safe x ∨ contains "?" x ∨ contains "#" x ∨ has_escape x = true ∨ x = "." ∨ x = "..".
Proof.
  destruct (contains_dec "?" x); [auto|]. destruct (contains_dec "#" x); [auto|]. destruct (has_escape x) eqn:E; [auto|]. destruct (decide (x = ".")); [auto 8|]. destruct (decide (x = "..")); [auto 8|].
  left. split_and!; try done. rewrite <- has_escape_iff. congruence.
Qed.
(** what [followed] does with the segments after /metrics *)
Section Follow.
  Context (a : list string) (Ne : a ≠ []) (V : Forall valid_component a).
  Let p : string := String "/" (join a).
  Let r : string := "metrics" +:+ p.
  Lemma link_eq : Link p = String "/" r.
  Proof. reflexivity. Qed.
  Lemma slashless : Forall no_slash a.
  Proof. eapply List.Forall_impl; [|exact V]. by intros ? []. Qed.
  Lemma r_segments : splitSlash r = "metrics" :: a.
  Proof. change r with ("metrics" +:+ "/" +:+ join a). rewrite split_app by done. by rewrite split_join by (done || apply slashless). Qed.
  Lemma un_normalize x : un (normalize x) = match unescape (normalize x) with Some z => z | None => "" end ∧ is_Some (unescape (normalize x)) ∧ len (un (normalize x)) ≤ len x ∧
    (has_escape x = false → un (normalize x) = x) ∧ (has_escape x = true → len (un (normalize x)) < len x).
  Proof. destruct (unescape_normalize (len x) x ltac:(lia)) as (z & Z & H). unfold un. rewrite Z. split; [done|]. split; [by eexists|]. exact H. Qed.
  (** the request for a link *)
  Lemma request s : ∃ B, request_path (normalize (String "/" s)) = Some (String "/" (join B)) ∧ B = browser_segments [] (map normalize (splitSlash (cut s))) ∧
    unescape (String "/" (join B)) = Some (String "/" (join (map un B))) ∧ B ≠ [].
  Proof.
    exists (browser_segments [] (map normalize (splitSlash (cut s)))). split; [|split; [done|]].
    - unfold request_path. rewrite cut_normalize. change (cut (String "/" s)) with (String "/" (cut s)). change (normalize (String "/" (cut s))) with (String "/" (normalize (cut s))).
      transitivity (Some (String "/" (join (browser_segments [] (splitSlash (normalize (cut s))))))); [reflexivity|by rewrite split_normalize].
    - split.
      + cbn [unescape]. rewrite unescape_join; [done|]. apply browser_forall; [by eexists| |done]. apply Forall_map. apply list.Forall_forall. intros x _. apply un_normalize.
      + apply browser_nonempty. intros E. apply (f_equal length) in E. rewrite map_length in E. destruct (splitSlash (cut s)) eqn:Y; [by apply splitSlash_nonempty in Y|done].
  Qed.
  Lemma wt_un_le l : wt (map un (map normalize l)) ≤ wt l ∧ (Exists (λ x, has_escape x = true) l → wt (map un (map normalize l)) < wt l).
  Proof.
    induction l as [|x l [IH1 IH2]]; [split; [done|]; intros H; inversion H|]. cbn [map wt]. destruct (un_normalize x) as (_ & _ & L & _ & Ls). split; [lia|].
    rewrite Exists_cons. intros [H|H]; [apply Ls in H; lia|apply IH2 in H; lia].
  Qed.
  Lemma safe_dots x : has_escape x = false → x ≠ "." → x ≠ ".." → single_dot (normalize x) = false ∧ double_dot (normalize x) = false.
  Proof.
    intros E A B. destruct (un_normalize x) as (_ & _ & _ & U & _). specialize (U E). unfold un in U. split.
    - destruct (single_dot _) eqn:S; [|done]. apply single_dot_unescape in S. rewrite S in U. congruence.
    - destruct (double_dot _) eqn:S; [|done]. apply double_dot_unescape in S. rewrite S in U. congruence.
  Qed.
  Lemma follow_safe : Forall link_safe a → followed (Link p) = Some p.
  Proof.
    intros S. rewrite link_eq. unfold followed. destruct (request r) as (B & -> & EB & -> & _).
    assert (cut r = r) as C.
    { assert (∀ c, c ≠ "/"%char → ¬ contains c "metrics" → ¬ Exists (contains c) a → ¬ contains c r) as K.
      { intros c N M E H. change r with ("metrics" +:+ "/" +:+ join a) in H. rewrite !contains_app, contains_join in H by done. destruct H as [H|[H|H]]; try done.
        destruct H as ([|z [|]] & b & H); [injection H as H _; congruence|injection H as _ H; done|injection H as _ H; done]. }
      assert (∀ c, c = "?"%char ∨ c = "#"%char → ¬ contains c "metrics") as M.
      { intros c Hc (u & v & E). do 7 (destruct u as [|? u]; [injection E as E _; by destruct Hc; subst c|injection E as _ E]). by destruct u. }
      apply cut_id; apply K; try done; try (apply M; auto); rewrite list.Exists_exists; intros (x & Hx & Hc); rewrite list.Forall_forall in S; destruct (S x Hx) as (S1 & S2 & _); done. }
    assert (Forall (λ x, has_escape x = false ∧ x ≠ "." ∧ x ≠ "..") ("metrics" :: a)) as F.
    { constructor; [done|]. eapply List.Forall_impl; [|exact S]. intros x (_ & _ & E & A & B'). split; [|done]. destruct (has_escape x) eqn:H; [|done]. by apply has_escape_iff in H. }
    rewrite C, r_segments in EB. rewrite browser_id in EB.
    - cbn [rev app] in EB. assert (map un B = "metrics" :: a) as U.
      { subst B. rewrite map_map. transitivity (map (λ x, x) ("metrics" :: a)); [|apply map_id]. apply map_ext_in. intros x Hx. apply elem_of_list_In in Hx. rewrite list.Forall_forall in F. by apply un_normalize, F. }
      rewrite U, clean_id; [|done|].
      + unfold routed. destruct a as [|x l]; [done|]. change (join ("metrics" :: x :: l)) with ("metrics" +:+ "/" +:+ join (x :: l)).
        change (String "/" ("metrics" +:+ "/" +:+ join (x :: l))) with ("/metrics/" +:+ join (x :: l)). change p with (String "/" (join (x :: l))). generalize (join (x :: l)). intros [|? ?]; vm_compute; reflexivity.
      + constructor; [done|]. apply list.Forall_forall. intros x Hx. rewrite list.Forall_forall in F, V. specialize (F x ltac:(by constructor)). destruct (V x Hx) as [Ns Nb]. split; [done|]. split; [|tauto].
        intros ->. apply Nb. constructor.
    - done.
    - apply Forall_map. eapply List.Forall_impl; [|exact F]. intros x (E & A & B'). by apply safe_dots.
  Qed.
  (** otherwise the path is shorter *)
  Lemma follow_unsafe q : ¬ Forall link_safe a → followed (Link p) = Some q → q = "/" ∨ (len q < len p ∧ ∃ q', q = String "/" q').
  Proof.
    intros Us. rewrite link_eq. unfold followed. destruct (request r) as (B & -> & EB & -> & NeB). intros R.
    assert (wt (map un B) < S (len r)) as W.
    { destruct (browser_weight (map normalize (splitSlash (cut r))) []) as [W1 W2].
      { intros E. apply (f_equal length) in E. rewrite map_length in E. destruct (splitSlash (cut r)) eqn:Y; [by apply splitSlash_nonempty in Y|done]. }
      rewrite <- EB in W1, W2. cbn [map wt] in W1, W2. destruct (wt_un_le (splitSlash (cut r))) as [W3 W4]. rewrite wt_split in W3, W4. destruct (cut_len r) as [W5 W6].
      assert (Exists (λ x, contains "?" x ∨ contains "#" x ∨ has_escape x = true ∨ x = "." ∨ x = "..") a) as E.
      { clear -Us. induction a as [|x l IH]; [destruct Us; constructor|]. rewrite Exists_cons. destruct (link_safe_dec x) as [K|K]; [|by left]. right. apply IH. intros F. destruct Us. by constructor. }
      assert (contains "?" r ∨ contains "#" r ∨ cut r = r) as [K|[K|K]].
      { destruct (contains_dec "?" r); [auto|]. destruct (contains_dec "#" r); [auto|]. right. right. by apply cut_id. }
      - specialize (W6 (or_introl K)). lia.
      - specialize (W6 (or_intror K)). lia.
      - assert (∀ c, c ≠ "/"%char → Exists (contains c) a → contains c r) as In.
        { intros c N H. change r with ("metrics" +:+ "/" +:+ join a). rewrite !contains_app, contains_join; auto. }
        rewrite K, r_segments in *. cut (wt (map un B) < S (len r)); [done|]. apply list.Exists_exists in E as (x & Hx & [E|[E|[E|E]]]).
        + assert (contains "?" r) as C by (apply In; [done|]; apply list.Exists_exists; eauto). specialize (W6 (or_introl C)). lia.
        + assert (contains "#" r) as C by (apply In; [done|]; apply list.Exists_exists; eauto). specialize (W6 (or_intror C)). lia.
        + assert (wt (map un (map normalize ("metrics" :: a))) < S (len r)); [|cbn [map wt] in *; lia]. apply W4. apply list.Exists_exists. exists x. split; [by constructor|done].
        + assert (wt (map un B) < wt (map un (map normalize ("metrics" :: a)))); [|cbn [map wt] in *; lia]. apply W2. apply list.Exists_exists. exists (normalize x). split; [apply elem_of_list_In, in_map, elem_of_list_In; by constructor|].
          destruct E as [-> | ->]; [by left|by right]. }
    pose proof (clean_len (join (map un B))) as C. rewrite len_join in C; [|intros E; apply (f_equal length) in E; rewrite map_length in E; by destruct B].
    set (t := cleanPath (String "/" (join (map un B)))) in *. clearbody t. unfold routed in R. destruct (String.eqb t "/metrics"); [injection R as <-; by left|].
    destruct (prefix "/metrics/" t) eqn:P; [|done]. injection R as <-. right. clear -P C W.
    do 9 (destruct t as [|c t]; [done|]; cbn [prefix] in P; match type of P with (if ascii_dec ?x ?y then _ else _) = true => destruct (ascii_dec x y); [subst|done] end).
    cbn [str_drop]. split; [|by eexists]. change r with ("metrics" +:+ p) in W. rewrite len_app in W. cbn [len] in *. lia.
  Qed.
  Lemma follow_iff : (∃ q, followed (Link p) = Some q ∧ newPathSpec q = a) ↔ Forall link_safe a.
  Proof.
    split.
    - intros (q & F & E). assert (Forall link_safe a ∨ ¬ Forall link_safe a) as [Sf|Sf]; [|done|].
      { clear. induction a as [|x l [IH|IH]]; [by left; constructor| |right; intros F; by inversion F]. destruct (link_safe_dec x) as [K|K]; [left; by constructor|]. right. intros F. inversion F as [|? ? (A & B & C & D)]; subst.
        rewrite <- has_escape_iff in C. tauto. }
      destruct (follow_unsafe q Sf F) as [->|[L (q' & ->)]]; [by subst a|]. exfalso.
      pose proof (wt_filter (λ p, negb (trimSpaceEmpty p)) (splitSlash q')) as W. change (List.filter (λ p, negb (trimSpaceEmpty p)) (splitSlash q')) with (newPathSpec q') in W.
      rewrite newPathSpec_slash in E. rewrite E, wt_split in W. cbn [len] in L. change (len p) with (S (len (join a))) in L. rewrite len_join in L by done. lia.
    - intros Sf. exists p. split; [by apply follow_safe|]. change p with (String "/" (join a)). rewrite newPathSpec_slash. by apply newPathSpec_join.
  Qed.
End Follow.
