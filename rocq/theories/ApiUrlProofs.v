(** Proofs about URLs of metrics. *)
From Verif Require Import GoBase StrLemmas.
From stdpp Require Import gmap strings.
From Verif Require Import PathModel PathSpec PathProofs RegistryModel RegistrySpec RegistryProofs RegistryConc RegistryConcProofs HttpModel HttpSpec HttpProofs UrlModel UrlSpec UrlProofs WireModel WireSpec WireProofs ApiUrlModel ApiUrlSpec.
Local Open Scope string_scope.
Local Open Scope list_scope.

(** ** Percent-encoding *)
Lemma hex_value_val c v : hex_value c v → is_hex c = true ∧ hex_val c = v.
Proof.
  unfold hex_value. cbn [list_ascii_of_string combine In]. intros H.
  repeat (destruct H as [H|H]; [injection H as <- <-; split; reflexivity|]). done.
Qed.
Lemma unreserved_plain c : unreserved c → Ascii.eqb c "%" = false.
Proof.
  unfold unreserved. intros H. destruct (Ascii.eqb c "%") eqn:E; [|done]. apply Ascii.eqb_eq in E. subst c. exfalso. cbn [list_ascii_of_string In] in H.
  repeat (destruct H as [H|H]; [discriminate H|]). done.
Qed.
Lemma unescape_encoded s u : percent_encoded s u → unescape u = Some s.
Proof.
  induction 1 as [|c s u U _ IH|c x y hi lo s u X Y C _ IH]; [done|..]; cbn [unescape].
  - by rewrite (unreserved_plain c U), IH.
  - apply hex_value_val in X as [X X'], Y as [Y Y']. cbn [Ascii.eqb]. change (Ascii.eqb "%" "%") with true. cbv iota. rewrite X, Y. cbn [andb]. rewrite X', Y', <- C, ascii_N_embedding, IH. done.
Qed.
Definition hex_char (n : N) : ascii := nth (N.to_nat n) (list_ascii_of_string "0123456789ABCDEF") "0"%char.
Lemma hex_char_value n : (n < 16)%N → hex_value (hex_char n) n.
Proof.
  intros L. assert (n ∈ [0; 1; 2; 3; 4; 5; 6; 7; 8; 9; 10; 11; 12; 13; 14; 15]%N) as I by (rewrite !elem_of_cons, elem_of_nil; lia).
  rewrite !elem_of_cons, elem_of_nil in I. unfold hex_value. repeat destruct I as [->|I]; cbn; tauto.
Qed.
Lemma encodable s : ∃ u, percent_encoded s u.
Proof.
  induction s as [|c s [u IH]]; [exists ""; constructor|]. pose proof (N_ascii_bounded c) as B.
  exists (String "%" (String (hex_char (N_of_ascii c / 16)) (String (hex_char (N_of_ascii c mod 16)) u))).
  apply pe_byte with (N_of_ascii c / 16)%N (N_of_ascii c mod 16)%N; [apply hex_char_value|apply hex_char_value| |done].
  - apply N.div_lt_upper_bound; lia.
  - apply N.mod_lt. lia.
  - apply N.div_mod. lia.
Qed.

(** ** Cleaning *)
Lemma forall_tl (P : string → Prop) l : Forall P l → Forall P (tl l).
Proof. intros F. destruct F; [constructor|done]. Qed.
Lemma clean_forall (P : string → Prop) segs : Forall P segs → ∀ up, Forall P up → Forall P (clean_segments up segs).
Proof.
  induction segs as [|x segs IH]; intros F up Fu; cbn [clean_segments]; [by apply List.Forall_rev|]. inversion F; subst. apply IH; [done|].
  destruct (String.eqb x ".."); [by apply forall_tl|]. destruct (_ || _); [done|by constructor].
Qed.
Lemma clean_nonempty segs : ∀ up, Forall (λ x, x ≠ "") up → Forall (λ x, x ≠ "") (clean_segments up segs).
Proof.
  induction segs as [|x segs IH]; intros up Fu; cbn [clean_segments]; [by apply List.Forall_rev|]. apply IH.
  destruct (String.eqb x ".."); [by apply forall_tl|]. destruct (String.eqb x "") eqn:E; [done|]. destruct (String.eqb x "."); [done|]. constructor; [by apply String.eqb_neq|done].
Qed.
Lemma clean_length segs : ∀ up, length (clean_segments up segs) ≤ length up + length segs ∧ (Exists (λ x, ¬ no_dots x) segs → length (clean_segments up segs) < length up + length segs).
Proof.
  induction segs as [|x segs IH]; intros up; cbn [clean_segments].
  - rewrite rev_length. cbn. split; [lia|]. intros H. inversion H.
  - destruct (String.eqb x "..") eqn:E2; [|destruct (String.eqb x "" || String.eqb x ".") eqn:E1].
    + destruct (IH (tl up)) as [A _]. assert (length (tl up) ≤ length up) by (destruct up; cbn; lia). cbn [length]. lia.
    + destruct (IH up) as [A _]. cbn [length]. lia.
    + destruct (IH (x :: up)) as [A B]. cbn [length] in *. split; [lia|]. rewrite Exists_cons. intros [N|N]; [|specialize (B N); lia]. destruct N. apply String.eqb_neq in E2. apply orb_false_iff in E1 as [_ E1]. by apply String.eqb_neq in E1.
Qed.
Lemma length_newPathSpec s : length (newPathSpec s) ≤ length (splitSlash s).
Proof. unfold newPathSpec. induction (splitSlash s) as [|x l IH]; cbn; [done|]. destruct (negb _); cbn; lia. Qed.
Lemma prefix_app_iff a : ∀ b, String.prefix a b = true → b = a +:+ str_drop (String.length a) b.
Proof.
  induction a as [|x a IH]; intros b; [by destruct b|]. destruct b as [|y b]; [done|]. cbn [String.prefix]. destruct (ascii_dec x y) as [->|]; [|done]. intros H. cbn [str_drop String.length].
  change (String y a +:+ str_drop (String.length a) b) with (String y (a +:+ str_drop (String.length a) b)). f_equal. by apply IH.
Qed.
Lemma drop_app a b : str_drop (String.length a) (a +:+ b) = b.
Proof. induction a as [|x a IH]; [by destruct b|]. exact IH. Qed.
Lemma prefix_self a b : String.prefix a (a +:+ b) = true.
Proof. induction a as [|x a IH]; [by destruct b|]. change (String.prefix (String x a) (String x (a +:+ b)) = true). cbn [String.prefix]. destruct (ascii_dec x x); [exact IH|done]. Qed.

Lemma stripped_tail url z : z = (url +:+ "/") +:+ str_drop (String.length (url +:+ "/")) z → ∃ t, z = url +:+ "/" +:+ t ∧ str_drop (String.length url) z = String "/" t.
Proof. intros P. exists (str_drop (String.length (url +:+ "/")) z). rewrite append_assoc in P. split; [exact P|]. rewrite P at 1. apply drop_app. Qed.

Section Route.
  (** a request below /name for the names b *)
  Context (name : string) (Sn : no_slash name) (Nn : name ≠ "") (Dn : no_dots name) (b : list string) (Nb : b ≠ []) (Fb : Forall (λ x, no_slash x ∧ x ≠ "") b).
  Let url := String "/" name.
  Lemma url_join : url +:+ String "/" (join b) = String "/" (join (name :: b)).
  Proof using Nb. clear - Nb. destruct b; [done|]. reflexivity. Qed.
  Lemma route_plain : Forall no_dots b → stripped url (cleanPath (url +:+ String "/" (join b))) = Some (String "/" (join b)).
  Proof using All.
    intros D. rewrite url_join, clean_id; [|done|].
    - rewrite <- url_join. unfold stripped. destruct (String.eqb _ url) eqn:E.
      + apply String.eqb_eq in E. apply (f_equal len) in E. rewrite len_app in E. cbn in E. lia.
      + replace (url +:+ String "/" (join b)) with ((url +:+ "/") +:+ join b) by (rewrite append_assoc; reflexivity). rewrite prefix_self. f_equal. rewrite append_assoc. apply drop_app.
    - constructor; [by destruct Dn|]. rewrite list.Forall_forall in *. intros x X. destruct (Fb x X), (D x X). done.
  Qed.
  Lemma route_dots q : Exists (λ x, ¬ no_dots x) b → stripped url (cleanPath (url +:+ String "/" (join b))) = Some q → length (newPathSpec q) < length b.
  Proof using All.
    intros Ex. rewrite url_join. unfold cleanPath, ends_slash. change (splitSlash (String "/" (join (name :: b)))) with ("" :: splitSlash (join (name :: b))).
    rewrite split_join; [|constructor; [done|]; eapply List.Forall_impl; [|exact Fb]; by intros ? []|done].
    assert (match rev ("" :: name :: b) with "" :: _ => true | _ => false end = false) as ->.
    { cbn [rev]. destruct (rev b) as [|z l] eqn:Z; [apply (f_equal length) in Z; rewrite rev_length in Z; by destruct b|]. cbn [app].
      assert (z ∈ b) as In by (rewrite <- (rev_involutive b), Z; cbn [rev]; apply elem_of_list_In, in_or_app; right; by left). rewrite list.Forall_forall in Fb. destruct (Fb z In) as (_ & Nz). by destruct z. }
    cbn [andb]. change (clean_segments [] ("" :: name :: b)) with (clean_segments [] (name :: b)).
    destruct (clean_length (name :: b) []) as [_ L]. specialize (L ltac:(by right)). cbn [length Nat.add] in L.
    pose proof (clean_forall no_slash (name :: b) ltac:(constructor; [done|]; eapply List.Forall_impl; [|exact Fb]; by intros ? []) [] ltac:(constructor)) as Sl.
    pose proof (clean_nonempty (name :: b) [] ltac:(constructor)) as Ne. set (cs := clean_segments [] (name :: b)) in *. clearbody cs. unfold stripped.
    assert (0 < length b) as Lb by (destruct b; [done|cbn; lia]).
    destruct (String.eqb _ url) eqn:E; [intros [= <-]; exact Lb|]. destruct (String.prefix _ _) eqn:P; [|done]. intros [= <-]. apply prefix_app_iff in P.
    destruct (stripped_tail _ _ P) as (t & T & Q). change (str_drop (len name) (join cs)) with (str_drop (len url) (String "/" (join cs))). rewrite Q. rewrite newPathSpec_slash. clear P. rename T into P.
    change (url +:+ "/" +:+ t) with (String "/" (name +:+ "/" +:+ t)) in P. injection P as P. pose proof (length_newPathSpec t) as Lt.
    assert (cs ≠ []) as Nc. { intros ->. change (join []) with "" in P. destruct name; [done|discriminate P]. }
    apply (f_equal splitSlash) in P. rewrite split_join, split_app in P by done. rewrite P in L. cbn [length] in L. lia.
  Qed.
End Route.

(** ** Text in JSON *)
Lemma not_cont c : byte_in c 0 127 = true → byte_in c 128 191 = false ∧ ∀ a, fits c (second2 a) = false ∧ fits c (second3 a) = false ∧ fits c (second4 a) = false.
Proof.
  intros B. apply byte_in_iff in B. split; [apply byte_in_false; unfold WireSpec.in_range in *; lia|]. intros a. unfold fits, second2, second3, second4.
  repeat split; repeat match goal with |- context [if byte_in a ?l ?h then _ else _] => destruct (byte_in a l h) end; try done; apply byte_in_false; unfold WireSpec.in_range in *; lia.
Qed.
Lemma step4 a b d f r : json_text (String a (String b (String d (String f r)))) =
  if byte_in a 0 127 then String a (json_text (String b (String d (String f r))))
  else if fits b (second2 a) then String a (String b (json_text (String d (String f r))))
  else if fits b (second3 a) && byte_in d 128 191 then String a (String b (String d (json_text (String f r))))
  else if fits b (second4 a) && byte_in d 128 191 && byte_in f 128 191 then String a (String b (String d (String f (json_text r))))
  else replacement (json_text (String b (String d (String f r)))).
Proof. reflexivity. Qed.
Lemma step2 a b r : json_text (String a (String b r)) =
  if byte_in a 0 127 then String a (json_text (String b r))
  else if fits b (second2 a) then String a (String b (json_text r))
  else match r with String d r3 => if fits b (second3 a) && byte_in d 128 191 then String a (String b (String d (json_text r3)))
    else match r3 with String f r4 => if fits b (second4 a) && byte_in d 128 191 && byte_in f 128 191 then String a (String b (String d (String f (json_text r4)))) else replacement (json_text (String b r))
       | "" => replacement (json_text (String b r)) end
    | "" => replacement (json_text (String b r)) end.
Proof. reflexivity. Qed.
Lemma json_text_app x c y : byte_in c 0 127 = true → json_text (x +:+ String c y) = json_text x +:+ String c (json_text y).
Proof.
  intros B. destruct (not_cont c B) as [N F]. enough (∀ n x, String.length x ≤ n → json_text (x +:+ String c y) = json_text x +:+ String c (json_text y)) by eauto. clear x.
  assert (json_text (String c y) = String c (json_text y)) as J by (cbn [json_text]; by rewrite B).
  induction n as [|n IH]; intros x L. { destruct x; [exact J|cbn in L; lia]. }
  destruct x as [|a r]; [exact J|]. cbn [String.length] in L.
  assert (∀ z, replacement (json_text z) = replacement "" +:+ json_text z) as Rp by reflexivity.
  assert (json_text (r +:+ String c y) = json_text r +:+ String c (json_text y)) as J0 by (apply IH; lia).
  destruct (F a) as (F2 & F3 & F4).
  destruct r as [|b r2].
  { change (json_text (String a (String c y)) = json_text (String a "") +:+ String c (json_text y)). cbn [json_text] in *. rewrite B, F2, F3, F4 in *. cbn [andb]. destruct (byte_in a 0 127); [done|]. destruct y as [|y1 [|y2 y3]]; reflexivity. }
  cbn [String.length] in L. destruct r2 as [|d r3].
  { change (String b "" +:+ String c y) with (String b (String c y)) in J0. change (json_text (String a (String b (String c y))) = json_text (String a (String b "")) +:+ String c (json_text y)).
    rewrite !(step2 a). rewrite J0. destruct (byte_in a 0 127); [done|]. destruct (fits b (second2 a)); [by rewrite J|].
    rewrite N, !andb_false_r. cbn [andb]. by destruct y. }
  cbn [String.length] in L. destruct r3 as [|f r4].
  { change (String b (String d "") +:+ String c y) with (String b (String d (String c y))) in J0. change (json_text (String a (String b (String d (String c y)))) = json_text (String a (String b (String d ""))) +:+ String c (json_text y)).
    assert (json_text (String d (String c y)) = json_text (String d "") +:+ String c (json_text y)) as J1 by (apply (IH (String d "")); cbn; lia).
    rewrite !(step2 a). rewrite J0, J1. destruct (byte_in a 0 127); [done|]. destruct (fits b (second2 a)); [done|]. destruct (_ && _); [by rewrite J|].
    rewrite N, !andb_false_r. done. }
  cbn [String.length] in L.
  assert (json_text (String d (String f r4) +:+ String c y) = json_text (String d (String f r4)) +:+ String c (json_text y)) as J1 by (apply IH; cbn; lia).
  assert (json_text (String f r4 +:+ String c y) = json_text (String f r4) +:+ String c (json_text y)) as J2 by (apply IH; cbn; lia).
  assert (json_text (r4 +:+ String c y) = json_text r4 +:+ String c (json_text y)) as J3 by (apply IH; cbn; lia).
  change (String b (String d (String f r4)) +:+ String c y) with (String b (String d (String f (r4 +:+ String c y)))) in J0. change (String d (String f r4) +:+ String c y) with (String d (String f (r4 +:+ String c y))) in J1.
  change (String f r4 +:+ String c y) with (String f (r4 +:+ String c y)) in J2.
  change (String a (String b (String d (String f r4))) +:+ String c y) with (String a (String b (String d (String f (r4 +:+ String c y))))).
  rewrite !(step4 a). rewrite J0, J1, J2, J3. destruct (byte_in a 0 127); [done|]. destruct (fits b (second2 a)); [done|]. destruct (_ && _); [done|]. by destruct (_ && _ && _).
Qed.
Lemma json_text_no_slash s : no_slash s → no_slash (json_text s).
Proof.
  unfold no_slash. enough (∀ n s, String.length s ≤ n → str_all (λ c, negb (Ascii.eqb c "/")) s = true → str_all (λ c, negb (Ascii.eqb c "/")) (json_text s) = true) by eauto. clear s.
  induction n as [|n IH]; intros s L A. { destruct s; [done|cbn in L; lia]. }
  destruct s as [|a r]; [done|]. cbn [String.length] in L. cbn [str_all] in A. apply andb_true_iff in A as [Aa Ar].
  assert (str_all (λ c, negb (Ascii.eqb c "/")) (replacement (json_text r)) = true) as Rp by (apply IH; [lia|done]).
  cbn [json_text]. destruct (byte_in a 0 127); [cbn [str_all]; rewrite Aa; apply IH; [lia|done]|].
  destruct r as [|b r2]; [exact Rp|]. cbn [String.length] in L. cbn [str_all] in Ar. apply andb_true_iff in Ar as [Ab Ar].
  destruct (fits b (second2 a)). { cbn [str_all]. rewrite Aa, Ab. apply IH; [lia|done]. }
  destruct r2 as [|d r3]; [exact Rp|]. cbn [String.length] in L. cbn [str_all] in Ar. apply andb_true_iff in Ar as [Ad Ar].
  destruct (_ && _). { cbn [str_all]. rewrite Aa, Ab, Ad. apply IH; [lia|done]. }
  destruct r3 as [|f r4]; [exact Rp|]. cbn [String.length] in L. cbn [str_all] in Ar. apply andb_true_iff in Ar as [Af Ar].
  destruct (_ && _ && _); [|exact Rp]. cbn [str_all]. rewrite Aa, Ab, Ad, Af. apply IH; [lia|done].
Qed.
Lemma json_text_nonempty s : s ≠ "" → json_text s ≠ "".
Proof.
  destruct s as [|a r]; [done|]. intros _. cbn [json_text]. unfold replacement. destruct (byte_in a 0 127); [done|]. destruct r as [|b r2]; [done|]. destruct (fits b _); [done|]. destruct r2 as [|d r3]; [done|].
  destruct (_ && _); [done|]. destruct r3; [done|]. by destruct (_ && _ && _).
Qed.
Lemma json_text_join l : json_text (join l) = join (map json_text l).
Proof.
  induction l as [|x l IH]; [done|]. destruct l as [|y l]; [done|]. change (join (x :: y :: l)) with (x +:+ String "/" (join (y :: l))). rewrite json_text_app by done. by rewrite IH.
Qed.
Lemma json_text_dots s : no_dots (json_text s) ↔ no_dots s.
Proof.
  split; intros [A B]; split; intros E.
  - subst s. by apply A.
  - subst s. by apply B.
  - apply A. assert (json_text s = json_text ".") as K by (by rewrite E). revert E. clear. destruct s as [|a r]; [done|]. cbn [json_text]. unfold replacement.
    destruct (byte_in a 0 127); [intros [= -> E]; f_equal; destruct r; [done|]; exfalso; by apply (json_text_nonempty (String a r))|].
    destruct r as [|b r2]; [done|]. destruct (fits b _); [done|]. destruct r2 as [|d r3]; [done|]. destruct (_ && _); [done|]. destruct r3; [done|]. by destruct (_ && _ && _).
  - apply B. revert E. clear. destruct s as [|a r]; [done|]. cbn [json_text]. unfold replacement.
    destruct (byte_in a 0 127).
    + intros [= -> E]. f_equal. destruct r as [|b r2]; [done|]. cbn [json_text] in E. unfold replacement in E. destruct (byte_in b 0 127).
      * injection E as -> E. f_equal. destruct r2; [done|]. exfalso. by apply (json_text_nonempty (String a r2)).
      * destruct r2 as [|d r3]; [done|]. destruct (fits d _); [done|]. destruct r3 as [|f r3]; [done|]. destruct (_ && _); [done|]. destruct r3; [done|]. by destruct (_ && _ && _).
    + destruct r as [|b r2]; [done|]. destruct (fits b (second2 a)) eqn:Fi.
      * intros [= -> -> _]. done.
      * destruct r2 as [|d r3]; [done|]. destruct (_ && _); [done|]. destruct r3; [done|]. by destruct (_ && _ && _).
Qed.

(** ** The whole way *)
Definition urls : list string := [jsonUrl; htmlUrl].
Lemma urls_name url : url ∈ urls → ∃ name, url = String "/" name ∧ no_slash name ∧ name ≠ "" ∧ no_dots name.
Proof. intros U. apply elem_of_cons in U as [->|U]; [|apply elem_of_list_singleton in U as ->]; eexists; (split; [reflexivity|]); split_and!; done. Qed.
Lemma found_iff url h a e b u : url ∈ urls → reachable_heap h → answer h a = Some (NMetric e) → length b = length a → Forall (λ x, no_slash x ∧ x ≠ "") b →
  percent_encoded (url +:+ String "/" (join b)) u → (found url h u = Some (NMetric e) ↔ Forall no_dots b ∧ b = a).
Proof.
  intros U Re A L Fb P. destruct (urls_name url U) as (name & -> & Sn & Nn & Dn). unfold found, handled. rewrite (unescape_encoded _ _ P).
  pose proof (find_components h root a _ (reachable_wf h Re) A) as V.
  assert (b ≠ []) as Nb. { intros ->. destruct a; [|done]. discriminate A. }
  assert (∀ q, looked_up h q = Some (NMetric e) ↔ newPathSpec q = a) as K.
  { intros q. rewrite (looked_up_answer h q (newPathSpec q)) by (by apply newPathSpec_iff). split; [|by intros ->]. intros E. by rewrite <- (answer_names h _ e Re E), (answer_names h _ e Re A). }
  destruct (decide (Forall no_dots b)) as [D|D].
  - rewrite (route_plain name Sn Nn Dn b Nb Fb D), K, newPathSpec_slash. split.
    + intros E. split; [done|]. unfold newPathSpec in E. rewrite split_join in E; [|eapply List.Forall_impl; [|exact Fb]; by intros ? []|done].
      rewrite <- E in L. clear - L E. transitivity (List.filter (λ p, negb (trimSpaceEmpty p)) b); [|exact E]. clear E. symmetry. revert L.
      induction b as [|x b IH]; [done|]. cbn [List.filter length]. destruct (negb _); cbn [length]; intros L; [f_equal; apply IH; lia|].
      exfalso. assert (length (List.filter (λ p, negb (trimSpaceEmpty p)) b) ≤ length b); [|lia]. clear. induction b as [|x b IH]; cbn; [done|]. destruct (negb _); cbn; lia.
    + intros [_ ->]. by apply newPathSpec_join.
  - split; [|by intros []]. destruct (stripped _ _) as [q|] eqn:E; [|done]. rewrite K. intros <-. exfalso. apply not_Forall_Exists in D; [|apply _].
    pose proof (route_dots name Sn Nn Dn b Nb Fb q D E). lia.
Qed.
Lemma valid_segments a : Forall valid_component a → Forall (λ x, no_slash x ∧ x ≠ "") a.
Proof. apply List.Forall_impl. intros x [S B]. split; [done|]. intros ->. apply B. constructor. Qed.
Lemma found_registered url h a e u : url ∈ urls → reachable_heap h → answer h a = Some (NMetric e) → percent_encoded (url +:+ absPath e) u →
  (found url h u = Some (NMetric e) ↔ Forall no_dots a).
Proof.
  intros U Re A P. rewrite absPath_names, (answer_names h a e Re A) in P. pose proof (find_components h root a _ (reachable_wf h Re) A) as V.
  rewrite (found_iff url h a e a u) by (done || by apply valid_segments). tauto.
Qed.
Lemma found_json url h a e u : url ∈ urls → reachable_heap h → answer h a = Some (NMetric e) → percent_encoded (url +:+ json_text (absPath e)) u →
  (found url h u = Some (NMetric e) ↔ Forall (λ n, WireSpec.utf8 n ∧ no_dots n) a).
Proof.
  intros U Re A P. rewrite absPath_names, (answer_names h a e Re A) in P. pose proof (valid_segments _ (find_components h root a _ (reachable_wf h Re) A)) as V.
  change (json_text ("/" +:+ join a)) with (String "/" (json_text (join a))) in P. rewrite json_text_join in P. rewrite (found_iff url h a e (map json_text a) u); [|done|done|done|by rewrite map_length| |done].
  - rewrite !Forall_forall. split.
    + intros [D E] n N. split.
      * assert (json_text n = n) as <-; [|apply json_text_valid]. clear - E N. revert E. induction a as [|x a IH]; [by apply elem_of_nil in N|]. cbn [map]. intros [= Ex Ea]. apply elem_of_cons in N as [->|N]; auto.
      * apply (json_text_dots n). apply D. apply elem_of_list_In, in_map, elem_of_list_In, N.
    + intros F. assert (map json_text a = a) as E. { rewrite <- (map_id a) at 2. apply map_ext_in. intros n N. apply json_text_id. apply F. by apply elem_of_list_In. }
      split; [|done]. rewrite E. intros n N. by apply F.
  - rewrite Forall_forall in V. rewrite Forall_forall. intros n N. apply elem_of_list_In, in_map_iff in N as (x & <- & N). apply elem_of_list_In in N. destruct (V x N). split; [by apply json_text_no_slash|by apply json_text_nonempty].
Qed.
