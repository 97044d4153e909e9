(** addSeparators and the text forms. *)
From Verif Require Import GoBase StrLemmas TextSpec FloatBase FormatModel FormatSpec.
Local Open Scope string_scope.
Local Arguments append : simpl nomatch.

Lemma str_while_skip p s : str_while p s ++ str_skip p s = s.
Proof. induction s as [|c s IH]; [reflexivity|]. cbn [str_while str_skip]. destruct (p c); [|reflexivity]. cbn [append]. now rewrite IH. Qed.
Lemma str_while_all p s : str_all p (str_while p s) = true.
Proof. induction s as [|c s IH]; cbn; [reflexivity|]. destruct (p c) eqn:E; cbn; [now rewrite E, IH|reflexivity]. Qed.
Lemma str_skip_head p s : match str_skip p s with String c _ => p c = false | "" => True end.
Proof. induction s as [|c s IH]; cbn; [exact I|]. destruct (p c) eqn:E; [exact IH|exact E]. Qed.
Lemma str_skip_empty p s : str_skip p s = "" -> str_all p s = true.
Proof. induction s as [|c s IH]; cbn; [reflexivity|]. destruct (p c) eqn:E; cbn; [exact IH|discriminate]. Qed.
Lemma str_skip_full p s : str_all p s = true -> str_skip p s = "".
Proof. induction s as [|c s IH]; cbn; [reflexivity|]. destruct (p c) eqn:E; cbn; [exact IH|discriminate]. Qed.
Lemma split_unique p a b a' b' : str_all p a = true -> str_all p a' = true ->
  match b with String c _ => p c = false | "" => True end -> match b' with String c _ => p c = false | "" => True end -> a ++ b = a' ++ b' -> a = a' /\ b = b'.
Proof.
  revert a'. induction a as [|c a IH]; destruct a' as [|c' a']; cbn; intros Ha Ha' Hb Hb' E; [now split|..].
  - subst b. apply andb_true_iff in Ha' as [X _]. congruence.
  - subst b'. apply andb_true_iff in Ha as [X _]. congruence.
  - injection E as -> E. apply andb_true_iff in Ha as [_ Ha]. apply andb_true_iff in Ha' as [_ Ha']. destruct (IH a') as [-> ->]; auto.
Qed.

(** *** groups *)
Definition prefixed (sep : string) (gs : list string) : string := str_concat (map (fun g => sep ++ g) gs).
Lemma concat_prefixed sep g gs : String.concat sep (g :: gs) = g ++ prefixed sep gs.
Proof.
  revert g. induction gs as [|h gs IH]; intros g; [cbn; now rewrite app_nil_r_s|].
  change (String.concat sep (g :: h :: gs)) with (g ++ sep ++ String.concat sep (h :: gs)). rewrite IH. unfold prefixed. cbn. now rewrite !app_assoc_s.
Qed.
Lemma sep_loop_spec sep n dlen : (0 < n)%nat -> forall digits i, (0 < i)%Z -> dlen = (i + Z.of_nat (String.length digits))%Z ->
  exists g gs, digits = g ++ str_concat gs /\ String.length g = (String.length digits mod n)%nat /\ Forall (fun x => String.length x = n) gs /\
    sep_loop sep (Z.of_nat n) dlen i digits = Some (g ++ prefixed sep gs).
Proof.
  intros N. induction digits as [|d r IH]; intros i I E.
  - exists "", []. cbn. rewrite Nat.mod_0_l by lia. repeat split; auto.
  - cbn [String.length] in E. destruct (IH (i + 1)%Z) as (g & gs & R & G & F & Sp); [lia..|]. cbn [sep_loop]. rewrite Sp.
    destruct (Z.ltb_spec 0 i); [|lia]. destruct (Z.eqb_spec (Z.of_nat n) 0); [lia|].
    replace (dlen - i)%Z with (Z.of_nat (String.length (String d r))) by (cbn [String.length]; lia).
    rewrite Z.rem_mod_nonneg by lia. rewrite <- Nat2Z.inj_mod. cbn [String.length]. set (k := String.length r) in *.
    pose proof (Nat.div_mod k n ltac:(lia)) as D. pose proof (Nat.mod_upper_bound k n ltac:(lia)) as U.
    destruct (Nat.eq_dec (k mod n) (n - 1)) as [L|L].
    + assert (S k mod n = 0)%nat as M. { replace (S k) with ((k / n + 1) * n)%nat by nia. apply Nat.mod_mul. lia. }
      rewrite M. change (Z.of_nat 0 =? 0)%Z with true. exists "", (String d g :: gs). split; [now rewrite R|]. split; [reflexivity|]. split.
      * constructor; [cbn; lia|exact F].
      * unfold prefixed. cbn. now rewrite <- app_assoc_s.
    + assert (S k mod n = S (k mod n))%nat as M. { replace (S k) with (S (k mod n) + (k / n) * n)%nat by nia. rewrite Nat.mod_add by lia. apply Nat.mod_small. lia. }
      rewrite M. destruct (Z.eqb_spec (Z.of_nat (S (k mod n))) 0); [lia|].
      exists (String d g), gs. split; [now rewrite R|]. split; [cbn; now rewrite G|]. split; [exact F|reflexivity].
Qed.
Lemma concat_digits l : str_all is_digit (str_concat l) = true -> Forall (fun x => str_all is_digit x = true) l.
Proof. induction l as [|x l IH]; cbn; [constructor|]. rewrite str_all_app, andb_true_iff. intros [A B]. constructor; auto. Qed.
Lemma digits_concat l : Forall (fun x => str_all is_digit x = true) l -> str_all is_digit (str_concat l) = true.
Proof. induction 1; cbn; [reflexivity|]. rewrite str_all_app, H, IHForall. reflexivity. Qed.
Lemma has_digit_iff s : has_digit s <-> str_skip (fun c => negb (is_digit c)) s <> "".
Proof.
  unfold has_digit, no_digits. split; intros H E; apply H; [now apply str_skip_empty|now apply str_skip_full].
Qed.
Lemma add_grouped sep n orig : (0 < n)%nat -> has_digit orig -> exists out, addSeparators orig sep (Z.of_nat n) = FmtOk out /\ grouped sep n orig out.
Proof.
  intros N H. apply has_digit_iff in H. unfold addSeparators. set (p := fun c => negb (is_digit c)) in *.
  pose proof (str_while_skip p orig) as Split. pose proof (str_skip_head p orig) as Head.
  destruct (str_skip p orig) as [|d rest] eqn:Sk; [congruence|]. assert (is_digit d = true) as D by now apply negb_false_iff.
  cbn [str_while str_skip]. rewrite D. set (r := str_while is_digit rest) in *. cbn [sep_loop].
  destruct (sep_loop_spec sep n (Z.of_nat (String.length (String d r))) N r 1) as (g & gs & R & G & F & S); [lia|cbn [String.length]; lia|].
  change (0 + 1)%Z with 1%Z. rewrite S. cbn [Z.ltb Z.compare]. eexists. split; [reflexivity|].
  exists (str_while p orig), (String d g), gs, (str_skip is_digit rest). rewrite concat_prefixed.
  assert (str_all is_digit r = true) as Rd by apply str_while_all.
  assert (str_concat (String d g :: gs) = String d r) as Cat by (cbn; now rewrite R).
  split; [|split; [|split; [|split; [|split; [|split]]]]].
  - rewrite Cat. cbn [append]. unfold r. rewrite str_while_skip. now symmetry.
  - reflexivity.
  - apply str_while_all.
  - apply concat_digits. rewrite Cat. cbn. now rewrite D, Rd.
  - apply str_skip_head.
  - cbn. rewrite G. pose proof (Nat.mod_upper_bound (String.length r) n ltac:(lia)). lia.
  - exact F.
Qed.
Lemma groups_unique n : forall gs gs' : list string, Forall (fun x => String.length x = n) gs -> Forall (fun x => String.length x = n) gs' ->
  List.length gs = List.length gs' -> str_concat gs = str_concat gs' -> gs = gs'.
Proof.
  induction gs as [|g gs IH]; destruct gs' as [|g' gs']; cbn; intros F F' L E; try discriminate; [reflexivity|].
  inversion F; subst. inversion F'; subst. apply app_inj_len in E as [-> E]; [|congruence]. f_equal. apply IH; auto.
Qed.
Lemma concat_length n gs : Forall (fun x => String.length x = n) gs -> String.length (str_concat gs) = (n * List.length gs)%nat.
Proof. induction 1; cbn; [lia|]. rewrite length_app_s, H, IHForall. lia. Qed.
Lemma grouped_unique sep n orig out out' : grouped sep n orig out -> grouped sep n orig out' -> out = out'.
Proof.
  intros (pre & g & gs & post & E & -> & P & D & H & L & F) (pre' & g' & gs' & post' & E' & -> & P' & D' & H' & L' & F').
  rewrite E in E'. assert (Hd : forall h l q, (1 <= String.length h)%nat -> Forall (fun x => str_all is_digit x = true) (h :: l) ->
    match str_concat (h :: l) ++ q with String c _ => negb (is_digit c) = false | "" => True end).
  { intros [|c h] l q Lh Fh; cbn in Lh; [lia|]. inversion Fh as [|? ? X _]; subst. cbn in X |- *. apply andb_true_iff in X as [-> _]. reflexivity. }
  apply split_unique with (p := fun c => negb (is_digit c)) in E' as [-> E']; [|exact P|exact P'|apply Hd; [lia|exact D]|apply Hd; [lia|exact D']].
  apply split_unique with (p := is_digit) in E' as [C ->]; [|now apply digits_concat|now apply digits_concat|exact H|exact H'].
  assert (Len := f_equal String.length C). cbn [str_concat] in Len. rewrite !length_app_s, (concat_length n gs F), (concat_length n gs' F') in Len.
  assert (List.length gs = List.length gs') as Lg by nia. cbn [str_concat] in C. apply app_inj_len in C as [-> C]; [|nia].
  apply groups_unique with (n := n) in C; auto. now subst.
Qed.
Lemma add_iff sep n orig out : (0 < n)%nat -> addSeparators orig sep (Z.of_nat n) = FmtOk out <-> grouped sep n orig out.
Proof.
  intros N. split.
  - intros E. assert (has_digit orig) as Hd. { apply has_digit_iff. intros X. unfold addSeparators in E. rewrite X in E. discriminate. }
    destruct (add_grouped sep n orig N Hd) as (out' & E' & G). congruence.
  - intros G. assert (has_digit orig) as Hd.
    { destruct G as (pre & g & gs & post & -> & _ & _ & D & _ & L & _). unfold has_digit, no_digits. rewrite !str_all_app. cbn [str_concat]. rewrite str_all_app.
      inversion D as [|? ? Dg _]; subst. destruct g as [|c g]; cbn in L; [lia|]. cbn in Dg |- *. apply andb_true_iff in Dg as [-> _].
      cbn. rewrite andb_false_r. discriminate. }
    destruct (add_grouped sep n orig N Hd) as (out' & E' & G'). now rewrite E', (grouped_unique sep n orig out out').
Qed.
(** *** panics *)
Lemma sep_loop_zero sep dlen digits : forall i, (0 < i)%Z -> sep_loop sep 0 dlen i digits = None <-> digits <> "".
Proof.
  induction digits as [|d r IH]; intros i I; cbn [sep_loop]; [split; [discriminate|congruence]|]. split; [discriminate|]. intros _.
  destruct (sep_loop sep 0 dlen (i + 1) r); [|reflexivity]. destruct (Z.ltb_spec 0 i); [reflexivity|lia].
Qed.
Lemma add_no_digit sep n orig : no_digits orig -> addSeparators orig sep n = FmtPanic.
Proof. intros H. unfold addSeparators. now rewrite (str_skip_full _ _ H). Qed.

(** *** deleting the separators *)
Lemma without_app c a b : without c (a ++ b) = without c a ++ without c b.
Proof. induction a as [|d a IH]; [reflexivity|]. cbn. destruct (is_byte c d); cbn; now rewrite IH. Qed.
Lemma without_none c s : str_all (fun d => negb (is_byte c d)) s = true -> without c s = s.
Proof. induction s as [|d s IH]; [reflexivity|]. cbn. destruct (is_byte c d); cbn; [discriminate|]. intros H. now rewrite IH. Qed.
Lemma without_self c : without c (String c "") = "".
Proof. cbn. unfold is_byte. now rewrite Ascii.eqb_refl. Qed.
Lemma without_prefixed c gs : without c (prefixed (String c "") gs) = without c (str_concat gs).
Proof. induction gs as [|g gs IH]; [reflexivity|]. unfold prefixed in *. cbn [map str_concat]. rewrite !without_app, IH, without_self. reflexivity. Qed.
Lemma delete_separators c n orig out : grouped (String c "") n orig out -> without c out = without c orig.
Proof.
  intros (pre & g & gs & post & -> & -> & _). rewrite concat_prefixed. cbn [str_concat]. now rewrite !without_app, without_prefixed.
Qed.
