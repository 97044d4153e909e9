From Verif Require Import GoBase StrLemmas PathModel PathSpec.
From Coq Require Import ZifyBool.
Local Open Scope string_scope.
Local Open Scope list_scope.

Lemma N_ascii_eq c b : N.eqb (N_of_ascii c) b = true -> c = ascii_of_N b.
Proof. intros H. apply N.eqb_eq in H. rewrite <- H, ascii_N_embedding. reflexivity. Qed.
Lemma strip_bytes_sound bs : forall s r, strip_bytes bs s = Some r ->
  s = fold_right (fun b s => String (ascii_of_N b) s) r bs.
Proof.
  induction bs as [|b bs IH]; simpl; intros s r H; [congruence|].
  destruct s as [|c s]; [discriminate|]. destruct (N.eqb (N_of_ascii c) b) eqn:E; [|discriminate].
  apply N_ascii_eq in E. rewrite E. f_equal. apply IH; auto.
Qed.
Lemma strip_bytes_complete bs r : Forall (fun b => (b < 256)%N) bs ->
  strip_bytes bs (fold_right (fun b s => String (ascii_of_N b) s) r bs) = Some r.
Proof.
  induction 1; simpl; auto. rewrite N_ascii_embedding by auto. rewrite N.eqb_refl. auto.
Qed.
Lemma space_bytes : Forall (Forall (fun b => (b < 256)%N)) space_encodings.
Proof. unfold space_encodings. repeat constructor. Qed.

Lemma first_some_sound {A B} (f : A -> option B) l y : first_some f l = Some y -> exists x, In x l /\ f x = Some y.
Proof.
  induction l; simpl; [discriminate|]. destruct (f a) eqn:E.
  - intros H; inversion H; subst. eauto.
  - intros H. destruct (IHl H) as (x & I & F). eauto.
Qed.
Lemma first_some_none {A B} (f : A -> option B) l x : first_some f l = None -> In x l -> f x = None.
Proof.
  induction l; simpl; [tauto|]. destruct (f a) eqn:E; [discriminate|]. intros H [->|I]; auto.
Qed.
(** no encoding is a prefix of another *)
Fixpoint prefix_conflict (a b : list N) : bool :=
  match a, b with
  | [], _ | _, [] => true
  | x :: a', y :: b' => N.eqb x y && prefix_conflict a' b'
  end.
Lemma strip_two a : forall b s r, Forall (fun b => (b < 256)%N) b ->
  strip_bytes a (fold_right (fun b s => String (ascii_of_N b) s) s b) = Some r -> prefix_conflict a b = true.
Proof.
  induction a as [|x a IH]; intros b s r F H; [reflexivity|]. destruct b as [|y b]; [reflexivity|].
  simpl in H. inversion F; subst. rewrite N_ascii_embedding in H by auto. simpl.
  destruct (N.eqb_spec y x); [|discriminate]. subst. rewrite N.eqb_refl. simpl. eapply IH; eauto.
Qed.
Lemma conflict_free : forallb (fun a => forallb (fun b =>
  implb (prefix_conflict a b) (if list_eq_dec N.eq_dec a b then true else false)) space_encodings) space_encodings = true.
Proof. vm_compute. reflexivity. Qed.
Lemma conflict_eq a b : In a space_encodings -> In b space_encodings -> prefix_conflict a b = true -> a = b.
Proof.
  intros A B C. pose proof conflict_free as H. rewrite forallb_forall in H. specialize (H a A).
  rewrite forallb_forall in H. specialize (H b B). rewrite C in H. simpl in H.
  destruct (list_eq_dec N.eq_dec a b); auto. discriminate.
Qed.
Lemma space_head bs s : In bs space_encodings ->
  first_some (fun e => strip_bytes e (fold_right (fun b s => String (ascii_of_N b) s) s bs)) space_encodings = Some s.
Proof.
  intros I. assert (F : Forall (fun b => (b < 256)%N) bs).
  { pose proof space_bytes as S. rewrite Forall_forall in S. auto. }
  destruct (first_some _ space_encodings) as [r|] eqn:E.
  - apply first_some_sound in E as (a & Ia & E). pose proof (strip_two _ _ _ _ F E) as C.
    apply conflict_eq in C; auto. subst a. cbv beta in E. rewrite strip_bytes_complete in E by auto. congruence.
  - apply (first_some_none _ _ bs) in E; auto. cbv beta in E. rewrite strip_bytes_complete in E by auto. discriminate.
Qed.

Lemma fold_len bs s : String.length (fold_right (fun b s => String (ascii_of_N b) s) s bs) = (length bs + String.length s)%nat.
Proof. induction bs; simpl; auto. Qed.
Lemma enc_nonempty bs : In bs space_encodings -> (1 <= length bs)%nat.
Proof. intros H. unfold space_encodings in H. simpl in H. repeat (destruct H as [<-|H]; [simpl; lia|]). destruct H. Qed.

Lemma encodings_utf8 : space_encodings = map utf8 white_space.
Proof. vm_compute. reflexivity. Qed.
Lemma in_encodings c : In c white_space -> In (utf8 c) space_encodings.
Proof. rewrite encodings_utf8. apply in_map. Qed.
Lemma trimLeft_spec fuel : forall s, (String.length s <= fuel)%nat ->
  (trimLeft fuel s = "" <-> all_space s).
Proof.
  induction fuel as [|f IH]; intros s L.
  - destruct s; simpl in L; [|lia]. split; intros; auto; constructor.
  - cbn [trimLeft]. destruct (first_some (fun e => strip_bytes e s) space_encodings) as [r|] eqn:E.
    + apply first_some_sound in E as (bs & I & E). apply strip_bytes_sound in E. subst s.
      rewrite fold_len in L. pose proof (enc_nonempty _ I). rewrite IH by lia. split; intros A.
      { rewrite encodings_utf8 in I. apply in_map_iff in I as (c & <- & I). constructor; auto. }
      inversion A as [H0 | c' r' I' A' H0].
      * destruct bs; [simpl in H; lia|discriminate].
      * pose proof (space_head bs r I) as H1. rewrite <- H0 in H1.
        rewrite space_head in H1 by (apply in_encodings; auto). inversion H1; subst; auto.
    + split; [intros ->; constructor|]. intros A. inversion A; subst; auto.
      rewrite space_head in E by (apply in_encodings; auto). discriminate.
Qed.
Lemma trimSpaceEmpty_spec s : trimSpaceEmpty s = true <-> all_space s.
Proof. unfold trimSpaceEmpty. rewrite String.eqb_eq. apply trimLeft_spec. lia. Qed.

(** split *)
Lemma splitSlash_nonempty s : splitSlash s <> [].
Proof. induction s; simpl; try discriminate. destruct (is_slash a); [discriminate|]. destruct (splitSlash s); congruence. Qed.
Lemma split_no_slash p : no_slash p -> splitSlash p = [p].
Proof.
  unfold no_slash. induction p; simpl; auto. rewrite andb_true_iff, negb_true_iff. intros [H1 H2].
  unfold is_slash, slash. rewrite H1, IHp; auto.
Qed.
Lemma split_app p s : no_slash p -> splitSlash (p ++ "/" ++ s) = p :: splitSlash s.
Proof.
  unfold no_slash. induction p; simpl; auto. rewrite andb_true_iff, negb_true_iff. intros [H1 H2].
  unfold is_slash, slash. rewrite H1. change (append p (String "/" s)) with (p ++ "/" ++ s)%string. rewrite IHp; auto.
Qed.
Lemma pieces_split s : pieces s (splitSlash s).
Proof.
  induction s as [|c s IH]; simpl; [constructor; reflexivity|].
  unfold is_slash, slash. destruct (Ascii.eqb_spec c "/"%char).
  - subst. apply (PcMore ""); auto. reflexivity.
  - assert (NE : Ascii.eqb c "/" = false) by now apply Ascii.eqb_neq.
    destruct IH as [p Hp|p s' ps Hp Hs].
    + constructor. unfold no_slash in *. simpl. rewrite NE, Hp. reflexivity.
    + change (String c (p ++ "/" ++ s')) with (String c p ++ "/" ++ s')%string. constructor; auto.
      unfold no_slash in *. simpl. rewrite NE, Hp. reflexivity.
Qed.
Lemma pieces_unique s ps : pieces s ps -> splitSlash s = ps.
Proof. induction 1; [apply split_no_slash; auto|]. rewrite split_app by auto. congruence. Qed.

Lemma nonblanks_filter ps : nonblanks ps (filter (fun p => negb (trimSpaceEmpty p)) ps).
Proof.
  induction ps; simpl; [constructor|]. destruct (trimSpaceEmpty a) eqn:E; simpl.
  - constructor; auto. apply trimSpaceEmpty_spec; auto.
  - apply NbKeep; auto. intros X; apply trimSpaceEmpty_spec in X; congruence.
Qed.
Lemma nonblanks_unique ps cs : nonblanks ps cs -> filter (fun p => negb (trimSpaceEmpty p)) ps = cs.
Proof.
  induction 1; simpl; auto.
  - apply trimSpaceEmpty_spec in H. rewrite H. auto.
  - destruct (trimSpaceEmpty p) eqn:E; [apply trimSpaceEmpty_spec in E; contradiction|]. simpl. congruence.
Qed.
Lemma newPathSpec_iff s cs : newPathSpec s = cs <-> components s cs.
Proof.
  split.
  - intros <-. exists (splitSlash s). split; [apply pieces_split|apply nonblanks_filter].
  - intros (ps & P & N). unfold newPathSpec. rewrite (pieces_unique _ _ P). apply nonblanks_unique; auto.
Qed.
Lemma valid_component_dec s : no_slash s -> trimSpaceEmpty s = false -> valid_component s.
Proof. intros H E. split; auto. intros X; apply trimSpaceEmpty_spec in X; congruence. Qed.
Lemma split_all_no_slash s : Forall no_slash (splitSlash s).
Proof. pose proof (pieces_split s) as H. induction H; constructor; auto. Qed.
Lemma newPathSpec_valid s : Forall valid_component (newPathSpec s).
Proof.
  unfold newPathSpec. apply Forall_forall. intros x H. apply filter_In in H as [H E].
  pose proof (split_all_no_slash s) as F. rewrite Forall_forall in F.
  apply valid_component_dec; auto. now apply negb_true_iff in E.
Qed.
Lemma valid_not_blank x : valid_component x -> trimSpaceEmpty x = false.
Proof. intros [_ H]. destruct (trimSpaceEmpty x) eqn:E; auto. apply trimSpaceEmpty_spec in E. contradiction. Qed.
Lemma split_join p : Forall no_slash p -> p <> [] -> splitSlash (join p) = p.
Proof.
  induction p as [|x p IH]; intros F N; [congruence|]. inversion F; subst. destruct p as [|y p].
  - apply split_no_slash; auto.
  - change (join (x :: y :: p)) with (x ++ "/" ++ join (y :: p))%string. rewrite split_app, IH; auto. discriminate.
Qed.
Lemma filter_valid p : Forall valid_component p -> filter (fun p => negb (trimSpaceEmpty p)) p = p.
Proof. induction 1; simpl; auto. rewrite valid_not_blank by auto. simpl. congruence. Qed.
Lemma newPathSpec_join p : Forall valid_component p -> newPathSpec (join p) = p.
Proof.
  intros F. destruct p as [|x p]; [reflexivity|]. unfold newPathSpec.
  rewrite split_join; [apply filter_valid; auto| |discriminate].
  eapply Forall_impl; [|exact F]. intros a H; apply H.
Qed.
Lemma split_slash_app a b : splitSlash (a ++ "/" ++ b) = splitSlash a ++ splitSlash b.
Proof.
  induction a as [|c a IH].
  - reflexivity.
  - change ((String c a ++ "/" ++ b)%string) with (String c (a ++ "/" ++ b)). simpl.
    destruct (is_slash c); [simpl in IH; rewrite IH; reflexivity|].
    simpl in IH. rewrite IH. destruct (splitSlash a) eqn:E; [now apply splitSlash_nonempty in E|reflexivity].
Qed.
Lemma newPathSpec_app a b : newPathSpec (a ++ "/" ++ b) = newPathSpec a ++ newPathSpec b.
Proof. unfold newPathSpec. rewrite split_slash_app, filter_app. reflexivity. Qed.
Lemma newPathSpec_slash b : newPathSpec (String "/" b) = newPathSpec b.
Proof. reflexivity. Qed.
