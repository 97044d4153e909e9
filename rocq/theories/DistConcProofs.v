(** The bodies of DistConc.v do what the functions of DistModel.v say; concurrent use is linearizable. *)
From Coq Require Import Lia.
From Verif Require Import GoBase GoVal UnitsModel DurationModel FloatBase.
From stdpp Require Import list.
From Verif Require Import DistModel MonitorModel MonitorSpec MonitorProofs DistConc.
Local Open Scope N_scope.

Section Eval.
  Context {A : num} {R : Type}.
  Notation P := (prog (dist A) R).
  Implicit Types (d : dist A) (k : P).
  Lemma eval_count idx (none : P) some d : eval (countP idx none some) d = match d_counts d !! idx with Some c => eval (some c) d | None => eval none d end.
  Proof. unfold countP. rewrite eval_rd. by destruct (d_counts d !! idx). Qed.
  Lemma incr_lookup idx cs c : cs !! idx = Some c → incr idx cs = <[idx := uwrap64 (c + 1)]> cs.
  Proof.
    intros H. unfold incr. apply list_eq. intros i. destruct (decide (i = idx)) as [->|N].
    - rewrite list_lookup_alter, H, list_lookup_insert; [done|by eapply lookup_lt_Some].
    - by rewrite list_lookup_alter_ne, list_lookup_insert_ne.
  Qed.
  Lemma incr_none idx cs : cs !! idx = None → incr idx cs = cs.
  Proof.
    intros H. unfold incr. apply list_eq. intros i. destruct (decide (i = idx)) as [->|N]; [by rewrite list_lookup_alter, H|by rewrite list_lookup_alter_ne].
  Qed.
  (** counts[idx]++ *)
  Lemma eval_incr idx k d : eval (countP idx k (λ c, wr (set_nth idx (uwrap64 (c + 1))) k)) d = eval k (set_counts (incr idx (d_counts d)) d).
  Proof.
    rewrite eval_count. destruct (d_counts d !! idx) as [c|] eqn:E.
    - rewrite eval_wr. unfold set_nth. by rewrite (incr_lookup _ _ _ E).
    - rewrite incr_none by done. by destruct d.
  Qed.
  Lemma eval_extremes v k d : eval (extremesP v k) d =
    eval k (if nlt v (d_min d) then set_minmax v (d_max d) d else if nlt (d_max d) v then set_minmax (d_min d) v d else d).
  Proof. unfold extremesP. rewrite eval_rd. destruct (nlt v (d_min d)); [done|]. rewrite eval_rd. by destruct (nlt (d_max d) v). Qed.
  Lemma eval_add v ts k d : eval (addP v ts k) d = eval k (add v ts d).
  Proof.
    unfold addP. rewrite eval_rd. cbv zeta. rewrite eval_wr, eval_incr, eval_rd, eval_wr, eval_rd. unfold add. cbv zeta.
    set (d1 := set_total _ _). destruct (N.eqb (d_count d1) 0); [done|]. rewrite eval_extremes. done.
  Qed.
  Lemma eval_update o v ts (k : outcome → P) d : eval (updateP o v ts k) d = eval (k (fst (update o v ts d))) (snd (update o v ts d)).
  Proof.
    unfold updateP, update. rewrite eval_rd. destruct (negb (d_notcum d)); [done|]. rewrite eval_rd. destruct (N.eqb (d_count d) 0); [done|].
    rewrite eval_wr, eval_rd. cbv zeta. rewrite eval_incr, eval_count. set (d1 := set_counts _ _). cbn [d_pieces set_ts].
    unfold decr. destruct (d_counts d1 !! findDistributionIndex (d_pieces d) o) as [c|]; [|done]. destruct (N.eqb c 0); [done|].
    rewrite eval_wr, eval_rd, eval_wr, eval_extremes. done.
  Qed.
  Lemma eval_remove v ts (k : outcome → P) d : eval (removeP v ts k) d = eval (k (fst (remove v ts d))) (snd (remove v ts d)).
  Proof.
    unfold removeP, remove. rewrite eval_rd. destruct (negb (d_notcum d)); [done|]. rewrite eval_rd. destruct (N.eqb (d_count d) 0); [done|].
    rewrite eval_wr, eval_rd. cbv zeta. rewrite eval_count. set (d1 := set_ts ts d). unfold decr. change (d_pieces d1) with (d_pieces d).
    destruct (d_counts d1 !! findDistributionIndex (d_pieces d) v) as [c|]; [|done]. destruct (N.eqb c 0); done.
  Qed.
  Lemma eval_find n : ∀ valueIdx start i (k : option (nat * N * N) → P) d, n = length (drop i (d_counts d)) →
    eval (findP n valueIdx start i k) d = eval (k (find_piece (drop i (d_counts d)) valueIdx start i)) d.
  Proof.
    induction n as [|n IH]; intros valueIdx start i k d L; cbn [findP].
    - by destruct (drop i (d_counts d)).
    - rewrite eval_count. destruct (d_counts d !! i) as [c|] eqn:E.
      + rewrite (drop_S _ c i E). simpl. destruct (N.leb c (usub64 valueIdx start)); [|done]. apply IH. rewrite (drop_S _ c i E) in L. simpl in L. lia.
      + apply lookup_ge_None in E. rewrite drop_ge in L by done. done.
  Qed.
  Lemma eval_index valueIdx (k : option A → P) d : eval (indexP valueIdx k) d = eval (k (indexToValue d valueIdx)) d.
  Proof.
    unfold indexP, indexToValue. rewrite eval_rd, eval_find by done. rewrite drop_0. destruct (find_piece _ _ _ _) as [[[i start] c]|]; [|done].
    rewrite !eval_rd. cbv zeta. by destruct (d_pieces d !! i).
  Qed.
  Lemma eval_median (k : option A → P) d : eval (medianP k) d = eval (k (calculateMedian d)) d.
  Proof.
    unfold medianP, calculateMedian. rewrite eval_rd. destruct (N.leb (d_count d) 2); [done|]. rewrite eval_rd. destruct (N.eqb (d_count d mod 2) 0).
    - rewrite eval_rd, eval_index, eval_rd, eval_index. done.
    - rewrite eval_rd, eval_index. done.
  Qed.
  Lemma eval_breakdown ps : ∀ i acc (k : list (piece A * N) → P) d, eval (breakdownP ps i acc k) d = eval (k (acc ++ zip ps (drop i (d_counts d)))) d.
  Proof.
    induction ps as [|p ps IH]; intros i acc k d; cbn [breakdownP]; [by rewrite app_nil_r|]. rewrite eval_count. destruct (d_counts d !! i) as [c|] eqn:E.
    - rewrite (drop_S _ c i E), IH. simpl. by rewrite <- app_assoc.
    - apply lookup_ge_None in E. rewrite drop_ge by done. simpl. by rewrite app_nil_r.
  Qed.
  Lemma eval_snapshot (k : option (snapshot A) → P) d : eval (snapshotP k) d = eval (k (Snapshot d)) d.
  Proof.
    unfold snapshotP, Snapshot. rewrite eval_rd, eval_breakdown, drop_0. cbv zeta. rewrite eval_rd. destruct (N.eqb (d_count d) 0); [done|].
    rewrite !eval_rd, eval_median, !eval_rd. by destruct (calculateMedian d).
  Qed.
  Lemma ro_count idx (none : P) some : readonly none → (∀ c, readonly (some c)) → readonly (countP idx none some).
  Proof. intros H1 H2. apply readonly_rd. intros [c|]; auto. Qed.
  Lemma ro_find n : ∀ valueIdx start i (k : option (nat * N * N) → P), (∀ o, readonly (k o)) → readonly (findP n valueIdx start i k).
  Proof. induction n as [|n IH]; intros valueIdx start i k H; simpl; [auto|]. apply ro_count; [auto|]. intros c. destruct (N.leb c (usub64 valueIdx start)); auto. Qed.
  Lemma ro_index valueIdx (k : option A → P) : (∀ o, readonly (k o)) → readonly (indexP valueIdx k).
  Proof.
    intros H. apply readonly_rd. intros n. apply ro_find. intros [[[i start] c]|]; [|auto]. do 3 (apply readonly_rd; intros ?). cbv zeta. by destruct (_ !! i).
  Qed.
  Lemma ro_median (k : option A → P) : (∀ o, readonly (k o)) → readonly (medianP k).
  Proof.
    intros H. apply readonly_rd. intros n. destruct (N.leb n 2); [by do 2 (apply readonly_rd; intros ?)|]. apply readonly_rd. intros n'. destruct (N.eqb (n' mod 2) 0).
    - apply readonly_rd. intros ?. apply ro_index. intros a. apply readonly_rd. intros ?. apply ro_index. auto.
    - apply readonly_rd. intros ?. by apply ro_index.
  Qed.
  Lemma ro_breakdown ps : ∀ i acc (k : list (piece A * N) → P), (∀ o, readonly (k o)) → readonly (breakdownP ps i acc k).
  Proof. induction ps as [|p ps IH]; intros i acc k H; simpl; [auto|]. apply ro_count; auto. Qed.
  Lemma ro_snapshot (k : option (snapshot A) → P) : (∀ o, readonly (k o)) → readonly (snapshotP k).
  Proof.
    intros H. apply readonly_rd. intros ps. apply ro_breakdown. intros bdn. apply readonly_rd. intros n. destruct (N.eqb n 0); [by do 2 (apply readonly_rd; intros ?)|].
    do 4 (apply readonly_rd; intros ?). apply ro_median. intros o. do 5 (apply readonly_rd; intros ?). auto.
  Qed.
End Eval.
Lemma eval_value v (k : string + float64 → DP) d : eval (valueP v k) d = eval (k (valueToFloat d v)) d.
Proof.
  unfold valueP, valueToFloat, goDurationToFloat. rewrite eval_rd. destruct (negb (d_unitSet d)); [done|]. by destruct v.
Qed.
Lemma dist_body c d : eval (dbody c) d = dist_seq c d.
Proof.
  destruct c as [[u|v ts|o v ts|v ts]| | |]; cbn [dbody dist_seq callf].
  - unfold newValueForDist, SetUnit. rewrite eval_rd. by destruct (negb (d_unitSet d)).
  - rewrite eval_value. unfold AddWithTs. destruct (valueToFloat d v); [done|]. by rewrite eval_add.
  - rewrite eval_value. unfold UpdateWithTs. destruct (valueToFloat d o); [done|]. rewrite eval_value. destruct (valueToFloat d v); [done|]. rewrite eval_update. by destruct (update _ _ _ d).
  - rewrite eval_value. unfold RemoveWithTs. destruct (valueToFloat d v); [done|]. rewrite eval_remove. by destruct (remove _ _ d).
  - by rewrite eval_snapshot.
  - done.
  - done.
Qed.
Lemma dist_readonly c : dmode c = Rd → readonly (dbody c).
Proof. destruct c as [| | |]; try done. intros _. apply ro_snapshot. intros o. constructor. Qed.
Lemma dist_linearizable d0 tr c : exec dist_monitor (start dist_monitor d0) tr c → linearizable dist_monitor dist_seq d0 tr.
Proof. apply monitor_linearizable; [exact dist_body|exact dist_readonly]. Qed.
Lemma calls_snoc cs c d : snd (callsf (cs ++ [c]) d) = snd (callf c (snd (callsf cs d))).
Proof.
  revert d. induction cs as [|c' cs IH]; intros d; simpl.
  - by destruct (callf c d).
  - destruct (callf c' d) as [r d1]. specialize (IH d1). destruct (callsf (cs ++ [c]) d1), (callsf cs d1). done.
Qed.
Lemma sequential_changes d0 l d : sequential dist_monitor dist_seq d0 l d → d = snd (callsf (changes l) d0).
Proof.
  induction 1 as [|l d1 t c d2 r S IH E]; [done|]. unfold changes in *. rewrite omap_app. simpl. destruct c as [c| | |]; simpl in E; try (injection E as <- <-; by rewrite app_nil_r).
  rewrite calls_snoc, <- IH. destruct (callf c d1). by injection E as <- <-.
Qed.
Lemma dist_snapshot d0 tr c t o : exec dist_monitor (start dist_monitor d0) tr c → LRet (M := dist_monitor) t (RSnapshot o) ∈ tr →
  ∃ l1 l2, linearization dist_monitor dist_seq d0 tr (l1 ++ (t, KSnapshot, RSnapshot o) :: l2) ∧ o = Snapshot (snd (callsf (changes l1) d0)).
Proof.
  intros E H. destruct (dist_linearizable d0 tr c E) as [lin L]. pose proof L as (_ & [s S] & _ & R & _). destruct (R _ _ H) as [c0 I].
  apply elem_of_list_split in I as (l1 & l2 & ->). destruct (sequential_split _ _ _ _ _ _ _ _ _ S) as (s1 & s2 & S1 & S2). apply sequential_changes in S1 as ->.
  destruct c0 as [c0| | |]; simpl in S2; [by destruct (callf c0 _)| |done|done]. injection S2 as <- <-. by exists l1, l2.
Qed.
