(** Property theorems C82: the text form of a distribution. *)
From Verif Require Import GoBase StrLemmas GoVal UnitsModel DurationModel DurationProofs TypesModel FloatBase TextSpec MessagesModel.
From stdpp Require Import gmap strings sorting.
From Verif Require DistModel.
From Verif Require Import DistSpec DistApi DistMsgModel DistTextSpec DistTextProofs.
From Verif Require Import ReflectModel ListModel ValueModel ValueSpec FormatModel.
From Flocq Require Import IEEE754.BinarySingleNaN.
From Verif Require Import PathModel PathSpec PathProofs RegistryModel RegistrySpec RegistryProofs RegistryConc RegistryList RegistryWitness HttpModel HttpSpec HttpWitness HttpProofs.
From Verif Require Import PropDist.
Import DistModel.
Local Open Scope string_scope.
Local Open Scope list_scope.

(** The text request for a distribution can be read: six statistics, then the end points of each bucket that has values with
    their number; numbers of values are exact, other numbers as strconv formats them with 32 bits (FF32).
    Missing: that the statistics can be told from their texts. *)
Theorem c82_shows_partial : ∀ (W : Type) (val : RegistryModel.mspec → value W) arrays FF FF32 h path p e mi out (st : W) f es ps nc ts hist rs d s,
  (∀ x, no_separator (FF32 x)) → components path p → answer h p = Some (NMetric e) → e_obj e = OMetric mi → v_src (val (mi_spec mi)) = SrcDist f →
  newBucketerFromEndpoints es = Some ps → performs hist (newDistributionWithTimeStamp ps nc ts) = (rs, d) → (N.of_nat (length hist) < 2 ^ 64)%N →
  Snapshot d = Some s → f st = distMessage s →
  ∃ b, textHandler val arrays FF FF32 (looked_up h path) out st = Resp 200 (BText b) ∧ shows_distribution FF32 es b s (d_counts d).
Proof. exact dist_read. Qed.

(** The full property also has: distributions with the same text have the same statistics. *)
Definition text_tells (FF32 : float64 → string) : Prop := ∀ (W : Type) (val : RegistryModel.mspec → value W) arrays FF h path p e mi out (st st' : W) f es ps nc ts hist rs d s hist' rs' d' s',
  components path p → answer h p = Some (NMetric e) → e_obj e = OMetric mi → v_src (val (mi_spec mi)) = SrcDist f → newBucketerFromEndpoints es = Some ps →
  performs hist (newDistributionWithTimeStamp ps nc ts) = (rs, d) → Snapshot d = Some s → f st = distMessage s →
  performs hist' (newDistributionWithTimeStamp ps nc ts) = (rs', d') → Snapshot d' = Some s' → f st' = distMessage s' →
  textHandler val arrays FF FF32 (looked_up h path) out st = textHandler val arrays FF FF32 (looked_up h path) out st' → s_sum s = s_sum s'.
(** It does not: 16777216 and 16777217 have the same text. *)
Definition snap_of (v : Z) : snapshot num64 :=
  match Snapshot (snd (performs [Add (fz v) (tm 1)] (newDistributionWithTimeStamp ex_ps false (tm 0)))) with Some s => s | None => @MkSnapshot num64 f64_nan f64_nan f64_nan f64_nan f64_nan 0 0 false (tm 0) [] end.
Lemma snap_some (o : option (snapshot num64)) x : match o with Some _ => true | None => false end = true → o = Some (match o with Some s => s | None => x end).
Proof. by destruct o. Qed.
Theorem c82_refuted : ∀ FF32, single_precision FF32 → ¬ text_tells FF32.
Proof.
  intros FF32 SP T.
  assert (∃ e mi, answer h0 ["b"] = Some (NMetric e) ∧ e_obj e = OMetric mi) as (e & mi & A & Oe) by (vm_compute; eexists _, _; split; reflexivity).
  assert (components "/b" ["b"]) as C by (apply newPathSpec_iff; reflexivity).
  pose (val := (λ _, MkValue (SrcDist id) Dist false) : RegistryModel.mspec → value dist_msg).
  assert (∀ v, ∃ rs d, performs [Add (fz v) (tm 1)] (newDistributionWithTimeStamp ex_ps false (tm 0)) = (rs, d)) as P by (intros v; eexists _, _; apply surjective_pairing).
  destruct (P 16777216%Z) as (rs & d & P1), (P 16777217%Z) as (rs' & d' & P2).
  assert (Snapshot d = Some (snap_of 16777216)) as S1. { change d with (snd (rs, d)). rewrite <-P1. unfold snap_of. apply snap_some. vm_compute. reflexivity. }
  assert (Snapshot d' = Some (snap_of 16777217)) as S2. { change d' with (snd (rs', d')). rewrite <-P2. unfold snap_of. apply snap_some. vm_compute. reflexivity. }
  destruct (DistApi.snap_breakdown ex_es ex_ps false (tm 0) _ rs d ex_bucketer P1 ltac:(done) _ S1) as [B1 _]. destruct (DistApi.snap_breakdown ex_es ex_ps false (tm 0) _ rs' d' ex_bucketer P2 ltac:(done) _ S2) as [B2 _].
  assert (d_counts d = d_counts d') as Dc. { change d with (snd (rs, d)). change d' with (snd (rs', d')). rewrite <-P1, <-P2. vm_compute. reflexivity. }
  assert (s_sum (snap_of 16777216) = s_sum (snap_of 16777217)) as E.
  { refine (T dist_msg val (λ _, []) (λ _, "") h0 "/b" ["b"] e mi [] (distMessage (snap_of 16777216)) (distMessage (snap_of 16777217)) id ex_es ex_ps false (tm 0) _ rs d _ _ rs' d' _ C A Oe eq_refl ex_bucketer P1 S1 eq_refl P2 S2 eq_refl _).
    rewrite (looked_up_answer h0 "/b" ["b"] C), A. unfold textHandler, textEmitMetric, info. rewrite Oe. unfold val. cbn [v_src id]. f_equal. f_equal.
    unfold textEmitDistribution.
    assert (∀ g : dist_msg → float64, nearest32 (g (distMessage (snap_of 16777216))) = nearest32 (g (distMessage (snap_of 16777217))) → FF32 (g (distMessage (snap_of 16777216))) = FF32 (g (distMessage (snap_of 16777217)))) as G
      by (intros g; apply SP).
    rewrite (G dm_min), (G dm_max), (G dm_average), (G dm_median), (G dm_sum) by (vm_compute; reflexivity).
    assert (dm_count (distMessage (snap_of 16777216)) = dm_count (distMessage (snap_of 16777217))) as -> by (vm_compute; reflexivity).
    assert (dm_ranges (distMessage (snap_of 16777216)) = dm_ranges (distMessage (snap_of 16777217))) as ->; [|reflexivity]. unfold distMessage, dm_ranges. rewrite B1, B2, Dc. reflexivity. }
  apply (f_equal (λ x : num64, Z_of_f64 x)) in E. vm_compute in E. discriminate E.
Qed.

(** The distribution of PropDist.v, with whole numbers: *)
Definition int_text (f : float64) : string := fmt_d (Z_of_f64 f).
Example c82_nonvacuous : (∀ f, no_separator (int_text f)) ∧
  option_map (λ s, textEmitDistribution int_text (distMessage s)) (Snapshot (snd (performs ex_h (newDistributionWithTimeStamp ex_ps true (tm 0))))) =
    Some ("{min:3;max:70;avg:15;median:16;sum:45;count:3;[10,20):2;[20,50):1}" +:+ newline) ∧
  read_text ("{min:3;max:70;avg:15;median:16;sum:45;count:3;[10,20):2;[20,50):1}" +:+ newline) =
    Some ([("min", "3"); ("max", "70"); ("avg", "15"); ("median", "16"); ("sum", "45"); ("count", "3")], [("10", "20", "2"); ("20", "50", "1")]).
Proof.
  split; [|split; vm_compute; reflexivity]. intros f. unfold int_text. generalize (Z_of_f64 f). intros z. destruct (Z.ltb_spec z 0).
  - unfold fmt_d. rewrite (proj2 (Z.ltb_lt z 0)) by lia. apply sep_app; [done|]. pose proof (sep_dec (Z.to_N (- z))) as D. unfold fmt_d in D. rewrite Z2N.id in D by lia.
    rewrite (proj2 (Z.ltb_ge (- z) 0)) in D by lia. exact D.
  - pose proof (sep_dec (Z.to_N z)) as D. by rewrite Z2N.id in D by lia.
Qed.
Print Assumptions c82_shows_partial.
Print Assumptions c82_refuted.
