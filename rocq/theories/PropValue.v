(** Property theorems C50, C51 and C60: values of metrics. *)
From Verif Require Import GoBase GoVal UnitsModel DurationModel TypesModel FloatBase.
From stdpp Require Import list.
From Flocq Require Import IEEE754.BinarySingleNaN.
From Verif Require Import ReflectModel ListModel ListSpec ListProofs ValueModel ValueSpec ValueProofs.

(** ** C50 *)
(** For variables, callbacks, flags, lists and distributions without declared types (or, for single values, with
    declared integer types of at least 32 bits): Kind, SubType and Bits describe the Go type of Value as documented. *)
Theorem c50_documented_partial : ∀ (W : Type) w (sp : mspec W) s0 v s m, well_typed w sp → newValue w s0 sp = NVOk v → plain_spec w sp → rpcMetric v s = Some m →
  documented_value (mm_kind m) (mm_sub m) (mm_value m) ∧ mm_bits m = documented_bits (value_type (mm_value m)).
Proof. intros W w sp s0 v s m. exact (documented_rpc w sp s0 v s m). Qed.
(** For variables and callbacks the condition is exact. *)
Theorem c50_exactly_partial : ∀ (W : Type) w (sp : mspec W) t s0 v s, well_typed w sp → (∃ f, sp = SpPtr t f ∨ sp = SpFunc false 0 [t] f) → newValue w s0 sp = NVOk v →
  ∃ m, rpcMetric v s = Some m ∧ (documented_value (mm_kind m) (mm_sub m) (mm_value m) ↔ plain t = true).
Proof. intros W w sp t s0 v s. exact (documented_iff w sp t s0 v s). Qed.
(** type Level string; a variable of this type is accepted and reported as Kind string with a Value that is no string *)
Definition level_var : mspec unit := SpPtr (RBasic KString (Some "main.Level"%string)) (λ _, RVBasic KString (Some "main.Level"%string) "high"%string).
Theorem c50_refuted : ∃ v m, well_typed W64 level_var ∧ newValue W64 tt level_var = NVOk v ∧ rpcMetric v tt = Some m ∧
  mm_kind m = TString ∧ ¬ documented_value (mm_kind m) (mm_sub m) (mm_value m).
Proof.
  eexists _, _. split; [done|]. split; [reflexivity|]. split; [reflexivity|]. split; [reflexivity|]. intros D. inversion D as [k x H| |]; subst. inversion H.
Qed.
(** The same for a list made from a []Level. *)
Definition level_list : mspec unit := SpList (λ _, MkList TString (MkSlice None (RBasic KString (Some "main.Level"%string)) 0 0 0) (MkTime 0 0)).
Theorem c50_list_refuted : (∃ st, run W64 init [EAlloc (MkArray (RBasic KString (Some "main.Level"%string)) []); ENewList (ISlice (MkSlice None (RBasic KString (Some "main.Level"%string)) 0 0 0)) false (MkTime 0 0)] = Some st ∧
    w_lists st = [MkList TString (MkSlice None (RBasic KString (Some "main.Level"%string)) 0 0 0) (MkTime 0 0)]) ∧
  ∃ v m, newValue W64 tt level_list = NVOk v ∧ rpcMetric v tt = Some m ∧ ¬ documented_value (mm_kind m) (mm_sub m) (mm_value m).
Proof.
  split; [eexists; split; vm_compute; reflexivity|]. eexists _, _. split; [reflexivity|]. split; [reflexivity|]. intros D. inversion D as [| |k x N H]; subst. inversion H.
Qed.

(** A variable of declared type "type Port uint" on a 32 bit machine; a flag; a list of []int. *)
Definition port_var : mspec nat := SpPtr (RBasic KUint (Some "main.Port"%string)) (λ n, RVBasic KUint (Some "main.Port"%string) (Z.of_nat (Nat.min n 80))).
Definition level_flag : mspec nat := SpFlag (Some (λ n, Some (RVDuration (Z.of_nat (Nat.min n 5))))) (λ _, "5ns"%string).
Definition int_array : array := MkArray (RBasic KInt None) [RVBasic KInt None 7%Z].
Definition int_list_events : list event := [EAlloc int_array; ENewList (ISlice (MkSlice None (RBasic KInt None) 0 0 1)) false (MkTime 3 0)].
Definition int_list : mspec nat := SpList (λ _, MkList Int64 (MkSlice None (RBasic KInt64 None) 1 0 1) (MkTime 3 0)).
Example c50_nonvacuous : (well_typed W32 port_var ∧ plain_spec W32 port_var ∧ ∃ v m, newValue W32 0 port_var = NVOk v ∧ rpcMetric v 90 = Some m ∧ mm_value m = MVScalar (RVBasic KUint32 None 80%Z)) ∧
  (well_typed W64 level_flag ∧ plain_spec W64 level_flag ∧ ∃ v m, newValue W64 0 level_flag = NVOk v ∧ rpcMetric v 3 = Some m ∧ mm_kind m = GoDuration) ∧
  (well_typed W64 int_list ∧ plain_spec W64 int_list ∧ ∃ v m, newValue W64 0 int_list = NVOk v ∧ rpcMetric v 3 = Some m ∧ mm_sub m = Int64).
Proof.
  split_and!.
  - intros s. split; [done|]. unfold rval_ok, kind_ok, between. rewrite andb_true_iff, Z.leb_le, Z.ltb_lt. lia.
  - done.
  - eexists _, _. split; [reflexivity|]. split; [vm_compute; reflexivity|reflexivity].
  - intros s v [= <-]. unfold rval_ok, between. rewrite andb_true_iff, Z.leb_le, Z.ltb_lt. lia.
  - exists RDuration. split; [intros s v [= <-]; done|done].
  - eexists _, _. split; [reflexivity|]. split; [vm_compute; reflexivity|reflexivity].
  - done.
  - intros s. exists int_list_events. eexists _, 0. split; [vm_compute; reflexivity|]. split; [|reflexivity].
    split; intros *; intros Hin%elem_of_list_In; simpl in Hin; destruct Hin as [Hin|[Hin|[]]]; try discriminate Hin; injection Hin; intros; subst; reflexivity.
  - eexists _, _. split; [reflexivity|]. split; [vm_compute; reflexivity|reflexivity].
Qed.

(** ** C51 *)
(** A metric is left out of a listing exactly when it is a float that is NaN or infinite in the state in which
    IsInfNaN evaluates it. *)
Theorem c51_left_out_partial : ∀ (W : Type) w (sp : mspec W) s0 v s1 s2, well_typed w sp → readable sp → newValue w s0 sp = NVOk v →
  (collect v s1 s2 = Some None ↔ ∃ m x, rpcMetric v s1 = Some m ∧ mm_value m = MVScalar x ∧ number x = false).
Proof. intros W w sp s0 v s1 s2. exact (left_out w sp s0 v s1 s2). Qed.
(** If no metric changes between its two evaluations, no single value in a listing is NaN or infinite. *)
Theorem c51_listing_partial : ∀ (W : Type) w (ms : list (value W * W * W)) l,
  (∀ v s1 s2, (v, s1, s2) ∈ ms → (∃ sp s0, well_typed w sp ∧ readable sp ∧ newValue w s0 sp = NVOk v) ∧ rpcMetric v s1 = rpcMetric v s2) →
  collectAll ms = Some l → ∀ m x, m ∈ l → mm_value m = MVScalar x → number x = true.
Proof. intros W w ms l. exact (listing_numbers w ms l). Qed.
Definition f1 : float64 := B754_finite (prec:=53) (emax:=1024) false 4503599627370496 (-52) eq_refl.
(** A callback that returns 1 and then NaN gets NaN into a listing. *)
Definition flipping : mspec bool := SpFunc false 0 [RBasic KFloat64 None] (λ b : bool, RVBasic KFloat64 None (if b then (B754_nan : float64) else f1)).
Theorem c51_refuted : ∃ v m x, well_typed W64 flipping ∧ readable flipping ∧ newValue W64 false flipping = NVOk v ∧
  collectAll [(v, false, true)] = Some [m] ∧ mm_value m = MVScalar x ∧ number x = false.
Proof. eexists _, _, _. split; [done|]. split; [done|]. split; [reflexivity|]. split; [vm_compute; reflexivity|]. split; reflexivity. Qed.
(** Lists are not checked at all. *)
Definition nan_array : array := MkArray (RBasic KFloat64 None) [RVBasic KFloat64 None (B754_nan : float64)].
Definition nan_slice : slice := MkSlice None (RBasic KFloat64 None) 0 0 1.
Theorem c51_list_refuted : ∃ st al v, run W64 init [EAlloc nan_array; ENewList (ISlice nan_slice) false (MkTime 0 0)] = Some st ∧ w_lists st !! 0 = Some al ∧
  newValue W64 tt (SpList (λ _, al)) = NVOk v ∧ collectAll [(v, tt, tt)] = Some [MkMsg TList Float64 64 (MVSlice (l_slice al))] ∧
  number <$> cells (w_heap st) (l_slice al) = [false].
Proof. eexists _, _, _. split; [vm_compute; reflexivity|]. split; [reflexivity|]. split; [reflexivity|]. split; vm_compute; reflexivity. Qed.
Definition stable_var : mspec bool := SpPtr (RBasic KFloat64 None) (λ b : bool, RVBasic KFloat64 None (if b then (B754_infinity true : float64) else f1)).
Example c51_nonvacuous : ∃ v, newValue W64 false stable_var = NVOk v ∧ well_typed W64 stable_var ∧ readable stable_var ∧
  rpcMetric v true = rpcMetric v true ∧ collectAll [(v, true, true); (v, false, false)] = Some [MkMsg Float64 Unknown 64 (MVScalar (RVBasic KFloat64 None f1))].
Proof. eexists. split; [reflexivity|]. split; [done|]. split; [done|]. split; [reflexivity|]. vm_compute. reflexivity. Qed.

(** ** C60 *)
Theorem c60_readable_partial : ∀ (W : Type) w (sp : mspec W) s0 v s, well_typed w sp → readable sp → newValue w s0 sp = NVOk v →
  (∃ m, rpcMetric v s = Some m) ∧ ∃ b, IsInfNaN v s = Some b.
Proof. intros W w sp s0 v s. exact (reads w sp s0 v s). Qed.
(** func(int) int64 is accepted; every attempt to read the metric panics. *)
Definition with_argument : mspec unit := SpFunc false 1 [RBasic KInt64 None] (λ _, RVBasic KInt64 None 1%Z).
Theorem c60_refuted : well_typed W64 with_argument ∧ ∃ v, newValue W64 tt with_argument = NVOk v ∧ rpcMetric v tt = None ∧ collectAll [(v, tt, tt)] = None.
Proof. split; [done|]. eexists. split; [reflexivity|]. split; reflexivity. Qed.
Example c60_nonvacuous : readable port_var ∧ readable level_flag ∧ readable flipping.
Proof. split; [done|]. split; [|done]. exists RDuration. intros s. eexists. split; reflexivity. Qed.

(** ** C61 *)
Theorem c61_current : ∀ (W : Type) w (sp : mspec W) s0 v s c, well_typed w sp → readable sp → newValue w s0 sp = NVOk v → current sp s = Some c →
  ∃ m x, rpcMetric v s = Some m ∧ mm_value m = MVScalar x ∧ content_of x = c.
Proof. intros W w sp s0 v s c. exact (reports_current w sp s0 v s c). Qed.
Definition nil_time : mspec nat := SpFunc false 0 [RTimePtr] (λ n, RVTimePtr (match n with O => None | _ => Some (MkTime (Z.of_nat n) 0) end)).
(** A flag of an unsupported type reports its text. *)
Definition ip_flag : mspec nat := SpFlag (Some (λ n, Some (RVOther "net.IP" (N.of_nat n)))) (λ n, match n with O => "0.0.0.0" | _ => "127.0.0.1" end%string).
Example c61_nonvacuous : (current port_var 100 = Some (CtInt 80) ∧ readable port_var) ∧
  (well_typed W32 nil_time ∧ readable nil_time ∧ current nil_time 0 = Some (CtTime (MkTime (-62135596800) 0)) ∧ ∃ v, newValue W32 0 nil_time = NVOk v) ∧
  (well_typed W32 ip_flag ∧ readable ip_flag ∧ current ip_flag 3 = Some (CtString "127.0.0.1"%string) ∧ ∃ v, newValue W32 0 ip_flag = NVOk v).
Proof.
  split_and!; try reflexivity; try done; try (eexists; reflexivity).
  - intros s v E. apply (f_equal (from_option (rval_ok W32) true)) in E. symmetry. exact E.
  - exists (ROther "net.IP"). intros s. eexists. split; reflexivity.
Qed.
Print Assumptions c61_current.
Print Assumptions c50_documented_partial.
Print Assumptions c50_exactly_partial.
Print Assumptions c50_refuted.
Print Assumptions c50_list_refuted.
Print Assumptions c51_left_out_partial.
Print Assumptions c51_listing_partial.
Print Assumptions c51_refuted.
Print Assumptions c51_list_refuted.
Print Assumptions c60_readable_partial.
Print Assumptions c60_refuted.
