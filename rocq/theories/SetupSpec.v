(** What the default metrics and the metrics of flags should report. *)
From Verif Require Import GoBase GoVal UnitsModel DurationModel TypesModel FloatBase MessagesModel.
From stdpp Require Import gmap strings.
From Verif Require Import ReflectModel ListModel ValueModel.
From Verif Require Import PathModel PathSpec RegistryModel RegistrySpec HttpModel HttpSpec SetupModel.
Local Open Scope Z_scope.
Local Open Scope string_scope.
Local Open Scope list_scope.

(** The latest figures of each kind in a history of updates. *)
Definition last_usage (es : list pevent) (u : usage) : Prop :=
  ∃ es1 g es2, es = es1 ++ EvUsage g (Some u) :: es2 ∧ ∀ g' u', EvUsage g' (Some u') ∉ es2.
Definition last_goroutines (es : list pevent) (g : Z) : Prop :=
  ∃ es1 u es2, es = es1 ++ EvUsage g u :: es2 ∧ ∀ g' u', EvUsage g' u' ∉ es2.
(** of the readings of the memory statistics, the last that makes sense *)
Definition last_memory (es : list pevent) (sys released : Z) : Prop :=
  ∃ es1 es2, es = es1 ++ EvMemory sys released :: es2 ∧ (released ≤ sys)%Z ∧ ∀ sys' released', EvMemory sys' released' ∈ es2 → (sys' < released')%Z.

(** getrusage(2): the memory figures are kilobytes on Linux and bytes on Darwin; the times are seconds and microseconds. *)
Definition unit_bytes (o : os) : Z := match o with Linux => 1024 | Darwin => 1 end.
Definition cpu_ns (v : timeval) : Z := tv_sec v * 1000000000 + tv_usec v * 1000.
Definition figures (o : os) (u : usage) : list (string * unit_t * Z) :=
  [ ("/proc/memory/max-resident-set-size", "Bytes", unit_bytes o * u_maxrss u);
    ("/proc/memory/shared", "Bytes", unit_bytes o * u_ixrss u);
    ("/proc/memory/unshared-data", "Bytes", unit_bytes o * u_idrss u);
    ("/proc/memory/soft-page-fault", "None", u_minflt u);
    ("/proc/memory/hard-page-fault", "None", u_majflt u);
    ("/proc/memory/swaps", "None", u_nswap u);
    ("/proc/io/input", "None", u_inblock u);
    ("/proc/io/output", "None", u_oublock u);
    ("/proc/ipc/sent", "None", u_msgsnd u);
    ("/proc/ipc/received", "None", u_msgrcv u);
    ("/proc/signals/received", "None", u_nsignals u);
    ("/proc/scheduler/involuntary-switches", "None", u_nivcsw u);
    ("/proc/scheduler/voluntary-switches", "None", u_nvcsw u) ].
(** the sizes fit in an int64 when they are bytes; the times fit in a time.Duration *)
Definition sizes_fit (o : os) (u : usage) : Prop := in64 (unit_bytes o * u_maxrss u) ∧ in64 (unit_bytes o * u_ixrss u) ∧ in64 (unit_bytes o * u_idrss u).
Definition time_fits (v : timeval) : Prop := (0 ≤ tv_sec v ∧ 0 ≤ tv_usec v < 1000000)%Z ∧ in64 (cpu_ns v).

(** GetMetric for [path] answers with the value v, wherever in the life of the program it is asked, as long as nobody
    changed what is registered there. *)
Definition reported (w : wordsize) (files : bool) (s0 s : proc) (path : string) (u : unit_t) (v : goval) : Prop :=
  ∀ arrays stamp group h p, components path p → answer h p = answer (default_heap files) p →
  ∃ m, rpcGetMetric (default_value w files s0) arrays stamp group (looked_up h path) s = Some (inl m) ∧ m_path m = path ∧ m_unit m = u ∧ m_value m = v.

(** ** Flags *)
Definition flags_dir : list string := ["proc"; "flags"].
(** no flag's path is, or is below, the path of another one *)
Fixpoint separate (ps : list (list string)) : Prop :=
  match ps with
  | [] => True
  | p :: ps => Forall (λ q, ¬ below p q ∧ ¬ below q p) ps ∧ separate ps
  end.
(** api.go:437-440 *)
Definition documented_unit {W} (units : gmap string unit_t) (f : flag W) (s : W) (u : unit_t) : Prop :=
  match units !! f_name f with
  | Some u' => u = u'
  | None => (∃ g d, f_get f = Some g ∧ g s = Some (RVDuration d)) ∧ u = "Seconds" ∨
            ¬ (∃ g d, f_get f = Some g ∧ g s = Some (RVDuration d)) ∧ u = "None"
  end.
