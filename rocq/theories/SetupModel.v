(** Model of the metrics that exist by default (go/tricorder/setup.go, go/tricorder/wrapper) and of RegisterFlags
    (metric.go:1750-1799).

    runtime, syscall, os and flag are inputs: what they return is given by the events below. initDefaultMetrics and
    RegisterFlags are modelled without concurrent calls into the registry (the first runs in init, before main). The
    variables of a group are written by its update function only; when it runs is RegionModel.v. *)
From Verif Require Import GoBase GoVal UnitsModel DurationModel TypesModel FloatBase.
From stdpp Require Import gmap strings.
From Verif Require Import ReflectModel ListModel ValueModel.
From Verif Require Import PathModel RegistryModel HttpModel.
Local Open Scope Z_scope.
Local Open Scope string_scope.
Local Open Scope list_scope.

(** ** Resource usage *)
(** wrapper/syscall_linux.go:7-10, syscall_darwin.go:7-10 Timeval *)
Record timeval := MkTimeval { tv_sec : Z; tv_usec : Z }.
(** wrapper/syscall_linux.go:12-29, syscall_darwin.go:12-29 Rusage; also syscall.Rusage, whose fields are signed integers
    of at most 64 bits *)
Record usage := MkUsage {
  u_utime : timeval; u_stime : timeval;
  u_maxrss : Z; u_ixrss : Z; u_idrss : Z; u_isrss : Z;
  u_minflt : Z; u_majflt : Z; u_nswap : Z; u_inblock : Z; u_oublock : Z;
  u_msgsnd : Z; u_msgrcv : Z; u_nsignals : Z; u_nvcsw : Z; u_nivcsw : Z }.
Inductive os := Linux | Darwin.
(** x << 10 for an int64 x *)
Definition shl10 (x : Z) : Z := wrap64 (x * 1024).
(** wrapper/syscall_linux.go:31-54, syscall_darwin.go:31-54 Getrusage: [sys] is what syscall.Getrusage reports, None an
    error, [old] the target, which is returned updated *)
Definition Getrusage (o : os) (sys : option usage) (old : usage) : usage :=
  match sys with
  | None => old
  | Some k =>
      let size := match o with Linux => shl10 | Darwin => λ x, x end in
      MkUsage (MkTimeval (tv_sec (u_utime k)) (tv_usec (u_utime k))) (MkTimeval (tv_sec (u_stime k)) (tv_usec (u_stime k)))
        (size (u_maxrss k)) (size (u_ixrss k)) (size (u_idrss k)) (u_isrss old)
        (u_minflt k) (u_majflt k) (u_nswap k) (u_inblock k) (u_oublock k)
        (u_msgsnd k) (u_msgrcv k) (u_nsignals k) (u_nvcsw k) (u_nivcsw k)
  end.
(** setup.go:17-19 timeValToDuration: time.Second is 10^9, time.Nanosecond is 1 *)
Definition timeValToDuration (v : timeval) : Z := wrap64 (wrap64 (tv_sec v * time_Second) + wrap64 (tv_usec v * time_Nanosecond)).

(** ** The variables behind the default metrics *)
Record proc := MkProc {
  p_totalMemory : Z;                                                       (* setup.go:23 *)
  p_numGoroutines : Z; p_resourceUsage : usage;                            (* setup.go:40-41 *)
  p_userTime : Z; p_sysTime : Z; p_maxResidentSetSize : Z;                 (* setup.go:42-44 *)
  p_goVersion : string; p_name : string; p_programArgs : string;           (* setup.go:22, 39, 168-169 *)
  p_startTime : gotime;                                                    (* http.go:17 *)
  p_openFiles : option Z }.  (* what listing /proc/self/fd would give now; None = an error *)
Definition zero_usage : usage := MkUsage (MkTimeval 0 0) (MkTimeval 0 0) 0 0 0 0 0 0 0 0 0 0 0 0 0 0.
(** setup.go:13-15 getProgramArgs of os.Args[1:] *)
Definition getProgramArgs (args : list string) : string := join_bar args.
(** setup.go:21-44: the variables before any update; os.Args = name :: args *)
Definition initial (version name : string) (args : list string) (start : gotime) (files : option Z) : proc :=
  MkProc 0 0 zero_usage 0 0 0 version name (getProgramArgs args) start files.
(** setup.go:25-32: the update function of memStatsGroup; [sys] and [released] are MemStats.Sys and HeapReleased *)
Definition memoryUpdate (sys released : Z) (s : proc) : proc :=
  MkProc (if (released <=? sys)%Z then sys - released else p_totalMemory s)
    (p_numGoroutines s) (p_resourceUsage s) (p_userTime s) (p_sysTime s) (p_maxResidentSetSize s)
    (p_goVersion s) (p_name s) (p_programArgs s) (p_startTime s) (p_openFiles s).
(** setup.go:46-53: the update function of resourceUsageGroup *)
Definition resourceUpdate (o : os) (goroutines : Z) (sys : option usage) (s : proc) : proc :=
  let u := Getrusage o sys (p_resourceUsage s) in
  MkProc (p_totalMemory s) goroutines u (timeValToDuration (u_utime u)) (timeValToDuration (u_stime u)) (u_maxrss u)
    (p_goVersion s) (p_name s) (p_programArgs s) (p_startTime s) (p_openFiles s).
(** Everything that writes the variables: the two update functions; files are opened and closed at any time. *)
Inductive pevent := EvMemory (sys released : Z) | EvUsage (goroutines : Z) (sys : option usage) | EvFiles (files : option Z).
Definition pstep (o : os) (s : proc) (e : pevent) : proc :=
  match e with
  | EvMemory sys released => memoryUpdate sys released s
  | EvUsage g sys => resourceUpdate o g sys s
  | EvFiles f => MkProc (p_totalMemory s) (p_numGoroutines s) (p_resourceUsage s) (p_userTime s) (p_sysTime s) (p_maxResidentSetSize s)
                   (p_goVersion s) (p_name s) (p_programArgs s) (p_startTime s) f
  end.
Definition after (o : os) (es : list pevent) (s : proc) : proc := foldl (pstep o) s es.

(** setup.go:181-192 countOpenFileDescriptors *)
Definition countOpenFileDescriptors (s : proc) : Z := match p_openFiles s with Some n => n | None => -1 end.

(** ** Registration *)
Definition int_ptr (f : proc → Z) : ValueModel.mspec proc := SpPtr (RBasic KInt64 None) (λ s, RVBasic KInt64 None (f s)).
Definition str_ptr (f : proc → string) : ValueModel.mspec proc := SpPtr (RBasic KString None) (λ s, RVBasic KString None (f s)).
Definition usage_ptr (f : usage → Z) : ValueModel.mspec proc := int_ptr (λ s, f (p_resourceUsage s)).
(** What is registered, in the order of setup.go:33-170: path, unit, description, group (0: none, 1: memStatsGroup,
    2: resourceUsageGroup) and object. [files]: countOpenFileDescriptors() >= 0 at setup.go:125. *)
Definition defaults (files : bool) : list (string * unit_t * string * nat * ValueModel.mspec proc) :=
  [ ("/proc/memory/total", UByte, "System memory currently allocated to process", 1%nat, SpPtr (RBasic KUint64 None) (λ s, RVBasic KUint64 None (p_totalMemory s)));
    ("/proc/cpu/user", USecond, "User CPU time used", 2%nat, SpPtr RDuration (λ s, RVDuration (p_userTime s)));
    ("/proc/cpu/sys", USecond, "User CPU time used", 2%nat, SpPtr RDuration (λ s, RVDuration (p_sysTime s)));
    ("/proc/go/num-goroutines", UNone, "Number of goroutines", 2%nat, SpPtr (RBasic KInt None) (λ s, RVBasic KInt None (p_numGoroutines s)));
    ("/proc/go/version", UNone, "Version of Go runtime", 0%nat, str_ptr p_goVersion);
    ("/proc/memory/max-resident-set-size", UByte, "Maximum resident set size", 2%nat, int_ptr p_maxResidentSetSize);
    ("/proc/memory/shared", UByte, "Integral shared memory size", 2%nat, usage_ptr u_ixrss);
    ("/proc/memory/unshared-data", UByte, "Integral unshared data size", 2%nat, usage_ptr u_idrss);
    ("/proc/memory/unshared-stack", UByte, "Integral unshared stack size", 2%nat, usage_ptr u_isrss);
    ("/proc/memory/soft-page-fault", UNone, "Soft page faults", 2%nat, usage_ptr u_minflt);
    ("/proc/memory/hard-page-fault", UNone, "Hard page faults", 2%nat, usage_ptr u_majflt);
    ("/proc/memory/swaps", UNone, "Swaps", 2%nat, usage_ptr u_nswap);
    ("/proc/io/input", UNone, "Block input operations", 2%nat, usage_ptr u_inblock) ] ++
  (if files then [("/proc/io/num-open-file-descriptors", UNone, "Number of open file descriptors", 0%nat,
     SpFunc false 0 [RBasic KInt None] (λ s, RVBasic KInt None (countOpenFileDescriptors s)))] else []) ++
  [ ("/proc/io/output", UNone, "Block output operations", 2%nat, usage_ptr u_oublock);
    ("/proc/ipc/sent", UNone, "IPC messages sent", 2%nat, usage_ptr u_msgsnd);
    ("/proc/ipc/received", UNone, "IPC messages received", 2%nat, usage_ptr u_msgrcv);
    ("/proc/signals/received", UNone, "Signals received", 2%nat, usage_ptr u_nsignals);
    ("/proc/scheduler/involuntary-switches", UNone, "Involuntary context switches", 2%nat, usage_ptr u_nivcsw);
    ("/proc/scheduler/voluntary-switches", UNone, "Voluntary context switches", 2%nat, usage_ptr u_nvcsw);
    ("/proc/name", UNone, "Program name", 0%nat, str_ptr p_name);
    ("/proc/args", UNone, "Program args", 0%nat, str_ptr p_programArgs);
    ("/proc/start-time", UNone, "Program start time", 0%nat, SpPtr RTime (λ s, RVTime (p_startTime s))) ].
(** The i-th object is the variable i of the registry model. *)
Definition default_info (i : nat) (x : string * unit_t * string * nat * ValueModel.mspec proc) : string * minfo :=
  let '(path, u, desc, group, _) := x in (path, MkInfo (MVar i) group u desc).
Definition default_calls (files : bool) : list (string * minfo) := imap default_info (defaults files).
(** api.go:117-141 RegisterMetric, RegisterMetricInGroup; the results are ignored *)
Definition registerAll (l : list (string * minfo)) (h : heap) : heap :=
  foldl (λ h x, fst (RegistryModel.run (registerMetric root (newPathSpec x.1) x.2) h)) h l.
(** setup.go:173-179: the registry when main starts *)
Definition default_heap (files : bool) : heap := registerAll (default_calls files) init_heap.
(** what newValue (ValueModel.v) makes of the objects *)
Definition default_value (w : wordsize) (files : bool) (s0 : proc) (sp : RegistryModel.mspec) : value proc :=
  match sp with
  | MVar i => match defaults files !! i with
              | Some (_, _, _, _, obj) => match ValueModel.newValue w s0 obj with NVOk v => v | _ => MkValue (SrcVal false (λ _, None)) TBool false end
              | None => MkValue (SrcVal false (λ _, None)) TBool false
              end
  | _ => MkValue (SrcVal false (λ _, None)) TBool false
  end.

(** ** Flags *)
(** flag.Flag: [f_get] is the Get method if the value is a flag.Getter, [f_string] its String method; [f_var] the
    variable of the registry model that stands for the value *)
Record flag {W} := MkFlag { f_name : string; f_usage : string; f_get : option (W → option rval); f_string : W → string; f_var : nat }.
Arguments flag : clear implicits.
Section Flags.
  Context {W : Type} (w : wordsize).
  Definition f_value (f : flag W) : ValueModel.mspec W := SpFlag (f_get f) (f_string f).
  (** metric.go:1750-1764 toFlagGetter(f.Value).Get() *)
  Definition flag_Get (f : flag W) (s : W) : option rval :=
    match f_get f with Some g => g s | None => Some (RVBasic KString None (f_string f s)) end.
  (** metric.go:1784-1791 defaultUnit *)
  Definition defaultUnit (v : option rval) : unit_t := match v with Some (RVDuration _) => USecond | _ => UNone end.
  (** metric.go:1793-1798 flagUnit; [flagUnits] is the map written by SetFlagUnit (metric.go:1780-1782) *)
  Definition flagUnit (flagUnits : gmap string unit_t) (f : flag W) (s : W) : unit_t :=
    match flagUnits !! f_name f with Some u => u | None => defaultUnit (flag_Get f s) end.
  Definition flag_info (flagUnits : gmap string unit_t) (s : W) (f : flag W) : minfo :=
    MkInfo (match ValueModel.newValue w s (f_value f) with NVOk _ => MVar (f_var f) | NVErr _ => MBadType (f_var f) | NVPanic => MPanics (f_var f) end)
      0 (flagUnit flagUnits f s) (f_usage f).
  (** metric.go:1766-1778 registerFlags; [flags] in the order of flag.VisitAll; the boolean says that it panicked *)
  Fixpoint register_flags (flagUnits : gmap string unit_t) (s : W) (d : nat) (flags : list (flag W)) (h : heap) : heap * bool :=
    match flags with
    | [] => (h, false)
    | f :: flags =>
        match RegistryModel.run (registerMetric d (newPathSpec (f_name f)) (flag_info flagUnits s f)) h with
        | (h', MPanicked) => (h', true)
        | (h', _) => register_flags flagUnits s d flags h'
        end
    end.
  Definition registerFlags (flagUnits : gmap string unit_t) (s : W) (flags : list (flag W)) (h : heap) : heap * bool :=
    match RegistryModel.run (registerDirectory root (newPathSpec "/proc/flags")) h with
    | (h', inr _) => (h', true)
    | (h', inl d) => register_flags flagUnits s d flags h'
    end.
End Flags.
