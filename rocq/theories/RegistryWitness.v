(** Concrete executions: a scheduler that carries out a given list of instructions. *)
From stdpp Require Import gmap strings.
From Verif Require Import PathModel RegistryModel RegistryConc.

(** start call c as thread t / let thread t take one step / let thread t take n steps *)
Inductive instr := Start (t : nat) (c : call) | Go (t : nat) (n : nat).
Definition tstepf (h : heap) (s : tstate) : option (heap * tstate) :=
  match s with
  | TRun (Step o k) => Some (fst (op_sem o h), TRun (k (snd (op_sem o h))))
  | TRun (Ret (inl r)) => Some (h, TDone r)
  | TRun (Ret (inr w)) => Some (h, TList w [])
  | TList (WDir d :: w) out => Some (h, TList (map item_of (sortListEntries (entries_of h d)) ++ w) out)
  | TList (WMetric e :: w) out => Some (h, TList w (out ++ [e]))
  | TList [] out => Some (h, TDone (RList out))
  | TDone _ => None
  end.
Lemma tstepf_sound h s h' s' : tstepf h s = Some (h', s') → tstep h s h' s'.
Proof. destruct s as [[[r|w]|B o k]|[|[d|e] w] out|r]; simpl; intros [= <- <-]; by constructor. Qed.
Fixpoint go (t n : nat) (c : config) : option (list config * config) :=
  match n with
  | O => Some ([], c)
  | S n' =>
      match c_pool c !! t with
      | Some (MkThread ca s) =>
          match tstepf (c_heap c) s with
          | Some (h', s') =>
              match go t n' (MkConfig h' (<[t := MkThread ca s']> (c_pool c))) with
              | Some (l, c') => Some (c :: l, c')
              | None => None
              end
          | None => None
          end
      | None => None
      end
  end.
Definition start (t : nat) (ca : call) (c : config) : option config :=
  match c_pool c !! t, h_dirs (c_heap c) !! call_dir ca with
  | None, Some _ => Some (MkConfig (c_heap c) (<[t := MkThread ca (TRun (prog_of ca))]> (c_pool c)))
  | _, _ => None
  end.
Fixpoint exec (is : list instr) (c : config) : option (list config * config) :=
  match is with
  | [] => Some ([c], c)
  | Start t ca :: r =>
      match start t ca c with
      | Some c1 => match exec r c1 with Some (l, c') => Some (c :: l, c') | None => None end
      | None => None
      end
  | Go t n :: r =>
      match go t n c with
      | Some (l1, c1) => match exec r c1 with Some (l, c') => Some (l1 ++ l, c') | None => None end
      | None => None
      end
  end.
Lemma go_sound t n : ∀ c l1 c1, go t n c = Some (l1, c1) → ∀ l c', during c1 l c' → during c (l1 ++ l) c'.
Proof.
  induction n as [|n IH]; simpl; intros c l1 c1 E l c' D; [by injection E as <- <-|].
  destruct (c_pool c !! t) as [[ca s]|] eqn:P; [|done]. destruct (tstepf (c_heap c) s) as [[h' s']|] eqn:T; [|done].
  destruct (go t n _) as [[l2 c2]|] eqn:G; [|done]. injection E as <- <-. simpl. econstructor; [|by eapply IH].
  destruct c as [h pool]. simpl in *. eapply StepThread; [done|by apply tstepf_sound].
Qed.
Lemma exec_sound is : ∀ c l c', exec is c = Some (l, c') → during c l c'.
Proof.
  induction is as [|[t ca|t n] is IH]; simpl; intros c l c' E.
  - injection E as <- <-. constructor.
  - unfold start in E. destruct (c_pool c !! t) eqn:P; [done|]. destruct (h_dirs (c_heap c) !! call_dir ca) eqn:H; [|done].
    destruct (exec is _) as [[l1 c1]|] eqn:X; [|done]. injection E as <- <-. econstructor; [|by apply IH].
    destruct c as [h pool]. simpl in *. constructor; [done|by eexists].
  - destruct (go t n c) as [[l1 c1]|] eqn:G; [|done]. destruct (exec is c1) as [[l2 c2]|] eqn:X; [|done]. injection E as <- <-.
    eapply go_sound; [done|by apply IH].
Qed.
(** every call in the pool was started by an instruction or was there before *)
Definition starts (is : list instr) : list call := omap (λ i, match i with Start _ c => Some c | _ => None end) is.
Lemma go_calls t n : ∀ c l c', go t n c = Some (l, c') → ∀ t', t_call <$> c_pool c' !! t' = t_call <$> c_pool c !! t'.
Proof.
  induction n as [|n IH]; simpl; intros c l c' E t'; [by injection E as <- <-|].
  destruct (c_pool c !! t) as [[ca s]|] eqn:P; [|done]. destruct (tstepf (c_heap c) s) as [[h' s']|] eqn:T; [|done].
  destruct (go t n _) as [[l2 c2]|] eqn:G; [|done]. injection E as <- <-. rewrite (IH _ _ _ G). simpl.
  destruct (decide (t = t')) as [->|N]; [by rewrite lookup_insert, P|by rewrite lookup_insert_ne].
Qed.
Lemma exec_calls is : ∀ c l c', exec is c = Some (l, c') → ∀ t th, c_pool c' !! t = Some th →
  t_call th ∈ starts is ∨ t_call <$> c_pool c !! t = Some (t_call th).
Proof.
  induction is as [|[t0 ca|t0 n] is IH]; simpl; intros c l c' E t th P.
  - injection E as <- <-. right. by rewrite P.
  - unfold start in E. destruct (c_pool c !! t0) eqn:P0; [done|]. destruct (h_dirs (c_heap c) !! call_dir ca) eqn:H; [|done].
    destruct (exec is _) as [[l1 c1]|] eqn:X; [|done]. injection E as <- <-. destruct (IH _ _ _ X t th P) as [M|M]; [left; by constructor|].
    simpl in M. destruct (decide (t0 = t)) as [->|N]; [rewrite lookup_insert in M; injection M as <-; left; constructor|].
    rewrite lookup_insert_ne in M by done. by right.
  - destruct (go t0 n c) as [[l1 c1]|] eqn:G; [|done]. destruct (exec is c1) as [[l2 c2]|] eqn:X; [|done]. injection E as <- <-.
    destruct (IH _ _ _ X t th P) as [M|M]; [by left|]. right. by rewrite (go_calls _ _ _ _ _ G) in M.
Qed.
(** run setup, then run, then test the configurations of the second part *)
Definition scenario (setup run : list instr) (test : config → list config → config → bool) : bool :=
  match exec setup init_config with
  | Some (_, c) => match exec run c with Some (l, c') => test c l c' | None => false end
  | None => false
  end.
Lemma scenario_sound setup run test : scenario setup run test = true →
  ∃ c l c', reachable c ∧ during c l c' ∧ test c l c' = true.
Proof.
  unfold scenario. destruct (exec setup init_config) as [[l0 c]|] eqn:E0; [|done]. destruct (exec run c) as [[l c']|] eqn:E; [|done].
  intros T. exists c, l, c'. split; [exists l0; by eapply exec_sound|]. split; [by eapply exec_sound|done].
Qed.
(** the result of a finished listing of thread t *)
Definition list_result (t : nat) (c : config) : option (string * list entry) :=
  match c_pool c !! t with
  | Some (MkThread (CList 0 s) (TDone (RList out))) => Some (s, out)
  | _ => None
  end.
Lemma list_result_spec t c s out : list_result t c = Some (s, out) → c_pool c !! t = Some (MkThread (CList root s) (TDone (RList out))).
Proof.
  unfold list_result. destruct (c_pool c !! t) as [[[| | | | | |[|d] s0] [p|w o|r]]|]; try done; destruct r; try done. by intros [= <- <-].
Qed.
Definition idle (t : nat) (c : config) : bool := match c_pool c !! t with None => true | Some _ => false end.
Lemma idle_spec t c : idle t c = true → c_pool c !! t = None.
Proof. unfold idle. by destruct (c_pool c !! t). Qed.
(** did thread t register m through the root with path s, successfully? *)
Definition reg_result (t : nat) (c : config) : option (string * minfo * mres) :=
  match c_pool c !! t with
  | Some (MkThread (CRegMetric 0 s m) (TDone (RMetric r))) => Some (s, m, r)
  | _ => None
  end.
Lemma reg_result_spec t c s m r : reg_result t c = Some (s, m, r) →
  c_pool c !! t = Some (MkThread (CRegMetric root s m) (TDone (RMetric r))).
Proof.
  unfold reg_result. destruct (c_pool c !! t) as [[[[|d] s0 m0| | | | | |] [p|w o|r0]]|]; try done; destruct r0; try done. by intros [= <- <- <-].
Qed.
Definition is_ok (r : mres) : bool := match r with MOk => true | _ => false end.
