(** Update functions that call the library.  An update function runs in the goroutine of its group's event loop
    (handleLockUnlock, go/tricorder/metric.go:172-174, called from handleRequests 183-192), so the event loop does not
    go on before a call has returned.  The execution of RegionModel.v is kept; what such a call does is done by a
    goroutine of its own for which the event loop waits ([n_calls]). *)
From stdpp Require Import gmap list.
From Coq Require Import ZArith.
From Verif Require Import RegionModel.
Local Open Scope Z_scope.

(** n_calls r: what the update function of r has called, if it has not returned *)
Record nconfig := MkN { n_c : config; n_calls : nat → option nat }.
Inductive ncmd :=
  | NPlain (k : cmd)
  | NCall (r : nat) (p : list action)   (* the running update function of r calls the library, e.g. RegisterUpdateFunc *)
  | NReturn (r : nat).                  (* the call returns to the update function *)
Inductive nlabel := NL (l : label) | NLCall (r t : nat) (p : list action) | NLReturn (r t : nat).
(** the goroutine has nothing more to do *)
Definition over (th : thread) : bool := match th with MkThread [] None CReady => true | _ => false end.
Definition nlift (s : nconfig) (x : option (label * config)) : option (nlabel * nconfig) :=
  match x with Some (l, c) => Some (NL l, MkN c (n_calls s)) | None => None end.
Definition nstepf (s : nconfig) (k : ncmd) : option (nlabel * nconfig) :=
  match k with
  | NPlain (Handle r time) => match n_calls s r with Some _ => None | None => nlift s (stepf (n_c s) (Handle r time)) end
  | NPlain (Write r x v) => match n_calls s r with Some _ => None | None => nlift s (stepf (n_c s) (Write r x v)) end
  | NPlain k => nlift s (stepf (n_c s) k)
  | NCall r p =>
      match r_h (c_regs (n_c s) r), n_calls s r, stepf (n_c s) (Spawn p) with
      | HUpdating _, None, Some (_, c) => let t := length (c_pool (n_c s)) in Some (NLCall r t p, MkN c (fupd r (Some t) (n_calls s)))
      | _, _, _ => None
      end
  | NReturn r =>
      match n_calls s r with
      | Some t => match c_pool (n_c s) !! t with
                  | Some th => if over th then Some (NLReturn r t, MkN (n_c s) (fupd r None (n_calls s))) else None
                  | None => None
                  end
      | None => None
      end
  end.
Definition ninit (f0 : nat → nat) (v0 : nat → nat → Z) : nconfig := MkN (init_config f0 v0) (λ _, None).
Inductive nexec (s : nconfig) : list nlabel → nconfig → Prop :=
  | nexec_nil : nexec s [] s
  | nexec_snoc tr s1 k l s2 : nexec s tr s1 → nstepf s1 k = Some (l, s2) → nexec s (tr ++ [l]) s2.
