(** What a path means, independently of the model. *)
From Verif Require Import GoBase PathModel.
Local Open Scope string_scope.

(** UTF-8 (for code points below 2^16 that are no surrogates). *)
Definition utf8 (c : N) : list N :=
  if N.ltb c 0x80 then [c]
  else if N.ltb c 0x800 then [0xC0 + c / 64; 0x80 + c mod 64]%N
  else [0xE0 + c / 4096; 0x80 + (c / 64) mod 64; 0x80 + c mod 64]%N.
(** The code points with Unicode's White_Space property. *)
Definition white_space : list N :=
  [0x9; 0xA; 0xB; 0xC; 0xD; 0x20; 0x85; 0xA0; 0x1680; 0x2000; 0x2001; 0x2002; 0x2003; 0x2004; 0x2005; 0x2006; 0x2007;
   0x2008; 0x2009; 0x200A; 0x2028; 0x2029; 0x202F; 0x205F; 0x3000]%N.
(** A string made only of (UTF-8 encoded) white space characters. *)
Inductive all_space : string -> Prop :=
| SpNil : all_space ""
| SpCons c r : In c white_space -> all_space r ->
    all_space (fold_right (fun b s => String (ascii_of_N b) s) r (utf8 c)).

Definition no_slash (s : string) : Prop := str_all (fun c => negb (Ascii.eqb c "/"%char)) s = true.

(** [pieces s ps]: s is ps joined by single slashes. *)
Inductive pieces : string -> list string -> Prop :=
| PcOne p : no_slash p -> pieces p [p]
| PcMore p s ps : no_slash p -> pieces s ps -> pieces (p ++ "/" ++ s) (p :: ps).

(** [components s cs]: cs are the non-blank pieces of s in order. *)
Inductive nonblanks : list string -> list string -> Prop :=
| NbNil : nonblanks [] []
| NbSkip p ps cs : all_space p -> nonblanks ps cs -> nonblanks (p :: ps) cs
| NbKeep p ps cs : ~ all_space p -> nonblanks ps cs -> nonblanks (p :: ps) (p :: cs).
Definition components (s : string) (cs : list string) : Prop := exists ps, pieces s ps /\ nonblanks ps cs.

(** A legal path component. *)
Definition valid_component (s : string) : Prop := no_slash s /\ ~ all_space s.
