(** Asking for a metric by its path. *)
From Verif Require Import GoBase.
From stdpp Require Import gmap strings.
From Verif Require Import PathModel RegistryModel RegistryConc HttpModel HttpSpec ApiUrlModel.
Local Open Scope string_scope.
Local Open Scope list_scope.

(** RFC 3986, 2.3: the bytes that need not be encoded, and the slash *)
Definition unreserved (c : ascii) : Prop := In c (list_ascii_of_string "abcdefghijklmnopqrstuvwxyzABCDEFGHIJKLMNOPQRSTUVWXYZ0123456789-._~/").
Definition hex_value (c : ascii) (v : N) : Prop :=
  In (c, v) (combine (list_ascii_of_string "0123456789abcdefABCDEF") [0; 1; 2; 3; 4; 5; 6; 7; 8; 9; 10; 11; 12; 13; 14; 15; 10; 11; 12; 13; 14; 15]%N).
(** u is s, percent-encoded (2.1) *)
Inductive percent_encoded : string → string → Prop :=
  | pe_end : percent_encoded "" ""
  | pe_same c s u : unreserved c → percent_encoded s u → percent_encoded (String c s) (String c u)
  | pe_byte c x y hi lo s u : hex_value x hi → hex_value y lo → N_of_ascii c = (16 * hi + lo)%N → percent_encoded s u →
      percent_encoded (String c s) (String "%" (String x (String y u))).

(** What the handler below [url] finds for the request. *)
Definition found (url : string) (h : heap) (request : string) : option node :=
  match handled url request with Some p => looked_up h p | None => None end.
(** A name that is no step in a path. *)
Definition no_dots (n : string) : Prop := n ≠ "." ∧ n ≠ "..".
