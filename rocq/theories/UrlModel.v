(** The links of the HTML pages: html.go:144-146 Link, and what happens to a link until the handler of html.go:306-315 is
    called with a path. The latter is library and browser code, modelled from its source and standard:
    - html/template's URL normaliser (url.go, processURLOnto), applied to the value of an href attribute. The URL filter lets
      every URL with a slash before the first colon through. The escaping of the attribute is undone by the browser;
    - the browser: WHATWG URL standard, path-absolute URLs;
    - net/http: percent-decoding (url.go, unescape), ServeMux (server.go, cleanPath and the redirect to the cleaned path),
      StripPrefix. The program has registered no longer pattern below /metrics/. *)
From Verif Require Import GoBase PathModel.
Local Open Scope string_scope.
Local Open Scope list_scope.

(** html.go:144-146 Link, for the absolute path of the directory *)
Definition Link (absPath : string) : string := "/metrics" ++ absPath.

Definition in_range (lo hi : ascii) (c : ascii) : bool := (N.leb (N_of_ascii lo) (N_of_ascii c) && N.leb (N_of_ascii c) (N_of_ascii hi))%bool.
Definition one_of (cs : string) (c : ascii) : bool := negb (str_all (fun x => negb (Ascii.eqb x c)) cs).
(** isHex *)
Definition is_hex (c : ascii) : bool := (in_range "0" "9" c || in_range "a" "f" c || in_range "A" "F" c)%bool.
Definition starts_hex2 (s : string) : bool :=
  match s with String a (String b _) => (is_hex a && is_hex b)%bool | _ => false end.
Definition kept (c : ascii) : bool :=
  (one_of "!#$&*+,/:;=?@[]" c || one_of "-._~" c || in_range "a" "z" c || in_range "A" "Z" c || in_range "0" "9" c)%bool.
(** fmt %02x *)
Definition hex_digit (n : N) : ascii := ascii_of_N (if N.ltb n 10 then 48 + n else 87 + n).
Definition hex2 (c : ascii) (rest : string) : string :=
  String (hex_digit (N.div (N_of_ascii c) 16)) (String (hex_digit (N.modulo (N_of_ascii c) 16)) rest).
Fixpoint normalize (s : string) : string :=
  match s with
  | "" => ""
  | String c r =>
      if (kept c || (Ascii.eqb c "%" && starts_hex2 r))%bool then String c (normalize r)
      else String "%" (hex2 c (normalize r))
  end.

(** ** The browser *)
(** the path of a path-absolute URL ends at the query or the fragment *)
Fixpoint cut (s : string) : string :=
  match s with
  | "" => ""
  | String c r => if one_of "?#" c then "" else String c (cut r)
  end.
Definition lower (c : ascii) : ascii := if in_range "A" "Z" c then ascii_of_N (N_of_ascii c + 32) else c.
Fixpoint lower_string (s : string) : string := match s with "" => "" | String c r => String (lower c) (lower_string r) end.
Definition in_list (s : string) (l : list string) : bool := existsb (String.eqb s) l.
Definition single_dot (s : string) : bool := in_list (lower_string s) ["."; "%2e"].
Definition double_dot (s : string) : bool := in_list (lower_string s) [".."; ".%2e"; "%2e."; "%2e%2e"].
(** the segments after the leading slash; [up]: the segments so far, the last one first *)
Fixpoint browser_segments (up segs : list string) : list string :=
  match segs with
  | [] => rev up
  | [x] => if double_dot x then rev ("" :: tl up) else if single_dot x then rev ("" :: up) else rev (x :: up)
  | x :: segs => browser_segments (if double_dot x then tl up else if single_dot x then up else x :: up) segs
  end.
(** the path of the request; None: not a path-absolute URL *)
Definition request_path (href : string) : option string :=
  match cut href with
  | String "/" r => Some (String "/" (join (browser_segments [] (splitSlash r))))
  | _ => None
  end.

(** ** The server *)
Definition hex_val (c : ascii) : N :=
  let n := N_of_ascii c in if in_range "0" "9" c then n - 48 else if in_range "a" "f" c then n - 87 else n - 55.
(** url.go unescape(_, encodePath); None: not a URL, answered with status 400 *)
Fixpoint unescape (s : string) : option string :=
  match s with
  | "" => Some ""
  | String c r =>
      if Ascii.eqb c "%" then
        match r with
        | String a (String b r) =>
            if (is_hex a && is_hex b)%bool then option_map (String (ascii_of_N (16 * hex_val a + hex_val b))) (unescape r) else None
        | _ => None
        end
      else option_map (String c) (unescape r)
  end.
(** path.Clean of a rooted path *)
Fixpoint clean_segments (up segs : list string) : list string :=
  match segs with
  | [] => rev up
  | x :: segs =>
      clean_segments (if String.eqb x ".." then tl up else if (String.eqb x "" || String.eqb x ".")%bool then up else x :: up) segs
  end.
Definition ends_slash (s : string) : bool := match rev (splitSlash s) with "" :: _ => true | _ => false end.
Definition cleanPath (p : string) : string :=
  let np := String "/" (join (clean_segments [] (splitSlash p))) in
  if (ends_slash p && negb (String.eqb np "/"))%bool then np ++ "/" else np.
(** the pattern /metrics/ with StripPrefix("/metrics"); /metrics itself is redirected to /metrics/ *)
Definition routed (p : string) : option string :=
  if String.eqb p "/metrics" then Some "/"
  else if prefix "/metrics/" p then Some (str_drop 8 p) else None.
(** the path with which htmlAndTextHandlerFunc is called when a link is followed; None: it is not called *)
Definition followed (link : string) : option string :=
  match request_path (normalize link) with
  | Some q => match unescape q with Some p => routed (cleanPath p) | None => None end
  | None => None
  end.
