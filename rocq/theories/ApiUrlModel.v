(** How a request for a URL below /metricsapi or /metrics reaches its handler: json.go:59-61 initJsonHandlers,
    html.go:306-316 initHtmlHandlers, with net/http's URL parsing, ServeMux and StripPrefix as in UrlModel.v. The program
    has registered no longer pattern below these. *)
From Verif Require Import GoBase PathModel UrlModel.
Local Open Scope string_scope.

(** json.go:11 *)
Definition jsonUrl : string := "/metricsapi".
(** html.go:16 *)
Definition htmlUrl : string := "/metrics".
(** http.Handle(url+"/", http.StripPrefix(url, _)): the path that the handler is given for the cleaned path p; url itself is
    redirected to url/ *)
Definition stripped (url p : string) : option string :=
  if String.eqb p url then Some "/"
  else if prefix (url ++ "/") p then Some (str_drop (String.length url) p) else None.
(** [request]: the path of the request, percent-encoded *)
Definition handled (url request : string) : option string :=
  match unescape request with Some p => stripped url (cleanPath p) | None => None end.
