(** Model of src/transport/streaming/http.rs over ureq 1: the answer to a request is a status and a body. *)
From Verif Require Export ProgramModel.
Local Open Scope nat_scope.

(** ureq::Response: every call gives one; a failure to connect is a synthetic answer with status 400 or
    500 and the error as its body.  [rs_text] is how into_string ends: the whole body as text, or an error. *)
Record response := { rs_status : N; rs_body : inner; rs_text : res bytes }.
(* ureq Response::ok *)
Definition response_ok (r : response) : bool := (200 <=? rs_status r)%N && (rs_status r <=? 299)%N.
(* src/transport/streaming/http.rs:14-30 HttpTransport::open; to_str().unwrap() panics on a URL that is not UTF-8,
   `response.into_string()?` may itself fail; the text of the error is not modelled *)
Definition http_open (get : bytes -> response) (url : bytes) : res inner :=
  if utf8 url then
    let r := get url in
    if response_ok r then Ok (rs_body r)
    else let* _ := rs_text r in Err (EIo (OtherIo 5))
  else Panic.
(** The world with this network. *)
Definition online (w : world) (get : bytes -> response) : world :=
  {| w_exists := w_exists w; w_is_dir := w_is_dir w; w_read_dir := w_read_dir w; w_open := w_open w;
     w_http := http_open get; w_stdin := w_stdin w; w_env_tz := w_env_tz w |}.
