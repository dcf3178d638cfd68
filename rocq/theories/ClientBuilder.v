(* Building a client and what it does with a message it did not ask for:
   crates/bonsaidb-client/src/builder.rs:44-153 (Builder), client.rs:311-371 (new_from_parts),
   373-447 (the two kinds of client), 861-885 (process_response_payload), 958-968
   (ApiCallback::response_received), client/quic_worker.rs:31-33 (the default port),
   client/sync.rs:686-697 (spawn_client).
   Simplified: durations are numbers of milliseconds; a url is its scheme and its port; callbacks are
   numbers; not wasm32. *)
From Verif Require Import Base.
From Coq Require String Ascii.
Import String.StringSyntax.
Local Open Scope string_scope.
Definition text (s : String.string) : bytes := map Ascii.N_of_ascii (String.list_ascii_of_string s).
Definition s_bonsaidb : bytes := Eval compute in text "bonsaidb".
Definition s_wss : bytes := Eval compute in text "wss".
Definition s_ws : bytes := Eval compute in text "ws".
Local Open Scope N_scope.

Record url := mk_url { u_scheme : bytes; u_port : option N }.
(* Builder, builder.rs:30-42. Apis: the map from a name to a callback or none *)
Record builder := mk_builder {
  b_url : url; b_apis : list (bytes * option N); b_request : option N; b_connect : option N;
  b_certificate : option bytes; b_runtime : option N }.
(* HashMap::insert *)
Definition api_insert (n : bytes) (c : option N) (l : list (bytes * option N)) : list (bytes * option N) :=
  (n, c) :: filter (fun p : bytes * option N => negb (bytes_eqb (fst p) n)) l.
Definition api_get (n : bytes) (l : list (bytes * option N)) : option (option N) :=
  option_map snd (find (fun p : bytes * option N => bytes_eqb (fst p) n) l).
(* Builder::new, builder.rs:46-59 *)
Definition new_builder (u : url) : builder := mk_builder u [] None None None None.
Inductive setting :=
| WithRuntime (h : N) | WithApi (n : bytes) | WithApiCallback (n : bytes) (c : N) | WithCertificate (c : bytes)
| WithRequestTimeout (d : N) | WithConnectTimeout (d : N).
(* builder.rs:66-118 *)
Definition set (b : builder) (o : setting) : builder :=
  match o with
  | WithRuntime h => mk_builder (b_url b) (b_apis b) (b_request b) (b_connect b) (b_certificate b) (Some h)
  | WithApi n => mk_builder (b_url b) (api_insert n None (b_apis b)) (b_request b) (b_connect b) (b_certificate b) (b_runtime b)
  | WithApiCallback n c => mk_builder (b_url b) (api_insert n (Some c) (b_apis b)) (b_request b) (b_connect b) (b_certificate b) (b_runtime b)
  | WithCertificate c => mk_builder (b_url b) (b_apis b) (b_request b) (b_connect b) (Some c) (b_runtime b)
  | WithRequestTimeout d => mk_builder (b_url b) (b_apis b) (Some d) (b_connect b) (b_certificate b) (b_runtime b)
  | WithConnectTimeout d => mk_builder (b_url b) (b_apis b) (b_request b) (Some d) (b_certificate b) (b_runtime b)
  end.

Inductive worker := Quic (certificate : option bytes) | WebSocket.
Inductive runtime := OnHandle (h : N) | OnCurrent (h : N) | OnItsOwn.
Record client := mk_client {
  c_worker : worker; c_port : option N; c_apis : list (bytes * option N); c_request : N; c_connect : N; c_runtime : runtime }.
Definition one_minute : N := 60000.
(* the callback new_from_parts adds, client.rs:322-345, and the name it has *)
Definition messages : N := 0.
Section Build.
Variables (received : bytes) (websockets : bool).    (* MessageReceived::name(); the feature *)
(* finish_internal and new_from_parts with spawn_client; [current]: Handle::try_current() *)
Definition build (current : option N) (b : builder) : client + bytes :=
  let apis := api_insert received (Some messages) (b_apis b) in
  let connect := match b_connect b with Some d => d | None => one_minute end in
  let request := match b_request b with Some d => d | None => one_minute end in
  let on := match b_runtime b with Some h => OnHandle h | None => match current with Some h => OnCurrent h | None => OnItsOwn end end in
  let scheme := u_scheme (b_url b) in
  if bytes_eqb scheme s_bonsaidb then
    inl (mk_client (Quic (b_certificate b)) (match u_port (b_url b) with Some p => Some p | None => Some 5645 end) apis request connect on)
  else if websockets && (bytes_eqb scheme s_wss || bytes_eqb scheme s_ws) then
    inl (mk_client WebSocket (u_port (b_url b)) apis request connect on)
  else inr scheme.   (* InvalidUrl("unsupported scheme ...") *)
End Build.

(* ---------- a message of the server ---------- *)
(* its value: an error, bytes that are no Result<Response, Error>, or one *)
Inductive value := Failed | Garbled | Response (r : N) | ApiError (e : N).
Record payload := mk_payload { p_id : option N; p_name : bytes; p_value : value }.
(* Answered: the request waiting for it gets the value. Dies: the task panics *)
Inductive reaction := Answered (id : N) (v : value) | Ignored | Invoked (c r : N) | Logged | Dies.
(* process_response_payload, client.rs:861-885, and response_received, 960-967 *)
Definition react (apis : list (bytes * option N)) (waiting : list N) (p : payload) : reaction :=
  match p_id p with
  | Some i => if existsb (N.eqb i) waiting then Answered i (p_value p) else Ignored
  | None =>
      match api_get (p_name p) apis, p_value p with
      | Some (Some c), Garbled => Logged
      | Some (Some c), Response r => Invoked c r
      | Some (Some c), ApiError e => Dies
      | _, _ => Logged
      end
  end.
