(* Opening a connection: the websocket handshakes of the server (server/websockets.rs:24-90,
   227-267), ALPN on the BonsaiDb protocol (server.rs:382-390, client/quic_worker.rs:155-187), the
   client's side of both (client/tungstenite_worker.rs:41-62, client/error.rs:113-128), and the
   server's loop over a websocket's messages (websockets.rs:166-203). SHA-1, base64 and bincode
   are parameters. Header names are in lower case, as http's HeaderMap keeps them. *)
From Verif Require Import Base.
Local Open Scope N_scope.

Definition h_protocol : bytes := [115;101;99;45;119;101;98;115;111;99;107;101;116;45;112;114;111;116;111;99;111;108]. (* "sec-websocket-protocol" *)
Definition h_upgrade : bytes := [117;112;103;114;97;100;101].
Definition h_key : bytes := [115;101;99;45;119;101;98;115;111;99;107;101;116;45;107;101;121]. (* "sec-websocket-key" *)
Definition h_accept : bytes := [115;101;99;45;119;101;98;115;111;99;107;101;116;45;97;99;99;101;112;116].
Definition h_connection : bytes := [99;111;110;110;101;99;116;105;111;110].
(* core networking.rs:15 "bonsai-pre-1" *)
Definition current_version : bytes := [98;111;110;115;97;105;45;112;114;101;45;49].
(* HeaderMap::get: the first value of that name *)
Fixpoint header (n : bytes) (hs : list (bytes * bytes)) : option bytes :=
  match hs with [] => None | (m, v) :: r => if bytes_eqb n m then Some v else header n r end.
(* HeaderValue::to_str succeeds on visible ASCII and tabs *)
Definition visible (b : N) : bool := ((32 <=? b) && (b <? 127)) || (b =? 9).
(* str::split(',') *)
Fixpoint split_commas (l : bytes) : list bytes :=
  match l with
  | [] => [[]]
  | b :: r => if b =? 44 then [] :: split_commas r
              else match split_commas r with p :: ps => (b :: p) :: ps | [] => [[b]] end
  end.
(* str::trim; within a value to_str accepts only spaces and tabs are white space *)
Definition blank (b : N) : bool := (b =? 32) || (b =? 9).
Fixpoint trim_start (l : bytes) : bytes := match l with b :: r => if blank b then trim_start r else l | [] => [] end.
Definition trim (l : bytes) : bytes := rev (trim_start (rev (trim_start l))).

(* an answer: a status and headers *)
Record response := Response { status : N; headers : list (bytes * bytes) }.
(* VersionChecker::on_request, websockets.rs:242-267; Some = Ok with the header added to
   tungstenite's response *)
Definition on_request (hs : list (bytes * bytes)) : response + response :=
  match header h_protocol hs with
  | Some v => if forallb visible v && existsb (bytes_eqb current_version) (map trim (split_commas v))
              then inl (Response 101 [(h_protocol, current_version)])
              else inr (Response 406 [])
  | None => inr (Response 406 [])
  end.
(* upgrade_websocket, websockets.rs:39-90, and compute_websocket_accept_header, 224-235 *)
Definition guid : bytes := [50;53;56;69;65;70;65;53;45;69;57;49;52;45;52;55;68;65;45;57;53;67;65;45;67;53;65;66;48;68;67;56;53;66;49;49].
Definition s_websocket : bytes := [119;101;98;115;111;99;107;101;116].
Definition upgrade_websocket (digest : bytes -> bytes) (hs : list (bytes * bytes)) : response :=
  match header h_upgrade hs with
  | None => Response 400 []
  | Some _ => match header h_key hs with
              | None => Response 400 []
              | Some k => Response 101 [(h_upgrade, s_websocket); (h_connection, h_upgrade); (h_accept, digest (k ++ guid))]
              end
  end.

(* the client: tungstenite_worker.rs:41-62 with the error of client/error.rs:113-128. What the
   request says about the protocol, and what an answer means (tungstenite reports every status
   but 101 as WebSocketError::Http). *)
Inductive connected := Connected | ProtocolVersionMismatch | WebSocketFailed (status : N).
Definition ws_request (version key : bytes) : list (bytes * bytes) :=
  [(h_protocol, version); (h_key, key); (h_connection, [85;112;103;114;97;100;101]); (h_upgrade, s_websocket)].
Definition ws_answer (r : response) : connected :=
  if status r =? 101 then Connected else if status r =? 406 then ProtocolVersionMismatch else WebSocketFailed (status r).
(* against listen_for_websockets_on / the raw connection, and against a hyper server that calls
   upgrade_websocket *)
Definition connect_raw (version key : bytes) : connected :=
  ws_answer (match on_request (ws_request version key) with inl r => r | inr r => r end).
Definition connect_hyper (digest : bytes -> bytes) (version key : bytes) : connected := ws_answer (upgrade_websocket digest (ws_request version key)).
(* ALPN: the server offers [current_version] (server.rs:386), the client [version]
   (quic_worker.rs:171); TLS fails the handshake when they have none in common, which fabruic
   reports as ProtocolMismatch (quic_worker.rs:181-187) *)
Definition connect_quic (version : bytes) : connected :=
  if existsb (fun p => existsb (bytes_eqb p) [current_version]) [version] then Connected else ProtocolVersionMismatch.

(* ---------- messages ---------- *)
Inductive message := Binary (b : bytes) | Text (b : bytes) | Close | Ping (b : bytes) | Pong (b : bytes) | Broken.
Inductive effect {Rq} := Request (r : Rq) | Answer (b : bytes).
Arguments effect : clear implicits.
(* websockets.rs:166-203 without shutdown (see Shutdown.v): what is handed on for each message, in
   order, and whether the loop is still reading *)
Section Loop.
  Context {Rq : Type} (decode : bytes -> option Rq).
  Fixpoint read_loop (l : list message) : list (effect Rq) * bool :=
    match l with
    | [] => ([], true)
    | Binary b :: r => match decode b with
                       | Some p => let '(es, on) := read_loop r in (Request p :: es, on)
                       | None => ([], false)
                       end
    | Close :: _ => ([], false)
    | Ping b :: r => let '(es, on) := read_loop r in (Answer b :: es, on)
    | _ :: _ => ([], false)
    end.
End Loop.
