(* Model of how a bonsaidb client multiplexes requests over one connection.

   /repo/crates/bonsaidb-client/src/client.rs:487-542 (send_request_without_confirmation,
   send_request_async), 861-885 (process_response_payload), 976-988 (disconnect_pending_requests);
   /repo/crates/bonsaidb-client/src/client/quic_worker.rs:23-147;
   /repo/crates/bonsaidb-client/src/client/tungstenite_worker.rs:22-140.

   The worker is a transition system: every event below is one scheduling or network
   occurrence, and a history is any list of events.  Events that are not possible in
   a state leave it unchanged. *)
From Coq Require Import List NArith Bool.
Import ListNotations.
Open Scope N_scope.

(* The two transports of the worker: quic_worker.rs and tungstenite_worker.rs. *)
Inductive transport := Quic | WebSocket.

(* What a caller of send_request_async/send_request finds in its result channel:
   client.rs:538-541, 548.  Answer is a payload value from the server, Failed an error
   the worker put in the channel, Gone the disconnection error of a channel whose sender
   was dropped (flume RecvError -> Error).  Waiting for longer than the request timeout
   is the caller's own choice and not an effect of the worker. *)
Inductive result := Answer (v : N) | Failed (e : N) | Gone.

(* networking.rs:17-28 Payload and client.rs PendingRequest: the call (numbered in the
   order of the fetch_add at client.rs:493), the wire id is that number as a u32. *)
Definition call := N.
Definition wire_id (c : call) : N := c mod 4294967296.

(* Error::disconnected(), client.rs:985. *)
Definition disconnected : N := 0.

Inductive phase :=
| Idle                       (* waiting in `request_receiver.recv_async()`, quic_worker.rs:37 *)
| Connecting (c : call)      (* quic_worker.rs:42-77, tungstenite_worker.rs:37-67 *)
| Sent (c : call)            (* QUIC only: sent but not yet in the map, quic_worker.rs:86-101 *)
| Connected                  (* quic_worker.rs:103-109, tungstenite_worker.rs:87-90 *)
| Closed.                    (* websocket closed cleanly: response_processor returned Ok(()),
                                tungstenite_worker.rs:139, request_sender still running *)

Record worker := mkW {
  issued : N;                      (* client.rs:493 request_id, without the wrap *)
  queue : list call;               (* the request channel *)
  ph : phase;
  outstanding : list (N * call);   (* OutstandingRequestMapHandle *)
  pending : option N;              (* pending_error *)
  results : list (call * result)   (* what was put in (or happened to) result channels, oldest first *)
}.

Definition init : worker := mkW 0 [] Idle [] None [].

(* HashMap::remove *)
Fixpoint take_id (i : N) (m : list (N * call)) : option (call * list (N * call)) :=
  match m with
  | [] => None
  | (j, c) :: r =>
      if j =? i then Some (c, r)
      else match take_id i r with
           | Some (d, r') => Some (d, (j, c) :: r')
           | None => None
           end
  end.

(* HashMap::insert: an older request of the same id is dropped, and its result
   channel with it. *)
Definition insert (c : call) (w : worker) : worker :=
  match take_id (wire_id c) (outstanding w) with
  | Some (old, r) =>
      mkW (issued w) (queue w) (ph w) ((wire_id c, c) :: r) (pending w) (results w ++ [(old, Gone)])
  | None =>
      mkW (issued w) (queue w) (ph w) ((wire_id c, c) :: outstanding w) (pending w) (results w)
  end.

(* client.rs:976-988: the first of the drained requests takes the error, the others
   get Error::disconnected().  The order of HashMap::drain is not specified; the model
   drains in list order. *)
Definition drain (e : N) (m : list (N * call)) : list (call * result) * option N :=
  match m with
  | [] => ([], Some e)
  | (_, c) :: r => ((c, Failed e) :: map (fun x => (snd x, Failed disconnected)) r, None)
  end.

Definition disconnect (e : N) (w : worker) : worker :=
  let (rs, p) := drain e (outstanding w) in
  mkW (issued w) (queue w) Idle [] p (results w ++ rs).

Inductive event :=
| Call                      (* client.rs:487-505: a caller issues a request *)
| Take                      (* the idle worker receives a request *)
| ConnectFail (e : N)       (* connecting failed or timed out *)
| FirstSendFail (e : N)     (* sending the first request failed *)
| FirstSend                 (* the first request was sent *)
| Register                  (* QUIC: the first request enters the map *)
| Send                      (* connected: a further request is sent and enters the map *)
| SendFail (e : N)          (* sending it failed, or the join was cancelled with the request in hand *)
| Response (i v : N)        (* the server's payload with id Some(i) is processed *)
| Disconnect (e : N)        (* the stream ended or failed *)
| Close.                    (* websocket: the stream ended without an error *)

Definition step (t : transport) (w : worker) (ev : event) : worker :=
  match ev with
  (* client.rs:492-504 *)
  | Call => mkW (issued w + 1) (queue w ++ [issued w]) (ph w) (outstanding w) (pending w) (results w)
  (* quic_worker.rs:37-42, tungstenite_worker.rs:29-37 *)
  | Take =>
      match ph w, queue w with
      | Idle, c :: q =>
          match pending w with
          | Some e => mkW (issued w) q Idle (outstanding w) None (results w ++ [(c, Failed e)])
          | None => mkW (issued w) q (Connecting c) (outstanding w) None (results w)
          end
      | _, _ => w
      end
  (* quic_worker.rs:55-57,73-77, tungstenite_worker.rs:57-66 *)
  | ConnectFail e =>
      match ph w with
      | Connecting c => mkW (issued w) (queue w) Idle [] (pending w) (results w ++ [(c, Failed e)])
      | _ => w
      end
  (* quic_worker.rs:86-88, tungstenite_worker.rs:74-80 *)
  | FirstSendFail e =>
      match ph w with
      | Connecting c => mkW (issued w) (queue w) Idle [] (pending w) (results w ++ [(c, Failed e)])
      | _ => w
      end
  (* quic_worker.rs:79-86: a fresh empty map, the response processor is spawned before the
     send; tungstenite_worker.rs:71-85: the map is locked over the send and the insert *)
  | FirstSend =>
      match ph w with
      | Connecting c =>
          match t with
          | Quic => mkW (issued w) (queue w) (Sent c) [] (pending w) (results w)
          | WebSocket => insert c (mkW (issued w) (queue w) Connected [] (pending w) (results w))
          end
      | _ => w
      end
  (* quic_worker.rs:90-101 *)
  | Register =>
      match ph w with
      | Sent c => insert c (mkW (issued w) (queue w) Connected (outstanding w) (pending w) (results w))
      | _ => w
      end
  (* quic_worker.rs:123-130, tungstenite_worker.rs:106-116.  A closed websocket may still
     accept writes into its buffer. *)
  | Send =>
      match ph w, queue w with
      | Connected, c :: q | Closed, c :: q =>
          insert c (mkW (issued w) q (ph w) (outstanding w) (pending w) (results w))
      | _, _ => w
      end
  (* quic_worker.rs:125 and tungstenite_worker.rs:109-110 `?`: the request in hand is dropped *)
  | SendFail e =>
      match ph w, queue w with
      | Connected, c :: q | Closed, c :: q =>
          disconnect e (mkW (issued w) q Connected (outstanding w) (pending w) (results w ++ [(c, Gone)]))
      | _, _ => w
      end
  (* client.rs:866-876 *)
  | Response i v =>
      match ph w with
      | Sent _ | Connected =>
          match take_id i (outstanding w) with
          | Some (c, r) => mkW (issued w) (queue w) (ph w) r (pending w) (results w ++ [(c, Answer v)])
          | None => w
          end
      | _ => w
      end
  (* quic_worker.rs:103-115, 145; tungstenite_worker.rs:87-95.  In phase Sent the end of the
     response processor is only noticed after Register. *)
  | Disconnect e =>
      match ph w with
      | Connected => disconnect e w
      | _ => w
      end
  (* tungstenite_worker.rs:124, 139 *)
  | Close =>
      match t, ph w with
      | WebSocket, Connected => mkW (issued w) (queue w) Closed (outstanding w) (pending w) (results w)
      | _, _ => w
      end
  end.

Fixpoint run (t : transport) (w : worker) (h : list event) : worker :=
  match h with
  | [] => w
  | ev :: r => run t (step t w ev) r
  end.
