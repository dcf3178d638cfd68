(* Model of the client's websocket worker in a browser:
   /repo/crates/bonsaidb-client/src/client/wasm_websocket_worker.rs. There is no loop
   as in the native worker (ClientWorker.v): a starter waits for a request and makes a
   connection, a forwarding task, the browser's callbacks and the task of on_open act
   on it, and the close callback makes the next starter. Everything runs on one
   thread; an event is what happens between two awaits, or one call of a callback by
   the browser. A history is any list of events; one that is not possible in a state
   leaves it unchanged. The browser keeps the closures of on_open and on_message until
   they are called or collected (Closure::once_into_js, into_js_value); a garbage
   collection is an event of its own. Sending: a socket that is closing or closed
   accepts and discards data (WebSocket.send). Dropping the whole client is not
   modelled. *)
From Coq Require Import List NArith Bool.
Import ListNotations.
Open Scope N_scope.

(* as in ClientWorker.v: calls are numbered in the order of the fetch_add at
   client.rs:493, the id on the wire is a u32 *)
Notation call := N (only parsing).
Definition wire_id (c : call) : N := c mod 4294967296.
(* what happens to the caller's result channel: the server's answer, an error sent
   by the worker, or the sender is dropped *)
Inductive result := Answer (v : N) | Failed (e : N) | Gone.
(* Error::disconnected() and Error::connect_timeout() *)
Definition disconnected : N := 0.
Definition connect_timeout : N := 1.

(* WebSocket.readyState; CLOSING and CLOSED are not distinguished *)
Inductive sock := Connecting | Open | Closed.
(* the task of on_open, 168-187: before the open event, spawned, in the receiving
   loop, over *)
Inductive task := TWait | TFirst | TLoop | TDone.
(* the close callback, 323-372: not called yet, its task not run yet (with the error
   that is left), run *)
Inductive closing := CNo | CDrain (p : option N) | CDone.
Record conn := mkC {
  c_init : option call;         (* initial_request, 101 *)
  c_sock : sock;
  c_fwd : bool;                 (* the forwarding task runs, 145-166 *)
  c_shut : bool;                (* shutdown_sender was used *)
  c_chan : list call;           (* connection_request channel, 93 *)
  c_task : task;
  c_map : list (N * call);      (* outstanding_requests, 103 *)
  c_onerror : bool;             (* the error callback is still installed *)
  c_close : closing }.
Record world := mkWorld {
  w_issued : N;
  w_queue : list call;                  (* request_receiver *)
  w_starter : option (option N);        (* create_websocket waiting for a request, with pending_error *)
  w_conns : list conn;                  (* oldest first *)
  w_results : list (call * result) }.
(* new_websocket_client, client.rs:449-465 *)
Definition w_init : world := mkWorld 0 [] (Some None) [] [].

(* HashMap::remove and insert, as in ClientWorker.v *)
Fixpoint take_id (i : N) (m : list (N * call)) : option (call * list (N * call)) :=
  match m with
  | [] => None
  | (j, c) :: r =>
      if j =? i then Some (c, r)
      else match take_id i r with Some (d, r') => Some (d, (j, c) :: r') | None => None end
  end.
Definition put_id (c : call) (m : list (N * call)) : list (N * call) * list (call * result) :=
  match take_id (wire_id c) m with
  | Some (old, r) => ((wire_id c, c) :: r, [(old, Gone)])
  | None => ((wire_id c, c) :: m, [])
  end.
(* disconnect_pending_requests, client.rs:976-988 *)
Definition drain (p : option N) (m : list (N * call)) : list (call * result) * option N :=
  match m with
  | [] => ([], p)
  | (_, c) :: r =>
      ((c, Failed (match p with Some e => e | None => disconnected end)) :: map (fun x => (snd x, Failed disconnected)) r, None)
  end.

(* how sending goes, 203-229: sent, not serializable (which is not held against the
   connection), or refused by the socket *)
Inductive sending := SOk | SBad (e : N) | SErr (e : N).

Inductive event :=
| Call                          (* client.rs:487-505 *)
| Start                         (* the starter receives a request, 57-67, and makes a socket, 73-142 *)
| StartFail (e : N)             (* ... and WebSocket::new fails, 75-91 *)
| Forward (k : nat)             (* the forwarding task receives a request, 153-161 *)
| Stop (k : nat)                (* the forwarding task receives the shutdown, 155, 162-164 *)
| Opened (k : nat)              (* the browser calls on_open, 174-175 *)
| First (k : nat) (o : sending) (* its task takes the first request, 176-177 *)
| Next (k : nat) (o : sending)  (* its task receives a request, 178-182 *)
| Ended (k : nat)               (* its task finds the channel disconnected, 178, 186 *)
| Message (k : nat) (i v : N)   (* a payload with an id is processed, 233-258, client.rs:866-876 *)
| Timeout (k : nat)             (* connect_timeout_callback, 260-282 *)
| Error_ (k : nat) (e : N)      (* on_error_callback, 284-311 *)
| Close (k : nat) (e : N)       (* on_close_callback, 335-352 *)
| Drain (k : nat)               (* the task it spawns, 354-369 *)
| DropChan (k : nat)            (* both ends of the connection's channel are gone *)
| Collect (k : nat).            (* the browser collects the closures of a closed socket *)

Fixpoint set_nth {A} (k : nat) (x : A) (l : list A) : list A :=
  match l, k with
  | [], _ => []
  | _ :: r, O => x :: r
  | y :: r, S j => y :: set_nth j x r
  end.
(* the connection k becomes c', these results are given *)
Definition at_conn (w : world) (k : nat) (f : conn -> option (conn * list (call * result))) : world :=
  match nth_error (w_conns w) k with
  | Some c => match f c with
              | Some (c', rs) => mkWorld (w_issued w) (w_queue w) (w_starter w) (set_nth k c' (w_conns w)) (w_results w ++ rs)
              | None => w
              end
  | None => w
  end.

(* send_request, 195-230 (the map is locked over the send and the insert), and what the
   loop of on_open does next, 177-186 *)
Definition send (c : conn) (r : call) (o : sending) (init : option call) (chan : list call) : conn * list (call * result) :=
  match o with
  | SOk => let (m, rs) := put_id r (c_map c) in
           (mkC init (c_sock c) (c_fwd c) (c_shut c) chan TLoop m (c_onerror c) (c_close c), rs)
  | SBad e => (mkC init (c_sock c) (c_fwd c) (c_shut c) chan TLoop (c_map c) (c_onerror c) (c_close c), [(r, Failed e)])
  | SErr e => (mkC init Closed (c_fwd c) (c_shut c) chan TDone (c_map c) (c_onerror c) (c_close c), [(r, Failed e)])
  end.

(* take_initial_request, 313-316, with the error for it *)
Definition fail_init (c : conn) (e : N) : list (call * result) :=
  match c_init c with Some r => [(r, Failed e)] | None => [] end.

Definition step (w : world) (ev : event) : world :=
  match ev with
  | Call => mkWorld (w_issued w + 1) (w_queue w ++ [w_issued w]) (w_starter w) (w_conns w) (w_results w)
  (* 57-67: a pending error goes to the first request, the next one opens the socket;
     93-142 *)
  | Start =>
      match w_starter w, w_queue w with
      | Some (Some e), r :: q => mkWorld (w_issued w) q (Some None) (w_conns w) (w_results w ++ [(r, Failed e)])
      | Some None, r :: q =>
          mkWorld (w_issued w) q None (w_conns w ++ [mkC (Some r) Connecting true false [] TWait [] true CNo]) (w_results w)
      | _, _ => w
      end
  (* 75-91: the next starter has no pending error *)
  | StartFail e =>
      match w_starter w, w_queue w with
      | Some None, r :: q => mkWorld (w_issued w) q (Some None) (w_conns w) (w_results w ++ [(r, Failed e)])
      | _, _ => w
      end
  (* select! picks any branch that is ready, also when the shutdown has been sent;
     the send fails when the task of on_open is over: the request is dropped *)
  | Forward k =>
      match nth_error (w_conns w) k, w_queue w with
      | Some c, r :: q =>
          if c_fwd c then
            match c_task c with
            | TDone => mkWorld (w_issued w) q (w_starter w)
                         (set_nth k (mkC (c_init c) (c_sock c) false (c_shut c) (c_chan c) TDone (c_map c) (c_onerror c) (c_close c)) (w_conns w))
                         (w_results w ++ [(r, Gone)])
            | t => mkWorld (w_issued w) q (w_starter w)
                     (set_nth k (mkC (c_init c) (c_sock c) true (c_shut c) (c_chan c ++ [r]) t (c_map c) (c_onerror c) (c_close c)) (w_conns w))
                     (w_results w)
            end
          else w
      | _, _ => w
      end
  | Stop k => at_conn w k (fun c =>
      if c_fwd c && c_shut c
      then Some (mkC (c_init c) (c_sock c) false (c_shut c) (c_chan c) (c_task c) (c_map c) (c_onerror c) (c_close c), []) else None)
  | Opened k => at_conn w k (fun c =>
      match c_sock c, c_task c with
      | Connecting, TWait => Some (mkC (c_init c) Open (c_fwd c) (c_shut c) (c_chan c) TFirst (c_map c) (c_onerror c) (c_close c), [])
      | _, _ => None
      end)
  (* 176-186: without a first request (the timeout took it) the socket is closed *)
  | First k o => at_conn w k (fun c =>
      match c_task c with
      | TFirst => match c_init c with
                  | Some r => Some (send c r o None (c_chan c))
                  | None => Some (mkC None Closed (c_fwd c) (c_shut c) (c_chan c) TDone (c_map c) (c_onerror c) (c_close c), [])
                  end
      | _ => None
      end)
  | Next k o => at_conn w k (fun c =>
      match c_task c, c_chan c with
      | TLoop, r :: q => Some (send c r o (c_init c) q)
      | _, _ => None
      end)
  | Ended k => at_conn w k (fun c =>
      match c_task c, c_chan c with
      | TLoop, [] => if c_fwd c then None
                     else Some (mkC (c_init c) Closed (c_fwd c) (c_shut c) [] TDone (c_map c) (c_onerror c) (c_close c), [])
      | _, _ => None
      end)
  | Message k i v => at_conn w k (fun c =>
      match take_id i (c_map c) with
      | Some (r, m) => Some (mkC (c_init c) (c_sock c) (c_fwd c) (c_shut c) (c_chan c) (c_task c) m (c_onerror c) (c_close c), [(r, Answer v)])
      | None => None
      end)
  (* does nothing when the first request was taken before *)
  | Timeout k => at_conn w k (fun c =>
      match c_init c with
      | Some _ => Some (mkC None Closed (c_fwd c) true (c_chan c) (c_task c) (c_map c) false (c_close c), fail_init c connect_timeout)
      | None => None
      end)
  | Error_ k e => at_conn w k (fun c =>
      if c_onerror c
      then Some (mkC None Closed (c_fwd c) true (c_chan c) (c_task c) (c_map c) false (c_close c), fail_init c e) else None)
  | Close k e => at_conn w k (fun c =>
      match c_close c with
      | CNo => Some (mkC None Closed (c_fwd c) true (c_chan c) (c_task c) (c_map c) (c_onerror c)
                       (CDrain (match c_init c with Some _ => None | None => Some e end)), fail_init c e)
      | _ => None
      end)
  (* 354-369: the outstanding requests get the error or are disconnected, the next
     starter has the error that is left *)
  | Drain k =>
      match nth_error (w_conns w) k with
      | Some c =>
          match c_close c with
          | CDrain p =>
              let (rs, p') := drain p (c_map c) in
              mkWorld (w_issued w) (w_queue w) (Some p')
                (set_nth k (mkC (c_init c) (c_sock c) (c_fwd c) (c_shut c) (c_chan c) (c_task c) [] (c_onerror c) CDone) (w_conns w))
                (w_results w ++ rs)
          | _ => w
          end
      | None => w
      end
  | DropChan k => at_conn w k (fun c =>
      match c_task c, c_fwd c with
      | TDone, false => Some (mkC (c_init c) (c_sock c) false (c_shut c) [] TDone (c_map c) (c_onerror c) (c_close c), map (fun r => (r, Gone)) (c_chan c))
      | _, _ => None
      end)
  (* the closure of on_open with its end of the channel, and that of on_message with
     the map, once nothing else holds them *)
  | Collect k => at_conn w k (fun c =>
      match c_close c, c_fwd c, c_task c with
      | CDone, false, TWait | CDone, false, TDone =>
          Some (mkC (c_init c) (c_sock c) false (c_shut c) [] TDone [] (c_onerror c) CDone,
                map (fun r => (r, Gone)) (c_chan c) ++ map (fun x => (snd x, Gone)) (c_map c))
      | _, _, _ => None
      end)
  end.
Definition run (h : list event) (w : world) : world := fold_left step h w.
