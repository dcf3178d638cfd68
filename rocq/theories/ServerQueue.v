(* Model of how the server processes requests of its connections.

   /repo/crates/bonsaidb-server/src/server.rs:123-157 (request workers), 580-690
   (handle_client_requests, handle_request_through_worker), 692-770 (handle_stream);
   /repo/crates/bonsaidb-server/src/server/websockets.rs:91-196 (handle_websocket);
   /repo/crates/bonsaidb-server/src/server/shutdown.rs.

   The server is a transition system; one event is one atomic action of one task (reader,
   request loop, worker, completion task, writer) and a history is any list of events.
   An event that is not possible in a state leaves it unchanged. *)
From Coq Require Import List NArith Arith Bool.
Import ListNotations.

Inductive transport := Quic | WebSocket.

(* networking.rs:17-28 Payload of a request.  `ser` is not in the code: it numbers the
   requests of a connection in order of arrival, so that requests can be told apart.
   `value` is None for a payload whose value is an Err (any client can send one). *)
Record req := mkReq { ser : nat; rid : option N; rsession : option N; value : option N }.
(* Payload of a response; `answers` is the `ser` of the request it was made for. *)
Record resp := mkResp { answers : nat; pid : option N; psession : option N; pvalue : N }.

(* server.rs:590-640 the request loop: at the top, in notify.notified().await, or having
   counted a slot and waiting for a payload; stopped after a shutdown or a panic. *)
Inductive loop_state := Top | Waiting | Reserved | Stopped.

Record conn := mkConn {
  arrived : list req;      (* history: all requests read from the network *)
  inbox : list req;        (* request_sender/request_receiver channel, server.rs:724 *)
  loop : loop_state;
  permit : bool;           (* tokio Notify: a stored notification *)
  inproc : nat;            (* requests_in_queue, server.rs:588 *)
  answering : list resp;   (* completion tasks that received a result, server.rs:672-683 *)
  subbing : nat;           (* completion tasks before fetch_sub, server.rs:627 *)
  notifying : nat;         (* completion tasks before notify_one, server.rs:629 *)
  outq : list resp;        (* payload_sender channel *)
  writing : bool;          (* the task writing responses to the network runs *)
  written : list resp;     (* history: responses written to the network *)
  unwritten : list resp    (* history: responses dropped as the writer had stopped *)
}.

Record server := mkS {
  conns : N -> conn;
  workq : list (N * req);  (* request_processor channel, shared by all connections *)
  busy : list (N * req);   (* requests being handled, at most one per worker *)
  live : nat;              (* request workers still running *)
  lost : list (N * req);   (* history: requests whose handling panicked *)
  graceful : bool          (* ShutdownState::GracefulShutdown was sent *)
}.

Definition conn0 : conn := mkConn [] [] Top false 0 [] 0 0 [] true [] [].
(* CustomServer::open, server.rs:119-190, with `request_workers` workers *)
Definition open (workers : nat) : server := mkS (fun _ => conn0) [] [] workers [] false.

Definition upd (f : N -> conn) (c : N) (x : conn) : N -> conn :=
  fun d => if N.eqb d c then x else f d.
Definition setc (s : server) (c : N) (x : conn) : server :=
  mkS (upd (conns s) c x) (workq s) (busy s) (live s) (lost s) (graceful s).

Fixpoint remove_nth {A} (n : nat) (l : list A) : list A :=
  match n, l with
  | O, _ :: r => r
  | S n', x :: r => x :: remove_nth n' r
  | _, [] => []
  end.

Inductive event :=
| Arrive (c : N) (i s : option N) (v : option N)   (* the reader got a payload *)
| Look (c : N)                 (* server.rs:591-603: load, compare, compare_exchange *)
| Wake (c : N)                 (* notified().await returns *)
| Accept (c : N)               (* server.rs:604-640: payload received, handed to the workers *)
| Start                        (* a worker receives a request, server.rs:132 *)
| Finish (k : nat) (v : N)     (* the handler of the k-th busy request returns v *)
| Crash (k : nat)              (* handling the k-th busy request panics *)
| Respond (c : N) (k : nat)    (* server.rs:620-625: the completion task sends the response *)
| Sub (c : N)                  (* server.rs:627 *)
| Notify (c : N)               (* server.rs:629 *)
| Write (c : N)                (* server.rs:716, websockets.rs:134-156 *)
| Graceful                     (* CustomServer::shutdown(Some(timeout)), server.rs:755-763 *)
| StopLoop (c : N)             (* server.rs:612-616 *)
| StopWriter (c : N).          (* server.rs:709-713, QUIC only *)

(* limit is client_simultaneous_request_limit, tr the transport of each connection. *)
Definition step (limit : nat) (tr : N -> transport) (s : server) (ev : event) : server :=
  match ev with
  (* server.rs:744-768 / websockets.rs:166-176, the channel holds `limit` payloads.  The QUIC
     reader stops with the shutdown, the model lets it go on reading. *)
  | Arrive c i se v =>
      let x := conns s c in
      if length (inbox x) <? limit then
        let q := mkReq (length (arrived x)) i se v in
        setc s c (mkConn (arrived x ++ [q]) (inbox x ++ [q]) (loop x) (permit x) (inproc x) (answering x)
                    (subbing x) (notifying x) (outq x) (writing x) (written x) (unwritten x))
      else s
  | Look c =>
      let x := conns s c in
      match loop x with
      | Top =>
          if inproc x =? limit then
            setc s c (mkConn (arrived x) (inbox x) Waiting (permit x) (inproc x) (answering x)
                    (subbing x) (notifying x) (outq x) (writing x) (written x) (unwritten x))
          else
            setc s c (mkConn (arrived x) (inbox x) Reserved (permit x) (inproc x + 1) (answering x)
                    (subbing x) (notifying x) (outq x) (writing x) (written x) (unwritten x))
      | _ => s
      end
  | Wake c =>
      let x := conns s c in
      match loop x, permit x with
      | Waiting, true =>
          setc s c (mkConn (arrived x) (inbox x) Top false (inproc x) (answering x)
                    (subbing x) (notifying x) (outq x) (writing x) (written x) (unwritten x))
      | _, _ => s
      end
  (* the channel to the workers is closed when no worker is left: `.unwrap()` at
     server.rs:637 panics and the loop is gone *)
  | Accept c =>
      let x := conns s c in
      match loop x, inbox x with
      | Reserved, q :: r =>
          if live s =? 0 then
            let s' := setc s c (mkConn (arrived x) r Stopped (permit x) (inproc x) (answering x)
                        (subbing x) (notifying x) (outq x) (writing x) (written x) (unwritten x)) in
            mkS (conns s') (workq s') (busy s') (live s') (lost s ++ [(c, q)]) (graceful s')
          else
            let s' := setc s c (mkConn (arrived x) r Top (permit x) (inproc x) (answering x)
                        (subbing x) (notifying x) (outq x) (writing x) (written x) (unwritten x)) in
            mkS (conns s') (workq s ++ [(c, q)]) (busy s') (live s') (lost s') (graceful s')
      | _, _ => s
      end
  | Start =>
      match workq s with
      | j :: r =>
          if length (busy s) <? live s then
            mkS (conns s) r (busy s ++ [j]) (live s) (lost s) (graceful s)
          else s
      | [] => s
      end
  (* server.rs:133-156; `request.value.unwrap()` at 149 panics for an Err value *)
  | Finish k v =>
      match nth_error (busy s) k with
      | Some (c, q) =>
          match value q with
          | Some _ =>
              let x := conns s c in
              let s' := setc s c (mkConn (arrived x) (inbox x) (loop x) (permit x) (inproc x)
                          (answering x ++ [mkResp (ser q) (rid q) (rsession q) v])
                          (subbing x) (notifying x) (outq x) (writing x) (written x) (unwritten x)) in
              mkS (conns s') (workq s) (remove_nth k (busy s)) (live s) (lost s) (graceful s)
          | None => s
          end
      | None => s
      end
  (* a panic ends the worker's task (server.rs:131); the result sender is dropped, so the
     completion task ends at `result_receiver.await?` (server.rs:673) without its callback *)
  | Crash k =>
      match nth_error (busy s) k with
      | Some j => mkS (conns s) (workq s) (remove_nth k (busy s)) (live s - 1) (lost s ++ [j]) (graceful s)
      | None => s
      end
  | Respond c k =>
      let x := conns s c in
      match nth_error (answering x) k with
      | Some r =>
          setc s c (mkConn (arrived x) (inbox x) (loop x) (permit x) (inproc x) (remove_nth k (answering x))
                    (subbing x + 1) (notifying x)
                    (if writing x then outq x ++ [r] else outq x) (writing x) (written x)
                    (if writing x then unwritten x else unwritten x ++ [r]))
      | None => s
      end
  | Sub c =>
      let x := conns s c in
      match subbing x with
      | O => s
      | S n =>
          setc s c (mkConn (arrived x) (inbox x) (loop x) (permit x) (inproc x - 1) (answering x)
                    n (notifying x + 1) (outq x) (writing x) (written x) (unwritten x))
      end
  | Notify c =>
      let x := conns s c in
      match notifying x with
      | O => s
      | S n =>
          setc s c (mkConn (arrived x) (inbox x) (loop x) true (inproc x) (answering x)
                    (subbing x) n (outq x) (writing x) (written x) (unwritten x))
      end
  | Write c =>
      let x := conns s c in
      match writing x, outq x with
      | true, r :: o =>
          setc s c (mkConn (arrived x) (inbox x) (loop x) (permit x) (inproc x) (answering x)
                    (subbing x) (notifying x) o true (written x ++ [r]) (unwritten x))
      | _, _ => s
      end
  | Graceful => mkS (conns s) (workq s) (busy s) (live s) (lost s) true
  | StopLoop c =>
      let x := conns s c in
      match graceful s, loop x with
      | true, Reserved =>
          setc s c (mkConn (arrived x) (inbox x) Stopped (permit x) (inproc x) (answering x)
                    (subbing x) (notifying x) (outq x) (writing x) (written x) (unwritten x))
      | _, _ => s
      end
  | StopWriter c =>
      let x := conns s c in
      match graceful s, tr c, writing x with
      | true, Quic, true =>
          setc s c (mkConn (arrived x) (inbox x) (loop x) (permit x) (inproc x) (answering x)
                    (subbing x) (notifying x) [] false (written x) (unwritten x ++ outq x))
      | _, _, _ => s
      end
  end.

Fixpoint run (limit : nat) (tr : N -> transport) (s : server) (h : list event) : server :=
  match h with
  | [] => s
  | ev :: r => run limit tr (step limit tr s ev) r
  end.
