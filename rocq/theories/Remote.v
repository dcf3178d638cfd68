(* Remote calls end to end: any number of clients (ClientWorker.v), the network
   between them and one server (ServerQueue.v), and the data the server's handlers
   work on.

   A history is any list of events; an event that is not possible leaves the state
   unchanged.  Streams deliver in order and without duplicates (QUIC, TCP); a message
   may stay undelivered for ever, so broken connections need no events of their own. *)
From Coq Require Import List NArith Arith Bool.
From Verif Require Import ServerQueue.
From Verif Require ClientWorker.
Import ListNotations.

(* What the handlers did, oldest first.  who is not in the code: the client and call the
   request came from (None for connections that are not ours). *)
Record entry := Entry { e_conn : N; e_ser : nat; e_who : option (N * N); e_session : option N; e_req : N; e_ans : N }.

Record sys (D : Type) := Sys {
  cl : N -> ClientWorker.worker;       (* the clients *)
  cur : N -> N;                        (* history: the connection a client opened last *)
  payloads : N -> list (option N * N); (* what each call carries: session id and request, in order of issue *)
  nconn : N;                           (* connections opened by our clients so far *)
  sent : N -> list (N * N);            (* history: (client, call) written to a connection *)
  reqs : N -> list (N * N);            (* of these, still on the way to the server *)
  srv : server;
  resps : N -> list resp;              (* responses on the way to the client *)
  db : D;
  log : list entry
}.
Arguments Sys {D}. Arguments cl {D}. Arguments cur {D}. Arguments payloads {D}. Arguments nconn {D}.
Arguments sent {D}. Arguments reqs {D}. Arguments srv {D}. Arguments resps {D}. Arguments db {D}. Arguments log {D}.

Definition fset {A} (f : N -> A) (k : N) (a : A) : N -> A := fun x => if N.eqb x k then a else f x.

(* no connections, `workers` request workers, data d *)
Definition sys0 {D} (workers : nat) (d : D) : sys D :=
  Sys (fun _ => ClientWorker.init) (fun _ => 0%N) (fun _ => []) 0 (fun _ => []) (fun _ => []) (open workers) (fun _ => []) d [].

(* Connections of our clients have even numbers, those of anybody else odd ones. *)
Definition own_conn (j : N) : N := (2 * j)%N.

Inductive event :=
| ECall (k : N) (session : option N) (request : N)  (* a remote call, client.rs:487-505 *)
| EClient (k : N) (ev : ClientWorker.event)          (* an event of a client's worker *)
| EDeliver (n : N)                                   (* the server reads the next request of a connection *)
| EForeign (n : N) (i se v : option N)               (* somebody else's payload arrives *)
| EServer (ev : ServerQueue.event)                   (* an event of the server *)
| EExec (j : nat)                                    (* the handler of the j-th busy request does its work *)
| EFinish (j : nat)                                  (* and returns *)
| EReceive (k : N).                                  (* a client processes the next response *)

(* The call an event of the worker writes to the network: on a new connection
   (quic_worker.rs:79-88, tungstenite_worker.rs:71-80) or the current one
   (quic_worker.rs:123-130, tungstenite_worker.rs:106-116).  A failed write may have
   reached the server. *)
Definition writes (w : ClientWorker.worker) (ev : ClientWorker.event) : option (bool * N) :=
  match ev with
  | ClientWorker.FirstSend | ClientWorker.FirstSendFail _ =>
      match ClientWorker.ph w with ClientWorker.Connecting c => Some (true, c) | _ => None end
  | ClientWorker.Send | ClientWorker.SendFail _ =>
      match ClientWorker.ph w, ClientWorker.queue w with
      | ClientWorker.Connected, c :: _ | ClientWorker.Closed, c :: _ => Some (false, c)
      | _, _ => None
      end
  | _ => None
  end.

Definition find_entry (n : N) (j : nat) (l : list entry) : option entry :=
  find (fun e => N.eqb (e_conn e) n && Nat.eqb (e_ser e) j) l.

Section Step.
Context {D : Type}.
(* the handlers: what a request of a session does to the data and answers
   (dispatch.rs:90-700; one call of the local database is one atomic action here, see
   C19-C43 for its inside; handlers of other transactions may interleave in between) *)
Variable exec : D -> option N -> N -> D * N.
Variable limit : nat.                            (* client_simultaneous_request_limit *)
Variable tr : N -> transport.                    (* the server's side of each connection *)
Variable t : N -> ClientWorker.transport.        (* each client's transport *)

Definition set_srv (s : sys D) (x : server) : sys D :=
  Sys (cl s) (cur s) (payloads s) (nconn s) (sent s) (reqs s) x (resps s) (db s) (log s).

Definition sys_step (s : sys D) (ev : event) : sys D :=
  match ev with
  | ECall k se r =>
      Sys (fset (cl s) k (ClientWorker.step (t k) (cl s k) ClientWorker.Call)) (cur s)
        (fset (payloads s) k (payloads s k ++ [(se, r)])) (nconn s) (sent s) (reqs s) (srv s) (resps s) (db s) (log s)
  | EClient k ev =>
      match ev with
      | ClientWorker.Call | ClientWorker.Response _ _ => s   (* ECall and EReceive *)
      | _ =>
          let w := ClientWorker.step (t k) (cl s k) ev in
          match writes (cl s k) ev with
          | None => Sys (fset (cl s) k w) (cur s) (payloads s) (nconn s) (sent s) (reqs s) (srv s) (resps s) (db s) (log s)
          | Some (true, c) =>
              let n := own_conn (nconn s) in
              Sys (fset (cl s) k w) (fset (cur s) k n) (payloads s) (nconn s + 1) (fset (sent s) n [(k, c)]) (fset (reqs s) n [(k, c)])
                (srv s) (resps s) (db s) (log s)
          | Some (false, c) =>
              let n := cur s k in
              Sys (fset (cl s) k w) (cur s) (payloads s) (nconn s) (fset (sent s) n (sent s n ++ [(k, c)])) (fset (reqs s) n (reqs s n ++ [(k, c)]))
                (srv s) (resps s) (db s) (log s)
          end
      end
  | EDeliver n =>
      match reqs s n with
      | (k, c) :: rest =>
          match nth_error (payloads s k) (N.to_nat c) with
          | Some (se, r) =>
              if length (inbox (conns (srv s) n)) <? limit then
                Sys (cl s) (cur s) (payloads s) (nconn s) (sent s) (fset (reqs s) n rest)
                  (step limit tr (srv s) (Arrive n (Some (ClientWorker.wire_id c)) se (Some r))) (resps s) (db s) (log s)
              else s
          | None => s
          end
      | [] => s
      end
  | EForeign n i se v => set_srv s (step limit tr (srv s) (Arrive (2 * n + 1) i se v))
  | EServer ev =>
      match ev with
      | Arrive _ _ _ _ | Finish _ _ => s   (* EDeliver, EForeign and EFinish *)
      | Write n =>
          let x := conns (srv s) n in
          Sys (cl s) (cur s) (payloads s) (nconn s) (sent s) (reqs s) (step limit tr (srv s) ev)
            (match writing x, outq x with true, r :: _ => fset (resps s) n (resps s n ++ [r]) | _, _ => resps s end) (db s) (log s)
      | _ => set_srv s (step limit tr (srv s) ev)
      end
  | EExec j =>
      match nth_error (busy (srv s)) j with
      | Some (n, q) =>
          match value q, find_entry n (ser q) (log s) with
          | Some r, None =>
              let (d, a) := exec (db s) (rsession q) r in
              Sys (cl s) (cur s) (payloads s) (nconn s) (sent s) (reqs s) (srv s) (resps s) d
                (log s ++ [Entry n (ser q) (nth_error (sent s n) (ser q)) (rsession q) r a])
          | _, _ => s
          end
      | None => s
      end
  | EFinish j =>
      match nth_error (busy (srv s)) j with
      | Some (n, q) =>
          match find_entry n (ser q) (log s) with
          | Some e => set_srv s (step limit tr (srv s) (Finish j (e_ans e)))
          | None => s
          end
      | None => s
      end
  (* client.rs:861-885; a response without an id is not for a request *)
  | EReceive k =>
      match ClientWorker.ph (cl s k), resps s (cur s k) with
      | ClientWorker.Sent _, r :: rest | ClientWorker.Connected, r :: rest =>
          Sys (match pid r with
               | Some i => fset (cl s) k (ClientWorker.step (t k) (cl s k) (ClientWorker.Response i (pvalue r)))
               | None => cl s
               end)
            (cur s) (payloads s) (nconn s) (sent s) (reqs s) (srv s) (fset (resps s) (cur s k) rest) (db s) (log s)
      | _, _ => s
      end
  end.

Fixpoint sys_run (s : sys D) (h : list event) : sys D :=
  match h with [] => s | ev :: r => sys_run (sys_step s ev) r end.
End Step.
