(* Shutting a server down: crates/bonsaidb-server/src/server/shutdown.rs, the tasks
   of server.rs, server/tcp.rs and server/websockets.rs that watch for it, and
   server.rs:760-850 (shutdown, listen_for_shutdown).
   tokio's watch channel is modelled by a value, a version and its receivers, each
   with the version it has seen: send stores the value only if there is a receiver,
   clone copies the seen version, changed() is ready when the versions differ.
   One step is one critical section or one poll; timers fire at any time. *)
From Verif Require Import Base.
Local Open Scope N_scope.

(* shutdown.rs:13-18 *)
Inductive sstate := Running | GracefulShutdown | ForcedShutdown.
(* the tasks that hold a watcher *)
Inductive kind :=
| QuicListener   (* listen_on, server.rs:393-423 *)
| QuicDraining   (* listen_on inside wait_idle, server.rs:404 *)
| TcpListener    (* listen_for_tcp_on, tcp.rs:19-53 *)
| StreamReader   (* handle_stream, server.rs:741-761 *)
| StreamWriter   (* the spawned writer of handle_stream, server.rs:697-722 *)
| Requests       (* handle_client_requests, server.rs:584-648 *)
| WsReader.      (* handle_websocket, websockets.rs:168-200 *)
Record watcher := mk_watcher { w_id : N; w_kind : kind; w_seen : N }.
(* calls of graceful_shutdown and shutdown under way *)
Inductive phase :=
| GStop | GSend | GWait        (* graceful_shutdown before its three awaits, shutdown.rs:41-54 *)
| FStop | FSend                (* shutdown, also after a timeout, shutdown.rs:56-59 *)
| Returned (forced : bool).    (* forced: it has sent ForcedShutdown, or tried to *)
Record state := mk_state {
  value : sstate; version : N;
  spare : option N;              (* Shutdown.receiver: the version it has seen *)
  watchers : list watcher;
  calls : list phase;
  next_id : N
}.
(* shutdown.rs:21-27 *)
Definition new : state := mk_state Running 0 (Some 0) [] [] 0.
Definition receivers (s : state) : nat := (length (watchers s) + match spare s with Some _ => 1 | None => 0 end)%nat.

(* watch::Sender::send *)
Definition send (v : sstate) (s : state) : state * bool :=
  match receivers s with
  | O => (s, false)
  | _ => (mk_state v (version s + 1) (spare s) (watchers s) (calls s) (next_id s), true)
  end.
(* shutdown.rs:36-39 *)
Definition stop_watching (s : state) : state := mk_state (value s) (version s) None (watchers s) (calls s) (next_id s).
(* shutdown.rs:29-34 *)
Definition new_watcher (k : kind) (s : state) : state * option N :=
  match spare s with
  | None => (s, None)
  | Some seen => (mk_state (value s) (version s) (spare s) (watchers s ++ [mk_watcher (next_id s) k seen]) (calls s) (next_id s + 1), Some (next_id s))
  end.
(* shutdown.rs:61-63 *)
Definition should_shutdown (s : state) : bool := match value s with ForcedShutdown => true | _ => false end.

Definition find_watcher (s : state) (i : N) : option watcher := find (fun w => w_id w =? i) (watchers s).
Definition set_watchers (s : state) (l : list watcher) : state := mk_state (value s) (version s) (spare s) l (calls s) (next_id s).
Definition set_calls (s : state) (l : list phase) : state := mk_state (value s) (version s) (spare s) (watchers s) l (next_id s).
(* the watcher is dropped when its task ends *)
Definition finish (s : state) (i : N) : state := set_watchers s (filter (fun w => negb (w_id w =? i)) (watchers s)).
(* #[derive(Clone)], shutdown.rs:66-69: the task that reads a connection clones its watcher
   for the other tasks of the connection before it polls it for the first time
   (server.rs:698, 727, websockets.rs:211) *)
Definition clones (parent child : kind) : bool :=
  match parent, child with
  | StreamReader, StreamWriter | StreamReader, Requests | WsReader, Requests => true
  | _, _ => false
  end.
Definition clone_watcher (i : N) (k : kind) (s : state) : state * option N :=
  match find_watcher s i with
  | None => (s, None)
  | Some w =>
      if clones (w_kind w) k && (w_seen w =? 0) then
        (mk_state (value s) (version s) (spare s) (watchers s ++ [mk_watcher (next_id s) k (w_seen w)]) (calls s) (next_id s + 1), Some (next_id s))
      else (s, None)
  end.

(* what a task does when wait_for_shutdown gives it [v] *)
Inductive reaction := Ends | Becomes (k : kind) | Stays.
Definition react (k : kind) (v : sstate) : reaction :=
  match k with
  | QuicListener => match v with GracefulShutdown => Becomes QuicDraining | _ => Ends end    (* server.rs:401-408 *)
  | QuicDraining => Stays                                                                    (* does not poll it any more *)
  | TcpListener => Ends                                                                      (* tcp.rs:28-30 *)
  | StreamReader | StreamWriter | Requests => match v with Running => Stays | _ => Ends end  (* server.rs:709-713, 752-756, 616-620 *)
  | WsReader => match v with ForcedShutdown => Ends | _ => Stays end                         (* websockets.rs:193-197 *)
  end.
Definition polls (k : kind) : bool := match k with QuicDraining => false | _ => true end.
(* wait_for_shutdown polled once, shutdown.rs:72-78; the sender lives as long as the server.
   None: it keeps waiting. *)
Definition poll (s : state) (i : N) : state * option sstate :=
  match find_watcher s i with
  | None => (s, None)
  | Some w =>
      if polls (w_kind w) && negb (w_seen w =? version s) then
        (match react (w_kind w) (value s) with
         | Ends => finish s i
         | Becomes k => set_watchers s (map (fun x => if w_id x =? i then mk_watcher i k (version s) else x) (watchers s))
         | Stays => set_watchers s (map (fun x => if w_id x =? i then mk_watcher i (w_kind x) (version s) else x) (watchers s))
         end, Some (value s))
      else (s, None)
  end.

Fixpoint set_nth {A} (l : list A) (n : nat) (x : A) : list A :=
  match l, n with
  | [], _ => []
  | _ :: l', O => x :: l'
  | y :: l', S n' => y :: set_nth l' n' x
  end.
(* call [n] goes on to its next await *)
Definition advance (s : state) (n : nat) : state :=
  match nth_error (calls s) n with
  | Some GStop => let s := stop_watching s in set_calls s (set_nth (calls s) n GSend)
  | Some GSend => let '(s, ok) := send GracefulShutdown s in set_calls s (set_nth (calls s) n (if ok then GWait else Returned false))
  | Some GWait => if Nat.eqb (receivers s) 0 then set_calls s (set_nth (calls s) n (Returned false)) else s     (* sender.closed() *)
  | Some FStop => let s := stop_watching s in set_calls s (set_nth (calls s) n FSend)
  | Some FSend => let s := fst (send ForcedShutdown s) in set_calls s (set_nth (calls s) n (Returned true))
  | _ => s
  end.
(* the timeout of call [n] elapses *)
Definition time_out (s : state) (n : nat) : state :=
  match nth_error (calls s) n with
  | Some GWait => set_calls s (set_nth (calls s) n FStop)
  | _ => s
  end.

Inductive event :=
| Watch (k : kind)                  (* a task asks for a watcher *)
| Clone (i : N) (k : kind)
| Finish (i : N)                    (* a task ends for another reason: its connection is closed *)
| Poll (i : N)
| CallGraceful | CallForced         (* CustomServer::shutdown(Some(_)) / (None), server.rs:767-775 *)
| Advance (n : nat)
| TimeOut (n : nat).
Definition step (s : state) (e : event) : state :=
  match e with
  | Watch k => fst (new_watcher k s)
  | Clone i k => fst (clone_watcher i k s)
  | Finish i => finish s i
  | Poll i => fst (poll s i)
  | CallGraceful => set_calls s (calls s ++ [GStop])
  | CallForced => set_calls s (calls s ++ [FStop])
  | Advance n => advance s n
  | TimeOut n => time_out s n
  end.
Definition run (s : state) (es : list event) : state := fold_left step es s.

(* ---------- signals: listen_for_shutdown, server.rs:779-849 ---------- *)
Inductive signal_state := SigRunning | SigShuttingDown.
Record listener := mk_listener {
  flag : N;                 (* 0, GRACEFUL_SHUTDOWN = 1, TERMINATE = 2 *)
  sig : signal_state;
  finished : bool           (* the spawned graceful shutdown has returned and sent () *)
}.
Inductive verdict := Again | StartGraceful | Force | Return.
(* one iteration of the loop; [should] is should_shutdown(); [quick]: a graceful shutdown
   spawned by this iteration returns before the loop looks whether it has *)
Definition iteration (l : listener) (should quick : bool) : listener * verdict :=
  let after l started :=
    match sig l with
    | SigShuttingDown => if finished l then (l, Return) else (l, if started : bool then StartGraceful else Again)
    | SigRunning => if should then (l, Return) else (l, Again)
    end in
  if flag l =? 0 then after l false
  else if flag l =? 1 then
    match sig l with
    | SigRunning => after (mk_listener (flag l) SigShuttingDown quick) true
    | SigShuttingDown => (l, Force)
    end
  else (l, Force).
(* the operating system and the spawned task *)
Inductive sig_event := Interrupt | Terminate | GracefulDone | Iterate (should quick : bool).
Definition sig_step (l : listener) (e : sig_event) : listener * option verdict :=
  match e with
  | Interrupt => (mk_listener 1 (sig l) (finished l), None)
  | Terminate => (mk_listener 2 (sig l) (finished l), None)
  | GracefulDone => (match sig l with SigShuttingDown => mk_listener (flag l) (sig l) true | _ => l end, None)
  | Iterate should quick => let '(l, v) := iteration l should quick in (l, Some v)
  end.
(* stops at the first Force or Return *)
Fixpoint sig_run (l : listener) (es : list sig_event) : listener * list verdict :=
  match es with
  | [] => (l, [])
  | e :: es' =>
      match sig_step l e with
      | (l1, Some Force) => (l1, [Force])
      | (l1, Some Return) => (l1, [Return])
      | (l1, Some v) => let '(l2, vs) := sig_run l1 es' in (l2, v :: vs)
      | (l1, None) => sig_run l1 es'
      end
  end.

(* ---------- one QUIC stream while the server shuts down: server.rs:584-761 ---------- *)
(* the three tasks with their channels; [told] once GracefulShutdown or ForcedShutdown was sent *)
Record stream := mk_stream {
  told : bool; reader : bool; handler : bool; writer : bool;
  requests : list N;        (* request_receiver *)
  processing : list N;      (* given to a worker *)
  responses : list N;       (* payload_receiver *)
  sent : list N             (* on the wire to the client *)
}.
Inductive stream_event :=
| Told                      (* the shutdown is announced *)
| Read (r : N)              (* the client's request [r] is read and queued *)
| Take                      (* handle_client_requests takes the next request *)
| Process (r : N)           (* a worker is done with [r]: its response is queued *)
| Write                     (* the writer takes a response and sends it *)
| ReaderSees | HandlerSees | WriterSees.
Definition stream_step (s : stream) (e : stream_event) : stream :=
  match e with
  | Told => mk_stream true (reader s) (handler s) (writer s) (requests s) (processing s) (responses s) (sent s)
  | Read r => if reader s then
      mk_stream (told s) (reader s) (handler s) (writer s) (if handler s then requests s ++ [r] else requests s) (processing s) (responses s) (sent s) else s
  | Take => if handler s then
      match requests s with
      | r :: rs => mk_stream (told s) (reader s) (handler s) (writer s) rs (processing s ++ [r]) (responses s) (sent s)
      | [] => s
      end else s
  | Process r => if existsb (N.eqb r) (processing s) then
      (* the sender fails silently when the writer has dropped its receiver *)
      mk_stream (told s) (reader s) (handler s) (writer s) (requests s) (filter (fun x => negb (x =? r)) (processing s))
        (if writer s then responses s ++ [r] else responses s) (sent s) else s
  | Write => if writer s then
      match responses s with
      | r :: rs => mk_stream (told s) (reader s) (handler s) (writer s) (requests s) (processing s) rs (sent s ++ [r])
      | [] => s
      end else s
  | ReaderSees => if told s then mk_stream (told s) false (handler s) (writer s) (requests s) (processing s) (responses s) (sent s) else s
  | HandlerSees => if told s then mk_stream (told s) (reader s) false (writer s) [] (processing s) (responses s) (sent s) else s
  | WriterSees => if told s then mk_stream (told s) (reader s) (handler s) false (requests s) (processing s) [] (sent s) else s
  end.
Definition stream_run (s : stream) (es : list stream_event) : stream := fold_left stream_step es s.
Definition stream_new : stream := mk_stream false true true true [] [] [] [].
