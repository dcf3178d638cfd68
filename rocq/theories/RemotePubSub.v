(* Model of a client's subscribers: what is published at the server, forwarded over the
   connection and handed to the receivers of the client.

   client: /repo/crates/bonsaidb-client/src/client/remote_database/pubsub.rs:12-125, 127-226
   (create_subscriber, AsyncRemoteSubscriber, BlockingRemoteSubscriber, Drop);
   /repo/crates/bonsaidb-client/src/client.rs:318-342 (the MessageReceived callback), 590-616
   (register_subscriber, unregister_subscriber), 861-885 (process_response_payload);
   tungstenite_worker.rs:22-160, quic_worker.rs:24-60 (the reconnecting loops);
   server: /repo/crates/bonsaidb-server/src/server/connected_client.rs:131-183, 185-250;
   server/websockets.rs:110-165 and server.rs:512-582 (the queues to the socket).

   One connection of one client.  Subscriber ids, topics and payloads are numbers.  Which
   requests the server accepts for which session is C66; the relay on the server is C55.  The
   queues between the forwarding tasks and the socket are first in first out and are one
   queue here (`wire`). *)
From Coq Require Import List Arith Bool.
Import ListNotations.

Definition msg := (nat * nat)%type.       (* MessageReceived: topic, payload *)

(* A subscriber in the server: its topics, and the receiver's queue, which the forwarding
   task empties even after the subscriber itself has been dropped (s_open = false). *)
Record ssub := mkSub { s_open : bool; s_topics : list nat; s_queue : list msg }.
(* AsyncRemoteSubscriber / BlockingRemoteSubscriber: its id, whether it has not been dropped,
   and what its receiver was handed. *)
Record hrec := mkH { h_id : nat; h_alive : bool; h_got : list msg }.

Record state := mkSt {
  srv : nat -> option ssub;        (* ClientSession::subscribers, and the forwarding tasks *)
  wire : list (nat * msg);         (* MessageReceived on their way: subscriber id, message *)
  used : list nat;                 (* ids the relay has given out *)
  pend : list nat;                 (* CreateSubscriber answered, register_subscriber not run *)
  cmap : nat -> option nat;        (* SubscriberMap: id to the handle whose sender it holds *)
  hs : list hrec                   (* the client's subscribers, in the order they were made *)
}.

Inductive event :=
| Create (i : nat)                 (* the server executes CreateSubscriber, its id is i *)
| Register (h i : nat)             (* create_subscriber returns: handle h, for id i *)
| Subscribe (h t : nat)            (* the server executes a SubscribeTo sent by handle h *)
| Unsubscribe (h t : nat)          (* ... an UnsubscribeFrom *)
| Publish (t p : nat)              (* a message is published, by anyone *)
| Forward (i : nat)                (* the task of subscriber i sends the next message *)
| Deliver                          (* the client's worker handles the next MessageReceived *)
| Drop (h : nat)                   (* the handle is dropped *)
| Unregister (h : nat)             (* the server executes its UnregisterSubscriber *)
| Removed (h : nat)                (* ... which was answered, or failed: the map forgets the id *)
| Close (i : nat)                  (* the server drops the subscriber: its session ended *)
| Disconnect (n : nat)             (* the connection breaks, the first n messages arrived *)
| Reconnect                        (* the client's loop starts the next connection *)
| Restart.                         (* the server stopped and a new process runs *)

Definition upd {A} (f : nat -> option A) (i : nat) (v : option A) : nat -> option A :=
  fun j => if j =? i then v else f j.
Definition mem (t : nat) (l : list nat) : bool := existsb (Nat.eqb t) l.
Definition add (t : nat) (l : list nat) : list nat := if mem t l then l else t :: l.
Definition del (t : nat) (l : list nat) : list nat := filter (fun x => negb (x =? t)) l.

(* circulate: a message goes to the queue of each subscriber of its topic *)
Definition offer (t p : nat) (s : ssub) : ssub :=
  if s_open s && mem t (s_topics s)
  then mkSub true (s_topics s) (s_queue s ++ [(t, p)]) else s.
Definition closed (s : ssub) : ssub := mkSub false [] (s_queue s).

Fixpoint setn {A} (n : nat) (v : A) (l : list A) : list A :=
  match l, n with
  | [], _ => []
  | _ :: l, O => v :: l
  | x :: l, S n => x :: setn n v l
  end.

(* connected_client.rs:185-250: subscribe_by_id, unsubscribe_by_id: an error, and no change,
   for an id that is not registered *)
Definition on_sub (f : ssub -> ssub) (i : nat) (st : state) : state :=
  match srv st i with
  | Some s => if s_open s
              then mkSt (upd (srv st) i (Some (f s))) (wire st) (used st) (pend st) (cmap st) (hs st)
              else st
  | None => st
  end.
Definition id_of (h : nat) (st : state) : option nat := option_map h_id (nth_error (hs st) h).
Definition by_handle (f : ssub -> ssub) (h : nat) (st : state) : state :=
  match id_of h st with Some i => on_sub f i st | None => st end.

(* client.rs:324-341: the callback looks the id up and sends to the handle's channel; when its
   receiver is gone it removes the entry *)
Definition deliver (st : state) : state :=
  match wire st with
  | [] => st
  | (i, m) :: w =>
      let st := mkSt (srv st) w (used st) (pend st) (cmap st) (hs st) in
      match cmap st i with
      | None => st
      | Some h =>
          match nth_error (hs st) h with
          | None => st
          | Some r =>
              if h_alive r
              then mkSt (srv st) w (used st) (pend st) (cmap st)
                        (setn h (mkH (h_id r) true (h_got r ++ [m])) (hs st))
              else mkSt (srv st) w (used st) (pend st) (upd (cmap st) i None) (hs st)
          end
      end
  end.

(* connected_client.rs:163-183 forward_notifications_for *)
Definition forward (i : nat) (st : state) : state :=
  match srv st i with
  | Some (mkSub o ts (m :: q)) =>
      mkSt (upd (srv st) i (Some (mkSub o ts q))) (wire st ++ [(i, m)])
           (used st) (pend st) (cmap st) (hs st)
  | _ => st
  end.

(* quic = false: tungstenite_worker.rs:30-32, the map is cleared before every connection;
   quic = true: quic_worker.rs:35, it is cleared once, before the first. *)
Definition reconnect (quic : bool) (st : state) : state :=
  mkSt (fun _ => None) [] (used st) (pend st)
       (if quic then cmap st else fun _ => None) (hs st).

Definition step (quic : bool) (st : state) (e : event) : state :=
  match e with
  | Create i =>
      mkSt (upd (srv st) i (Some (mkSub true [] []))) (wire st) (i :: used st) (i :: pend st)
           (cmap st) (hs st)
  | Register h i =>
      mkSt (srv st) (wire st) (used st) (del i (pend st)) (upd (cmap st) i (Some h))
           (hs st ++ [mkH i true []])
  | Subscribe h t => by_handle (fun s => mkSub true (add t (s_topics s)) (s_queue s)) h st
  | Unsubscribe h t => by_handle (fun s => mkSub true (del t (s_topics s)) (s_queue s)) h st
  | Publish t p =>
      mkSt (fun i => option_map (offer t p) (srv st i)) (wire st) (used st) (pend st)
           (cmap st) (hs st)
  | Forward i => forward i st
  | Deliver => deliver st
  | Drop h =>
      match nth_error (hs st) h with
      | Some r => mkSt (srv st) (wire st) (used st) (pend st) (cmap st)
                       (setn h (mkH (h_id r) false (h_got r)) (hs st))
      | None => st
      end
  | Unregister h => by_handle closed h st
  | Removed h =>
      match id_of h st with
      | Some i => mkSt (srv st) (wire st) (used st) (pend st) (upd (cmap st) i None) (hs st)
      | None => st
      end
  | Close i => on_sub closed i st
  | Disconnect n =>
      mkSt (fun _ => None) (firstn n (wire st)) (used st) (pend st) (cmap st) (hs st)
  | Reconnect => reconnect quic st
  | Restart =>
      let st := reconnect quic st in
      mkSt (srv st) (wire st) [] (pend st) (cmap st) (hs st)
  end.

(* What can happen: the relay never gives an id twice; a handle is made for an id the server
   answered; UnregisterSubscriber is only sent when a handle is dropped. *)
Definition dropped (h : nat) (st : state) : bool :=
  match nth_error (hs st) h with Some r => negb (h_alive r) | None => false end.
Definition allowed (st : state) (e : event) : bool :=
  match e with
  | Create i => negb (mem i (used st))
  | Register h i => mem i (pend st) && (h =? length (hs st))
  | Subscribe h _ | Unsubscribe h _ | Drop h => h <? length (hs st)
  | Unregister h | Removed h => dropped h st
  | _ => true
  end.

Definition start : state := mkSt (fun _ => None) [] [] [] (fun _ => None) [].
Definition run_from (quic : bool) (st : state) (evs : list event) : state :=
  fold_left (step quic) evs st.
Definition run (quic : bool) (evs : list event) : state := run_from quic start evs.
Fixpoint valid_from (quic : bool) (st : state) (evs : list event) : bool :=
  match evs with
  | [] => true
  | e :: evs => allowed st e && valid_from quic (step quic st e) evs
  end.
Definition valid (quic : bool) (evs : list event) : bool := valid_from quic start evs.

(* Messages on their way to a subscriber, oldest first. *)
Definition on_wire (i : nat) (w : list (nat * msg)) : list msg :=
  map snd (filter (fun x => fst x =? i) w).
Definition queued (i : nat) (st : state) : list msg :=
  match srv st i with Some s => s_queue s | None => [] end.
Definition in_flight (i : nat) (st : state) : list msg := on_wire i (wire st) ++ queued i st.
(* Receiver::receive waits while a sender of the channel exists: the map holds the only one. *)
Definition waits (h : nat) (st : state) : Prop := exists i, cmap st i = Some h.
