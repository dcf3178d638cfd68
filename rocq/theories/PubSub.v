(* PubSub inside one storage: crates/bonsaidb-core/src/pubsub.rs and
   crates/bonsaidb-local/src/database/pubsub.rs over the `circulate` relay (a
   dependency, whose documented behaviour is modelled: a subscriber holds a set
   of topics; publish puts one message into the queue of each subscriber
   holding the topic, in publication order; publishing to several topics is
   publishing to each in turn). Each call is one atomic step. *)
From Verif Require Import Base.
Local Open Scope N_scope.

(* core pubsub.rs:258-267 database_topic *)
Definition database_topic (db topic : bytes) : bytes := db ++ 0 :: topic.

(* core pubsub.rs:207-215 remove_database_prefix (strip_database = true:
   storage/pubsub.rs:18 new_stripping_prefixes). [position_zero]: iter().position. *)
Fixpoint position_zero (l : bytes) : option nat :=
  match l with
  | [] => None
  | b :: l' => if b =? 0 then Some O else option_map Datatypes.S (position_zero l')
  end.
Definition remove_database_prefix (m : bytes * bytes) : bytes * bytes :=
  match position_zero (fst m) with
  | Some k => (skipn (k + 1) (fst m), snd m)
  | None => m
  end.

(* The relay's record of one subscriber, with the Database handle that made it. *)
Record sub := mksub {
  s_id : N;
  s_db : bytes;
  s_topics : list bytes;           (* relay topics *)
  s_queue : list (bytes * bytes);  (* flume channel: (relay topic, payload) *)
  s_got : list (bytes * bytes)     (* ghost: what receive() has returned *)
}.

Definition mem_topic (t : bytes) (l : list bytes) : bool := existsb (bytes_eqb t) l.

(* circulate::Relay::publish_raw *)
Definition relay_publish (l : list sub) (t payload : bytes) : list sub :=
  map (fun s => if mem_topic t (s_topics s)
                then mksub (s_id s) (s_db s) (s_topics s) (s_queue s ++ [(t, payload)]) (s_got s)
                else s) l.
Definition relay_publish_all (l : list sub) (ts : list bytes) (payload : bytes) : list sub :=
  fold_left (fun l t => relay_publish l t payload) ts l.

Definition on_sub (id : N) (f : sub -> sub) (l : list sub) : list sub :=
  map (fun s => if s_id s =? id then f s else s) l.

(* The permission check of the calling handle: topic -> allowed. *)
Definition allow := bytes -> bool.

Inductive op :=
| OCreate (id : N) (db : bytes)                         (* create_subscriber *)
| ODrop (id : N)                                        (* Drop for Subscriber *)
| OSubscribe (ok : allow) (id : N) (topic : bytes)
| OUnsubscribe (ok : allow) (id : N) (topic : bytes)
| OPublish (ok : allow) (db topic payload : bytes)
| OPublishAll (ok : allow) (db : bytes) (topics : list bytes) (payload : bytes)
| OReceive (id : N).                                    (* receive / try_receive *)

(* database/pubsub.rs:14-99 *)
Definition step (l : list sub) (o : op) : list sub :=
  match o with
  | OCreate id db => l ++ [mksub id db [] [] []]
  | ODrop id => filter (fun s => negb (s_id s =? id)) l
  | OSubscribe ok id t =>
      if ok t then
        on_sub id (fun s => let raw := database_topic (s_db s) t in
                     mksub (s_id s) (s_db s) (if mem_topic raw (s_topics s) then s_topics s else s_topics s ++ [raw])
                       (s_queue s) (s_got s)) l
      else l
  | OUnsubscribe ok id t =>
      if ok t then
        on_sub id (fun s => let raw := database_topic (s_db s) t in
                     mksub (s_id s) (s_db s) (filter (fun x => negb (bytes_eqb raw x)) (s_topics s))
                       (s_queue s) (s_got s)) l
      else l
  | OPublish ok db t payload =>
      if ok t then relay_publish l (database_topic db t) payload else l
  | OPublishAll ok db ts payload =>
      (* database/pubsub.rs:38-56: the topics are collected, checking each, before anything is published *)
      if forallb ok ts then relay_publish_all l (map (database_topic db) ts) payload else l
  | OReceive id =>
      on_sub id (fun s => match s_queue s with
                          | [] => s
                          | m :: q => mksub (s_id s) (s_db s) (s_topics s) q (s_got s ++ [remove_database_prefix m])
                          end) l
  end.
Definition run (l : list sub) (h : list op) : list sub := fold_left step h l.
