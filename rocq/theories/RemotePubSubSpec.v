(* What a subscriber of a client should receive, from the history alone. *)
From Coq Require Import List Arith Bool.
From Verif Require Import RemotePubSub.
Import ListNotations.

(* The server's subscriber of handle h (whose id is i): whether it exists, the topics it
   listens to, and every message published to one of them while it did. *)
Record due := mkDue { d_open : bool; d_topics : list nat; d_msgs : list msg }.
Definition shut (d : due) : due := mkDue false (d_topics d) (d_msgs d).

Definition due_step (h i : nat) (d : due) (e : event) : due :=
  match e with
  | Create j => if j =? i then mkDue true [] [] else d
  | Subscribe h' t =>
      if (h' =? h) && d_open d then mkDue true (t :: d_topics d) (d_msgs d) else d
  | Unsubscribe h' t =>
      if (h' =? h) && d_open d
      then mkDue true (filter (fun x => negb (x =? t)) (d_topics d)) (d_msgs d) else d
  | Publish t p =>
      if d_open d && existsb (Nat.eqb t) (d_topics d)
      then mkDue true (d_topics d) (d_msgs d ++ [(t, p)]) else d
  | Unregister h' => if h' =? h then shut d else d
  | Close j => if j =? i then shut d else d
  | Disconnect _ | Reconnect | Restart => shut d
  | _ => d
  end.
Definition due_of (h i : nat) (evs : list event) : due :=
  fold_left (due_step h i) evs (mkDue false [] []).

(* The connection the subscriber was created on is still there. *)
Definition online_step (i : nat) (b : bool) (e : event) : bool :=
  match e with
  | Create j => if j =? i then true else b
  | Disconnect _ | Reconnect | Restart => false
  | _ => b
  end.
Definition online (i : nat) (evs : list event) : bool := fold_left (online_step i) evs false.

(* The server process runs throughout. *)
Definition no_restart (evs : list event) : Prop := ~ In Restart evs.
