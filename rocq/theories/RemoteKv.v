(* The key-value store of a database used by remote clients: the handler of
   ExecuteKeyOperation as the `exec` of Remote.v, over the key-value store of Kv.v.
   Between two requests the background worker of the store, its writer thread and a
   shutdown do what they want; the clock gives any readings. The expiration loader has
   finished (C43, C89). One database; what a session may do is fixed (C56, C65). *)
From Verif Require Import Kv.

(* networking.rs, ExecuteKeyOperation: namespace, key, command *)
Record request := Req { q_ns : option bytes; q_key : bytes; q_cmd : command }.
(* a result of the operation, an error of the operation among them; or it was refused,
   or the request was not decodable, or handling it panicked *)
Inductive response := RDone (r : kresult) | RDenied | RMalformed | RPanic.
(* the store, and how many requests have been handled *)
Record state := St { st_kv : kst; st_turn : nat }.

Section Handle.
(* what happens in the background before the i-th request, and the time it reads *)
Variable before : nat -> list Kv.event.
Variable clock : nat -> ts.
Variable perm : option N -> option bytes -> bytes -> bool.
Variable dec : N -> option request.
Variable enc : response -> N.

(* Handler<ExecuteKeyOperation>, bonsaidb-server/src/dispatch.rs:641-655;
   execute_key_operation, bonsaidb-local/src/async.rs:646-656 and
   bonsaidb-local/src/database/keyvalue.rs:58-66: permission, then
   perform_kv_operation under the lock of the store. *)
Definition exec (s : state) (se : option N) (n : N) : state * N :=
  match Kv.run (st_kv s) (before (st_turn s)) with
  | None => (St (st_kv s) (S (st_turn s)), enc RPanic)
  | Some (_, kv) =>
      match dec n with
      | None => (St kv (S (st_turn s)), enc RMalformed)
      | Some q =>
          if perm se (q_ns q) (q_key q) then
            match perform kv (q_ns q) (q_key q) (q_cmd q) (clock (st_turn s)) with
            | Some (r, kv') => (St kv' (S (st_turn s)), enc (RDone r))
            | None => (St kv (S (st_turn s)), enc RPanic)
            end
          else (St kv (S (st_turn s)), enc RDenied)
      end
  end.
End Handle.
