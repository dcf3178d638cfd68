(* bonsaidb-files used by several clients at once.
   Truncating a file and deleting its blocks are each a view query followed by a
   transaction: File::truncate, schema/file.rs:295-309 (async 347-362);
   Block::delete_for_file, schema/block.rs:234-243, which is View::delete_docs:
   local/src/database.rs:1605-1625. Between the two anything can happen. Appending
   is one transaction (schema/block.rs:31-57). A call that fails changes nothing. *)
From Verif Require Import Base Key Files.
From Coq Require Import Permutation.
Local Open Scope nat_scope.

(* what a call wants to remove *)
Inductive wish :=
| WTruncate (n : nat) (side : truncate_from)    (* File::truncate(n, side) *)
| WDelete.                                      (* the first half of File::delete, direct.rs:174-179 *)
(* the deletes a call decides on after its query returned q *)
Definition decide (w : wish) (q : list block_info) : list block_info :=
  match w with WTruncate n side => truncate_ops (for_file_of q) n side | WDelete => q end.

(* c_plans: the calls that have done their query; None once their transaction ran *)
Record cst := CS { c_db : fdb; c_plans : list (option (N * list block_info)) }.
Inductive cevent :=
| Append (f : N) (data : bytes)        (* Block::append *)
| Query (f : N) (w : wish)             (* a call starts: its query is answered; it gets the next number *)
| Commit (i : nat) (f : N)             (* the transaction of call number i, on file f *)
| Documents.                           (* any change to the file documents: create, move, delete *)
Definition settle (db : fdb) (o : outcome fdb ferr) : fdb := match o with Done db' => db' | _ => db end.
Definition succeeded (o : outcome fdb ferr) : bool := match o with Done _ => true | _ => false end.
Fixpoint clear {A} (i : nat) (l : list (option A)) : list (option A) :=
  match i, l with O, _ :: r => None :: r | S k, x :: r => x :: clear k r | _, [] => [] end.
(* the bool: did the call (so far) succeed *)
Inductive cstep (bs : nat) : cst -> cevent -> bool -> cst -> Prop :=
| k_append db ps f d t o : append bs d f t db = o ->
    cstep bs (CS db ps) (Append f d) (succeeded o) (CS (settle db o) ps)
| k_query db ps f w q : Permutation q (by_file f db) ->
    cstep bs (CS db ps) (Query f w) true (CS db (ps ++ [Some (f, decide w q)]))
| k_commit db ps i f ds o : nth_error ps i = Some (Some (f, ds)) -> apply_deletes ds db = o ->
    cstep bs (CS db ps) (Commit i f) (succeeded o) (CS (settle db o) (clear i ps))
| k_documents db ps l : Forall (fun id => (id < u32_mod)%N) (map fst l) ->
    cstep bs (CS db ps) Documents true (CS (FDb l (blocks db)) ps).
Inductive cruns (bs : nat) : cst -> list (cevent * bool) -> cst -> Prop :=
| k_nil s : cruns bs s [] s
| k_cons s e b s1 tr s2 : cstep bs s e b s1 -> cruns bs s1 tr s2 -> cruns bs s ((e, b) :: tr) s2.
