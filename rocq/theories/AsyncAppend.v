(* The asynchronous buffered appender of bonsaidb-files (feature "async"),
   crates/bonsaidb-files/src/direct.rs:1273-1393, on top of the block
   transaction of Files.append.

   One step of the model is one poll of a call on the appender, one execution of
   a transaction that is under way, or one step of a task spawned by Drop. The
   connection is any AsyncConnection: a transaction that was submitted may be
   executed at any time, and its answer may be lost. *)
From Verif Require Import Base Key KeyProofs Files FilesProofs FilesRead PropFiles.
Local Open Scope nat_scope.

(* how the transaction of file.append(..) ends: executed at time t (its own
   verdict is the answer); executed but the answer is an error (a connection lost
   in between); never executed, error. *)
Inductive how := Executed (t : Z) | AnswerLost (t : Z) | NotSent.
(* Block::append_async, schema/block.rs:60-86: one transaction, all blocks or none
   (Files.append). An Err of the transaction leaves the database as it was. A
   panic (BLOCK_SIZE 0) is counted as an error here. *)
Definition perform (bs : nat) (f : N) (h : how) (d : bytes) (db : fdb) : fdb * bool :=
  match h with
  | Executed t => match append bs d f t db with Done db' => (db', true) | _ => (db, false) end
  | AnswerLost t => match append bs d f t db with Done db' => (db', false) | _ => (db, false) end
  | NotSent => (db, false)
  end.

(* the boxed future of `async move { file.append(&buffer).await .. }`, 1345-1350:
   under way with its data, answered but not polled since, or polled to completion *)
Inductive fut := Running (d : bytes) | Answered (ok : bool) | Finished.
Inductive polled := Pending | ReadyOk (k : nat) | ReadyErr.
Definition ready (ok : bool) : polled := if ok then ReadyOk 0 else ReadyErr.

(* AsyncBufferedAppend, 1276-1282 (the file and the database are parameters).
   As in Files.v, with_capacity and reserve_exact give exactly what is asked. *)
Record wr := Wr { w_buf : bytes; w_cap : nat; w_fut : option fut }.
(* File::append_buffered, direct.rs:497-504 *)
Definition append_buffered : wr := Wr [] O None.

(* flush_future.poll_unpin(cx). [quick]: the transaction is executed and answered
   by the time of this poll. Polling a finished async block panics. *)
Definition poll_future (bs : nat) (f : N) (quick : option how) (u : fut) (db : fdb) : outcome (fut * fdb * polled) unit :=
  match u with
  | Finished => Panic
  | Answered ok => Done (Finished, db, ready ok)
  | Running d =>
      match quick with
      | None => Done (Running d, db, Pending)
      | Some h => let '(db', ok) := perform bs f h d db in Done (Finished, db', ready ok)
      end
  end.

(* poll_flush, 1330-1357; poll_shutdown 1358-1363 is the same *)
Definition poll_flush (bs : nat) (f : N) (quick : option how) (w : wr) (db : fdb) : outcome (wr * fdb * polled) unit :=
  match w_fut w with
  | Some u =>
      match poll_future bs f quick u db with
      | Done (u', db', Pending) => Done (Wr (w_buf w) (w_cap w) (Some u'), db', Pending)   (* ready!(..) *)
      | Done (_, db', r) => Done (Wr (w_buf w) (w_cap w) None, db', r)
      | Fail e => Fail e
      | Panic => Panic
      end
  | None =>
      match w_buf w with
      | [] => Done (w, db, ReadyOk 0)
      | _ =>
          match poll_future bs f quick (Running (w_buf w)) db with
          | Done (u', db', r) => Done (Wr [] (w_cap w) (Some u'), db', r)   (* the task is stored whatever the poll said *)
          | Fail e => Fail e
          | Panic => Panic
          end
      end
  end.

(* poll_write, 1295-1328 *)
Definition poll_write (bs : nat) (f : N) (quick : option how) (data : bytes) (w : wr) (db : fdb) : outcome (wr * fdb * polled) unit :=
  let w1 := if (w_cap w =? 0)%nat then Wr (w_buf w) (default_capacity bs) (w_fut w) else w in
  let flushed :=
    match w_fut w1 with
    | Some _ => poll_flush bs f quick w1 db
    | None => if (w_cap w1 =? length (w_buf w1))%nat then poll_flush bs f quick w1 db else Done (w1, db, ReadyOk 0)
    end in
  match flushed with
  | Done (w2, db', ReadyOk _) =>
      let k := Nat.min (length data) (w_cap w2 - length (w_buf w2)) in
      Done (Wr (w_buf w2 ++ firstn k data) (w_cap w2) (w_fut w2), db', ReadyOk k)
  | r => r
  end.

(* one poll of set_buffer_size(capacity), 1282-1288: self.flush().await? and then
   a new buffer *)
Definition poll_resize (bs : nat) (f : N) (quick : option how) (capacity : nat) (w : wr) (db : fdb) : outcome (wr * fdb * polled) unit :=
  if (0 <? w_cap w)%nat then
    match poll_flush bs f quick w db with
    | Done (w', db', ReadyOk _) => Done (Wr [] capacity (w_fut w'), db', ReadyOk 0)
    | r => r
    end
  else Done (Wr [] capacity (w_fut w), db, ReadyOk 0).

(* the database, the appender if there is one, and the flushes that go on without
   it: tasks spawned by drop, and transactions whose future was dropped *)
Record st := St { s_db : fdb; s_wr : option wr; s_tasks : list bytes }.

(* Drop, 1367-1393: a non-empty buffer goes to a spawned task; assert! that no flush
   is under way in that case. With an empty buffer the flush future is dropped. *)
Definition drop_writer (w : wr) (tasks : list bytes) : outcome (list bytes) unit :=
  match w_buf w with
  | _ :: _ =>
      match w_fut w with
      | Some _ => Panic
      | None => Done (tasks ++ [w_buf w])
      end
  | [] =>
      match w_fut w with
      | Some (Running d) => Done (tasks ++ [d])
      | _ => Done tasks
      end
  end.

Fixpoint remove_nth {A} (i : nat) (l : list A) : list A :=
  match i, l with
  | _, [] => []
  | O, _ :: r => r
  | Datatypes.S j, x :: r => x :: remove_nth j r
  end.

Inductive event :=
| Write (quick : option how) (data : bytes)
| Flush (quick : option how)                  (* flush and shutdown *)
| Resize (quick : option how) (capacity : nat)
| Arrive (h : how)                            (* the transaction under way is executed and answered between two polls *)
| DropIt
| OpenAgain                                   (* file.append_buffered() once the old appender is gone *)
| RunTask (i : nat) (h : how)                 (* a flush left behind is executed; its result is dropped, 1380-1390 *)
| Abandon (i : nat).                          (* .. or never (a dropped future, a runtime that shuts down) *)

Definition step (bs : nat) (f : N) (e : event) (s : st) : outcome (st * polled) unit :=
  let call (r : outcome (wr * fdb * polled) unit) :=
    match r with Done (w', db', p) => Done (St db' (Some w') (s_tasks s), p) | Fail e => Fail e | Panic => Panic end in
  match e, s_wr s with
  | Write q data, Some w => call (poll_write bs f q data w (s_db s))
  | Flush q, Some w => call (poll_flush bs f q w (s_db s))
  | Resize q n, Some w => call (poll_resize bs f q n w (s_db s))
  | Arrive h, Some (Wr b c (Some (Running d))) =>
      let '(db', ok) := perform bs f h d (s_db s) in
      Done (St db' (Some (Wr b c (Some (Answered ok)))) (s_tasks s), Pending)
  | DropIt, Some w =>
      match drop_writer w (s_tasks s) with Done ts => Done (St (s_db s) None ts, Pending) | Fail e => Fail e | Panic => Panic end
  | OpenAgain, None => Done (St (s_db s) (Some append_buffered) (s_tasks s), Pending)
  | RunTask i h, _ =>
      match nth_error (s_tasks s) i with
      | Some d => let '(db', _) := perform bs f h d (s_db s) in Done (St db' (s_wr s) (remove_nth i (s_tasks s)), Pending)
      | None => Fail tt
      end
  | Abandon i, _ => if (i <? length (s_tasks s))%nat then Done (St (s_db s) (s_wr s) (remove_nth i (s_tasks s)), Pending) else Fail tt
  | _, _ => Fail tt                             (* not a possible step here *)
  end.

(* a history of steps, with what each poll answered; other clients act on other
   files in between *)
Inductive arun (bs : nat) (f : N) : st -> list (event * polled) -> st -> Prop :=
| r_nil s : arun bs f s [] s
| r_step s e s1 p h s' : step bs f e s = Done (s1, p) -> arun bs f s1 h s' -> arun bs f s ((e, p) :: h) s'
| r_other s es db1 h s' : runs bs (s_db s) es db1 -> Forall (fun e => about e <> Some f) es ->
    arun bs f (St db1 (s_wr s) (s_tasks s)) h s' -> arun bs f s h s'.
