(* Model of the asynchronous builders: futures that hold options until they are first polled,
   and then the call.

   /repo/crates/bonsaidb-core/src/connection.rs:1593-1770 (AsyncList), schema/collection.rs:
   2190-2256 (its typed wrapper), 1811-1835 and 2018-2055 (AsyncEntry: EntryState, poll);
   keyvalue.rs BuilderState; keyvalue/implementation/set.rs:142-334, get.rs:162-348,
   increment.rs:83-179.

   What a builder does once polled is a program: it makes calls of the connection, one after
   the other, and each is awaited.  Polling a program runs it up to a call that is not answered
   yet.  A call's request is sent when the call is first polled (the connection's futures are
   lazy as well); polling a call again sends nothing. *)
From Verif Require Import Base Tree View Docs Typed Kv KvApi.

Section Poll.
  Context {Q A R : Type}.       (* requests, answers, results *)

  Inductive prog := Ret (r : R) | Crash | Call (q : Q) (k : A -> prog).

  (* A boxed async block: not started; waiting at a call (the number of calls answered so
     far, and what follows); or ended. *)
  Inductive fut := Waiting (c : nat) (q : Q) (k : A -> prog) | Ended.

  Inductive polled := Pending | Ready (r : R) | Panicked.

  (* One poll: [ans c q] is what the connection answers the c-th call with; [n] more calls
     have been answered by the time the poll returns. *)
  Variable ans : nat -> Q -> A.
  Fixpoint advance (p : prog) (c n : nat) : fut * list Q * polled :=
    match p with
    | Ret r => (Ended, [], Ready r)
    | Crash => (Ended, [], Panicked)
    | Call q k =>
        match n with
        | O => (Waiting c q k, [q], Pending)
        | S n => let '(f, l, r) := advance (k (ans c q)) (S c) n in (f, q :: l, r)
        end
    end.
  Definition poll_fut (f : fut) (n : nat) : fut * list Q * polled :=
    match f with
    | Waiting c q k =>
        match n with
        | O => (f, [], Pending)
        | S n => advance (k (ans c q)) (S c) n
        end
    | Ended => (Ended, [], Panicked)          (* `async fn` resumed after completion *)
    end.

  (* BuilderState, ListState, EntryState: Pending(Option<options>) | Executing(future) *)
  Inductive bstate (O : Type) := Options (o : O) | Executing (f : fut).
  Arguments Options {O}. Arguments Executing {O}.

  (* setting an option: it panics once the future runs (unreachable!, panic!) *)
  Definition set_option {O} (f : O -> O) (b : bstate O) : option (bstate O) :=
    match b with Options o => Some (Options (f o)) | Executing _ => None end.

  (* Future::poll of the builder *)
  Definition poll {O} (body : O -> prog) (b : bstate O) (n : nat) : bstate O * list Q * polled :=
    let '(f, l, r) := match b with
                      | Options o => advance (body o) 0 n
                      | Executing f => poll_fut f n
                      end in
    (Executing f, l, r).

  (* An executor polls until the future is ready, and then drops it; it may drop it at any
     time before, too (the list of polls ends). *)
  Fixpoint drive {O} (body : O -> prog) (b : bstate O) (polls : list nat) : list Q * polled :=
    match polls with
    | [] => ([], Pending)
    | n :: polls =>
        let '(b, l, r) := poll body b n in
        match r with
        | Pending => let '(l', r') := drive body b polls in (l ++ l', r')
        | _ => (l, r)
        end
    end.

  (* The blocking builder: the same calls, each returning before the next one is made. *)
  Fixpoint blocking (p : prog) (c : nat) : list Q * polled :=
    match p with
    | Ret r => ([], Ready r)
    | Crash => ([], Panicked)
    | Call q k => let '(l, r) := blocking (k (ans c q)) (S c) in (q :: l, r)
    end.
End Poll.
Arguments prog : clear implicits. Arguments fut : clear implicits. Arguments bstate : clear implicits.
Arguments polled : clear implicits.
Arguments Options {Q A R O}. Arguments Executing {Q A R O}.

(* ---------- key-value builders ---------- *)
Definition kvreq := (option bytes * bytes * Kv.command)%type.      (* KeyOperation *)
Definition kvans := outcome output aerr.
(* what the store answers in a state, at a time; perform_kv_operation *)
Definition kv_answer (s : kst) (now : ts) (q : kvreq) : kvans :=
  let '(ns, key, c) := q in
  match perform s ns key c now with
  | None => Panic
  | Some (KErr e, _) => Fail (AStore e)
  | Some (KOk o, _) => Done o
  end.
(* `kv.execute_key_operation(..).await?` and the match on its output *)
Definition kv_call {X} (q : kvreq) (read : output -> outcome X aerr) : prog kvreq kvans (outcome X aerr) :=
  Call q (fun a => match a with
                   | Done o => match read o with Panic => Crash | x => Ret x end
                   | Fail e => Ret (Fail e)
                   | Panic => Crash
                   end).
(* set.rs:298-334 *)
Definition set_body {V} (C : serde V) (b : set_builder V) : prog kvreq kvans (outcome kstatus aerr) :=
  match prepare C (b_value b) with
  | None => Ret (Fail ASerialize)
  | Some v => kv_call (b_ns b, b_key b, CSet (SetCmd v (b_exp b) (b_keep b) (b_check b) false))
                      (fun o => match o with OStatus st => Done st | OValue _ => Panic end)
  end.
(* set.rs:233-275 returning_previous, an async fn *)
Definition previous_body {V} (C : serde V) (b : set_builder V) : prog kvreq kvans (outcome (option value) aerr) :=
  match prepare C (b_value b) with
  | None => Ret (Fail ASerialize)
  | Some v => kv_call (b_ns b, b_key b, CSet (SetCmd v (b_exp b) (b_keep b) (b_check b) true))
                      (fun o => match o with OValue x => Done x | OStatus NotChanged => Done None | OStatus _ => Panic end)
  end.
(* get.rs:318-347 *)
Definition get_body (b : get_builder) : prog kvreq kvans (outcome (option value) aerr) :=
  kv_call (g_ns b, g_key b, CGet (g_delete b)) (fun o => match o with OValue v => Done v | OStatus _ => Panic end).
(* increment.rs:137-179 *)
Definition inc_body (b : inc_builder) : prog kvreq kvans (outcome numeric aerr) :=
  kv_call (i_ns b, i_key b, if i_increment b then CIncr (i_amount b) (i_saturating b) else CDecr (i_amount b) (i_saturating b))
          (fun o => match o with
                    | OValue (Some (VNum x)) => match try_from (i_amount b) x with Some y => Done y | None => Panic end
                    | _ => Panic
                    end).

(* ---------- lists ---------- *)
(* AsyncListBuilder: range, sort, limit *)
Record list_options := LOpts { lo_range : range; lo_asc : bool; lo_limit : option N }.
Definition list_new (r : range) : list_options := LOpts r true None.
Definition list_set (x : setting) (o : list_options) : list_options :=
  match x with
  | Ascending => LOpts (lo_range o) true (lo_limit o)
  | Descending => LOpts (lo_range o) false (lo_limit o)
  | Limit n => LOpts (lo_range o) (lo_asc o) (Some n)
  end.
(* the chain of .ascending().limit(n)... before the first poll *)
Fixpoint list_chain {Q A R} (l : list setting) (b : bstate Q A R list_options) : option (bstate Q A R list_options) :=
  match l with
  | [] => Some b
  | x :: l => match set_option (list_set x) b with Some b => list_chain l b | None => None end
  end.
(* the connection's list() of a collection, connection/lowlevel.rs: range, sort, limit *)
Definition listreq := (range * bool * option N)%type.
Definition list_answer {T} (p : session) (C : collection T) (s : dbstate) (q : listreq) : outcome (list doc) cerr :=
  let '(r, asc, limit) := q in
  with_range C r (fun lo hi =>
    match list_docs p s (co_name C) lo hi asc limit with Done ds => Done ds | Fail e => Fail (Other e) | Panic => Panic end).
(* connection.rs:1735-1770 and collection.rs:2236-2256: the documents are decoded once they
   are all there *)
Definition list_body {T} (C : collection T) (o : list_options) : prog listreq (outcome (list doc) cerr) (outcome (list (tdoc T)) cerr) :=
  Call (lo_range o, lo_asc o, lo_limit o)
       (fun a => match a with
                 | Done ds => match typed_docs C ds with Panic => Crash | x => Ret x end
                 | Fail e => Ret (Fail e)
                 | Panic => Crash
                 end).

(* ---------- entries ---------- *)
(* AsyncEntry: what its calls ask for and are answered with, over documents with contents of
   some type.  A conflict answers with the id of the document. *)
Section Entry.
  Context {Id D : Type}.
  Inductive ereq := ELoad (name : option Id) | EUpdate (i : Id) (d : D) | EPush (d : D).
  Inductive eans := EDoc (o : option (Id * D)) | EStored (i : Id) | EConflict (i : Id) | EOther.
  Inductive eres := EOk (o : option (Id * D)) | EErrConflict (i : Id) | EErr.
  Record entry_options := EOpts { e_insert : option D; e_update : option (D -> D); e_retry : nat }.
  (* EntryBuilder of NamedCollection::entry_async, collection.rs:1413-1436 *)
  Definition entry_new : entry_options := EOpts None None 0.
  (* collection.rs:1898-1962 or_insert_with, update_with, retry_limit *)
  Definition or_insert_with (d : D) (o : entry_options) := EOpts (Some d) (e_update o) (e_retry o).
  Definition update_with (f : D -> D) (o : entry_options) := EOpts (e_insert o) (Some f) (e_retry o).
  Definition retry_limit (n : nat) (o : entry_options) := EOpts (e_insert o) (e_update o) n.
  (* collection.rs:1849-1888 AsyncEntry::execute; the loop *)
  Fixpoint entry_loop (f : D -> D) (i : Id) (d : D) (limit : nat) : prog ereq eans eres :=
    Call (EUpdate i (f d))
         (fun a => match a with
                   | EStored i' => Ret (EOk (Some (i', f d)))
                   | EConflict j =>
                       match limit with
                       | O => Ret (EErrConflict j)
                       | S limit =>
                           Call (ELoad (Some j))
                                (fun a => match a with
                                          | EDoc (Some (i, d)) => entry_loop f i d limit
                                          | EDoc None => Ret (EOk None)
                                          | _ => Ret EErr
                                          end)
                       end
                   | _ => Ret EErr
                   end).
  Definition entry_body (o : entry_options) : prog ereq eans eres :=
    Call (ELoad None)
         (fun a => match a with
                   | EDoc (Some (i, d)) =>
                       match e_update o with
                       | Some f => entry_loop f i d (e_retry o)
                       | None => Ret (EOk (Some (i, d)))
                       end
                   | EDoc None =>
                       match e_insert o with
                       | Some d => Call (EPush d) (fun a => match a with
                                                            | EStored i => Ret (EOk (Some (i, d)))
                                                            | _ => Ret EErr
                                                            end)
                       | None => Ret (EOk None)
                       end
                   | _ => Ret EErr
                   end).
End Entry.
Arguments ereq : clear implicits. Arguments eans : clear implicits. Arguments eres : clear implicits.
Arguments entry_options : clear implicits.
