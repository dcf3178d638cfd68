(* Background jobs: crates/bonsaidb-local/src/tasks/manager/jobs.rs, manager.rs,
   managed_job.rs, task.rs, handle.rs. Locks: every function of Jobs runs under
   the write lock of Manager (manager.rs:43,55,66), so each is one atomic step. *)
From Verif Require Import Base.
Local Open Scope N_scope.

(* tasks/task.rs:8-14 (Task), views/integrity_scanner.rs:29-35 (IntegrityScan),
   views/mapper.rs:30-35 (Map), tasks/compactor.rs:46-59 (Compaction, Target).
   Names are their bytes. *)
Inductive target :=
| VersionedTree (n : bytes) | UnversionedTree (n : bytes) | TCollection (n : bytes) | TKeyValue | TDatabase.
Inductive task :=
| IntegrityScan (version : N) (db collection view : bytes)
| ViewMap (db collection view : bytes)
| Compaction (db : bytes) (t : target)
| ExpirationLoader (db : bytes).
Definition bytes_dec' (a b : bytes) : {a = b} + {a <> b} := list_eq_dec N.eq_dec a b.
Definition target_dec (a b : target) : {a = b} + {a <> b}.
Proof. decide equality; apply bytes_dec'. Defined.
Definition task_dec (a b : task) : {a = b} + {a <> b}.
Proof. decide equality; solve [apply bytes_dec' | apply target_dec | apply N.eq_dec]. Defined.

(* The result type Result<Output, Arc<Error>> of each kind of job; the tag stands
   for the type: integrity_scanner.rs:39-41, mapper.rs:37-39, compactor.rs
   (Output = ()), database/keyvalue.rs (ExpirationLoader, Output = ()). Errors
   all have type crate::Error, here a number. *)
Inductive rtype := RHandle | RU64 | RUnit.
Definition rtype_dec (a b : rtype) : {a = b} + {a <> b}.
Proof. decide equality. Defined.
(* the Keyed impls: integrity_scanner.rs (Task::IntegrityScan), mapper.rs
   (Task::ViewMap), compactor.rs (Task::Compaction), keyvalue.rs
   (Task::ExpirationLoader) *)
Definition rtype_of (t : task) : rtype :=
  match t with IntegrityScan _ _ _ _ => RHandle | ViewMap _ _ _ => RU64 | Compaction _ _ => RUnit | ExpirationLoader _ => RUnit end.
Inductive result := Done (v : N) | Failed (e : N).

(* managed_job.rs:8-14 (ManagedJob): id, job (its result type), key *)
Record mjob := MJob { mj_id : N; mj_type : rtype; mj_key : option task }.
(* handle.rs:8-15: the receiving end of a bounded(1) channel, here numbered in
   order of creation. *)
Definition handle := nat.

(* jobs.rs:12-18 (Jobs): last_task_id, result_senders, keyed and the queue.
   s_running are the jobs taken by worker threads and not finished
   (manager.rs:84-88); s_lost (ghost) the jobs whose worker panicked; s_handles
   counts the handles created; s_out is what has been sent to each handle. *)
Record state := St {
  s_last : N;
  s_senders : list (N * list (handle * rtype));
  s_keyed : list (task * N);
  s_queue : list mjob;
  s_running : list mjob;
  s_lost : list mjob;
  s_handles : nat;
  s_out : list (handle * result)
}.
(* jobs.rs:36-48 *)
Definition init : state := St 0 [] [] [] [] [] 0 [].

(* HashMap::get / insert / remove *)
Fixpoint m_get {K V} (dec : forall a b : K, {a = b} + {a <> b}) (k : K) (m : list (K * V)) : option V :=
  match m with [] => None | (j, v) :: r => if dec k j then Some v else m_get dec k r end.
Definition m_remove {K V} (dec : forall a b : K, {a = b} + {a <> b}) (k : K) (m : list (K * V)) : list (K * V) :=
  filter (fun p => if dec k (fst p) then false else true) m.
Definition m_insert {K V} dec (k : K) (v : V) (m : list (K * V)) : list (K * V) := (k, v) :: m_remove dec k m.

Definition u64_mod : N := 18446744073709551616.

(* jobs.rs:77-86 (create_new_task_handle) *)
Definition create_new_task_handle (id : N) (ty : rtype) (s : state) : state * handle :=
  let senders := match m_get N.eq_dec id (s_senders s) with Some l => l | None => [] end in
  (St (s_last s) (m_insert N.eq_dec id (senders ++ [(s_handles s, ty)]) (s_senders s))
      (s_keyed s) (s_queue s) (s_running s) (s_lost s) (S (s_handles s)) (s_out s), s_handles s).
(* jobs.rs:57-75 (enqueue); the returned handle's id is the new id *)
Definition enqueue (ty : rtype) (key : option task) (s : state) : state * handle * N :=
  let id := (s_last s + 1) mod u64_mod in
  let s1 := St id (s_senders s) (s_keyed s) (s_queue s ++ [MJob id ty key]) (s_running s) (s_lost s) (s_handles s) (s_out s) in
  let '(s2, h) := create_new_task_handle id ty s1 in (s2, h, id).
(* jobs.rs:88-101 (lookup_or_enqueue) *)
Definition lookup_or_enqueue (key : task) (s : state) : state * handle :=
  match m_get task_dec key (s_keyed s) with
  | Some id => create_new_task_handle id (rtype_of key) s
  | None =>
      let '(s1, h, id) := enqueue (rtype_of key) (Some key) s in
      (St (s_last s1) (s_senders s1) (m_insert task_dec key id (s_keyed s1)) (s_queue s1) (s_running s1) (s_lost s1)
          (s_handles s1) (s_out s1), h)
  end.
(* jobs.rs:103-123 (job_completed); None: the unwrap of downcast_ref panics. A
   send to a dropped handle is ignored by the code; here it is recorded. *)
Definition job_completed (id : N) (ty : rtype) (key : option task) (r : result) (s : state) : option state :=
  let keyed := match key with Some k => m_remove task_dec k (s_keyed s) | None => s_keyed s end in
  match m_get N.eq_dec id (s_senders s) with
  | Some senders =>
      if forallb (fun p => if rtype_dec ty (snd p) then true else false) senders then
        Some (St (s_last s) (m_remove N.eq_dec id (s_senders s)) keyed (s_queue s) (s_running s) (s_lost s)
                 (s_handles s) (s_out s ++ map (fun p => (fst p, r)) senders))
      else None
  | None => Some (St (s_last s) (s_senders s) keyed (s_queue s) (s_running s) (s_lost s) (s_handles s) (s_out s))
  end.

(* What can happen, one atomic step each:
   Request k   some caller runs lookup_or_enqueue with a job of key k
   Start       a worker receives the next job of the (FIFO) queue, manager.rs:85
   Finish i r  the i-th running job returns r, managed_job.rs:21-26
   Crash i     the i-th running job panics: its worker thread ends without
               calling job_completed (managed_job.rs:22 has no unwinding guard) *)
Inductive event := Request (k : task) | Start | Finish (i : nat) (r : result) | Crash (i : nat).

Fixpoint remove_nth {A} (i : nat) (l : list A) : list A :=
  match l, i with [], _ => [] | _ :: r, O => r | x :: r, S i' => x :: remove_nth i' r end.

(* What an observer sees: the requests with the handle they got, and jobs
   starting, returning or panicking, each with its key. *)
Inductive obs := OReq (k : task) (h : handle) | ORun (k : option task) | ODone (k : option task) (r : result) | OLost (k : option task).

Definition step (s : state) (e : event) : option (state * obs) :=
  match e with
  | Request k => let '(s', h) := lookup_or_enqueue k s in Some (s', OReq k h)
  | Start =>
      match s_queue s with
      | [] => None
      | j :: q => Some (St (s_last s) (s_senders s) (s_keyed s) q (s_running s ++ [j]) (s_lost s) (s_handles s) (s_out s), ORun (mj_key j))
      end
  | Finish i r =>
      match nth_error (s_running s) i with
      | None => None
      | Some j =>
          match job_completed (mj_id j) (mj_type j) (mj_key j) r
                  (St (s_last s) (s_senders s) (s_keyed s) (s_queue s) (remove_nth i (s_running s)) (s_lost s) (s_handles s) (s_out s)) with
          | Some s' => Some (s', ODone (mj_key j) r)
          | None => Some (St (s_last s) (s_senders s) (s_keyed s) (s_queue s) (remove_nth i (s_running s)) (j :: s_lost s) (s_handles s) (s_out s), OLost (mj_key j))
          end
      end
  | Crash i =>
      match nth_error (s_running s) i with
      | None => None
      | Some j => Some (St (s_last s) (s_senders s) (s_keyed s) (s_queue s) (remove_nth i (s_running s)) (j :: s_lost s) (s_handles s) (s_out s), OLost (mj_key j))
      end
  end.
Fixpoint run (s : state) (es : list event) : option (state * list obs) :=
  match es with
  | [] => Some (s, [])
  | e :: r =>
      match step s e with
      | None => None
      | Some (s', o) => match run s' r with None => None | Some (s'', os) => Some (s'', o :: os) end
      end
  end.
