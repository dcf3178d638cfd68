(* The pool of worker threads that runs the background jobs of Jobs.v, and the compaction
   jobs, which queue jobs of their own and wait for them: crates/bonsaidb-local/src/tasks/
   manager.rs, tasks/compactor.rs, tasks.rs:194-232. Compacting one tree is nebari's and is
   here a job that returns some result. *)
From Verif Require Import Base Names Jobs.
Local Open Scope nat_scope.

(* the schema of a database: its collections (Schematic::collections) and the views of each
   (Schematic::views_in_collection), schema/schematic.rs *)
Record schema := mk_schema { sc_colls : list qname; sc_views : qname -> list vname }.

(* the views of the collection with this encoded name; none if it is not in the schema *)
Definition views_of (S : schema) (n : bytes) : list vname :=
  match find (fun c => bytes_eqb (q_encoded c) n) (sc_colls S) with Some c => sc_views S c | None => [] end.
(* gather_collection_trees, compactor.rs:100-116; the names are those of Names.v *)
Definition gather (S : schema) (n : bytes) : list target :=
  [VersionedTree (s_collection ++ n); UnversionedTree (s_versions ++ n)] ++
  flat_map (fun v => [UnversionedTree (tree_name (ViewEntries v)); UnversionedTree (tree_name (ViewDocumentMap v)); UnversionedTree (tree_name (ViewInvalidated v))])
    (views_of S n).
(* Target::compact, compactor.rs:62-81: the jobs queued by a compaction, None for the
   targets that compact a tree themselves *)
Definition subtargets (S : schema) (t : target) : option (list target) :=
  match t with
  | TCollection n => Some (gather S n)
  | TDatabase => Some (flat_map (fun c => gather S (q_encoded c)) (sc_colls S) ++ [TKeyValue])
  | VersionedTree _ | UnversionedTree _ | TKeyValue => None
  end.

(* what a worker is doing with its job: running it (Plain), or as compact_trees, compactor.rs:
   118-135, queuing the rest of its jobs with the handles it got so far, or waiting for the
   handles that are left *)
Inductive phase := Plain | Spawning (rest : list target) (hs : list handle) | Receiving (hs : list handle).
(* the workers' phases are in the order of s_running *)
Record wstate := mk_w { w_jobs : state; w_phases : list phase }.
Definition winit : wstate := mk_w init [].

Section Pool.
(* worker_count, config.rs:147-160, and the schemas of the databases *)
Context (W : nat) (SC : bytes -> schema).

Definition start_phase (k : option task) : phase :=
  match k with
  | Some (Compaction db t) => match subtargets (SC db) t with Some l => Spawning l [] | None => Plain end
  | _ => Plain
  end.
Definition job_db (k : option task) : bytes := match k with Some (Compaction db _) => db | _ => [] end.
Fixpoint set_nth {A} (i : nat) (x : A) (l : list A) : list A :=
  match l, i with [], _ => [] | _ :: r, O => x :: r | y :: r, Datatypes.S i' => y :: set_nth i' x r end.
(* the result received by a handle, handle.rs:17-34 *)
Definition received (h : handle) (s : state) : option result := m_get Nat.eq_dec h (s_out s).

(* WRequest k   a caller's lookup_or_enqueue
   WStart       a free worker takes the next job, manager.rs:74-78. The workers are spawned once
                (storage.rs:278-280); one whose job panicked is gone
   WSpawn i     the i-th busy worker queues the next job of its compaction, compactor.rs:120-130
   WReceive i   it gets the result of the handle it waits for, 131-133
   WReturn i    nothing is left, 134
   WFinish i r  a job without jobs of its own returns r
   WCrash i     a job panics *)
Inductive wevent := WRequest (k : task) | WStart | WSpawn (i : nat) | WReceive (i : nat) | WReturn (i : nat) | WFinish (i : nat) (r : result) | WCrash (i : nat).

Definition finish (s : wstate) (i : nat) (e : event) : option (wstate * list obs) :=
  match step (w_jobs s) e with
  | Some (j, o) => Some (mk_w j (remove_nth i (w_phases s)), [o])
  | None => None
  end.
Definition wstep (s : wstate) (e : wevent) : option (wstate * list obs) :=
  match e with
  | WRequest k => match step (w_jobs s) (Request k) with Some (j, o) => Some (mk_w j (w_phases s), [o]) | None => None end
  | WStart =>
      if length (s_running (w_jobs s)) + length (s_lost (w_jobs s)) <? W then
        match step (w_jobs s) Start with
        | Some (j, o) => Some (mk_w j (w_phases s ++ [start_phase (match o with ORun k => k | _ => None end)]), [o])
        | None => None
        end
      else None
  | WSpawn i =>
      match nth_error (s_running (w_jobs s)) i, nth_error (w_phases s) i with
      | Some j, Some (Spawning (t :: rest) hs) =>
          match step (w_jobs s) (Request (Compaction (job_db (mj_key j)) t)) with
          | Some (js, o) =>
              let hs' := hs ++ match o with OReq _ h => [h] | _ => [] end in
              Some (mk_w js (set_nth i (match rest with [] => Receiving hs' | _ => Spawning rest hs' end) (w_phases s)), [o])
          | None => None
          end
      | _, _ => None
      end
  | WReceive i =>
      match nth_error (w_phases s) i with
      | Some (Receiving (h :: hs)) =>
          match received h (w_jobs s) with
          | Some (Done _) => Some (mk_w (w_jobs s) (set_nth i (Receiving hs) (w_phases s)), [])
          | Some (Failed e) => finish s i (Finish i (Failed e))
          | None => None
          end
      | _ => None
      end
  | WReturn i => match nth_error (w_phases s) i with Some (Receiving []) => finish s i (Finish i (Done 0%N)) | _ => None end
  | WFinish i r => match nth_error (w_phases s) i with Some Plain => finish s i (Finish i r) | _ => None end
  | WCrash i => finish s i (Crash i)
  end.
Fixpoint wrun (s : wstate) (es : list wevent) : option (wstate * list obs) :=
  match es with
  | [] => Some (s, [])
  | e :: r => match wstep s e with
              | Some (s', o) => match wrun s' r with Some (s'', os) => Some (s'', o ++ os) | None => None end
              | None => None
              end
  end.
End Pool.
