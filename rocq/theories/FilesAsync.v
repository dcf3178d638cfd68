(* The asynchronous file reader: Contents<Async<_>> as tokio's AsyncRead,
   AsyncSeek and futures' Stream, bonsaidb-files direct.rs:690-889, 1080-1189.
   The synchronous half (positions, loaded blocks, seek) is that of Files.v. *)
From Verif Require Import Base Key Files.
Local Open Scope nat_scope.

(* what the task sends back: Block::load_async block.rs:110-133, the same as
   load; None when the database answered with an error *)
Definition response := option (list (N * bytes)).
(* Contents direct.rs:690-701 with AsyncBlockTask 703-709. [r_requests]: sent on
   request_sender and not taken by the task; [r_responses]: sent by the task and
   not received. Both are unbounded channels; the receiving future is polled
   again after it has answered, which for flume receives the next message. Whether
   the task was spawned is not kept: it is by the first poll (816-841). Wakers are
   not modelled. *)
Record reader := Reader {
  r_c : contents;
  r_requested : bool;
  r_requests : list (list N);
  r_responses : list response
}.
(* File::contents 453-469; Clone for Contents 711-726 *)
Definition open_reader (c : contents) : reader := Reader c false [] [].
Definition clone_reader (r : reader) : reader := open_reader (clone_contents (r_c r)).
Definition set_c (c : contents) (r : reader) : reader := Reader c (r_requested r) (r_requests r) (r_responses r).

(* the spawned task 822-832: one turn takes one request and answers it; the
   database it sees then, and whether it can be reached *)
Record turn := Turn { t_db : fdb; t_ok : bool }.
Definition task_turn (t : turn) (r : reader) : reader :=
  match r_requests r with
  | [] => r
  | ids :: q => Reader (r_c r) (r_requested r) q (r_responses r ++ [if t_ok t then Some (load ids (t_db t)) else None])
  end.
(* the task runs beside the caller: before each round of the loops below it may
   have its turn *)
Definition maybe_turn (t : option turn) (r : reader) : reader := match t with Some t => task_turn t r | None => r end.
Definition next_turn (ts : list (option turn)) : option turn * list (option turn) :=
  match ts with [] => (None, []) | t :: ts' => (t, ts') end.

(* fetch_blocks 843-889. (next_blocks panics when no block is left; the callers
   have seen NeedBlocks, so one is left.) *)
Inductive fetched := FPending | FReady (b : bool) | FError.
Definition fetch_blocks (r : reader) : reader * fetched :=
  let c := r_c r in
  if r_requested r then
    match r_responses r with
    | [] => (r, FPending)
    | Some bs :: q =>
        (Reader (Contents (c_blocks c) (c_loaded c ++ number_from (c_current c) (map snd bs)) (c_current c) (c_offset c) (c_buffer c)) false (r_requests r) q, FReady true)
    | None :: q => (Reader c (r_requested r) (r_requests r) q, FError)
    end
  else
    match map bi_id (next_blocks c) with
    | [] => (r, FReady false)
    | ids => (Reader (Contents (c_blocks c) [] (c_current c) (c_offset c) (c_buffer c)) true (r_requests r ++ [ids]) (r_responses r), FReady true)
    end.

(* AsyncRead::poll_read 1108-1139. The caller's ReadBuf has room for n bytes and
   holds [buf]; the answer tells what it holds afterwards (also when the answer
   is Pending). PStuck: not finished within the fuel. *)
Inductive polled := PPending (buf : bytes) | PReady (buf : bytes) | PError (buf : bytes) | PStuck.
Fixpoint poll_loop (fuel : nat) (ts : list (option turn)) (n : nat) (buf : bytes) (r : reader) : outcome (reader * polled) ferr :=
  match fuel with
  | O => Done (r, PStuck)
  | S k =>
      let '(t, ts') := next_turn ts in
      let r := maybe_turn t r in
      match non_blocking_read (n - length buf) (r_c r) with
      | None => Panic
      | Some (c', ReadBytes out) =>
          let buf' := buf ++ out in
          if (n - length buf' =? 0)%nat then Done (set_c c' r, PReady buf') else poll_loop k ts' n buf' (set_c c' r)
      | Some (c', Eof) => Done (set_c c' r, PReady buf)
      | Some (c', NeedBlocks) =>
          match fetch_blocks (set_c c' r) with
          | (r', FPending) => Done (r', PPending buf)
          | (r', FReady true) => poll_loop k ts' n buf r'
          | (r', FReady false) => Done (r', PReady buf)
          | (r', FError) => Done (r', PError buf)
          end
      end
  end.
(* enough rounds: see C90_poll_returns *)
Definition rounds (ts : list (option turn)) (n : nat) (r : reader) : nat :=
  n + 3 * length ts + 2 * length (r_responses r) + 2.
Definition poll_read (ts : list (option turn)) (n : nat) (buf : bytes) (r : reader) : outcome (reader * polled) ferr :=
  poll_loop (rounds ts n r) ts n buf r.

(* Stream::poll_next 1160-1189; NReady None ends the stream *)
Inductive npolled := NPending | NReady (b : option bytes) | NError | NStuck.
Fixpoint next_loop (fuel : nat) (ts : list (option turn)) (r : reader) : outcome (reader * npolled) ferr :=
  match fuel with
  | O => Done (r, NStuck)
  | S k =>
      let '(t, ts') := next_turn ts in
      let r := maybe_turn t r in
      match read_block (r_c r) with
      | None => Panic
      | Some (c', ReadBytes l) => Done (set_c c' r, NReady (Some l))
      | Some (c', Eof) => Done (set_c c' r, NReady None)
      | Some (c', NeedBlocks) =>
          match fetch_blocks (set_c c' r) with
          | (r', FPending) => Done (r', NPending)
          | (r', FReady true) => next_loop k ts' r'
          | (r', FReady false) => Done (r', NReady None)
          | (r', FError) => Done (r', NError)
          end
      end
  end.
Definition poll_next (ts : list (option turn)) (r : reader) : outcome (reader * npolled) ferr :=
  next_loop (rounds ts 0 r) ts r.

(* AsyncSeek 1080-1105: start_seek seeks (the answer is dropped), poll_complete
   tells the position; both at once, as tokio's seek(..).await does *)
Definition poll_complete (c : contents) : nat :=
  match c_blocks c with
  | [] => O
  | _ => match nth_error (c_blocks c) (c_current c) with
         | Some b => (bi_offset b + c_offset c)%nat
         | None => contents_len c
         end
  end.
Definition seek_async (s : seek_from) (r : reader) : outcome (reader * nat) ferr :=
  match seek s (r_c r) with
  | Done (c', _) => Done (set_c c' r, poll_complete c')
  | Fail e => Fail e
  | Panic => Panic
  end.

(* ---------- how the library's users call it (tokio's AsyncReadExt) ---------- *)
(* A call is a future: it is polled, again after every Pending, until it answers
   or the caller drops it. [ps] has one entry per poll of the reader; when it
   runs out the future was dropped. *)
Inductive answer := AOk (l : bytes) | AEnd (l : bytes) | AWaiting | AFailed | APanics | AStuck.
(* tokio's read(&mut buf[..n]): every poll starts with an empty ReadBuf over the
   caller's buffer; a Pending poll's ReadBuf is dropped *)
Fixpoint read_call (ps : list (list (option turn))) (n : nat) (r : reader) : reader * answer :=
  match ps with
  | [] => (r, AWaiting)
  | ts :: ps' =>
      match poll_read ts n [] r with
      | Done (r', PReady l) => (r', AOk l)
      | Done (r', PPending _) => read_call ps' n r'
      | Done (r', PError _) => (r', AFailed)
      | Done (r', PStuck) => (r', AStuck)
      | _ => (r, APanics)
      end
  end.
(* tokio's read_exact(&mut buf[..n]): keeps its ReadBuf, and polls again until it
   is full; no progress means UnexpectedEof (AEnd, with what was read so far) *)
Fixpoint exact_call (ps : list (list (option turn))) (n : nat) (buf : bytes) (r : reader) : reader * answer :=
  if (n - length buf =? 0)%nat then (r, AOk buf)
  else
    match ps with
    | [] => (r, AWaiting)
    | ts :: ps' =>
        match poll_read ts n buf r with
        | Done (r', PReady buf') =>
            if (length buf' =? length buf)%nat then (r', AEnd buf) else exact_call ps' n buf' r'
        | Done (r', PPending buf') => exact_call ps' n buf' r'
        | Done (r', PError _) => (r', AFailed)
        | Done (r', PStuck) => (r', AStuck)
        | _ => (r, APanics)
        end
    end.
(* futures' StreamExt::next: AOk is a block, AEnd the end of the stream *)
Fixpoint next_call (ps : list (list (option turn))) (r : reader) : reader * answer :=
  match ps with
  | [] => (r, AWaiting)
  | ts :: ps' =>
      match poll_next ts r with
      | Done (r', NReady (Some l)) => (r', AOk l)
      | Done (r', NReady None) => (r', AEnd [])
      | Done (r', NPending) => next_call ps' r'
      | Done (r', NError) => (r', AFailed)
      | Done (r', NStuck) => (r', AStuck)
      | _ => (r, APanics)
      end
  end.
(* to_vec 787-791 / into_vec 793-800: read_exact of the file's length, on a clone
   or on the reader itself *)
Definition into_vec (ps : list (list (option turn))) (r : reader) : answer :=
  snd (exact_call ps (contents_len (r_c r)) [] r).
Definition to_vec (ps : list (list (option turn))) (r : reader) : answer := into_vec ps (clone_reader r).
