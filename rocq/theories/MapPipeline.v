(* The three threads of DocumentRequest::map, crates/bonsaidb-local/src/views/
   mapper.rs:363-395: generate_batches (174-201), map_batches (203-265) with its
   own worker threads, and save_mappings (328-361), connected by two channels of
   capacity one and one document channel per batch. View.v models what they
   compute; here is how they run: every interleaving of their sends, receives and
   ends.

   Parallel::run (easy-parallel) starts one thread per closure and returns when all
   of them have ended. Both receivers belong to the stack frame of map() (the
   closures borrow them), so they outlive their threads: a send on either channel
   never fails, it blocks while the channel is full. The senders are moved into the
   closures and are dropped when their thread ends. *)
From Coq Require Import List Arith Bool Lia Permutation.
From Verif Require Import Base.
Import ListNotations.
Local Open Scope nat_scope.

Section Pipeline.
Context {D R A : Type}.
Variable cs : list (list D).        (* document_ids.chunks(1024), each with its documents *)
Variable f : D -> option R.         (* deserialize and map one document; None: an error, or a panic of the map function *)
Variable save : nat -> A -> list R -> option A.  (* update_document_map and update_view_entries of batch k; None: an error *)
Variable p : nat.                   (* parallelization, config.rs:159 *)

Definition chunk (k : nat) : list D := nth k cs [].
Definition n : nat := length cs.

(* generate_batches. GHead k: about to send the header of batch k (or, with none
   left, to end). GDoc k i: header k sent, i of its documents sent. GErr k:
   get_multiple failed after header k was sent (mapper.rs:183-186, `?`). GPanic k:
   document_id_sender.send(..).unwrap() found the receiver dropped (196-198). *)
Inductive gen := GHead (k : nat) | GDoc (k i : nat) | GDone | GErr (k : nat) | GPanic (k : nat).
(* the worker threads of one batch, mapper.rs:216-240: running, ended with their
   results, ended with an error *)
Inductive worker := WRun (r : list R) | WEnd (r : list R) | WErr.
(* map_batches. MWait k: waiting for header k. MWork k t ws: t documents of batch k
   taken by the workers. MSend k r: batch k mapped, to be sent. *)
Inductive mapper := MWait (k : nat) | MWork (k t : nat) (ws : list worker) | MSend (k : nat) (r : list R) | MDone (k : nat) | MErr (k : nat).
(* save_mappings. SPanic: document_maps.get(key).unwrap() for an id without result
   (mapper.rs:278-280) *)
Inductive saver := SWait (k : nat) (a : A) | SDone (k : nat) (a : A) | SErr (k : nat) | SPanic (k : nat).
Record st := St { s_g : gen; s_m : mapper; s_q : list (list R); s_s : saver }.

(* how many headers were sent, and whether the header channel lost its sender *)
Definition headers (g : gen) : nat :=
  match g with GHead k => k | GDoc k _ => Datatypes.S k | GDone => n | GErr k => Datatypes.S k | GPanic k => Datatypes.S k end.
Definition g_ended (g : gen) : bool := match g with GDone | GErr _ | GPanic _ => true | _ => false end.
(* the document channel of batch k: how much was sent, and whether its sender is
   dropped (after the loop, 199, or when the thread ends) *)
Definition sent (g : gen) (k : nat) : nat :=
  match g with
  | GDoc j i => if k =? j then i else length (chunk k)
  | GErr j => if k =? j then 0 else length (chunk k)
  | _ => length (chunk k)
  end.
Definition closed (g : gen) (k : nat) : bool :=
  match g with GDoc j _ => negb (k =? j) | _ => true end.
(* how many headers were received *)
Definition received (m : mapper) : nat :=
  match m with MWait k => k | MWork k _ _ => Datatypes.S k | MSend k _ => Datatypes.S k | MDone k => k | MErr k => Datatypes.S k end.
(* the receiver of the documents of batch k is dropped once map_batches gave up in
   that batch (it is a local of the loop body, 213) *)
Definition dropped (m : mapper) (k : nat) : bool := match m with MErr j => k =? j | _ => false end.
Definition m_ended (m : mapper) : bool := match m with MDone _ | MErr _ => true | _ => false end.
Definition s_ended (s : saver) : bool := match s with SWait _ _ => false | _ => true end.
Definition running (w : worker) : bool := match w with WRun _ => true | _ => false end.
Definition failed (w : worker) : bool := match w with WErr => true | _ => false end.
Definition results (w : worker) : list R := match w with WRun r => r | WEnd r => r | WErr => [] end.

Definition init (a0 : A) : st := St (GHead 0) (MWait 0) [] (SWait 0 a0).

(* one step of one thread *)
Inductive step : st -> st -> Prop :=
(* batch_sender.send((chunk, receiver)), 181-183: room for one *)
| g_head k m q s : k < n -> k - received m < 1 -> step (St (GHead k) m q s) (St (GDoc k 0) m q s)
| g_doc k i m q s : i < length (chunk k) -> dropped m k = false -> step (St (GDoc k i) m q s) (St (GDoc k (Datatypes.S i)) m q s)
| g_unwrap k i m q s : i < length (chunk k) -> dropped m k = true -> step (St (GDoc k i) m q s) (St (GPanic k) m q s)
| g_next k m q s : step (St (GDoc k (length (chunk k))) m q s) (St (GHead (Datatypes.S k)) m q s)
| g_end m q s : step (St (GHead n) m q s) (St GDone m q s)
| g_io k m q s : step (St (GDoc k 0) m q s) (St (GErr k) m q s)
(* batch_receiver.recv(), 209 *)
| m_recv k g q s : k < headers g -> step (St g (MWait k) q s) (St g (MWork k 0 (repeat (WRun []) p)) q s)
| m_end k g q s : headers g <= k -> g_ended g = true -> step (St g (MWait k) q s) (St g (MDone k) q s)
(* a worker takes a document, 219-234 *)
| m_take k t ws1 r ws2 d x g q s : t < sent g k -> nth_error (chunk k) t = Some d -> f d = Some x ->
    step (St g (MWork k t (ws1 ++ WRun r :: ws2)) q s) (St g (MWork k (Datatypes.S t) (ws1 ++ WRun (r ++ [x]) :: ws2)) q s)
| m_fail k t ws1 r ws2 d g q s : t < sent g k -> nth_error (chunk k) t = Some d -> f d = None ->
    step (St g (MWork k t (ws1 ++ WRun r :: ws2)) q s) (St g (MWork k (Datatypes.S t) (ws1 ++ WErr :: ws2)) q s)
| m_stop k t ws1 r ws2 g q s : sent g k <= t -> closed g k = true ->
    step (St g (MWork k t (ws1 ++ WRun r :: ws2)) q s) (St g (MWork k t (ws1 ++ WEnd r :: ws2)) q s)
(* all workers have ended, 240-260 *)
| m_join k t ws g q s : existsb running ws = false -> existsb failed ws = false ->
    step (St g (MWork k t ws) q s) (St g (MSend k (concat (map results ws))) q s)
| m_give_up k t ws g q s : existsb running ws = false -> existsb failed ws = true ->
    step (St g (MWork k t ws) q s) (St g (MErr k) q s)
(* mapped_sender.send(batch), 261: room for one *)
| m_send k r g q s : length q < 1 -> step (St g (MSend k r) q s) (St g (MWait (Datatypes.S k)) (q ++ [r]) s)
(* mapped_receiver.recv(), 335-343, and the batch is saved *)
| s_save k a r q a' g m : length r = length (chunk k) -> save k a r = Some a' ->
    step (St g m (r :: q) (SWait k a)) (St g m q (SWait (Datatypes.S k) a'))
| s_fail k a r q g m : length r = length (chunk k) -> save k a r = None -> step (St g m (r :: q) (SWait k a)) (St g m q (SErr k))
| s_unwrap k a r q g m : length r < length (chunk k) -> step (St g m (r :: q) (SWait k a)) (St g m q (SPanic k))
| s_end k a g m : m_ended m = true -> step (St g m [] (SWait k a)) (St g m [] (SDone k a)).

Inductive steps : st -> st -> Prop :=
| st_refl s : steps s s
| st_step s s1 s2 : steps s s1 -> step s1 s2 -> steps s s2.

(* run() returns once all three threads have ended *)
Definition returned (s : st) : bool := g_ended (s_g s) && m_ended (s_m s) && s_ended (s_s s).
(* a panic of a thread is resumed by run(); otherwise map() answers the first error
   (388-394) *)
Definition answer (s : st) : outcome A unit :=
  match s_g s, s_s s with
  | GPanic _, _ | _, SPanic _ => Panic
  | GDone, SDone _ a => match s_m s with MDone _ => Done a | _ => Fail tt end
  | _, _ => Fail tt
  end.
End Pipeline.
