(* Model of the synchronisation of lazy views: the integrity scanner
   (views/integrity_scanner.rs:44-129), the mapper job (views/mapper.rs:43-156), and
   the waiting of queries (tasks.rs:55-105). One view is followed; the other views
   and collections are part of the database state. *)
From Verif Require Import Base Key KeyPrefix DocId Tree View ViewProofs ViewMap Docs DocsProofs DocsSpec DocsMore DocsHist.
Local Open Scope N_scope.

(* ViewVersion, integrity_scanner.rs:132-180; the stored bytes are not modelled *)
Record version := mk_version { internal_version : N; schema_version : N }.
Definition current_version : N := 3.
Definition is_current (v : version) (schema : N) : bool :=
  (internal_version v =? current_version) && (schema_version v =? schema).
Definition stored_version (o : option version) : version := match o with Some v => v | None => mk_version 0 0 end.

(* the steps of IntegrityScanner::execute when the version is not current:
   reading the ids of the documents (75), deleting the three trees (79-81), and the
   transaction that queues the ids and stores the version (89-106) *)
Definition scan_read (v : view) (s : dbstate) : list bytes := t_keys (w_docs (db_work s) (vw_coll v)).
Definition scan_drop (v : view) (s : dbstate) : dbstate := mk_db (set_view (db_work s) (vw_name v) empty_vs) (db_log s).
Definition scan_queue (v : view) (ids : list bytes) (s : dbstate) : dbstate :=
  let vs := w_views (db_work s) (vw_name v) in
  mk_db (set_view (db_work s) (vw_name v)
           (mk_vs (vs_entries vs) (vs_docmap vs) (fold_left (fun t i => t_set i tt t) ids (vs_invalid vs))))
        (db_log s ++ [(next_tx (db_log s), None)]).
(* a crash during these: the first n trees are deleted, in the order of 79-81, and the
   transaction is not committed *)
Definition scan_crash (v : view) (s : dbstate) (n : nat) : dbstate :=
  let vs := w_views (db_work s) (vw_name v) in
  mk_db (set_view (db_work s) (vw_name v)
           (mk_vs (if (n <? 2)%nat then vs_entries vs else []) (if (n <? 3)%nat then vs_docmap vs else [])
                  (if (n <? 1)%nat then vs_invalid vs else []))) (db_log s).
(* execute, 44-129, when no transaction happens in between; the result is the new
   state and stored version, and whether a mapper is started *)
Definition integrity_scan (v : view) (schema : N) (stored : option version) (s : dbstate) : dbstate * option version * bool :=
  if is_current (stored_version stored) schema then (s, stored, false)
  else (scan_queue v (scan_read v s) (scan_drop v s), Some (mk_version current_version schema), true).

(* a mapper job: it has taken the id of the last transaction (mapper.rs:75-78), or
   also read the invalidated ids (113-117) and has these left to map *)
Inductive jobstate := JStarted (t : N) | JMapping (t : N) (left : list bytes).
Record sys := mk_sys {
  sy_db : dbstate;
  sy_status : option N;        (* view_update_last_status of the view, tasks.rs:41 *)
  sy_job : option jobstate;    (* the running mapper job; its key allows only one *)
  sy_done : list N }.          (* the results of the finished jobs *)
(* last_transaction_id: the id of the last committed transaction *)
Definition last_tx (s : dbstate) : option N := match db_log s with [] => None | l => Some (last (map fst l) 0) end.

Inductive step (E : env) (v : view) : sys -> sys -> Prop :=
| step_tx y p ops : step E v y (mk_sys (fst (apply_transaction E p (sy_db y) ops)) (sy_status y) (sy_job y) (sy_done y))
| step_other y u sh ids : In u (ev_views E) -> u <> v -> permutes sh -> sorted ids ->
    step E v y (mk_sys (mapper_step E u sh ids (sy_db y)) (sy_status y) (sy_job y) (sy_done y))
| step_start y t : sy_job y = None -> last_tx (sy_db y) = Some t ->
    step E v y (mk_sys (sy_db y) (sy_status y) (Some (JStarted t)) (sy_done y))
| step_read y t : sy_job y = Some (JStarted t) ->
    step E v y (mk_sys (sy_db y) (sy_status y) (Some (JMapping t (t_keys (vs_invalid (w_views (db_work (sy_db y)) (vw_name v)))))) (sy_done y))
| step_chunk y t l sh vs : sy_job y = Some (JMapping t l) -> l <> [] -> permutes sh ->
    let n := (length l - view_chunk)%nat in
    map_chunk sh (vw_def v) (w_docs (db_work (sy_db y)) (vw_coll v)) (skipn n l) (w_views (db_work (sy_db y)) (vw_name v)) = Done vs ->
    step E v y (mk_sys (mk_db (set_view (db_work (sy_db y)) (vw_name v) vs) (db_log (sy_db y) ++ [(next_tx (db_log (sy_db y)), None)]))
                  (sy_status y) (Some (JMapping t (firstn n l))) (sy_done y))
| step_fail y j : sy_job y = Some j -> step E v y (mk_sys (sy_db y) (sy_status y) None (sy_done y))
| step_finish y t : sy_job y = Some (JMapping t []) ->
    step E v y (mk_sys (sy_db y) (Some t) None (t :: sy_done y)).
Inductive steps_to (E : env) (v : view) : sys -> sys -> Prop :=
| steps_refl y : steps_to E v y y
| steps_more y z x : step E v y z -> steps_to E v z x -> steps_to E v y x.
(* after the integrity check of the view and before the first mapper job *)
Definition sys_start (s : dbstate) : sys := mk_sys s None None [].
(* update_view_if_needed, tasks.rs:55-105, in state y0 the query notes the last
   transaction T; it goes on in state z, if in some state y in between the view's
   status was not behind T, or if a job returned an id that is not smaller *)
Inductive answers (E : env) (v : view) (T : N) (y0 z : sys) : Prop :=
| answer_status y t : last_tx (sy_db y0) = Some T -> steps_to E v y0 y -> sy_status y = Some t -> ~ (t < T) -> steps_to E v y z ->
    answers E v T y0 z
| answer_job t : last_tx (sy_db y0) = Some T -> steps_to E v y0 z -> In t (sy_done z) -> T <= t -> answers E v T y0 z.
