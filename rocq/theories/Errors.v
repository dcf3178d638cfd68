(* The two helpers of core::Error that name what an error is about
   (crates/bonsaidb-core/src/lib.rs:220-244), and the errors they are given: a conflict
   (local/src/database.rs:415-757, see Docs.v) and a violated unique view
   (local/src/views/mapper.rs:472-477, see View.v), which carries the view's name.
   Simplified: the other errors are one value; names are compared as their bytes
   (SchemaName and Name: see Names.v). *)
From Verif Require Import Base Tree View Docs.
Local Open Scope N_scope.

(* core::Error, lib.rs:140-170 *)
Inductive core_error :=
| EConflict (coll : bytes) (h : header)
| EUnique (view : bytes) (conflicting existing : header)
| EOther.

(* Error::conflicting_document::<Collection>, lib.rs:235-244. [mine]: the name of the collection *)
Definition conflicting_document (mine : bytes) (e : core_error) : option header :=
  match e with EConflict c h => if bytes_eqb c mine then Some h else None | _ => None end.
(* Error::is_unique_key_error::<View>, lib.rs:222-230. [registered]: the name of the view
   the connection's schema has for a type, if it has one (Schematic::view, schematic.rs:150-155) *)
Definition is_unique_key_error (registered : N -> option bytes) (ty : N) (e : core_error) : bool :=
  match e with
  | EUnique n _ _ => match registered ty with Some m => bytes_eqb n m | None => false end
  | _ => false
  end.

(* update_eager_views, database.rs:675-714: the view whose map request fails; its name is
   the map_request.view_name of mapper.rs:473 *)
Fixpoint failing_view (views : list view) (c id : bytes) (w : work) : option bytes :=
  match views with
  | [] => None
  | v :: r =>
      if bytes_eqb (vw_coll v) c && is_eager (vd_policy (vw_def v)) then
        match map_request (fun l => l) (vw_def v) (w_docs w c) [id] (w_views w (vw_name v)) with
        | Done vs => failing_view r c id (set_view w (vw_name v) vs)
        | _ => Some (vw_name v)
        end
      else failing_view r c id w
  end.
(* the document an operation changed when update_eager_views is called, and the trees
   then: database.rs:508-513, 530-536, 607-609 and 640-648 *)
Definition changed (E : env) (w : work) (o : operation) : option (bytes * work) :=
  let c := op_coll o in
  let docs := w_docs w c in
  let save (id contents : bytes) : option (bytes * work) :=
    match t_get id docs with
    | Some old => match next_revision E (h_rev (d_header old)) contents with
                  | Done (Some r) => Some (id, set_docs w c (t_set id (mk_doc (mk_header id r) contents) docs))
                  | _ => None
                  end
    | None => Some (id, set_docs w c (t_set id (new_doc E id contents) docs))
    end in
  match op_cmd o with
  | Insert oid contents =>
      match oid with
      | Some i => Some (i, set_docs w c (t_set i (new_doc E i contents) docs))
      | None => match ev_pk E c with
                | Some t => match next_id t (t_last docs) with
                            | Done i => Some (i, set_docs w c (t_set i (new_doc E i contents) docs))
                            | _ => None
                            end
                | None => None
                end
      end
  | Update h contents => save (h_id h) contents
  | Overwrite id contents => save id contents
  | Delete h => Some (h_id h, set_docs w c (t_remove (h_id h) docs))
  | Check _ _ => None
  end.
(* the error of an operation as the application gets it *)
Definition error_of (E : env) (w : work) (o : operation) (e : terr) : core_error :=
  match e with
  | DocumentConflict c h => EConflict c h
  | ViewError (UniqueKeyViolation c x) =>
      match changed E w o with
      | Some (id, w') => match failing_view (ev_views E) (op_coll o) id w' with Some n => EUnique n c x | None => EOther end
      | None => EOther
      end
  | _ => EOther
  end.
(* the error of a transaction: of the first operation that fails, database.rs:317-356 *)
Fixpoint error_in (E : env) (w : work) (ops : list operation) : option core_error :=
  match ops with
  | [] => None
  | o :: r => match exec_op E w o with Done (w', _) => error_in E w' r | Fail e => Some (error_of E w o e) | Panic => None end
  end.
(* what apply_transaction gives the application when it fails *)
Definition application_error (E : env) (p : session) (s : dbstate) (ops : list operation) : option core_error :=
  match snd (apply_transaction E p s ops) with
  | Fail (DocumentConflict _ _) | Fail (ViewError _) => error_in E (db_work s) ops
  | Fail _ => Some EOther
  | _ => None
  end.
