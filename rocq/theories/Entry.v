(* Model of the named-collection API: NamedCollection::load / load_document (and the
   async versions), core/src/schema/collection.rs:1355-1485, delete_by_name 1488-1515,
   NamedReference::id 1658-1676, Entry::execute 1725-1768 (AsyncEntry::execute
   1840-1883 is the same code with awaits) and SerializedCollection::push (natural_id).
   Contents are bytes: (de)serialization is not modelled. Between any two accesses to
   the database other clients and background jobs act ([others], Modify.v). *)
From Verif Require Import Base Key KeyPrefix DocId Tree View ViewProofs ViewMap Docs DocsProofs DocsSpec DocsMore DocsHist Query Modify.
Local Open Scope N_scope.

(* NamedReference, collection.rs:1521-1528; Key(k) is RId of the encoded key *)
Inductive reference := RName (n : bytes) | RId (i : bytes).

(* documents.into_iter().next(): the map of query_with_docs is ordered by id,
   collection.rs:1450-1458, connection/lowlevel.rs:327-335 *)
Definition first_doc (o : outcome (list doc) terr) : outcome (option doc) terr :=
  match o with
  | Done ds => Done (hd_error (map snd (fold_left (fun t d => t_set (h_id (d_header d)) d t) ds [])))
  | Fail e => Fail e
  | Panic => Panic
  end.
Definition sources (ms : list emission) : list bytes := map (fun m => h_id (em_src m)) ms.

(* load_document, collection.rs:1440-1460. By name: the view is read at s1, the
   documents at s2 (query_with_docs, lowlevel.rs:313-341, is two calls; the local
   query_by_name_with_docs, database.rs:1496-1525, is as well two reads) *)
Inductive load (E : env) (pv : vsession) (p : session) (v : view) : reference -> dbstate -> dbstate -> outcome (option doc) terr -> Prop :=
| load_id i s s1 : others E s s1 -> load E pv p v (RId i) s s1 (get_doc p s1 (vw_coll v) i)
| load_name_fail n s s1 e : others E s s1 -> query pv s1 v (Some (QMatches n)) true None = Fail e ->
    load E pv p v (RName n) s s1 (Fail e)
| load_name n s s1 ms s2 : others E s s1 -> query pv s1 v (Some (QMatches n)) true None = Done ms -> others E s1 s2 ->
    load E pv p v (RName n) s s2 (first_doc (get_multiple p s2 (vw_coll v) (sources ms))).

(* the transactions the call itself sent: state before, operation, state after, answer *)
Record sent := mk_sent { before : dbstate; op : operation; after : dbstate; answer : outcome (list opres) terr }.

(* CollectionDocument::update, document/collection.rs:94-102 and
   LowLevelConnection::update, lowlevel.rs:78-95; push: lowlevel.rs:44-67 *)
Definition stored (contents : bytes) (o : outcome (list opres) terr) : outcome (option doc) terr :=
  match o with
  | Done (RUpdated _ h :: _) => Done (Some (mk_doc h contents))
  | Done _ => Panic
  | Fail e => Fail e
  | Panic => Panic
  end.

(* the loop of Entry::execute, collection.rs:1735-1756. [f n]: the n-th call of the
   update callback *)
Inductive attempts (E : env) (pv : vsession) (p : session) (v : view) (f : nat -> bytes -> bytes)
  : nat -> nat -> doc -> dbstate -> list sent -> dbstate -> outcome (option doc) terr -> Prop :=
| att_end limit n d s s1 s2 o : others E s s1 ->
    apply_transaction E p s1 [mk_op (vw_coll v) (Update (d_header d) (f n (d_contents d)))] = (s2, o) ->
    is_conflict o = false ->
    attempts E pv p v f limit n d s [mk_sent s1 (mk_op (vw_coll v) (Update (d_header d) (f n (d_contents d)))) s2 o] s2
      (stored (f n (d_contents d)) o)
| att_limit n d s s1 s2 c h : others E s s1 ->
    apply_transaction E p s1 [mk_op (vw_coll v) (Update (d_header d) (f n (d_contents d)))] = (s2, Fail (DocumentConflict c h)) ->
    attempts E pv p v f 0 n d s
      [mk_sent s1 (mk_op (vw_coll v) (Update (d_header d) (f n (d_contents d)))) s2 (Fail (DocumentConflict c h))] s2
      (Fail (DocumentConflict c h))
| att_gone limit n d s s1 s2 c h s3 o : others E s s1 ->
    apply_transaction E p s1 [mk_op (vw_coll v) (Update (d_header d) (f n (d_contents d)))] = (s2, Fail (DocumentConflict c h)) ->
    load E pv p v (RId (h_id h)) s2 s3 o -> (forall d', o <> Done (Some d')) ->
    attempts E pv p v f (S limit) n d s
      [mk_sent s1 (mk_op (vw_coll v) (Update (d_header d) (f n (d_contents d)))) s2 (Fail (DocumentConflict c h))] s3 o
| att_retry limit n d s s1 s2 c h s3 d' l s' o : others E s s1 ->
    apply_transaction E p s1 [mk_op (vw_coll v) (Update (d_header d) (f n (d_contents d)))] = (s2, Fail (DocumentConflict c h)) ->
    load E pv p v (RId (h_id h)) s2 s3 (Done (Some d')) ->
    attempts E pv p v f limit (S n) d' s3 l s' o ->
    attempts E pv p v f (S limit) n d s
      (mk_sent s1 (mk_op (vw_coll v) (Update (d_header d) (f n (d_contents d)))) s2 (Fail (DocumentConflict c h)) :: l) s' o.

(* Entry::execute, collection.rs:1725-1768: insert and update callbacks are optional;
   nat: SerializedCollection::natural_id *)
Inductive entry (E : env) (pv : vsession) (p : session) (v : view) (nat_id : bytes -> option bytes)
  (ins : option bytes) (upd : option (nat -> bytes -> bytes)) (limit : nat) (r : reference)
  : dbstate -> list sent -> dbstate -> outcome (option doc) terr -> Prop :=
| entry_fail s s1 o : load E pv p v r s s1 o -> (forall x, o <> Done x) ->
    entry E pv p v nat_id ins upd limit r s [] s1 o
| entry_get s s1 d : load E pv p v r s s1 (Done (Some d)) -> upd = None ->
    entry E pv p v nat_id ins upd limit r s [] s1 (Done (Some d))
| entry_update s s1 d f l s' o : load E pv p v r s s1 (Done (Some d)) -> upd = Some f ->
    attempts E pv p v f limit 0 d s1 l s' o ->
    entry E pv p v nat_id ins upd limit r s l s' o
| entry_none s s1 : load E pv p v r s s1 (Done None) -> ins = None ->
    entry E pv p v nat_id ins upd limit r s [] s1 (Done None)
| entry_insert s s1 x s2 s3 o : load E pv p v r s s1 (Done None) -> ins = Some x -> others E s1 s2 ->
    apply_transaction E p s2 [mk_op (vw_coll v) (Insert (nat_id x) x)] = (s3, o) ->
    entry E pv p v nat_id ins upd limit r s [mk_sent s2 (mk_op (vw_coll v) (Insert (nat_id x) x)) s3 o] s3 (stored x o).

(* delete_by_name, collection.rs:1488-1498 over delete_docs_by_name,
   database.rs:1606-1630: the view is read at s1, the transaction applied at s2 *)
Inductive delete_by_name (E : env) (p : session) (v : view) (n : bytes)
  : dbstate -> dbstate -> dbstate -> dbstate -> outcome bool terr -> Prop :=
| delete_at s s1 s2 s3 o : others E s s1 -> others E s1 s2 ->
    apply_transaction E p s2 (delete_ops s1 v (Some (QMatches n))) = (s3, o) ->
    delete_by_name E p v n s s1 s2 s3
      match o with Done rs => Done (0 <? N.of_nat (length rs)) | Fail e => Fail e | Panic => Panic end.

(* NamedReference::id, collection.rs:1656-1676: only the view is read *)
Definition reference_id (pv : vsession) (s : dbstate) (v : view) (r : reference) : outcome (option bytes) terr :=
  match r with
  | RId i => Done (Some i)
  | RName n =>
      match query pv s v (Some (QMatches n)) true None with
      | Done ms => Done (hd_error (sources ms))
      | Fail e => Fail e
      | Panic => Panic
      end
  end.
