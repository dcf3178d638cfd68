(* Vocabulary for C80: what it means that a typed document is in a collection. *)
From Verif Require Import Base Key KeySpec KeyProofs KeyPrefix DocId Tree View Docs DocsSpec Typed.
Local Open Scope N_scope.

(* reading back what was written gives the same contents *)
Definition lawful {A} (C : collection A) : Prop := forall a b, co_ser C a = Some b -> co_de C b = Some a.
(* the database's schema knows the collection with this key type, and the key type has no
   Option of a fixed size type among the fields of a composite (C03_option_field_refuted) *)
Definition known {A} (E : env) (C : collection A) : Prop :=
  ev_pk E (co_name C) = Some (co_key C) /\ no_sized_option (co_key C) = true.
(* [v] is a key of the collection's type whose encoding is the document id [i] *)
Definition is_id {A} (C : collection A) (v : kval) (i : bytes) : Prop :=
  typed (co_key C) v = true /\ encode (co_key C) v = Done i /\ N.of_nat (length i) <= 65535.
(* the database holds [x]: its id, revision and contents *)
Definition stored {A} (C : collection A) (s : dbstate) (x : tdoc A) : Prop :=
  exists i b, is_id C (th_id (td_header x)) i /\ co_de C b = Some (td_contents x) /\
    doc_at s (co_name C) i = Some (mk_doc (mk_header i (th_rev (td_header x))) b).
Definition absent {A} (C : collection A) (s : dbstate) (v : kval) : Prop :=
  forall i, encode (co_key C) v = Done i -> doc_at s (co_name C) i = None.
(* every document that is not the one of a key in [vs] is as it was *)
Definition only_at {A} (C : collection A) (vs : list kval) (s s' : dbstate) : Prop :=
  forall c i, (forall v, In v vs -> ~ (c = co_name C /\ encode (co_key C) v = Done i)) -> doc_at s' c i = doc_at s c i.
(* all ids in the collection are encodings of keys of its type *)
Definition well_keyed {A} (C : collection A) (s : dbstate) : Prop :=
  forall i d, doc_at s (co_name C) i = Some d -> exists v, is_id C v i.
(* no stored document has other contents with the same digest as the given contents *)
Definition no_collision {A} (E : env) (C : collection A) (s : dbstate) (a : A) : Prop :=
  forall i d b, doc_at s (co_name C) i = Some d -> co_ser C a = Some b -> ev_hash E (d_contents d) = ev_hash E b -> d_contents d = b.
Definition in_range (r : range) (v : kval) : Prop :=
  match r with
  | Between a b => kcmp a v <> Gt /\ kcmp v b = Lt
  | From a => kcmp a v <> Gt
  | To b => kcmp v b = Lt
  | BetweenIncl a b => kcmp a v <> Gt /\ kcmp v b <> Gt
  | ToIncl b => kcmp v b <> Gt
  | Full => True
  end.
