(* Model of bonsaidb-core/src/schema/names.rs, of the tree names of
   bonsaidb-local/src/views.rs and database.rs, and of the resource names of
   bonsaidb-core/src/permissions/bonsai.rs. Text is modelled by its UTF-8 bytes. *)
From Verif Require Import Base Utf8 Key DocId.
Local Open Scope N_scope.

(* u8::is_ascii_alphanumeric *)
Definition alnum (b : N) : bool :=
  ((48 <=? b) && (b <=? 57)) || ((65 <=? b) && (b <=? 90)) || ((97 <=? b) && (b <=? 122)).
(* the bytes that are written unescaped, names.rs:68-69, 100 *)
Definition plain (b : N) : bool := alnum b || (b =? 45).

(* From<Cow<str>> for Name, names.rs:65-75: a name is its text and a flag *)
Record name := mk_name { nm_text : bytes; nm_escape : bool }.
Definition name_of (s : bytes) : name := mk_name s (negb (forallb plain s)).

(* nibble_to_hex_char, names.rs:116-122, is [nib] of DocId *)
(* Display for Name, names.rs:96-114 ([alt] is the '#' flag) *)
Definition display_name (alt : bool) (n : name) : bytes :=
  if alt && nm_escape n
  then flat_map (fun b => if plain b then [b] else [95; nib (b / 16); nib (b mod 16)]) (nm_text n)
  else nm_text n.
(* Name::encoded, names.rs:60-62 *)
Definition name_encoded (n : name) : bytes := display_name true n.

(* hex_char_to_nibble, names.rs:134-141 *)
Definition hex_nibble (c : N) : option N :=
  if (48 <=? c) && (c <=? 57) then Some (c - 48)
  else if (97 <=? c) && (c <=? 102) then Some (c - 97 + 10)
  else None.
(* hex_chars_to_byte, names.rs:124-132 *)
Definition hex_byte (h l : N) : option N :=
  match hex_nibble h, hex_nibble l with Some h, Some l => Some (h * 16 + l) | _, _ => None end.

(* the loop of Name::parse_encoded, names.rs:36-50 *)
Fixpoint unescape (b : bytes) : option bytes :=
  match b with
  | [] => Some []
  | c :: r =>
      if c =? 95 then
        match r with
        | h :: l :: r' => match hex_byte h l with
                          | Some x => option_map (cons x) (unescape r')
                          | None => None
                          end
        | _ => None
        end
      else option_map (cons c) (unescape r)
  end.
(* Name::parse_encoded, names.rs:35-57; None is InvalidNameError *)
Definition name_parse (b : bytes) : option name :=
  match unescape b with
  | Some d => match utf8_decode d with Some _ => Some (name_of d) | None => None end
  | None => None
  end.

(* QualifiedName, names.rs:194-200; also SchemaName and CollectionName, which wrap it *)
Record qname := mk_qname { q_auth : name; q_name : name }.
Definition dot : N := 46.
(* Display for QualifiedName, names.rs:202-208 *)
Definition display_q (alt : bool) (q : qname) : bytes :=
  display_name alt (q_auth q) ++ [dot] ++ display_name alt (q_name q).
Definition q_encoded (q : qname) : bytes := display_q true q. (* names.rs:255-257 *)

(* str::split('.') *)
Fixpoint split_dots (b : bytes) : list bytes :=
  match b with
  | [] => [[]]
  | c :: r => if c =? dot then [] :: split_dots r
              else match split_dots r with [] => [[c]] | p :: ps => (c :: p) :: ps end
  end.
(* Qualified::parse_encoded, names.rs:239-250 *)
Definition q_parse (b : bytes) : option qname :=
  match split_dots b with
  | [a; n] => match name_parse a with
              | Some a => match name_parse n with Some n => Some (mk_qname a n) | None => None end
              | None => None
              end
  | _ => None
  end.

(* ViewName, names.rs:342-348, Display 364-370 *)
Record vname := mk_vname { v_coll : qname; v_name : name }.
Definition display_v (alt : bool) (v : vname) : bytes :=
  display_q alt (v_coll v) ++ [dot] ++ display_name alt (v_name v).
Definition v_encoded (v : vname) : bytes := display_v true v.

(* str::rsplit_once('.') *)
Definition rsplit_once (b : bytes) : option (bytes * bytes) :=
  match split_first dot (rev b) with
  | Some (x, y) => Some (rev y, rev x)
  | None => None
  end.
(* FromStr for ViewName, names.rs:372-384 *)
Definition v_parse (b : bytes) : option vname :=
  match rsplit_once b with
  | Some (f, n) => match q_parse f with
                   | Some c => match name_parse n with Some n => Some (mk_vname c n) | None => None end
                   | None => None
                   end
  | None => None
  end.

(* ---- tree names ---- *)
(* The literals, as bytes. *)
Definition s_view : bytes := [118;105;101;119;46]. (* "view." *)
Definition s_docmap : bytes := [46;100;111;99;117;109;101;110;116;45;109;97;112]. (* ".document-map" *)
Definition s_invalidated : bytes := [46;105;110;118;97;108;105;100;97;116;101;100]. (* ".invalidated" *)
Definition s_versions : bytes := [118;105;101;119;45;118;101;114;115;105;111;110;115;46]. (* "view-versions." *)
Definition s_collection : bytes := [99;111;108;108;101;99;116;105;111;110;46]. (* "collection." *)
Definition s_kv : bytes := [107;118]. (* "kv" *)

(* Every tree a database stores its objects in *)
Inductive object :=
| Documents (c : qname)        (* document_tree_name, database.rs:1745-1747 *)
| ViewEntries (v : vname)      (* view_entries_tree_name, views.rs:26-28 *)
| ViewDocumentMap (v : vname)  (* view_document_map_tree_name, views.rs:31-33 *)
| ViewInvalidated (v : vname)  (* view_invalidated_docs_tree_name, views.rs:35-37 *)
| ViewVersions (c : qname)     (* view_versions_tree_name, views.rs:39-41 *)
| KeyValues.                   (* KEY_TREE, keyvalue.rs:125 *)
Definition tree_name (o : object) : bytes :=
  match o with
  | Documents c => s_collection ++ q_encoded c
  | ViewEntries v => s_view ++ v_encoded v
  | ViewDocumentMap v => s_view ++ v_encoded v ++ s_docmap
  | ViewInvalidated v => s_view ++ v_encoded v ++ s_invalidated
  | ViewVersions c => s_versions ++ q_encoded c
  | KeyValues => s_kv
  end.

(* ---- resource names: a list of identifiers. actionable::Identifier turns
   numbers and 8-byte strings into one another (document/id.rs:84-93), so an
   identifier is its bytes. ---- *)
Definition s_bonsaidb : bytes := [98;111;110;115;97;105;100;98].
Definition s_document : bytes := [100;111;99;117;109;101;110;116].
Definition s_view_seg : bytes := [118;105;101;119].
Definition s_pubsub : bytes := [112;117;98;115;117;98].
Definition s_keyvalue : bytes := [107;101;121;118;97;108;117;101].
Definition collection_resource (db : bytes) (c : qname) : list bytes := (* bonsai.rs:22-27 *)
  [s_bonsaidb; db; display_q false c].
Definition document_resource (db : bytes) (c : qname) (id : bytes) : list bytes := (* bonsai.rs:31-39 *)
  collection_resource db c ++ [s_document; id].
Definition view_resource (db : bytes) (v : vname) : list bytes := (* bonsai.rs:43-48 *)
  [s_bonsaidb; db; display_q false (v_coll v); s_view_seg; nm_text (v_name v)].
Definition pubsub_resource (db topic : bytes) : list bytes := [s_bonsaidb; db; s_pubsub; topic]. (* bonsai.rs:52-54 *)
Definition kv_resource (db : bytes) : list bytes := [s_bonsaidb; db; s_keyvalue]. (* bonsai.rs:58-60 *)
Definition keyvalue_key_resource (db : bytes) (ns : option bytes) (key : bytes) : list bytes := (* bonsai.rs:64-72 *)
  kv_resource db ++ [match ns with Some n => n | None => [] end; key].
