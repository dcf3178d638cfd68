(* Model of the serde forms of the types an application stores or sends
   (bonsaidb-core/src/document/*.rs, transaction.rs, keyvalue.rs, schema/names.rs, key/varint.rs,
   key/time.rs, admin/user.rs; bonsaidb-local/src/database/keyvalue.rs).

   A `Serialize` impl talks to a serializer in serde's data model: a [node].  What a reader of
   the same format finds again is a [wire] tree; [write] says what each kind of format makes of
   a node.  The formats themselves (bincode, pot, serde_json) are external crates; a format is
   described here by four choices (record [format]).  The text of a format, and borrowing, are
   not modelled; floats are written as they are. *)
From Coq Require Import String.
From Verif Require Import Base Key DocId Names View Docs Kv.
Local Open Scope string_scope.

(* ---------- serde's data model ---------- *)

Inductive node :=
| NUnit
| NBool (b : bool)
| NNum (z : Z)
| NFloat (f : SpecFloat.spec_float)
| NStr (s : bytes)
| NBytes (b : bytes)
| NNone
| NSome (n : node)
| NSeq (l : list node)                       (* sequences and tuples *)
| NStruct (fields : list (string * node))
| NVariant (tags : list string) (index : nat) (payload : node).

(* what a reader finds *)
Inductive tag := ByName (s : string) | ByIndex (n : nat).
Inductive wire :=
| WNull
| WBool (b : bool)
| WNum (z : Z)
| WFloat (f : SpecFloat.spec_float)
| WStr (s : bytes)
| WBytes (b : bytes)
| WSome (w : wire)
| WSeq (l : list wire)
| WMap (l : list (string * wire))
| WVariant (t : tag) (payload : wire).

(* named: structs are maps from field names and enum variants are named (pot, JSON), or both
   are positional (bincode).  counted: a positional reader knows where the elements end
   (bincode does not: it reads on and fails).  keeps_bytes: byte strings stay byte strings
   (JSON writes a list of numbers).  tagged: Some(x) is marked as such (bincode), or written as
   x (pot, JSON).  spare: elements after the expected ones are not an error. *)
Record format := mk_format { named : bool; counted : bool; keeps_bytes : bool; tagged : bool; spare : bool }.
Definition bincode : format := mk_format false false true true true.
Definition pot : format := mk_format true true true false true.
Definition json : format := mk_format true true false false false.

Fixpoint write (f : format) (n : node) : wire :=
  match n with
  | NUnit => WNull
  | NBool b => WBool b
  | NNum z => WNum z
  | NFloat x => WFloat x
  | NStr s => WStr s
  | NBytes b => if keeps_bytes f then WBytes b else WSeq (map (fun x => WNum (Z.of_N x)) b)
  | NNone => WNull
  | NSome m => if tagged f then WSome (write f m) else write f m
  | NSeq l => WSeq (map (write f) l)
  | NStruct fs => if named f then WMap (map (fun p => (fst p, write f (snd p))) fs)
                  else WSeq (map (fun p => write f (snd p)) fs)
  | NVariant tags i m => WVariant (if named f then ByName (nth i tags "") else ByIndex i) (write f m)
  end.

(* ---------- reading: serde's own impls ---------- *)

(* a type's Serialize and Deserialize; the reason of a failure is not modelled *)
Record codec (A : Type) := mk_codec { ser : A -> node; de : format -> wire -> option A }.
Arguments mk_codec {A} ser de. Arguments ser {A}. Arguments de {A}.

Fixpoint all {A B} (f : A -> option B) (l : list A) : option (list B) :=
  match l with
  | [] => Some []
  | x :: r => match f x, all f r with Some y, Some ys => Some (y :: ys) | _, _ => None end
  end.

Definition c_unit : codec unit :=
  mk_codec (fun _ => NUnit) (fun _ w => match w with WNull => Some tt | _ => None end).
Definition c_bool : codec bool :=
  mk_codec NBool (fun _ w => match w with WBool b => Some b | _ => None end).
(* an integer type from [lo] up to but not including [hi] *)
Definition c_int (lo hi : Z) : codec Z :=
  mk_codec NNum (fun _ w => match w with WNum z => if ((lo <=? z) && (z <? hi))%Z then Some z else None | _ => None end).
Definition c_uint (hi : N) : codec N :=
  mk_codec (fun n => NNum (Z.of_N n))
    (fun _ w => match w with WNum z => if ((0 <=? z) && (z <? Z.of_N hi))%Z then Some (Z.to_N z) else None | _ => None end).
Definition u8 := c_uint (2 ^ 8). Definition u16 := c_uint (2 ^ 16).
Definition u32 := c_uint (2 ^ 32). Definition u64 := c_uint (2 ^ 64).
Definition c_float : codec SpecFloat.spec_float :=
  mk_codec NFloat (fun _ w => match w with WFloat x => Some x | _ => None end).
Definition c_string : codec bytes :=
  mk_codec NStr (fun _ w => match w with WStr s => Some s | _ => None end).
Definition c_vec {A} (c : codec A) : codec (list A) :=
  mk_codec (fun l => NSeq (map (ser c) l))
    (fun f w => match w with WSeq l => all (de c f) l | _ => None end).
(* [T; n]: a tuple of n elements *)
Definition c_array {A} (n : nat) (c : codec A) : codec (list A) :=
  mk_codec (fun l => NSeq (map (ser c) l))
    (fun f w => match w with
                | WSeq l => if (length l =? n)%nat || (spare f && (n <=? length l)%nat)
                            then all (de c f) (firstn n l) else None
                | _ => None
                end).
Definition c_option {A} (c : codec A) : codec (option A) :=
  mk_codec (fun o => match o with Some x => NSome (ser c x) | None => NNone end)
    (fun f w => match w with
                | WNull => Some None
                | WSome v => if tagged f then option_map Some (de c f v) else None
                | _ => if tagged f then None else option_map Some (de c f w)
                end).

(* ---------- reading: what #[derive(Deserialize)] generates ---------- *)

(* what was found for one field *)
Inductive field := Here (w : wire) | NotNamed | NotReached.

Fixpoint occurrences (name : string) (l : list (string * wire)) : list wire :=
  match l with
  | [] => []
  | (n, w) :: r => if String.eqb n name then w :: occurrences name r else occurrences name r
  end.
(* visit_map: unknown fields are skipped, a field given twice is an error; visit_seq: by position *)
Definition from_map (l : list (string * wire)) (name : string) : option field :=
  match occurrences name l with
  | [] => Some NotNamed
  | [w] => Some (Here w)
  | _ => None
  end.
Fixpoint by_position (f : format) (names : list string) (l : list wire) : option (list field) :=
  match names, l with
  | [], [] => Some []
  | [], _ :: _ => if spare f then Some [] else None
  | _ :: ns, w :: r => option_map (cons (Here w)) (by_position f ns r)
  | _ :: ns, [] => if counted f then option_map (cons NotReached) (by_position f ns []) else None
  end.
Definition fields (f : format) (names : list string) (w : wire) : option (list field) :=
  match w with
  | WMap l => all (from_map l) names
  | WSeq l => by_position f names l
  | _ => None
  end.

(* a field without attributes; Option fields may be left out of a map; #[serde(default)] *)
Definition req {A} (c : codec A) (f : format) (x : field) : option A :=
  match x with Here w => de c f w | _ => None end.
Definition opt {A} (c : codec A) (f : format) (x : field) : option (option A) :=
  match x with Here w => de (c_option c) f w | NotNamed => Some None | NotReached => None end.
Definition defaulted {A} (d : A) (c : codec A) (f : format) (x : field) : option A :=
  match x with Here w => de c f w | _ => Some d end.

Definition bind {A B} (o : option A) (g : A -> option B) : option B :=
  match o with Some x => g x | None => None end.
Notation "x <- e ; k" := (bind e (fun x => k)) (at level 60, e at level 55, right associativity).

(* the variant a tag selects *)
Fixpoint position (name : string) (tags : list string) : option nat :=
  match tags with
  | [] => None
  | t :: r => if String.eqb t name then Some O else option_map S (position name r)
  end.
Definition which (tags : list string) (t : tag) : option nat :=
  match t with
  | ByName s => position s tags
  | ByIndex n => if (n <? length tags)%nat then Some n else None
  end.

(* ---------- hand-written impls ---------- *)

(* document/id.rs:268-275 Serialize, 277-300 Deserialize: deserialize_byte_buf with a visitor
   that has visit_bytes only: no length check, and a list of numbers is refused *)
Definition c_document_id : codec bytes :=
  mk_codec NBytes (fun _ w => match w with WBytes b => match visit_bytes b with Done x => Some x | _ => None end | _ => None end).

(* a form that is its content's: key/varint.rs:84-104 VarInt<T>; key/time.rs:359-381
   LimitedResolutionDuration and 917-940 LimitedResolutionTimestamp over the resolution's integer;
   vault.rs:481-496 EncryptionKey over [u8; 32]; serde(transparent): names.rs:153-155 Authority,
   269-271 SchemaName, 308-310 CollectionName *)
Definition c_same {A B} (wrap : A -> B) (unwrap : B -> A) (c : codec A) : codec B :=
  mk_codec (fun x => ser c (unwrap x)) (fun f w => option_map wrap (de c f w)).

(* names.rs:10-16 Name: #[serde(try_from = "String", into = "String")]; 84-94 *)
Definition c_name : codec name :=
  mk_codec (fun n => ser c_string (nm_text n)) (fun f w => option_map name_of (de c_string f w)).

(* arc_bytes::serde::Bytes is external: it is written as bytes, and read from bytes; whether it
   is also read from a list of numbers is the parameter [lists] *)
Definition c_bytes (lists : bool) : codec bytes :=
  mk_codec NBytes (fun f w => match w with
                              | WBytes b => Some b
                              | WSeq l => if lists then all (de u8 f) l else None
                              | _ => None
                              end).

(* ---------- documents ---------- *)

(* document/revision.rs:7-15 *)
Definition c_revision : codec revision :=
  mk_codec (fun r => NStruct [("id", ser u32 (r_id r)); ("sha256", ser (c_array 32 u8) (r_sha r))])
    (fun f w => match fields f ["id"; "sha256"] w with
                | Some [a; b] => i <- req u32 f a; s <- req (c_array 32 u8) f b; Some (mk_rev i s)
                | _ => None
                end).
(* document/header.rs:11-20 *)
Definition c_header : codec header :=
  mk_codec (fun h => NStruct [("id", ser c_document_id (h_id h)); ("revision", ser c_revision (h_rev h))])
    (fun f w => match fields f ["id"; "revision"] w with
                | Some [a; b] => i <- req c_document_id f a; r <- req c_revision f b; Some (mk_header i r)
                | _ => None
                end).
(* document.rs:43-61 OwnedDocument and BorrowedDocument *)
Definition c_document (lists : bool) : codec doc :=
  mk_codec (fun d => NStruct [("header", ser c_header (d_header d)); ("contents", ser (c_bytes lists) (d_contents d))])
    (fun f w => match fields f ["header"; "contents"] w with
                | Some [a; b] => h <- req c_header f a; c <- req (c_bytes lists) f b; Some (mk_doc h c)
                | _ => None
                end).
(* document/header.rs:87-94 CollectionHeader<PrimaryKey> *)
Record cheader (A : Type) := mk_ch { ch_id : A; ch_rev : revision }.
Arguments mk_ch {A} ch_id ch_rev. Arguments ch_id {A}. Arguments ch_rev {A}.
Definition c_cheader {A} (k : codec A) : codec (cheader A) :=
  mk_codec (fun h => NStruct [("id", ser k (ch_id h)); ("revision", ser c_revision (ch_rev h))])
    (fun f w => match fields f ["id"; "revision"] w with
                | Some [a; b] => i <- req k f a; r <- req c_revision f b; Some (mk_ch i r)
                | _ => None
                end).
(* document/collection.rs:316-424: visit_map 362-392 (a later occurrence replaces an earlier
   one, an unknown field is an error), visit_seq 394-407 *)
Record cdoc (A B : Type) := mk_cd { cd_header : cheader A; cd_contents : B }.
Arguments mk_cd {A B} cd_header cd_contents. Arguments cd_header {A B}. Arguments cd_contents {A B}.
Fixpoint visit_map {H C} (rh : wire -> option H) (rc : wire -> option C) (l : list (string * wire))
    (h : option H) (c : option C) : option (H * C) :=
  match l with
  | [] => match h, c with Some h, Some c => Some (h, c) | _, _ => None end
  | (k, w) :: r =>
      if String.eqb k "header" then match rh w with Some x => visit_map rh rc r (Some x) c | None => None end
      else if String.eqb k "contents" then match rc w with Some x => visit_map rh rc r h (Some x) | None => None end
      else None
  end.
Definition c_cdoc {A B} (k : codec A) (c : codec B) : codec (cdoc A B) :=
  mk_codec (fun d => NStruct [("header", ser (c_cheader k) (cd_header d)); ("contents", ser c (cd_contents d))])
    (fun f w =>
       match w with
       | WMap l => option_map (fun p => mk_cd (fst p) (snd p)) (visit_map (de (c_cheader k) f) (de c f) l None None)
       | WSeq (a :: b :: r) =>
           if match r with [] => true | _ => spare f end
           then h <- de (c_cheader k) f a; x <- de c f b; Some (mk_cd h x) else None
       | _ => None
       end).

(* names.rs:194-200 QualifiedName; 341-348 ViewName *)
Definition c_qname : codec qname :=
  mk_codec (fun q => NStruct [("authority", ser c_name (q_auth q)); ("name", ser c_name (q_name q))])
    (fun f w => match fields f ["authority"; "name"] w with
                | Some [a; b] => x <- req c_name f a; y <- req c_name f b; Some (mk_qname x y)
                | _ => None
                end).
Definition c_vname : codec vname :=
  mk_codec (fun q => NStruct [("collection", ser c_qname (v_coll q)); ("name", ser c_name (v_name q))])
    (fun f w => match fields f ["collection"; "name"] w with
                | Some [a; b] => x <- req c_qname f a; y <- req c_name f b; Some (mk_vname x y)
                | _ => None
                end).

(* ---------- transactions ---------- *)

(* transaction.rs:328-379 Command *)
Definition command_tags : list string := ["Insert"; "Update"; "Overwrite"; "Delete"; "Check"].
Definition c_command (lists : bool) : codec Docs.command :=
  mk_codec (fun c => match c with
      | Insert id b => NVariant command_tags 0 (NStruct [("id", ser (c_option c_document_id) id); ("contents", ser (c_bytes lists) b)])
      | Update h b => NVariant command_tags 1 (NStruct [("header", ser c_header h); ("contents", ser (c_bytes lists) b)])
      | Overwrite id b => NVariant command_tags 2 (NStruct [("id", ser c_document_id id); ("contents", ser (c_bytes lists) b)])
      | Delete h => NVariant command_tags 3 (NStruct [("header", ser c_header h)])
      | Check id r => NVariant command_tags 4 (NStruct [("id", ser c_document_id id); ("revision", ser (c_option c_revision) r)])
      end)
    (fun f w => match w with
      | WVariant t p =>
          i <- which command_tags t;
          match i with
          | 0%nat => match fields f ["id"; "contents"] p with
                 | Some [a; b] => x <- opt c_document_id f a; y <- req (c_bytes lists) f b; Some (Insert x y) | _ => None end
          | 1%nat => match fields f ["header"; "contents"] p with
                 | Some [a; b] => x <- req c_header f a; y <- req (c_bytes lists) f b; Some (Update x y) | _ => None end
          | 2%nat => match fields f ["id"; "contents"] p with
                 | Some [a; b] => x <- req c_document_id f a; y <- req (c_bytes lists) f b; Some (Overwrite x y) | _ => None end
          | 3%nat => match fields f ["header"] p with
                 | Some [a] => x <- req c_header f a; Some (Delete x) | _ => None end
          | _ => match fields f ["id"; "revision"] p with
                 | Some [a; b] => x <- req c_document_id f a; y <- opt c_revision f b; Some (Check x y) | _ => None end
          end
      | _ => None
      end).
(* transaction.rs:152-160 Operation, 64-69 Transaction *)
Definition c_operation (lists : bool) : codec (qname * Docs.command) :=
  mk_codec (fun o => NStruct [("collection", ser c_qname (fst o)); ("command", ser (c_command lists) (snd o))])
    (fun f w => match fields f ["collection"; "command"] w with
                | Some [a; b] => x <- req c_qname f a; y <- req (c_command lists) f b; Some (x, y)
                | _ => None
                end).
Definition c_transaction (lists : bool) : codec (list (qname * Docs.command)) :=
  mk_codec (fun l => NStruct [("operations", ser (c_vec (c_operation lists)) l)])
    (fun f w => match fields f ["operations"] w with
                | Some [a] => req (c_vec (c_operation lists)) f a
                | _ => None
                end).
(* transaction.rs:384-406 OperationResult *)
Inductive op_result := Success | DocumentUpdated (c : qname) (h : header) | DocumentDeleted (c : qname) (id : bytes).
Definition op_result_tags : list string := ["Success"; "DocumentUpdated"; "DocumentDeleted"].
Definition c_op_result : codec op_result :=
  mk_codec (fun o => match o with
      | Success => NVariant op_result_tags 0 NUnit
      | DocumentUpdated c h => NVariant op_result_tags 1 (NStruct [("collection", ser c_qname c); ("header", ser c_header h)])
      | DocumentDeleted c i => NVariant op_result_tags 2 (NStruct [("collection", ser c_qname c); ("id", ser c_document_id i)])
      end)
    (fun f w => match w with
      | WVariant t p =>
          i <- which op_result_tags t;
          match i with
          | 0%nat => _ <- de c_unit f p; Some Success
          | 1%nat => match fields f ["collection"; "header"] p with
                 | Some [a; b] => x <- req c_qname f a; y <- req c_header f b; Some (DocumentUpdated x y) | _ => None end
          | _ => match fields f ["collection"; "id"] p with
                 | Some [a; b] => x <- req c_qname f a; y <- req c_document_id f b; Some (DocumentDeleted x y) | _ => None end
          end
      | _ => None
      end).
(* transaction.rs:619-643 ChangedDocument and ChangedKey, 452-459 DocumentChanges, 419-425 Changes,
   409-416 Executed *)
Record changed_doc := mk_cdc { cc_coll : N; cc_id : bytes; cc_deleted : bool }.
Record changed_key := mk_ck { ck_ns : option bytes; ck_key : bytes; ck_deleted : bool }.
Inductive changes := Documents (colls : list qname) (docs : list changed_doc) | Keys (l : list changed_key).
Record executed := mk_executed { x_id : N; x_changes : changes }.
Definition c_changed_doc : codec changed_doc :=
  mk_codec (fun d => NStruct [("collection", ser u16 (cc_coll d)); ("id", ser c_document_id (cc_id d)); ("deleted", ser c_bool (cc_deleted d))])
    (fun f w => match fields f ["collection"; "id"; "deleted"] w with
                | Some [a; b; c] => x <- req u16 f a; y <- req c_document_id f b; z <- req c_bool f c; Some (mk_cdc x y z)
                | _ => None
                end).
Definition c_changed_key : codec changed_key :=
  mk_codec (fun d => NStruct [("namespace", ser (c_option c_string) (ck_ns d)); ("key", ser c_string (ck_key d)); ("deleted", ser c_bool (ck_deleted d))])
    (fun f w => match fields f ["namespace"; "key"; "deleted"] w with
                | Some [a; b; c] => x <- opt c_string f a; y <- req c_string f b; z <- req c_bool f c; Some (mk_ck x y z)
                | _ => None
                end).
Definition changes_tags : list string := ["Documents"; "Keys"].
Definition c_changes : codec changes :=
  mk_codec (fun c => match c with
      | Documents cs ds => NVariant changes_tags 0 (NStruct [("collections", ser (c_vec c_qname) cs); ("documents", ser (c_vec c_changed_doc) ds)])
      | Keys l => NVariant changes_tags 1 (ser (c_vec c_changed_key) l)
      end)
    (fun f w => match w with
      | WVariant t p =>
          i <- which changes_tags t;
          match i with
          | 0%nat => match fields f ["collections"; "documents"] p with
                 | Some [a; b] => x <- req (c_vec c_qname) f a; y <- req (c_vec c_changed_doc) f b; Some (Documents x y) | _ => None end
          | _ => l <- de (c_vec c_changed_key) f p; Some (Keys l)
          end
      | _ => None
      end).
Definition c_executed : codec executed :=
  mk_codec (fun x => NStruct [("id", ser u64 (x_id x)); ("changes", ser c_changes (x_changes x))])
    (fun f w => match fields f ["id"; "changes"] w with
                | Some [a; b] => x <- req u64 f a; y <- req c_changes f b; Some (mk_executed x y)
                | _ => None
                end).

(* ---------- the key-value store ---------- *)

(* keyvalue/timestamp.rs:10-17 *)
Definition c_stamp : codec ts :=
  mk_codec (fun t => NStruct [("seconds", ser u64 (t_sec t)); ("nanos", ser u32 (t_nano t))])
    (fun f w => match fields f ["seconds"; "nanos"] w with
                | Some [a; b] => x <- req u64 f a; y <- req u32 f b; Some (Ts x y)
                | _ => None
                end).
(* keyvalue.rs:521-529 Numeric, 436-442 Value *)
Definition numeric_tags : list string := ["Integer"; "UnsignedInteger"; "Float"].
Definition i64 : codec Z := c_int (- 2 ^ 63) (2 ^ 63).
Definition zu64 : codec Z := c_int 0 (2 ^ 64).
Definition c_numeric : codec numeric :=
  mk_codec (fun n => match n with
      | NInt z => NVariant numeric_tags 0 (ser i64 z)
      | NUInt z => NVariant numeric_tags 1 (ser zu64 z)
      | Kv.NFloat x => NVariant numeric_tags 2 (ser c_float x)
      end)
    (fun f w => match w with
      | WVariant t p =>
          i <- which numeric_tags t;
          match i with
          | 0%nat => option_map NInt (de i64 f p)
          | 1%nat => option_map NUInt (de zu64 f p)
          | _ => option_map Kv.NFloat (de c_float f p)
          end
      | _ => None
      end).
Definition value_tags : list string := ["Bytes"; "Numeric"].
Definition c_value (lists : bool) : codec value :=
  mk_codec (fun v => match v with
      | VBytes b => NVariant value_tags 0 (ser (c_bytes lists) b)
      | VNum n => NVariant value_tags 1 (ser c_numeric n)
      end)
    (fun f w => match w with
      | WVariant t p =>
          i <- which value_tags t;
          match i with
          | 0%nat => option_map VBytes (de (c_bytes lists) f p)
          | _ => option_map VNum (de c_numeric f p)
          end
      | _ => None
      end).
(* keyvalue.rs:365-370 KeyCheck, 419-433 SetCommand, 383-416 Command, 372-380 KeyOperation *)
Definition check_tags : list string := ["OnlyIfPresent"; "OnlyIfVacant"].
Definition c_check : codec kcheck :=
  mk_codec (fun c => NVariant check_tags (match c with OnlyIfPresent => 0 | OnlyIfVacant => 1 end) NUnit)
    (fun f w => match w with
      | WVariant t p =>
          i <- which check_tags t; _ <- de c_unit f p;
          Some (match i with 0%nat => OnlyIfPresent | _ => OnlyIfVacant end)
      | _ => None
      end).
Record koperation := mk_kop { ko_namespace : option bytes; ko_key : bytes; ko_command : Kv.command }.
Definition c_kset (lists : bool) : codec set_cmd :=
  mk_codec (fun c => NStruct [("value", ser (c_value lists) (s_val c)); ("expiration", ser (c_option c_stamp) (s_exp c));
                              ("keep_existing_expiration", ser c_bool (s_keep c)); ("check", ser (c_option c_check) (s_check c));
                              ("return_previous_value", ser c_bool (s_ret c))])
    (fun f w => match fields f ["value"; "expiration"; "keep_existing_expiration"; "check"; "return_previous_value"] w with
                | Some [a; b; c; d; e] =>
                    v <- req (c_value lists) f a; x <- opt c_stamp f b; k <- req c_bool f c; h <- opt c_check f d;
                    r <- req c_bool f e; Some (SetCmd v x k h r)
                | _ => None
                end).
Definition kcommand_tags : list string := ["Set"; "Get"; "Increment"; "Decrement"; "Delete"].
Definition c_kcommand (lists : bool) : codec Kv.command :=
  mk_codec (fun c => match c with
      | CSet x => NVariant kcommand_tags 0 (ser (c_kset lists) x)
      | CGet d => NVariant kcommand_tags 1 (NStruct [("delete", ser c_bool d)])
      | CIncr n s => NVariant kcommand_tags 2 (NStruct [("amount", ser c_numeric n); ("saturating", ser c_bool s)])
      | CDecr n s => NVariant kcommand_tags 3 (NStruct [("amount", ser c_numeric n); ("saturating", ser c_bool s)])
      | CDelete => NVariant kcommand_tags 4 NUnit
      end)
    (fun f w => match w with
      | WVariant t p =>
          i <- which kcommand_tags t;
          match i with
          | 0%nat => option_map CSet (de (c_kset lists) f p)
          | 1%nat => match fields f ["delete"] p with Some [a] => option_map CGet (req c_bool f a) | _ => None end
          | 2%nat => match fields f ["amount"; "saturating"] p with
                 | Some [a; b] => x <- req c_numeric f a; y <- req c_bool f b; Some (CIncr x y) | _ => None end
          | 3%nat => match fields f ["amount"; "saturating"] p with
                 | Some [a; b] => x <- req c_numeric f a; y <- req c_bool f b; Some (CDecr x y) | _ => None end
          | _ => _ <- de c_unit f p; Some CDelete
          end
      | _ => None
      end).
Definition c_koperation (lists : bool) : codec koperation :=
  mk_codec (fun o => NStruct [("namespace", ser (c_option c_string) (ko_namespace o)); ("key", ser c_string (ko_key o));
                              ("command", ser (c_kcommand lists) (ko_command o))])
    (fun f w => match fields f ["namespace"; "key"; "command"] w with
                | Some [a; b; c] => x <- opt c_string f a; y <- req c_string f b; z <- req (c_kcommand lists) f c; Some (mk_kop x y z)
                | _ => None
                end).

(* ---------- records with #[serde(default)] ---------- *)

(* bonsaidb-local/src/database/keyvalue.rs:28-34 Entry: last_updated may be missing *)
Definition default_stamp : ts := Ts 0 0.
Definition c_kentry (lists : bool) : codec entry :=
  mk_codec (fun e => NStruct [("value", ser (c_value lists) (e_val e)); ("expiration", ser (c_option c_stamp) (e_exp e));
                              ("last_updated", ser c_stamp (e_upd e))])
    (fun f w => match fields f ["value"; "expiration"; "last_updated"] w with
                | Some [a; b; c] => v <- req (c_value lists) f a; x <- opt c_stamp f b; u <- defaulted default_stamp c_stamp f c; Some (Entry v x u)
                | _ => None
                end).
(* the form an entry had before `last_updated` was added *)
Definition old_kentry (lists : bool) (v : value) (x : option ts) : node :=
  NStruct [("value", ser (c_value lists) v); ("expiration", ser (c_option c_stamp) x)].
(* admin/user.rs:14-32 User: argon_hash may be missing *)
Record user := mk_user { us_name : bytes; us_groups : list N; us_roles : list N; us_hash : option bytes }.
Definition c_user : codec user :=
  mk_codec (fun u => NStruct [("username", ser c_string (us_name u)); ("groups", ser (c_vec u64) (us_groups u));
                              ("roles", ser (c_vec u64) (us_roles u)); ("argon_hash", ser (c_option c_string) (us_hash u))])
    (fun f w => match fields f ["username"; "groups"; "roles"; "argon_hash"] w with
                | Some [a; b; c; d] =>
                    n <- req c_string f a; g <- req (c_vec u64) f b; r <- req (c_vec u64) f c;
                    h <- defaulted None (c_option c_string) f d; Some (mk_user n g r h)
                | _ => None
                end).
Definition old_user (n : bytes) (g r : list N) : node :=
  NStruct [("username", ser c_string n); ("groups", ser (c_vec u64) g); ("roles", ser (c_vec u64) r)].

(* ---------- documents of earlier versions ---------- *)

(* database.rs:957-984: LegacyDocument (a u64 id; contents as bytes) and deserialize_document.
   [pot_bytes], [from_pot], [from_bincode]: the byte level of the two external formats *)
Definition c_legacy_document : codec (N * revision * bytes) :=
  mk_codec (fun d => NStruct [("header", NStruct [("id", ser u64 (fst (fst d))); ("revision", ser c_revision (snd (fst d)))]);
                              ("contents", NBytes (snd d))])
    (fun f w => match fields f ["header"; "contents"] w with
                | Some [a; b] =>
                    match a with
                    | Here ha => match fields f ["id"; "revision"] ha with
                                 | Some [i; r] => x <- req u64 f i; y <- req c_revision f r;
                                     z <- (match b with Here (WBytes c) => Some c | _ => None end); Some (x, y, z)
                                 | _ => None
                                 end
                    | _ => None
                    end
                | _ => None
                end).
Definition deserialize_document (from_pot from_bincode : bytes -> option wire) (b : bytes) : option doc :=
  match bind (from_pot b) (de (c_document false) pot) with
  | Some d => Some d
  | None => match bind (from_bincode b) (de c_legacy_document bincode) with
            | Some (i, r, c) => Some (mk_doc (mk_header (be 8 i) r) c)
            | None => None
            end
  end.
(* database.rs:986-990 serialize_document *)
Definition serialize_document (pot_bytes : wire -> bytes) (d : doc) : bytes :=
  pot_bytes (write pot (ser (c_document false) d)).

(* ---------- stored key-value entries ---------- *)

(* The key-value tree: full keys with what bincode finds in the stored bytes.
   keyvalue.rs:583-592 retrieve_key_from_disk: an entry that cannot be read counts as absent *)
Definition retrieve_key (lists : bool) (store : list (bytes * wire)) (key : bytes) : option entry :=
  match find (fun p => bytes_eqb (fst p) key) store with
  | Some (_, w) => de (c_kentry lists) bincode w
  | None => None
  end.
(* keyvalue.rs:70-98 the scan of all_key_value_entries (used by backup): the first entry that cannot be
   read ends it with an error; a key without a NUL is passed over.  That keys are valid UTF-8
   is not modelled *)
Fixpoint scan_entries (lists : bool) (store : list (bytes * wire)) : option (list ((option bytes * bytes) * entry)) :=
  match store with
  | [] => Some []
  | (k, w) :: r =>
      match de (c_kentry lists) bincode w with
      | Some e => option_map (fun l => match split_key k with Some n => (n, e) :: l | None => l end) (scan_entries lists r)
      | None => None
      end
  end.

(* views/integrity_scanner.rs:133-172 ViewVersion: (internal_version : u8, schema_version : u64).
   [from_pot] distinguishes "not a pot" (None) from the tree found; a pot error other than NotAPot is
   a tree that is not a ViewVersion *)
Definition c_view_version : codec (N * N) :=
  mk_codec (fun v => NStruct [("internal_version", ser u8 (fst v)); ("schema_version", ser u64 (snd v))])
    (fun f w => match fields f ["internal_version"; "schema_version"] w with
                | Some [a; b] => x <- req u8 f a; y <- req u64 f b; Some (x, y)
                | _ => None
                end).
Definition current_internal_version : N := 3.
Definition view_version_from_bytes (from_pot : bytes -> option wire) (b : bytes) : option (N * N) :=
  match from_pot b with
  | Some w => de c_view_version pot w
  | None => if (length b =? 8)%nat then Some (0%N, of_be b) else None
  end.
Definition view_version_to_vec (pot_bytes : wire -> bytes) (v : N * N) : bytes := pot_bytes (write pot (ser c_view_version v)).
Definition current_for (schema : N) : N * N := (current_internal_version, schema).
Definition version_is_current (v : N * N) (schema : N) : bool := ((fst v =? current_internal_version) && (snd v =? schema))%N.
