(* What #[derive(Collection)], #[derive(View)], #[derive(ViewSchema)] and #[derive(Schema)]
   generate from their attributes (crates/bonsaidb-macros/src/lib.rs:65-331, view.rs), what
   registering a derived schema does (its collections, then the schemas it includes), and which
   at-rest settings a build with or without the encryption and compression features gives to a
   collection's trees. Types, expressions and field values are numbers; names are those of
   Names.v; registration is Schematic.v. The qualified path of the core crate, generics and
   where clauses are not modelled. *)
From Verif Require Import Base Names Schematic Vault.
Local Open Scope nat_scope.

(* the types the macros name themselves *)
Definition ty_u64 : N := 0%N.
Definition ty_unit : N := 1%N.
Definition s_private : bytes := [112;114;105;118;97;116;101]%N. (* "private" *)

(* one field: its type and how many #[natural_id] attributes it carries *)
Record field := Field { f_ty : N; f_natural : nat }.
(* syn::Data: a struct's fields, or the variants of an enum (and a union's fields) *)
Inductive data := Struct (fs : list field) | Variants (vs : list (list field)).
(* serialization = None, Key or another path *)
Inductive path := PNone | PKey | POther (ty : N).
(* CollectionAttribute, lib.rs:65-86. a_key is the expression's value, an Option<KeyId>;
   a_natural an expression on self *)
Record coll_attr := CollAttr {
  a_auth : option bytes; a_name : bytes; a_views : list N; a_serial : option path;
  a_key : option (option N); a_required : bool; a_optional : bool; a_pk : option N; a_natural : option N }.

(* what the generated code says *)
Inductive natural := OfField (i : nat) | OfExpr (e : N).
Inductive keyexpr := NoKey | Always (k : option N) | IfEnabled (k : option N).
Inductive serial := ByHand | Formatted (p : path) (n : option natural) | DefaultFormat (n : option natural).
Record coll_impl := CollImpl { i_name : qname; i_pk : N; i_views : list N; i_key : keyexpr; i_serial : serial }.
Inductive derr := TwoNaturalFields | FieldAndExpression | KeyMissing | NaturalByHand.

(* lib.rs:115-149: the loop over a struct's fields. prev = the previous field was seen *)
Fixpoint field_loop (i : nat) (fs : list field) (prev : bool) (nat_id : option natural) (pk : option N) : outcome (option natural * option N) derr :=
  match fs with
  | [] => Done (nat_id, pk)
  | f :: r =>
      if (0 <? f_natural f)%nat
      then if prev then Fail TwoNaturalFields
           else match nat_id with
                | Some _ => Fail FieldAndExpression
                | None => field_loop (S i) r true (Some (OfField i)) (match pk with Some p => Some p | None => Some (f_ty f) end)
                end
      else field_loop (S i) r prev nat_id pk
  end.
(* the qualified name, lib.rs:208-211, 309-312 *)
Definition qualified (auth : option bytes) (n : bytes) : qname :=
  match auth with None => mk_qname (name_of s_private) (name_of n) | Some a => mk_qname (name_of a) (name_of n) end.
(* collection_derive, lib.rs:90-248 *)
Definition derive_collection (a : coll_attr) (d : data) : outcome coll_impl derr :=
  match (match d with
         | Struct fs => field_loop 0 fs false (match a_natural a with Some e => Some (OfExpr e) | None => None end) (a_pk a)
         | Variants _ => Done (match a_natural a with Some e => Some (OfExpr e) | None => None end, a_pk a)
         end) with
  | Done (nat_id, pk) =>
      if a_required a && match a_key a with None => true | Some _ => false end then Fail KeyMissing
      else
        let key := match a_key a with
                   | None => NoKey
                   | Some k => if a_required a || negb (a_optional a) then Always k else IfEnabled k
                   end in
        let impl ser := Done (CollImpl (qualified (a_auth a) (a_name a)) (match pk with Some p => p | None => ty_u64 end) (a_views a) key ser) in
        match a_serial a with
        | Some PNone => match nat_id with Some _ => Fail NaturalByHand | None => impl ByHand end
        | Some p => impl (Formatted p nat_id)
        | None => impl (DefaultFormat nat_id)
        end
  | Fail e => Fail e
  | Panic => Panic
  end.
(* the generated functions. ENCRYPTION_ENABLED, core lib.rs:282-288 *)
Definition key_of (enabled : bool) (i : coll_impl) : option N :=
  match i_key i with NoKey => None | Always k => k | IfEnabled k => if enabled then k else None end.
(* natural_id(&self): self is its fields' values, [expr] the value of an expression on it *)
Definition natural_id (expr : N -> list N -> option N) (i : coll_impl) (self : list N) : option N :=
  match i_serial i with
  | ByHand | Formatted _ None | DefaultFormat None => None
  | Formatted _ (Some (OfField k)) | DefaultFormat (Some (OfField k)) => nth_error self k
  | Formatted _ (Some (OfExpr e)) | DefaultFormat (Some (OfExpr e)) => expr e self
  end.

(* ViewAttribute and ViewSchemaAttribute, view.rs:11-26, 89-102; w_ident is the type's name *)
Record view_attr := ViewAttr { w_ident : bytes; w_coll : N; w_key : N; w_name : option bytes; w_value : option N }.
Record vschema_attr := VSchemaAttr { x_view : option N; x_mapped : option N; x_version : option N; x_policy : option policy }.
Record view_impl := ViewImpl { o_coll : N; o_key : N; o_value : N; o_name : name }.
Record vschema_impl := VSchemaImpl { u_view : N; u_mapped : N; u_version : N; u_policy : policy }.
(* view.rs:28-86 *)
Definition derive_view (a : view_attr) : view_impl :=
  ViewImpl (w_coll a) (w_key a) (match w_value a with Some v => v | None => ty_unit end)
    (name_of (match w_name a with Some n => n | None => w_ident a end)).
(* view.rs:104-152 for the type numbered self, whose View::Key is key; without the attribute the
   trait's defaults apply: core schema/view.rs:189-198, 203-208 *)
Definition derive_vschema (self key : N) (a : vschema_attr) : vschema_impl :=
  VSchemaImpl (match x_view a with Some v => v | None => self end) (match x_mapped a with Some k => k | None => key end)
    (match x_version a with Some v => v | None => 0%N end) (match x_policy a with Some p => p | None => Lazy end).

(* SchemaAttribute, lib.rs:270-282 *)
Record schema_attr := SchemaAttr { h_name : bytes; h_auth : option bytes; h_colls : list N; h_include : list N }.
(* a program: its derived types by number; code n and vcode c n number the collection and view
   names for Schematic.v *)
Record program := Program {
  p_coll : N -> option (coll_attr * data); p_view : N -> option (view_attr * vschema_attr);
  p_schema : N -> option schema_attr; code : qname -> N; vcode : qname -> name -> N; p_enabled : bool }.

(* rustc's check of the generated natural_id, whose result is Option<Self::PrimaryKey>: a field
   must be of that type (expressions are not typed here) *)
Definition natural_typed (d : data) (i : coll_impl) : bool :=
  match i_serial i with
  | Formatted _ (Some (OfField k)) | DefaultFormat (Some (OfField k)) =>
      match d with
      | Struct fs => match nth_error fs k with Some f => (f_ty f =? i_pk i)%N | None => false end
      | Variants _ => false
      end
  | _ => true
  end.
(* the collection type t, if it compiles *)
Definition collection_of (P : program) (t : N) : option coll_impl :=
  match p_coll P t with
  | Some (a, d) => match derive_collection a d with Done i => if natural_typed d i then Some i else None | _ => None end
  | None => None
  end.
(* schematic.rs:72-110 applied to the unit struct t: define_view requires ViewSchema<View = t>;
   the view's name is that of its own collection and its own name (view.rs, View::view_name) *)
Definition view_of (P : program) (t : N) : option view_inst :=
  match p_view P t with
  | Some (wa, xa) =>
      let v := derive_view wa in
      let x := derive_vschema t (o_key v) xa in
      if (u_view x =? t)%N
      then match collection_of P (o_coll v) with
           | Some c => Some (View t (vcode P (i_name c) (o_name v)) (code P (i_name c)) (o_key v) (u_policy x) (u_version x) t)
           | None => None
           end
      else None
  | None => None
  end.
Fixpoint all_some {A B} (f : A -> option B) (l : list A) : option (list B) :=
  match l with
  | [] => Some []
  | a :: r => match f a, all_some f r with Some b, Some bs => Some (b :: bs) | _, _ => None end
  end.
(* schema.define_collection::<t>()? with the generated define_views, lib.rs:238-243, 318 *)
Definition define_act (P : program) (t : N) : option act :=
  match collection_of P t with
  | Some i => match all_some (view_of P) (i_views i) with
              | Some vs => Some (DefCollection (CollInfo t (code P (i_name i)) (i_pk i) (key_of (p_enabled P) i)) (map (fun v => DefView v false) vs) false)
              | None => None
              end
  | None => None
  end.

(* <t as Schema>::define_collections(schema). Calls nest: [depth] is how deep they may, Running
   means that they nest deeper than that, Uncompiled that a type mentioned does not compile. *)
Inductive ret := Returned (s : schematic) (e : option serr) | Running | Uncompiled.
Fixpoint includes (call : N -> schematic -> ret) (l : list N) (s : schematic) : ret :=
  match l with
  | [] => Returned s None
  | t :: r => match call t s with
              | Returned s' None => includes call r s'
              | other => other
              end
  end.
(* schema_derive, lib.rs:289-330; a collection used as a schema registers itself, core
   schema.rs:98-110; the schema () registers nothing, schema.rs:85-93 *)
Fixpoint define_collections (P : program) (depth : nat) (t : N) (s : schematic) : ret :=
  match depth with
  | O => Running
  | S d =>
      match p_schema P t with
      | Some a =>
          match all_some (define_act P) (h_colls a) with
          | Some acts =>
              match run_acts acts s with
              | (s', None) => includes (define_collections P d) (h_include a) s'
              | (s', Some e) => Returned s' (Some e)
              end
          | None => Uncompiled
          end
      | None =>
          if (t =? ty_unit)%N then Returned s None
          else match define_act P t with
               | Some x => let '(s', e) := run_act x s in Returned s' e
               | None => Uncompiled
               end
      end
  end.
Definition schema_name (P : program) (t : N) : option qname :=
  match p_schema P t with
  | Some a => Some (qualified (h_auth a) (h_name a))
  | None => if (t =? ty_unit)%N then Some (mk_qname (name_of []) (name_of [])) else match collection_of P t with Some i => Some (i_name i) | None => None end
  end.

(* ---------- the file and api macros ---------- *)
Definition s_bonsaidb_ : bytes := [98;111;110;115;97;105;100;98]%N. (* "bonsaidb" *)
Definition s_files : bytes := [102;105;108;101;115]%N. (* "files" *)
Definition s_blocks : bytes := [98;108;111;99;107;115]%N. (* "blocks" *)
(* FileConfigAttribute, macros lib.rs:945-961 *)
Record file_attr := FileAttr { g_meta : option N; g_block : option N; g_auth : option bytes; g_files : option bytes; g_blocks : option bytes }.
Record file_impl := FileImpl { j_meta : N; j_block : N; j_files : qname; j_blocks : qname }.
Inductive ferr := AuthorityAlone | FilesAlone | BlocksAlone.
(* file_config_derive, lib.rs:969-1039; [meta] is the type BonsaiFiles uses, its names and block
   size are those of bonsaidb-files/src/lib.rs:446-459 *)
Definition derive_file_config (meta : N) (a : file_attr) : outcome file_impl ferr :=
  match (match g_auth a, g_files a, g_blocks a with
         | None, None, None => Done (qualified (Some s_bonsaidb_) s_files, qualified (Some s_bonsaidb_) s_blocks)
         | Some u, Some f, Some b => Done (qualified (Some u) f, qualified (Some u) b)
         | None, Some f, Some b => Done (qualified None f, qualified None b)
         | Some _, _, _ => Fail AuthorityAlone
         | _, Some _, _ => Fail FilesAlone
         | _, _, Some _ => Fail BlocksAlone
         end) with
  | Done (f, b) => Done (FileImpl (match g_meta a with Some m => m | None => meta end) (match g_block a with Some n => n | None => 65536%N end) f b)
  | Fail e => Fail e
  | Panic => Panic
  end.
(* FileConfig::register_collections, bonsaidb-files/src/lib.rs:87-92, for the collection types
   tf and tb with key kinds kf and kb and their views vf and vb (schema/file.rs:365-384, schema/block.rs:259-276) *)
Definition register_files (cd : qname -> N) (tf tb kf kb : N) (vf vb : list act) (i : file_impl) : list act :=
  [DefCollection (CollInfo tf (cd (j_files i)) kf None) vf false; DefCollection (CollInfo tb (cd (j_blocks i)) kb None) vb false].
(* ApiAttribute and api_derive, lib.rs:859-919: name, response and error; [infallible] is the
   type of that name *)
Record api_attr := ApiAttr { k_name : bytes; k_auth : option bytes; k_response : option N; k_error : option N }.
Definition derive_api (infallible : N) (a : api_attr) : qname * N * N :=
  (qualified (k_auth a) (k_name a), match k_response a with Some t => t | None => ty_unit end, match k_error a with Some t => t | None => infallible end).

(* ---------- which settings a tree gets in which build ---------- *)
(* the cargo features of bonsaidb-local *)
Record build := Build { b_encryption : bool; b_compression : bool }.
(* what the configuration can hold in this build: storage.rs:254-257, 309-320 *)
Definition storage_of (b : build) (s : settings) : settings :=
  Settings (if b_encryption b then s_key s else None) (if b_compression b then s_comp s else None).
Inductive berr := EncryptionDisabled.
(* database.rs:835-839 *)
Definition effective_key (b : build) (s : settings) (own : option keyid) : option keyid :=
  match own with Some k => Some k | None => s_key (storage_of b s) end.
(* open_trees_for_transaction, database.rs:269-300: the settings of the trees a change opens.
   Both passages are compiled only with one of the two features. *)
Definition change_settings (b : build) (s : settings) (own : option keyid) : outcome (option settings) berr :=
  if b_encryption b || b_compression b
  then match effective_key b s own with
       | Some k => if b_encryption b
                   then match new_if_needed (storage_of b s) with
                        | Some v => Done (Some (Settings (Some k) (s_comp v)))
                        | None => Done (new_if_needed (Settings (Some k) None))
                        end
                   else Fail EncryptionDisabled
       | None => Done (new_if_needed (storage_of b s))
       end
  else Done None.
(* collection_tree, database.rs:851-897: of the trees everything else opens *)
Definition tree_settings (b : build) (s : settings) (own : option keyid) : outcome (option settings) berr :=
  if b_encryption b || b_compression b
  then match effective_key b s own, new_if_needed (storage_of b s) with
       | Some k, Some v => if b_encryption b then Done (Some (Settings (Some k) (s_comp v))) else Fail EncryptionDisabled
       | None, Some v => Done (Some v)
       | k, None => if b_encryption b then Done (new_if_needed (Settings k None))
                    else match k with Some _ => Fail EncryptionDisabled | None => Done None end
       end
  else Done None.
