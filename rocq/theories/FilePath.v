(* bonsaidb-files: paths. crates/bonsaidb-files/src/schema/file.rs, direct.rs,
   lib.rs (the blocking versions; the async ones are the same code with await
   points). The unique view ByPath is used through the contract of C28-C32: a
   query with a key or a range returns the documents whose key is equal or in the
   range, and a document whose key another document has is rejected. Only path
   and name of a file are modelled. The order of listings is not modelled (they
   are returned in the order of the ids instead of the keys). *)
From Verif Require Import Base Utf8 Key KeyPrefix Files.
Local Open Scope N_scope.

Definition slash : N := 47.
Definition str_eqb (a b : str) : bool := bytes_eqb a b.
Definition ends_with_slash (s : str) : bool := match rev s with c :: _ => c =? slash | [] => false end.
Definition starts_with_slash (s : str) : bool := match s with c :: _ => c =? slash | [] => false end.
Definition contains_slash (s : str) : bool := existsb (N.eqb slash) s.
(* str::rsplit_once('/') (core): at the last slash *)
Fixpoint rsplit_rev (l acc : str) : option (str * str) :=
  match l with [] => None | c :: r => if c =? slash then Some (rev r, acc) else rsplit_rev r (c :: acc) end.
Definition rsplit_once (s : str) : option (str * str) := rsplit_rev (rev s) [].

(* FileBuilder::new, direct.rs:610-637. rsplit_once(..).unwrap() cannot fail: the
   string starts with a slash. *)
Definition builder_new (s : str) : option str * str :=
  if starts_with_slash s then
    let s' := if ends_with_slash s && (1 <? length s)%nat then removelast s else s in
    match rsplit_once s' with
    | Some (p, n) => (match p with [] => None | [c] => if c =? slash then None else Some p | _ => Some p end, n)
    | None => (None, s')
    end
  else (None, s).
(* create_file, schema/file.rs:48-77: the path gets a trailing slash *)
Definition force_slash (p : str) : str := if ends_with_slash p then p else p ++ [slash].
Definition new_file (path : option str) (name : str) : file := File (option_map force_slash path) name.
(* ByPath::map, schema/file.rs:395-408 *)
Definition root : str := [slash].
Definition path_of (f : file) : str := match f_path f with Some p => p | None => root end.
Definition full_key (path name : str) : outcome bytes kerr := encode (TTup [TStr; TStr]) (VTup [VStr path; VStr name]).
Definition key_of (f : file) : outcome bytes kerr := full_key (path_of f) (f_name f).
Definition has_key (k : bytes) (f : file) : bool := match key_of f with Done k' => bytes_eqb k k' | _ => false end.

Definition fstate := list (N * file).
(* create_file, schema/file.rs:64-77 (push_into): the key must encode and must be new; the contents appended
   afterwards are modelled in Files.v *)
Definition insert_file (f : file) (st : fstate) : outcome (fstate * N) ferr :=
  match key_of f with
  | Done k =>
      if existsb (fun p => has_key k (snd p)) st then Fail AlreadyExists
      else match next_id u32_mod (last_id st) with Some id => Done (st ++ [(id, f)], id) | None => Fail IdOverflow end
  | _ => Fail InvalidKey
  end.
(* create_file, schema/file.rs:48-77 *)
Definition create_file (path : option str) (name : str) (st : fstate) : outcome (fstate * N) ferr :=
  if contains_slash name || match name with [] => true | _ => false end then Fail InvalidName
  else insert_file (new_file path name) st.
(* CollectionDocument::update through a handle (id, old): the stored document
   must still be the handle's (revision check), no other file has the key *)
Definition update_file (id : N) (old f : file) (st : fstate) : outcome fstate ferr :=
  match lookup id st with
  | None => Fail DocumentNotFound
  | Some cur =>
      if match f_path cur, f_path old with Some a, Some b => str_eqb a b | None, None => true | _, _ => false end && str_eqb (f_name cur) (f_name old) then
        match key_of f with
        | Done k =>
            if existsb (fun p => negb (fst p =? id) && has_key k (snd p)) st then Fail AlreadyExists
            else Done (map (fun p => if fst p =? id then (id, f) else p) st)
        | _ => Fail InvalidKey
        end
      else Fail DocumentConflict
  end.
(* update_document_for_move, direct.rs:568-598. rsplit_once(..).unwrap() panics
   without a slash; move_to checks for the leading one. *)
Definition moved (f : file) (new_path : str) : option file :=
  if ends_with_slash new_path then
    Some (File (if (1 <? length new_path)%nat then Some new_path else None) (f_name f))
  else
    match rsplit_once new_path with
    | Some (p, n) => Some (File (option_map force_slash (match p with [] => None | _ => Some p end)) n)
    | None => None
    end.
(* move_to, direct.rs:149-159; a handle is the id and the document as last seen *)
Definition move_to (id : N) (f : file) (new_path : str) (st : fstate) : outcome (fstate * file) ferr :=
  if starts_with_slash new_path then
    match moved f new_path with
    | Some f' => match update_file id f f' st with Done st' => Done (st', f') | Fail e => Fail e | Panic => Panic end
    | None => Panic
    end
  else Fail InvalidPath.
(* rename, direct.rs:161-172 *)
Definition rename (id : N) (f : file) (new_name : str) (st : fstate) : outcome (fstate * file) ferr :=
  if contains_slash new_name then Fail InvalidName
  else let f' := File (f_path f) new_name in
       match update_file id f f' st with Done st' => Done (st', f') | Fail e => Fail e | Panic => Panic end.
(* File::path, direct.rs:536-547 *)
Definition file_path (f : file) : str := force_slash (path_of f) ++ f_name f.

(* convert_mappings_to_documents, schema/file.rs:432-456: the path "/" comes back as None *)
Definition normalized (f : file) : file := File (if str_eqb (path_of f) root then None else Some (path_of f)) (f_name f).
(* find, schema/file.rs:112-145; path.split_at(separator + 1) keeps the slash. A key that does
   not encode is a database error. *)
Definition find_key (s : str) : str * str :=
  let s' := if ends_with_slash s then removelast s else s in
  match rsplit_once s' with Some (p, n) => (p ++ [slash], n) | None => (root, s') end.
Definition find_file (s : str) (st : fstate) : outcome (option (N * file)) ferr :=
  match s with
  | [] => Fail InvalidPath
  | _ =>
      match full_key (fst (find_key s)) (snd (find_key s)) with
      | Done k => Done (option_map (fun p => (fst p, normalized (snd p))) (List.find (fun p => has_key k (snd p)) st))
      | _ => Fail InvalidKey
      end
  end.
(* load_or_create, lib.rs:187-214 *)
Definition load_or_create (s : str) (expect_present : bool) (st : fstate) : outcome (fstate * N) ferr :=
  let create :=
    match create_file (fst (builder_new s)) (snd (builder_new s)) st with
    | Done r => Done r
    | Fail AlreadyExists =>
        match find_file s st with Done (Some (id, _)) => Done (st, id) | Done None => Fail Deleted | Fail e => Fail e | Panic => Panic end
    | o => o
    end in
  if expect_present then
    match find_file s st with Done (Some (id, _)) => Done (st, id) | Done None => create | Fail e => Fail e | Panic => Panic end
  else create.

(* ---------- listings ---------- *)
Definition in_range (lo hi k : bytes) : bool := lex_leb lo k && lex_ltb k hi.
Definition list_range (lo hi : outcome bytes kerr) (st : fstate) : outcome (list (N * file)) ferr :=
  match lo, hi with
  | Done a, Done b => Done (map (fun p => (fst p, normalized (snd p))) (filter (fun p => match key_of (snd p) with Done k => in_range a b k | _ => false end) st))
  | _, _ => Fail InvalidKey
  end.
(* ExactPathPart, schema/file.rs:546-565: the bytes of the path (not escaped), a slash, 0 or 1 *)
Definition exact_part (path : str) (start : bool) : bytes := utf8 (force_slash path) ++ [if start then 0 else 1].
(* list_path_contents, schema/file.rs:185-198 *)
Definition list_path (path : str) (st : fstate) : outcome (list (N * file)) ferr :=
  list_range (Done (exact_part path true)) (Done (exact_part path false)) st.
(* RecursivePathPart, schema/file.rs:566-575: a composite key of one string *)
Definition recursive_part (path : str) (start : bool) : outcome bytes kerr :=
  encode (TTup [TStr]) (VTup [VStr (if start then path else next_string_sequence path)]).
(* list_recursive_path_contents, schema/file.rs:217-230 *)
Definition list_recursive (path : str) (st : fstate) : outcome (list (N * file)) ferr :=
  list_range (recursive_part path true) (recursive_part path false) st.
(* summarize_recursive_path_contents, schema/file.rs:249-269: file count and total length, over
   Files.v's blocks (summary_for_ids: the reduction over the keys) *)
Definition stats (path : str) (db : fdb) : outcome (nat * nat) ferr :=
  match list_recursive path (files db) with
  | Done l => Done (length l, fold_right (fun p a => (fst (summary (fst p) db) + a)%nat) O l)
  | Fail e => Fail e
  | Panic => Panic
  end.
