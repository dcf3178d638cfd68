(* Model of vault keys kept in an S3 bucket, and of the vault that uses them.

   /repo/crates/bonsaidb-keystorage-s3/src/lib.rs:60-213 (S3VaultKeyStorage), the names of
   storages (crates/bonsaidb-local/src/storage.rs:1504-1527), and Vault::initialize over this
   storage (crates/bonsaidb-local/src/vault.rs:189-332).

   Many storage directories use one object service.  Calls of the service fail at will, and a
   request that was reported as failed (a timeout, a broken connection) may still be carried
   out, then or later.  Each directory has one opener at a time (the lock of C69); a crash is
   [Close].  The object service stores an object as a whole (no partial writes) and a get
   returns the last object put.  Elliptic curve operations (hpke) are parameters, as in
   OpenStorage.v.  Not modelled: tokio's runtimes, credentials, buckets that do not exist
   (every call fails). *)
From Verif Require Import Base Vault DocId OpenStorage.
Local Open Scope N_scope.

(* ---------- names ---------- *)
(* {:016x} of a u64, storage.rs:1515-1527 *)
Fixpoint hexw (w : nat) (n : N) : bytes :=
  match w with O => [] | S w => hexw w (n / 16) ++ [nib (n mod 16)] end.
Definition storage_name (i : N) : bytes := hexw 16 i.

(* S3VaultKeyStorage, lib.rs:62-76 *)
Record s3 := S3 { s_bucket : bytes; s_endpoint : option bytes; s_region : option bytes; s_path : bytes }.
(* lib.rs:113-143 new, path, endpoint; Default *)
Definition s3_new (bucket : bytes) : s3 := S3 bucket None None [].
Definition with_path (p : bytes) (c : s3) : s3 := S3 (s_bucket c) (s_endpoint c) (s_region c) p.
Definition with_endpoint (e : bytes) (c : s3) : s3 := S3 (s_bucket c) (Some e) (s_region c) (s_path c).

(* path_for_id, lib.rs:141-148 *)
Definition slash : N := 47.
Definition ends_with_slash (p : bytes) : bool :=
  match rev p with [] => false | b :: _ => b =? slash end.
Definition path_for_id (c : s3) (i : N) : bytes :=
  let path := s_path c in
  (if negb (match path with [] => true | _ => false end) && negb (ends_with_slash path) then path ++ [slash] else path) ++ storage_name i.

(* client, lib.rs:150-166: the endpoint and the region its requests are made for; [env] is
   the region the sdk finds in the environment *)
Definition us_east_1 : bytes := [117; 115; 45; 101; 97; 115; 116; 45; 49].
Definition client (env : option bytes) (c : s3) : option bytes * option bytes :=
  match s_endpoint c with
  | Some e => (Some e, match s_region c with Some r => Some r | None => match env with Some r => Some r | None => Some us_east_1 end end)
  | None => (None, env)                    (* Client::new(&config): region_provider is not used *)
  end.

(* where an object is: the service, the bucket, the name *)
Definition where_ := (option bytes * bytes * bytes)%type.
Definition object_of (c : s3) (i : N) : where_ := (s_endpoint c, s_bucket c, path_for_id c i).
Definition obytes_eqb (a b : option bytes) : bool :=
  match a, b with Some a, Some b => bytes_eqb a b | None, None => true | _, _ => false end.
Definition where_eqb (a b : where_) : bool :=
  match a, b with (e1, b1, n1), (e2, b2, n2) => obytes_eqb e1 e2 && bytes_eqb b1 b2 && bytes_eqb n1 n2 end.

Definition objects := where_ -> option bytes.
Definition put_object (o : objects) (w : where_) (b : option bytes) : objects :=
  fun v => if where_eqb v w then b else o v.

(* what happens to a put and to a get *)
Inductive sent := Accepted | Refused | Unsure.   (* Unsure: an error, but the request is under way *)
Inductive got := Answered | Broken.              (* Broken: any error but NoSuchKey; the body breaks off *)

Section H.
  Context (H : hpke).

  (* vault_key_for, lib.rs:188-213 *)
  Definition vault_key_for (o : objects) (c : s3) (i : N) (g : got) : outcome (option keypair) oerr :=
    match g with
    | Broken => Fail EKeyStorage
    | Answered =>
        match o (object_of c i) with
        | None => Done None                                                       (* NoSuchKey *)
        | Some b => match take_pair H b with Some k => Done (Some k) | None => Fail EKeyStorage end
        end
    end.
  (* set_vault_key_for, lib.rs:173-186; the second part is what is still under way *)
  Definition set_vault_key_for (o : objects) (c : s3) (i : N) (k : keypair) (s : sent)
    : objects * list (where_ * bytes) * outcome unit oerr :=
    match s with
    | Accepted => (put_object o (object_of c i) (Some (put_pair k)), [], Done tt)
    | Refused => (o, [], Fail EKeyStorage)
    | Unsure => (o, [(object_of c i, put_pair k)], Fail EKeyStorage)
    end.

  (* ---------- the vault, vault.rs:189-332 ---------- *)
  Inductive pc :=
  | Closed
  | Putting (g : gen)          (* no master-keys: about to store the key, vault.rs:206-217 *)
  | Checking (g : gen)         (* about to read it back, 220-228 *)
  | Sealing (g : gen)          (* about to write master-keys, 229-266 *)
  | Unsealing                  (* master-keys exists, 280-332 *)
  | Opened (version : N) (key : bytes)
  | Failed (e : oerr)
  | Panicked.

  Record state := St {
    objs : objects;
    late : list (where_ * bytes);         (* puts reported as failed that are still under way *)
    mk : nat -> option bytes;             (* master-keys of each directory *)
    at_ : nat -> pc
  }.
  Definition start : state := St (fun _ => None) [] (fun _ => None) (fun _ => Closed).
  (* each directory's key storage and id *)
  Variable conf : nat -> s3 * N.
  Definition key_object (d : nat) : where_ := object_of (fst (conf d)) (snd (conf d)).

  Definition goto (s : state) (d : nat) (c : pc) : state := St (objs s) (late s) (mk s) (upd (at_ s) d c).
  Definition idle (c : pc) : bool := match c with Closed | Failed _ | Panicked => true | _ => false end.

  (* unseal: the file, and the answer of the key storage *)
  Definition unseal (f : option bytes) (k : outcome (option keypair) oerr) : pc :=
    match take_sealed H (bytes_of f) with
    | None => Failed EInitializing
    | Some (ct, tag, enc) =>
        match k with
        | Fail e => Failed e
        | Panic => Panicked
        | Done None => Failed EKeyNotFound
        | Done (Some k) =>
            match hopen H (k_priv k) enc ct tag with
            | None => Panicked                                   (* .unwrap(), vault.rs:311 *)
            | Some m =>
                match take_masters m with
                | None => Failed EInitializing
                | Some l => match newest l with Some (v, x) => Opened v x | None => Panicked end
                end
            end
        end
    end.

  Inductive event :=
  | Open (d : nat) (g : gen)              (* Storage::open gets to the vault; g is what it would draw *)
  | Put (d : nat) (r : sent)
  | Get (d : nat) (r : got)
  | Write (d : nat) (n : nat)             (* master-keys is written; after n bytes the disk is full *)
  | Close (d : nat)                       (* closed, or killed *)
  | Arrive (n : nat)                      (* a request that was given up is carried out *)
  | Outside (w : where_) (b : option bytes).   (* somebody changes the bucket *)

  Definition step (s : state) (e : event) : state :=
    match e with
    | Open d g =>
        if idle (at_ s d) then goto s d (match mk s d with Some _ => Unsealing | None => Putting g end) else s
    | Put d r =>
        match at_ s d with
        | Putting g =>
            match set_vault_key_for (objs s) (fst (conf d)) (snd (conf d)) (g_pair H g) r with
            | (o, l, Done _) => goto (St o (late s ++ l) (mk s) (at_ s)) d (Checking g)
            | (o, l, Fail e) => goto (St o (late s ++ l) (mk s) (at_ s)) d (Failed e)
            | (o, l, Panic) => goto (St o (late s ++ l) (mk s) (at_ s)) d Panicked
            end
        | _ => s
        end
    | Get d r =>
        match at_ s d with
        | Checking g =>
            match vault_key_for (objs s) (fst (conf d)) (snd (conf d)) r with
            | Done (Some k) => goto s d (if bytes_eqb (k_pub k) (pub_of H (g_priv g)) then Sealing g else Failed EKeyStorage)
            | _ => goto s d (Failed EKeyStorage)
            end
        | Unsealing => goto s d (unseal (mk s d) (vault_key_for (objs s) (fst (conf d)) (snd (conf d)) r))
        | _ => s
        end
    | Write d n =>
        match at_ s d with
        | Sealing g =>
            let whole := sealed_file H g in
            goto (St (objs s) (late s) (upd (mk s) d (Some (firstn n whole))) (at_ s)) d
                 (if (length whole <=? n)%nat then Opened 0 (g_master g) else Failed EInitializing)
        | _ => s
        end
    | Close d => goto s d Closed
    | Arrive n =>
        match nth_error (late s) n with
        | Some (w, b) => St (put_object (objs s) w (Some b)) (firstn n (late s) ++ skipn (S n) (late s)) (mk s) (at_ s)
        | None => s
        end
    | Outside w b => St (put_object (objs s) w b) (late s) (mk s) (at_ s)
    end.
  Fixpoint run (s : state) (es : list event) : state := match es with [] => s | e :: es => run (step s e) es end.
End H.
