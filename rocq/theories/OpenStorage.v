(* Opening a storage directory: Storage::open, the id file and its lock
   (crates/bonsaidb-local/src/storage.rs:267-427) and the vault that is set up
   or unsealed while the lock is held (vault.rs:187-332, LocalVaultKeyStorage
   522-593). Any number of processes open, crash and close in any order; a write
   reaches the file piece by piece. The random draws are arguments of the events.
   Elliptic curve operations (hpke) are parameters. Not modelled: what a power
   failure does to data that were written but not synced (nothing is synced),
   the `server-id` name (the older name of the id file: nobody creates it), the
   configuration without the "encryption" feature (there the vault steps are
   absent). *)
From Verif Require Import Base Vault.
Local Open Scope N_scope.

(* ---------- numbers in decimal: u64::to_string and str::parse::<u64> ---------- *)
Fixpoint digits (fuel : nat) (n : N) : bytes :=
  match fuel with
  | O => []
  | S k => (if n <? 10 then [] else digits k (n / 10)) ++ [48 + n mod 10]
  end.
Definition to_string (n : N) : bytes := digits 20 n.
Definition is_digit (b : N) : bool := (48 <=? b) && (b <=? 57).
Fixpoint value (acc : N) (l : bytes) : option N :=
  match l with
  | [] => Some acc
  | b :: r => if is_digit b then (if acc * 10 + (b - 48) <? 2 ^ 64 then value (acc * 10 + (b - 48)) r else None) else None
  end.
Definition parse (l : bytes) : option N :=
  match l with
  | [] => None
  | b :: r => if b =? 43 then match r with [] => None | _ => value 0 r end else value 0 l
  end.

(* ---------- files ---------- *)
(* write(2) at an offset: a file that was truncated meanwhile is filled with zeros *)
Definition write_at (off : nat) (b file : bytes) : bytes :=
  firstn off file ++ repeat 0 (off - length file)%nat ++ b ++ skipn (off + length b)%nat file.

(* ---------- keys and their formats (bincode) ---------- *)
(* KeyPair, vault.rs:80-104; the halves are fixed arrays (hpke_util.rs) *)
Record keypair := KeyPair { k_priv : bytes; k_pub : bytes }.
Record hpke := Hpke {
  pub_of : bytes -> bytes;                              (* the public key of a private key *)
  priv_ok : bytes -> bool;                              (* Deserializable::from_bytes accepts it *)
  pub_ok : bytes -> bool;
  enc_ok : bytes -> bool;
  hseal : bytes -> bytes -> bytes -> bytes * bytes * bytes;  (* public key, randomness, message -> encapsulated key, ciphertext, tag *)
  hopen : bytes -> bytes -> bytes -> bytes -> option bytes   (* private key, encapsulated key, ciphertext, tag *)
}.
Definition take (n : nat) (l : bytes) : option (bytes * bytes) :=
  if (n <=? length l)%nat then Some (firstn n l, skipn n l) else None.

(* what one initialisation draws, vault.rs:206-207, 238-250 *)
Record gen := Gen { g_master : bytes; g_priv : bytes; g_rand : bytes }.

Inductive oerr := EInitializing | EKeyStorage | EKeyNotFound.

Section H.
  Context (H : hpke).
  Definition g_pair (g : gen) : keypair := KeyPair (g_priv g) (pub_of H (g_priv g)).

  Definition put_pair (k : keypair) : bytes := le 4 0 ++ k_priv k ++ k_pub k.
  Definition take_pair (l : bytes) : option keypair :=
    match take_int 4 l with
    | Some (t, l1) =>
        if t =? 0 then
          match take 32 l1 with
          | Some (a, l2) =>
              if priv_ok H a then
                match take 65 l2 with
                | Some (b, _) => if pub_ok H b then Some (KeyPair a b) else None
                | None => None
                end
              else None
          | None => None
          end
        else None
    | None => None
    end.

  (* HpkePayload, vault.rs:622-631 *)
  Definition put_sealed (ct tag enc : bytes) : bytes := le 4 0 ++ put_bytes ct ++ tag ++ enc.
  Definition take_sealed (l : bytes) : option (bytes * bytes * bytes) :=
    match take_int 4 l with
    | Some (t, l1) =>
        if t =? 0 then
          match take_bytes l1 with
          | Some (ct, l2) =>
              match take 16 l2 with
              | Some (tag, l3) =>
                  match take 65 l3 with
                  | Some (enc, _) => if enc_ok H enc then Some (ct, tag, enc) else None
                  | None => None
                  end
              | None => None
              end
          | None => None
          end
        else None
    | None => None
    end.

  (* HashMap<u32, EncryptionKey>: a length, then numbers and 32 bytes *)
  Definition put_masters (l : list (N * bytes)) : bytes :=
    le 8 (N.of_nat (length l)) ++ concat (map (fun x => le 4 (fst x) ++ snd x) l).
  Fixpoint take_entries (fuel : nat) (n : N) (l : bytes) : option (list (N * bytes)) :=
    if n =? 0 then Some [] else
    match fuel with
    | O => None
    | S f =>
        match take_int 4 l with
        | Some (i, l1) =>
            match take 32 l1 with
            | Some (k, l2) => match take_entries f (n - 1) l2 with Some r => Some ((i, k) :: r) | None => None end
            | None => None
            end
        | None => None
        end
    end.
  Definition take_masters (l : bytes) : option (list (N * bytes)) :=
    match take_int 8 l with Some (n, r) => take_entries (length r) n r | None => None end.
  (* keys().max() and the key under it; a later entry of the same number replaces
     an earlier one *)
  Fixpoint newest (l : list (N * bytes)) : option (N * bytes) :=
    match l with
    | [] => None
    | (i, k) :: r => match newest r with Some (j, k') => if i <=? j then Some (j, k') else Some (i, k) | None => Some (i, k) end
    end.

  (* the contents of `master-keys`, vault.rs:236-262 *)
  Definition sealed_file (g : gen) : bytes :=
    match hseal H (pub_of H (g_priv g)) (g_rand g) (put_masters [(0, g_master g)]) with
    | (enc, ct, tag) => put_sealed ct tag enc
    end.

  (* ---------- processes ---------- *)
  Inductive pc :=
  | Off                                     (* not running *)
  | Checking                                (* about to look for the id file *)
  | Creating (id : N)                       (* not there: about to create it *)
  | LockNew (id : N)                        (* created, wants the lock *)
  | WritingId (id : N) (off : nat)          (* holds the lock, writes the number *)
  | LockRead                                (* there and open: wants the lock *)
  | Reading                                 (* holds the lock, reads the number *)
  | CreatingOver (id : N)                   (* a configured id: about to create the file *)
  | WritingOver (id : N) (off : nat)        (* writes it, without the lock *)
  | LockOver (id : N)                       (* wants the lock *)
  | Ready (id : N)                          (* holds the lock from here on: about to look for master-keys *)
  | SetKey (id : N) (g : gen)               (* about to create the vault key's file *)
  | WritingKey (id : N) (g : gen) (off : nat)
  | GetKey (id : N) (g : gen)               (* reads the vault key back *)
  | CreateMaster (id : N) (g : gen)
  | WritingMaster (id : N) (g : gen) (off : nat)
  | Unsealing (id : N)                      (* master-keys exists *)
  | Opened (id : N) (version : N) (key : bytes)
  | Failed (e : oerr)
  | Panicked.

  Record state := St {
    idf : option bytes;            (* storage-id *)
    mkf : option bytes;            (* master-keys *)
    keys : N -> option bytes;      (* the vault key storage *)
    lock : option nat;             (* who holds the lock on storage-id *)
    at_ : nat -> pc;
    over : nat -> option N         (* configuration.unique_id of the process *)
  }.
  Definition empty : state := St None None (fun _ => None) None (fun _ => Off) (fun _ => None).

  Definition upd {A} (f : nat -> A) (p : nat) (x : A) : nat -> A := fun q => if Nat.eqb q p then x else f q.
  Definition upd_key (f : N -> option bytes) (i : N) (x : option bytes) : N -> option bytes := fun j => if j =? i then x else f j.
  Definition goto (s : state) (p : nat) (c : pc) : state := St (idf s) (mkf s) (keys s) (lock s) (upd (at_ s) p c) (over s).
  (* the files of an ended process are closed: the lock is released (LockData 1784-1796) *)
  Definition release (s : state) (p : nat) : option nat := match lock s with Some q => if Nat.eqb q p then None else Some q | None => None end.
  Definition leave (s : state) (p : nat) (c : pc) : state := St (idf s) (mkf s) (keys s) (release s p) (upd (at_ s) p c) (over s).
  Definition acquire (s : state) (p : nat) (c : pc) : state :=
    match lock s with
    | None => St (idf s) (mkf s) (keys s) (Some p) (upd (at_ s) p c) (over s)
    | Some _ => s                            (* lock_exclusive blocks *)
    end.
  Definition set_id (s : state) (f : bytes) : state := St (Some f) (mkf s) (keys s) (lock s) (at_ s) (over s).
  Definition set_mk (s : state) (f : bytes) : state := St (idf s) (Some f) (keys s) (lock s) (at_ s) (over s).
  Definition set_key (s : state) (i : N) (f : option bytes) : state := St (idf s) (mkf s) (upd_key (keys s) i f) (lock s) (at_ s) (over s).
  Definition bytes_of (f : option bytes) : bytes := match f with Some b => b | None => [] end.

  (* VaultKeyStorage::vault_key_for, vault.rs:571-585 *)
  Definition key_for (s : state) (i : N) : outcome (option keypair) oerr :=
    match keys s i with
    | None => Done None
    | Some b => match take_pair b with Some k => Done (Some k) | None => Fail EKeyStorage end
    end.

  (* Vault::unseal, vault.rs:280-332: the result of reading master-keys *)
  Definition unseal (s : state) (i : N) : pc :=
    match take_sealed (bytes_of (mkf s)) with
    | None => Failed EInitializing
    | Some (ct, tag, enc) =>
        match key_for s i with
        | Fail e => Failed e
        | Panic => Panicked
        | Done None => Failed EKeyNotFound
        | Done (Some k) =>
            match hopen H (k_priv k) enc ct tag with
            | None => Panicked
            | Some m =>
                match take_masters m with
                | None => Failed EInitializing
                | Some l => match newest l with Some (v, x) => Opened i v x | None => Panicked end
                end
            end
        end
    end.

  (* what a process does next: draw and g are the random numbers it would draw,
     k how many more bytes a write takes *)
  Definition advance (s : state) (p : nat) (draw : N) (g : gen) (k : nat) : state :=
    match at_ s p with
    (* storage.rs:387-389, 405: does the file exist? *)
    | Checking =>
        match over s p with
        | Some o => goto s p (match idf s with Some _ => LockOver o | None => CreatingOver o end)
        | None => goto s p (match idf s with Some _ => LockRead | None => Creating draw end)
        end
    (* 417-419: File::create truncates, then the lock is taken *)
    | Creating i => goto (set_id s []) p (LockNew i)
    | LockNew i => acquire s p (WritingId i 0)
    (* 421 *)
    | WritingId i off =>
        let piece := firstn k (skipn off (to_string i)) in
        let s' := set_id s (write_at off piece (bytes_of (idf s))) in
        if (off + length piece =? length (to_string i))%nat then goto s' p (Ready i)
        else goto s' p (WritingId i (off + length piece)%nat)
    (* 408-415 *)
    | LockRead => acquire s p Reading
    | Reading => match parse (bytes_of (idf s)) with Some i => goto s p (Ready i) | None => leave s p Panicked end
    (* 391-398 *)
    | CreatingOver i => goto (set_id s []) p (WritingOver i 0)
    | WritingOver i off =>
        let piece := firstn k (skipn off (to_string i)) in
        let s' := set_id s (write_at off piece (bytes_of (idf s))) in
        if (off + length piece =? length (to_string i))%nat then goto s' p (LockOver i)
        else goto s' p (WritingOver i (off + length piece)%nat)
    | LockOver i => acquire s p (Ready i)
    (* vault.rs:193-198 *)
    | Ready i => goto s p (match mkf s with Some _ => Unsealing i | None => SetKey i g end)
    (* set_vault_key_for, vault.rs:587-592 *)
    | SetKey i g' => goto (set_key s i (Some [])) p (WritingKey i g' 0)
    | WritingKey i g' off =>
        let whole := put_pair (g_pair g') in
        let piece := firstn k (skipn off whole) in
        let s' := set_key s i (Some (write_at off piece (bytes_of (keys s i)))) in
        if (off + length piece =? length whole)%nat then goto s' p (GetKey i g')
        else goto s' p (WritingKey i g' (off + length piece)%nat)
    (* 221-235, 270-277 *)
    | GetKey i g' =>
        match key_for s i with
        | Done (Some r) => if bytes_eqb (k_pub r) (pub_of H (g_priv g')) then goto s p (CreateMaster i g') else leave s p (Failed EKeyStorage)
        | _ => leave s p (Failed EKeyStorage)
        end
    (* 264-266 *)
    | CreateMaster i g' => goto (set_mk s []) p (WritingMaster i g' 0)
    | WritingMaster i g' off =>
        let whole := sealed_file g' in
        let piece := firstn k (skipn off whole) in
        let s' := set_mk s (write_at off piece (bytes_of (mkf s))) in
        if (off + length piece =? length whole)%nat then goto s' p (Opened i 0 (g_master g'))
        else goto s' p (WritingMaster i g' (off + length piece)%nat)
    | Unsealing i =>
        match unseal s i with
        | Opened i' v x => goto s p (Opened i' v x)
        | c => leave s p c
        end
    | _ => s
    end.

  Inductive event :=
  | Start (p : nat) (unique_id : option N)                      (* Storage::open is called *)
  | Advance (p : nat) (draw : N) (g : gen) (k : nat)
  | Stop (p : nat)                                              (* killed, an io error, or the storage is dropped *)
  | External (i : N) (f : option bytes).                        (* somebody changes the vault key storage *)
  Definition idle (c : pc) : bool := match c with Off | Failed _ | Panicked => true | _ => false end.
  Definition step (s : state) (e : event) : state :=
    match e with
    | Start p o => if idle (at_ s p) then St (idf s) (mkf s) (keys s) (lock s) (upd (at_ s) p Checking) (upd (over s) p o) else s
    | Advance p d g k => advance s p d g k
    | Stop p => leave s p Off
    | External i f => set_key s i f
    end.
  Fixpoint run (s : state) (es : list event) : state := match es with [] => s | e :: r => run (step s e) r end.
End H.
