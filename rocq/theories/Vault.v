(* Compression and encryption of stored blocks: crates/bonsaidb-local/src/storage.rs
   (TreeVault), vault.rs, config.rs (Compression), database.rs (which settings a
   tree is opened with). The cipher (XChaCha20-Poly1305) and lz4 are parameters:
   functions that undo each other. The random nonce is an argument. bincode 1.3
   (fixed-size little endian integers, trailing bytes allowed) is modelled. *)
From Verif Require Import Base Utf8.
Local Open Scope N_scope.

Inductive verr := EDecrypt | EDecompress | EEncryptionDisabled.
(* document.rs:246-253 *)
Inductive keyid := KNone | KMaster | KId (id : str).
(* little endian, w bytes (bincode's fixed-size integers) *)
Fixpoint le (w : nat) (n : N) : bytes := match w with O => [] | S k => (n mod 256) :: le k (n / 256) end.
Fixpoint of_le (l : bytes) : N := match l with [] => 0 | b :: r => b + 256 * of_le r end.
Definition take_int (w : nat) (l : bytes) : option (N * bytes) :=
  if (w <=? length l)%nat then Some (of_le (firstn w l), skipn w l) else None.
(* a length (u64) and as many bytes *)
Definition put_bytes (b : bytes) : bytes := le 8 (N.of_nat (length b)) ++ b.
Definition take_bytes (l : bytes) : option (bytes * bytes) :=
  match take_int 8 l with
  | Some (n, r) => if n <=? N.of_nat (length r) then Some (firstn (N.to_nat n) r, skipn (N.to_nat n) r) else None
  | None => None
  end.

(* VaultPayload, vault.rs:597-619. The only encryption has the tag 0. *)
Record vpayload := VPayload { vp_key : keyid; vp_version : N; vp_payload : bytes; vp_nonce : bytes }.
Definition put_key (k : keyid) : bytes := match k with KNone => le 4 0 | KMaster => le 4 1 | KId s => le 4 2 ++ put_bytes (utf8 s) end.
Definition take_key (l : bytes) : option (keyid * bytes) :=
  match take_int 4 l with
  | Some (t, r) =>
      if t =? 0 then Some (KNone, r) else if t =? 1 then Some (KMaster, r)
      else if t =? 2 then match take_bytes r with Some (b, r') => match utf8_decode b with Some s => Some (KId s, r') | None => None end | None => None end
      else None
  | None => None
  end.
Definition to_vec (p : vpayload) : bytes :=
  put_key (vp_key p) ++ le 4 (vp_version p) ++ le 4 0 ++ put_bytes (vp_payload p) ++ put_bytes (vp_nonce p).
Definition from_slice (l : bytes) : option vpayload :=
  match take_key l with
  | Some (k, l1) =>
      match take_int 4 l1 with
      | Some (v, l2) =>
          match take_int 4 l2 with
          | Some (e, l3) =>
              if e =? 0 then
                match take_bytes l3 with
                | Some (p, l4) => match take_bytes l4 with Some (n, _) => Some (VPayload k v p n) | None => None end
                | None => None
                end
              else None
          | None => None
          end
      | None => None
      end
  | None => None
  end.

(* one algorithm: Some tt is Compression::Lz4 (config.rs:488-507) *)
Definition compression := option unit.
Definition comp_from_u8 (b : N) : compression := if b =? 1 then Some tt else None.
Definition trv : bytes := [116; 114; 118].
Definition is_trv (l : bytes) : bool := (4 <=? length l)%nat && bytes_eqb (firstn 3 l) trv.
Record settings := Settings { s_key : option keyid; s_comp : compression }.

Record primitives := Primitives {
  seal : bytes -> bytes -> bytes;             (* XChaCha20Poly1305 encrypt with the master key: nonce, message *)
  unseal : bytes -> bytes -> option bytes;    (* decrypt *)
  compress : bytes -> bytes;                  (* lz4_flex compress_prepend_size *)
  decompress : bytes -> option bytes          (* decompress_size_prepended *)
}.

Section Prim.
  Context (P : primitives).

  (* Vault::encrypt_payload without permissions, vault.rs:335-356, and
     EncryptionKey::encrypt_payload(_with_nonce) 416-449. There is one master key,
     of version 0 (initialize_vault_key_storage 217). KeyId::Id is todo!(),
     KeyId::None unreachable!(). *)
  Definition encrypt_payload (k : keyid) (nonce payload : bytes) : outcome bytes verr :=
    match k with
    | KMaster => Done (to_vec (VPayload KMaster 0 (seal P nonce payload) nonce))
    | _ => Panic
    end.
  (* Vault::decrypt_payload 358-374, decrypt 376-397, EncryptionKey::decrypt_payload
     451-466. A nonce of another length than 24 panics in GenericArray::from_slice. *)
  Definition decrypt_payload (l : bytes) : outcome bytes verr :=
    match from_slice l with
    | Some p =>
        match vp_key p with
        | KMaster =>
            if (length (vp_nonce p) =? 24)%nat then
              match unseal P (vp_nonce p) (vp_payload p) with Some m => Done m | None => Fail EDecrypt end
            else Panic
        | _ => Panic
        end
    | None => Done l
    end.

  (* ---------- both features, storage.rs:1539-1621 ---------- *)
  Definition new_if_needed (s : settings) : option settings :=
    match s_key s, s_comp s with None, None => None | _, _ => Some s end.
  Definition header (s : settings) (compressed : bool) : N :=
    N.lor (match s_key s with Some _ => 128 | None => 0 end) (if compressed then match s_comp s with Some _ => 1 | None => 0 end else 0).
  Definition is_compressed (s : settings) (payload : bytes) : bool :=
    (128 <=? length payload)%nat && match s_comp s with Some _ => true | None => false end.
  Definition encrypt (s : settings) (nonce payload : bytes) : outcome bytes verr :=
    let c := is_compressed s payload in
    let compressed := if c then compress P payload else payload in
    match (match s_key s with Some k => encrypt_payload k nonce compressed | None => Done compressed end) with
    | Done complete => Done (if header s c =? 0 then complete else trv ++ header s c :: complete)
    | o => o
    end.
  Definition decompress_as (c : compression) (l : bytes) : outcome bytes verr :=
    match c with Some _ => match decompress P l with Some m => Done m | None => Fail EDecompress end | None => Done l end.
  Definition decrypt (l : bytes) : outcome bytes verr :=
    if is_trv l then
      let h := nth 3 l 0 in
      let payload := skipn 4 l in
      match (if negb (N.land h 128 =? 0) then decrypt_payload payload else Done payload) with
      | Done d => decompress_as (comp_from_u8 (N.land h 127)) d
      | o => o
      end
    else decrypt_payload l.

  (* ---------- compression only, storage.rs:1680-1734; the prefix is written in
     front of the compressed data with its size ---------- *)
  Definition encrypt_c (s : settings) (payload : bytes) : outcome bytes verr :=
    Done (if is_compressed s payload then trv ++ 1 :: compress P payload else payload).
  Definition decrypt_c (l : bytes) : outcome bytes verr :=
    if is_trv l then
      let h := nth 3 l 0 in
      if negb (N.land h 128 =? 0) then Fail EEncryptionDisabled else decompress_as (comp_from_u8 (N.land h 127)) (skipn 4 l)
    else Done l.
  (* ---------- encryption only, 1736-1774 ---------- *)
  Definition encrypt_e (s : settings) (nonce payload : bytes) : outcome bytes verr :=
    match s_key s with Some k => encrypt_payload k nonce payload | None => Done payload end.
  Definition decrypt_e (l : bytes) : outcome bytes verr := decrypt_payload l.
End Prim.

(* which settings a collection's tree has: storage-wide settings and the
   collection's own key. Reading (collection_tree, database.rs:851-895) and
   writing (open_trees_for_transaction, database.rs:270-293) build them in two places. *)
Definition read_settings (storage : settings) (own : option keyid) : option settings :=
  match own, new_if_needed storage with
  | Some k, Some v => Some (Settings (Some k) (s_comp v))
  | None, Some v => Some v
  | k, None => new_if_needed (Settings k None)
  end.
Definition write_settings (storage : settings) (own : option keyid) : option settings :=
  match own with
  | Some k => match new_if_needed storage with
              | Some v => Some (Settings (Some k) (s_comp v))
              | None => new_if_needed (Settings (Some k) None)
              end
  | None => new_if_needed storage
  end.
(* nebari: without a vault the bytes are stored as they are *)
Definition store_block (P : primitives) (s : option settings) (nonce p : bytes) : outcome bytes verr :=
  match s with Some v => encrypt P v nonce p | None => Done p end.
Definition load_block (P : primitives) (s : option settings) (l : bytes) : outcome bytes verr :=
  match s with Some _ => decrypt P l | None => Done l end.
