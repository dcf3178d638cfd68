(* Sessions and handles of one storage: crates/bonsaidb-local/src/storage.rs,
   storage/token_authentication.rs and storage/pubsub.rs. The keyed hashes and
   the password check are parameters; session ids are unbounded numbers (in the
   code u64: `last_session_id += 1`). Calls are atomic steps. *)
From Verif Require Import Base Perms.
Local Open Scope N_scope.

Inductive identity := IUser (id : N) | IRole (id : N).
(* core connection.rs SessionAuthentication *)
Inductive sauth :=
| Challenge (token : N) (nonce : bytes) (server_time : N)
| Identified (who : identity).
Record session := mkses { se_auth : sauth; se_perms : list stmt }.

(* A Storage handle (storage.rs:147-152): authentication is the session it keeps
   alive, effective_session the permissions it is checked against. *)
Record handle := mkh { h_auth : option N; h_session : option (list stmt) }.
Definition root_handle : handle := mkh None None.  (* From<StorageInstance>: storage.rs:226-234 *)

(* has_session.rs:14-34: everything is allowed without a session *)
Definition allowed (h : handle) (a : stmt) : bool :=
  match h_session h with None => true | Some l => has l a end.

Record token := mktoken { t_id : N; t_identity : identity; t_secret : bytes }.

(* Hash functions (admin/authentication_token.rs:105-163) and the configured
   permissions of everyone who is logged in (Data.authenticated_permissions). *)
Record env := mkenv {
  response : bytes -> bytes -> N -> bytes;     (* secret, nonce, server time *)
  time_hash : bytes -> N -> bytes;             (* secret, request time *)
  everyone : list stmt;
  act_token : N -> stmt;                       (* Authenticate(Token) on the token *)
  act_password : N -> stmt;                    (* Authenticate(PasswordHash) on the user *)
  act_assume_user : N -> stmt;                 (* AssumeIdentity on the user *)
  act_assume_role : N -> stmt
}.

Record st := mkst {
  adm : admin;
  tokens : list token;
  sessions : list (N * session);               (* AuthenticatedSessions.sessions *)
  last_id : N;                                 (* last_session_id *)
  handles : list (option handle);              (* None: dropped *)
  subs : list (N * (option N * handle));       (* live Subscriber objects: id, session id at creation, their handle *)
  registry : list (N * option N);              (* SessionSubscribers.subscribers *)
  by_session : list (N * list N);              (* subscribers_by_session *)
  last_sub : N;
  issued : list N                              (* ghost: session ids handed out, in order *)
}.

Inductive serr := EInvalid | EDeniedS | ENoHandle.

Definition handle_at (s : st) (i : nat) : option handle :=
  match nth_error (handles s) i with Some (Some h) => Some h | _ => None end.
Definition find_session (s : st) (id : N) : option session :=
  option_map snd (find (fun e => fst e =? id) (sessions s)).
Definition find_token (s : st) (id : N) : option token := find (fun t => t_id t =? id) (tokens s).

Definition new_session (s : st) (x : session) : st * handle :=
  let id := last_id s + 1 in
  let h := mkh (Some id) (Some (se_perms x)) in
  (mkst (adm s) (tokens s) ((id, x) :: filter (fun e => negb (fst e =? id)) (sessions s)) id (handles s ++ [Some h])
        (subs s) (registry s) (by_session s) (last_sub s) (issued s ++ [id]), h).

(* storage.rs:803-873 assume_user, assume_role *)
Definition assume (E : env) (s : st) (w : identity) : st * outcome handle serr :=
  match w with
  | IUser i =>
      match find (fun u => u_id u =? i) (users (adm s)) with
      | Some u => let '(s', h) := new_session s (mkses (Identified w) (user_permissions (adm s) u (everyone E))) in (s', Done h)
      | None => (s, Fail EInvalid)
      end
  | IRole i =>
      match find (fun r => r_id r =? i) (roles (adm s)) with
      | Some r => let '(s', h) := new_session s (mkses (Identified w) (role_permissions (adm s) r (everyone E))) in (s', Done h)
      | None => (s, Fail EInvalid)
      end
  end.

Definition beqb (a b : bytes) : bool := if list_eq_dec N.eq_dec a b then true else false.
(* Times in nanoseconds since the epoch: duration_between(..).as_secs() > 300 *)
Definition too_far (a b : N) : bool := 300 <? (if a <? b then b - a else a - b) / 1000000000.

(* token_authentication.rs:17-76; called after the check of storage.rs:1334-1342 *)
Definition begin_token (E : env) (s : st) (h : handle) (tid request_time : N) (check : bytes) (now : N) (nonce : bytes) : st * outcome handle serr :=
  if negb (allowed h (act_token E tid)) then (s, Fail EDeniedS)
  else if too_far request_time now then (s, Fail EInvalid)
  else match find_token s tid with
       | None => (s, Fail EInvalid)
       | Some t =>
           if negb (beqb (time_hash E (t_secret t) request_time) check) then (s, Fail EInvalid)
           else let '(s', h') := new_session s (mkses (Challenge tid nonce now) []) in (s', Done h')
       end.

Definition remove_session (s : st) (id : N) : st :=
  mkst (adm s) (tokens s) (filter (fun e => negb (fst e =? id)) (sessions s)) (last_id s) (handles s)
       (subs s) (registry s) (by_session s) (last_sub s) (issued s).

(* token_authentication.rs:78-127 finish_token_authentication, through
   storage.rs:1355-1372 authenticate (no permission is asked for) *)
Definition finish_token (E : env) (s : st) (h : handle) (hash : bytes) : st * outcome handle serr :=
  match h_auth h with
  | None => (s, Fail EInvalid)
  | Some sid =>
      match find_session s sid with
      | None => (s, Fail EInvalid)
      | Some x =>
          let s1 := remove_session s sid in
          match se_auth x with
          | Challenge tid nonce time =>
              match find_token s1 tid with
              | None => (s1, Fail EInvalid)
              | Some t =>
                  if beqb (response E (t_secret t) nonce time) hash then assume E s1 (t_identity t)
                  else (s1, Fail EInvalid)
              end
          | Identified _ => (s1, Fail EInvalid)
          end
      end
  end.

(* storage.rs:1334-1372 with Authentication::Password; [verified]: argon.verify *)
Definition password (E : env) (s : st) (h : handle) (u : N) (verified : bool) : st * outcome handle serr :=
  match find (fun x => u_id x =? u) (users (adm s)) with
  | None => (s, Fail EInvalid)
  | Some _ =>
      if negb (allowed h (act_password E u)) then (s, Fail EDeniedS)
      else if verified then assume E s (IUser u) else (s, Fail EInvalid)
  end.
(* storage.rs:1374-1403 assume_identity *)
Definition assume_identity (E : env) (s : st) (h : handle) (w : identity) : st * outcome handle serr :=
  match w with
  | IUser i => match find (fun x => u_id x =? i) (users (adm s)) with
               | None => (s, Fail EInvalid)
               | Some _ => if allowed h (act_assume_user E i) then assume E s w else (s, Fail EDeniedS)
               end
  | IRole i => match find (fun x => r_id x =? i) (roles (adm s)) with
               | None => (s, Fail EInvalid)
               | Some _ => if allowed h (act_assume_role E i) then assume E s w else (s, Fail EDeniedS)
               end
  end.

(* storage.rs:532-546 with_effective_permissions *)
Definition with_effective_permissions (h : handle) (p : list stmt) : option handle :=
  match h_session h with Some _ => None | None => Some (mkh (h_auth h) (Some p)) end.

(* storage.rs:1632-1668 assume_session *)
Definition assume_session (s : st) (h : handle) (sid : option N) (p : list stmt) : outcome handle serr :=
  match h_auth h with
  | Some _ => Fail EInvalid
  | None =>
      match sid with
      | None => Done (mkh None (Some p))
      | Some id => match find_session s id with
                   | None => Fail EInvalid
                   | Some x => Done (mkh (Some id) (Some (p ++ se_perms x)))
                   end
      end
  end.

(* The handle inside the Database returned by storage.database(..) and
   storage.admin(): storage.rs:1229-1231, 1248-1250 go to StorageInstance, whose
   database/admin (962-969, 1011-1014, 678-720) build Storage::from(instance). *)
Definition database_handle (h : handle) : handle := root_handle.
Definition admin_handle (h : handle) : handle := root_handle.

Definition add_handle (s : st) (h : handle) : st :=
  mkst (adm s) (tokens s) (sessions s) (last_id s) (handles s ++ [Some h]) (subs s) (registry s) (by_session s) (last_sub s) (issued s).

(* Is some Arc<AuthenticatedSession> for [id] left? The map holds one itself. *)
Definition referenced (s : st) (id : N) : bool :=
  existsb (fun e => fst e =? id) (sessions s) ||
  existsb (fun o => match o with Some h => match h_auth h with Some i => i =? id | None => false end | None => false end) (handles s) ||
  existsb (fun e => match h_auth (snd (snd e)) with Some i => i =? id | None => false end) (subs s).
(* storage.rs:186-209 Drop for AuthenticatedSession *)
Definition drop_session (s : st) (id : N) : st :=
  let ids := flat_map snd (filter (fun e => fst e =? id) (by_session s)) in
  mkst (adm s) (tokens s) (filter (fun e => negb (fst e =? id)) (sessions s)) (last_id s) (handles s) (subs s)
       (filter (fun e => negb (has ids (fst e))) (registry s))
       (filter (fun e => negb (fst e =? id)) (by_session s)) (last_sub s) (issued s).
Definition collect (s : st) (auth : option N) : st :=
  match auth with
  | Some id => if referenced s id then s else drop_session s id
  | None => s
  end.

Fixpoint set_nth {A} (i : nat) (x : A) (l : list A) : list A :=
  match l, i with
  | [], _ => []
  | _ :: l', O => x :: l'
  | y :: l', Datatypes.S j => y :: set_nth j x l'
  end.
Definition drop_handle (s : st) (i : nat) : st :=
  match handle_at s i with
  | None => s
  | Some h =>
      collect (mkst (adm s) (tokens s) (sessions s) (last_id s) (set_nth i None (handles s)) (subs s) (registry s)
                 (by_session s) (last_sub s) (issued s)) (h_auth h)
  end.

(* storage/pubsub.rs:11-37 register_subscriber: the next free id after last_id
   (wrapping); fewer than 2^64 are in use. *)
Definition u64 : N := 18446744073709551616.
Fixpoint next_free (fuel : nat) (used : list N) (i : N) : N :=
  let j := (i + 1) mod u64 in
  match fuel with
  | O => j
  | Datatypes.S f => if has used j then next_free f used j else j
  end.
Definition register_subscriber (s : st) (h : handle) (session_id : option N) : st * N :=
  let id := next_free (length (registry s)) (map fst (registry s)) (last_sub s) in
  (mkst (adm s) (tokens s) (sessions s) (last_id s) (handles s) (subs s ++ [(id, (session_id, h))])
        ((id, session_id) :: registry s) (by_session s) id (issued s), id).
(* storage.rs:171-184 unregister; 77-81 of database/pubsub.rs: Drop for Subscriber *)
Definition unregister (id : N) (reg : list (N * option N)) (bys : list (N * list N)) :=
  match find (fun e => fst e =? id) reg with
  | Some (_, Some sid) =>
      (filter (fun e => negb (fst e =? id)) reg,
       map (fun e => if fst e =? sid then (fst e, filter (fun x => negb (x =? id)) (snd e)) else e) bys)
  | _ => (filter (fun e => negb (fst e =? id)) reg, bys)
  end.
Definition drop_subscriber (s : st) (id : N) : st :=
  match find (fun e => fst e =? id) (subs s) with
  | None => s
  | Some (_, (_, h)) =>
      let '(reg, bys) := unregister id (registry s) (by_session s) in
      collect (mkst (adm s) (tokens s) (sessions s) (last_id s) (handles s) (filter (fun e => negb (fst e =? id)) (subs s))
                 reg bys (last_sub s) (issued s)) (h_auth h)
  end.

Inductive op :=
| OToken (i : nat) (tid request_time : N) (check : bytes) (now : N) (nonce : bytes)
| ORespond (i : nat) (hash : bytes)
| OPassword (i : nat) (u : N) (verified : bool)
| OAssume (i : nat) (w : identity)
| ORestrict (i : nat) (p : list stmt)
| OAssumeSession (i : nat) (sid : option N) (p : list stmt)
| ODropHandle (i : nat)
| OSubscriber (i : nat)
| ODropSubscriber (id : N)
| OAdmin (o : Perms.op)                     (* changes of users *)
| OTokens (l : list token).                 (* changes of the tokens *)

Definition on_handle (s : st) (i : nat) (f : handle -> st * outcome handle serr) : st * outcome handle serr :=
  match handle_at s i with None => (s, Fail ENoHandle) | Some h => f h end.

(* A subscriber's session id is the effective session's id: that of the
   authentication when there is one (storage.rs:1660-1664). *)
Definition step (E : env) (s : st) (o : op) : st * outcome handle serr :=
  match o with
  | OToken i tid rt check now nonce => on_handle s i (fun h => begin_token E s h tid rt check now nonce)
  | ORespond i hash => on_handle s i (fun h => finish_token E s h hash)
  | OPassword i u v => on_handle s i (fun h => password E s h u v)
  | OAssume i w => on_handle s i (fun h => assume_identity E s h w)
  | ORestrict i p => on_handle s i (fun h => match with_effective_permissions h p with
                                            | Some h' => (add_handle s h', Done h')
                                            | None => (s, Fail EInvalid)
                                            end)
  | OAssumeSession i sid p => on_handle s i (fun h => match assume_session s h sid p with
                                                     | Done h' => (add_handle s h', Done h')
                                                     | Fail e => (s, Fail e)
                                                     | Panic => (s, Panic)
                                                     end)
  | ODropHandle i => on_handle s i (fun h => (drop_handle s i, Done h))
  | OSubscriber i => on_handle s i (fun h => (fst (register_subscriber s h (h_auth h)), Done h))
  | ODropSubscriber id => (drop_subscriber s id, Done root_handle)
  | OAdmin o => (mkst (Perms.step (adm s) o) (tokens s) (sessions s) (last_id s) (handles s) (subs s) (registry s)
                   (by_session s) (last_sub s) (issued s), Done root_handle)
  | OTokens l => (mkst (adm s) l (sessions s) (last_id s) (handles s) (subs s) (registry s)
                   (by_session s) (last_sub s) (issued s), Done root_handle)
  end.
Fixpoint run (E : env) (s : st) (l : list op) : st * list (outcome handle serr) :=
  match l with
  | [] => (s, [])
  | o :: l' => let '(s1, r) := step E s o in let '(s2, rs) := run E s1 l' in (s2, r :: rs)
  end.
(* A storage that was just opened, with its first handle. *)
Definition opened (a : admin) (ts : list token) : st := mkst a ts [] 0 [Some root_handle] [] [] [] 0 [].
