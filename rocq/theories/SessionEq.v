(* Which sessions and identities are equal, and how they hash (crates/bonsaidb-core/src/connection.rs:3618-3801).
   Simplified: a hasher is what is fed to it, in order; permissions are the set of actions allowed. *)
From Verif Require Import Base.
Local Open Scope N_scope.

(* Identity, connection.rs:3757-3774 *)
Inductive identity := IUser (id : N) (username : bytes) | IRole (id : N) (name : bytes).
(* PartialEq for Identity, connection.rs:3778-3786 *)
Definition identity_eqb (a b : identity) : bool :=
  match a, b with IUser i _, IUser j _ | IRole i _, IRole j _ => i =? j | _, _ => false end.
(* Hash for Identity, connection.rs:3788-3801: what is fed to the hasher *)
Definition identity_fed (a : identity) : N * N := match a with IUser i _ => (0, i) | IRole i _ => (1, i) end.
(* SessionAuthentication, connection.rs:3630-3650, with derived Eq and Hash: the variant,
   then the fields. Algorithm: the only one. Nonce: 32 bytes *)
Inductive authentication := ANone | AIdentity (i : identity) | AChallenge (id : N) (nonce : bytes) (server : N).
Definition authentication_eqb (a b : authentication) : bool :=
  match a, b with
  | ANone, ANone => true
  | AIdentity i, AIdentity j => identity_eqb i j
  | AChallenge i n s, AChallenge j m t => (i =? j) && bytes_eqb n m && (s =? t)
  | _, _ => false
  end.
Definition authentication_fed (a : authentication) : N * (N * N) * bytes * N :=
  match a with
  | ANone => (0, (0, 0), [], 0)
  | AIdentity i => (1, identity_fed i, [], 0)
  | AChallenge i n s => (2, (0, i), n, s)
  end.
(* Session, connection.rs:3618-3628; its permissions: the actions it may do *)
Record session := mk_session { s_id : option N; s_auth : authentication; s_allows : N -> bool }.
(* PartialEq and Hash for Session, connection.rs:3747-3757 *)
Definition session_eqb (a b : session) : bool := authentication_eqb (s_auth a) (s_auth b).
Definition session_fed (a : session) := authentication_fed (s_auth a).
(* Session::identity, connection.rs:3733-3742 *)
Definition session_identity (a : session) : option identity := match s_auth a with AIdentity i => Some i | _ => None end.
