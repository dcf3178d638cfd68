(* The command-line tools: typing a password (crates/bonsaidb-local/src/cli.rs:101-209), the
   user commands (cli/admin.rs:61-109), naming a schema item (cli/schema.rs:99-119), and
   what `bonsaidb` does with its options before a command runs (crates/bonsaidb/src/cli.rs:26-122,
   crates/bonsaidb-server/src/cli.rs:37-46).
   Simplified: terminal errors (they end the command before anything else happens) and
   what is printed are not modelled; clap has parsed the arguments. *)
From Verif Require Import Base Utf8 Names.
Local Open Scope N_scope.

(* ---------- typing a password ---------- *)
(* u8::is_ascii_control *)
Definition is_control (b : N) : bool := (b <? 32) || (b =? 127).
(* read_password_loop, cli.rs:157-209. [typed]: the characters of the SensitiveString.
   None: cancelled. Also what is left of the input; its end ends the password (181-183) *)
Fixpoint read_line (typed : str) (input : list N) : option str * list N :=
  match input with
  | [] => (Some typed, [])
  | b :: r =>
      if (b =? 27) || (b =? 3) then (None, r)
      else if b =? 127 then read_line (removelast typed) r
      else if b =? 21 then read_line [] r
      else if (b =? 10) || (b =? 13) || (b =? 4) then (Some typed, r)
      else if is_control b then read_line typed r
      else read_line (typed ++ [b]) r    (* other as char *)
  end.
Inductive typed_password := Typed (p : str) | Cancelled | Mismatch.
Fixpoint str_eqb (a b : str) : bool :=
  match a, b with [], [] => true | x :: a, y :: b => (x =? y) && str_eqb a b | _, _ => false end.
(* read_password_from_stdin, cli.rs:107-118 with read_sensitive_input_from_stdin, 133-155 *)
Definition read_password (confirm : bool) (input : list N) : typed_password * list N :=
  match read_line [] input with
  | (None, r) => (Cancelled, r)
  | (Some p, r) =>
      if confirm then
        match read_line [] r with
        | (None, r') => (Cancelled, r')
        | (Some q, r') => (if str_eqb p q then Typed p else Mismatch, r')
        end
      else (Typed p, r)
  end.

(* ---------- the user commands ---------- *)
Inductive user_command :=
| Create (user : bytes) (password : bool) | SetPassword (user : bytes)
| AddRole (user role : bytes) | RemoveRole (user role : bytes)
| AddGroup (user group : bytes) | RemoveGroup (user group : bytes).
(* the calls of StorageConnection a command makes; a user is named or given by its id *)
Inductive user_ref := Id (i : N) | Named (n : bytes).
Inductive call :=
| CCreateUser (n : bytes) | CSetUserPassword (u : user_ref) (p : str)
| CAddRole (u r : bytes) | CRemoveRole (u r : bytes) | CAddGroup (u g : bytes) | CRemoveGroup (u g : bytes).

Section Admin.
(* the storage: what a call does and answers. create_user answers with the new id; the
   other calls' answer is not looked at *)
Context {St E : Type} (perform : call -> St -> St * (N + E)).
Inductive done := Fine | Unread (t : typed_password) | Failed (e : E).
Definition one (c : call) (s : St) : St * done := match perform c s with (s', inl _) => (s', Fine) | (s', inr e) => (s', Failed e) end.
(* Command::execute, admin.rs:61-109 (execute_async, 112-173, the same) *)
Definition execute (c : user_command) (input : list N) (s : St) : St * done :=
  match c with
  | Create user password =>
      match (if password then match fst (read_password true input) with Typed p => inl (Some p) | t => inr t end else inl None) with
      | inr t => (s, Unread t)
      | inl o =>
          match perform (CCreateUser user) s with
          | (s1, inr e) => (s1, Failed e)
          | (s1, inl id) => match o with Some p => one (CSetUserPassword (Id id) p) s1 | None => (s1, Fine) end
          end
      end
  | SetPassword user =>
      match fst (read_password true input) with
      | Typed p => one (CSetUserPassword (Named user) p) s
      | t => (s, Unread t)
      end
  | AddRole u r => one (CAddRole u r) s
  | RemoveRole u r => one (CRemoveRole u r) s
  | AddGroup u g => one (CAddGroup u g) s
  | RemoveGroup u g => one (CRemoveGroup u g) s
  end.
End Admin.
Arguments done E : clear implicits.

(* ---------- naming a schema item ---------- *)
Inductive item := IView (v : vname) | ICollection (c : qname).
(* FromStr for CollectionOrView, schema.rs:109-118; ViewName and CollectionName, names.rs:332-384 *)
Definition item_of (s : bytes) : option item :=
  match v_parse s with Some v => Some (IView v) | None => option_map ICollection (q_parse s) end.
(* print_schema_list and print_collection_list print names with Display, schema.rs:75-94 *)
Definition listed (q : qname) : bytes := display_q false q.

(* ---------- the options of bonsaidb ---------- *)
Record options := mk_options { o_url : option bytes; o_pin : option bytes; o_token : option N; o_user : option bytes }.
(* a built-in server command, or one of the application's *)
Inductive kind := Builtin | External.
Inductive identity := ByPassword (user : bytes) (p : str) | ByToken (id : N).
Inductive target := Local | Remote (url : bytes) (pin : option bytes).
(* everything the tool does, in order. Authenticate: on the connection the step before
   returned *)
Inductive action :=
| ReadPin (path : bytes) | Refuse | OpenServer | Connect (url : bytes) (pin : option bytes)
| Authenticate (i : identity) | RunBuiltin | RunExternal (t : target) (who : list identity).
Section Tool.
(* whether an action succeeds, knowing those before (newest first); whether the token's secret
   is in the environment *)
Variable works : list action -> action -> bool.
Variable has_secret : bool.
(* a step: [l] is what was done, newest first *)
Definition act (a : action) (l : list action) (k : list action -> list action * bool) : list action * bool :=
  if works l a then k (a :: l) else (a :: l, false).
(* Command::execute, cli.rs:36-90 *)
Definition authenticated (o : options) (input : list N) (t : target) (l : list action) : list action * bool :=
  let go (who : list identity) (l : list action) : list action * bool :=
    match o_token o with
    | Some id =>
        if has_secret
        then act (Authenticate (ByToken id)) l (fun l => act (RunExternal t (who ++ [ByToken id])) l (fun l => (l, true)))
        else (l, false)
    | None => act (RunExternal t who) l (fun l => (l, true))
    end in
  match o_user o with
  | Some u =>
      match fst (read_password false input) with
      | Typed p => act (Authenticate (ByPassword u p)) l (go [ByPassword u p])
      | _ => (l, false)
      end
  | None => go [] l
  end.
Definition command (k : kind) (o : options) (input : list N) (l : list action) : list action * bool :=
  match k with
  | Builtin =>
      match o_url o with
      | Some _ => (Refuse :: l, false)
      | None => act OpenServer l (fun l => act RunBuiltin l (fun l => (l, true)))
      end
  | External =>
      match o_url o with
      | Some url => act (Connect url (o_pin o)) l (authenticated o input (Remote url (o_pin o)))
      | None => act OpenServer l (authenticated o input Local)
      end
  end.
(* Args::execute, cli.rs:119-140 *)
Definition tool (k : kind) (o : options) (input : list N) : list action * bool :=
  match o_pin o with
  | Some path => act (ReadPin path) [] (command k o input)
  | None => command k o input []
  end.
End Tool.
