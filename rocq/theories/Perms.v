(* Users, roles and permission groups of the admin database:
   crates/bonsaidb-core/src/admin/{user,role,group}.rs and the user functions of
   crates/bonsaidb-local/src/storage.rs. A permission statement is a number
   (statements are opaque here: `actionable` merges permissions by collecting
   their statements, and grants an action when some statement grants it). *)
From Verif Require Import Base.
Local Open Scope N_scope.

Definition stmt := N.
Definition pname := list N.
Record group := mkgroup { g_id : N; g_name : pname; g_statements : list stmt }.
Record role := mkrole { r_id : N; r_name : pname; r_groups : list N }.
Record user := mkuser { u_id : N; u_name : pname; u_groups : list N; u_roles : list N }.
Record admin := mkadmin { groups : list group; roles : list role; users : list user }.

(* SerializedCollection::get_multiple: the documents that exist among the ids
   (each once, missing ids skipped; the order plays no role here). *)
Definition has (l : list N) (i : N) : bool := existsb (N.eqb i) l.
Definition get_groups (a : admin) (ids : list N) : list group := filter (fun g => has ids (g_id g)) (groups a).
Definition get_roles (a : admin) (ids : list N) : list role := filter (fun r => has ids (r_id r)) (roles a).

(* Vec::dedup: consecutive repetitions *)
Fixpoint dedup (l : list N) : list N :=
  match l with
  | [] => []
  | x :: l' => match l' with
               | y :: _ => if x =? y then dedup l' else x :: dedup l'
               | [] => [x]
               end
  end.
(* Itertools::unique *)
Fixpoint unique (l : list N) : list N :=
  match l with
  | [] => []
  | x :: l' => x :: filter (fun y => negb (y =? x)) (unique l')
  end.

(* Permissions::merged (actionable) *)
Definition merged (l : list (list stmt)) : list stmt := concat l.

(* role.rs:55-73 Role::effective_permissions *)
Definition role_permissions (a : admin) (r : role) (inherit : list stmt) : list stmt :=
  merged (map g_statements (get_groups a (r_groups r)) ++ [inherit]).

(* user.rs:62-97 User::effective_permissions *)
Definition user_permissions (a : admin) (u : user) (inherit : list stmt) : list stmt :=
  let role_groups :=
    match u_roles u with
    | [] => []
    | _ :: _ =>
        (* user.rs:72: Role::get_multiple(self.groups.iter(), admin) *)
        unique (flat_map r_groups (get_roles a (u_groups u)))
    end in
  let gs :=
    match role_groups with
    | [] => get_groups a (u_groups u)
    | _ :: _ => get_groups a (dedup (role_groups ++ u_groups u))
    end in
  merged (map g_statements gs ++ [inherit]).

(* ---------- changing a user's groups and roles ---------- *)
(* Nameable / NamedReference (schema/collection.rs:1560-1700) *)
Inductive ref := ByName (n : pname) | ById (i : N).
Inductive perr := EUserNotFound | EDenied | EUnique.

Definition peq (a b : pname) : bool := if list_eq_dec N.eq_dec a b then true else false.
(* User::load: schema/collection.rs:1440-1459 *)
Definition load_user (a : admin) (r : ref) : option user :=
  match r with
  | ById i => find (fun u => u_id u =? i) (users a)
  | ByName n => find (fun u => peq (u_name u) n) (users a)
  end.
(* NamedReference::id::<Col>: schema/collection.rs:1660-1676; an id is not checked for existence *)
Definition group_ref (a : admin) (r : ref) : option N :=
  match r with
  | ById i => Some i
  | ByName n => option_map g_id (find (fun g => peq (g_name g) n) (groups a))
  end.
Definition role_ref (a : admin) (r : ref) : option N :=
  match r with
  | ById i => Some i
  | ByName n => option_map r_id (find (fun x => peq (r_name x) n) (roles a))
  end.

Definition save_user (a : admin) (u : user) : admin :=
  mkadmin (groups a) (roles a) (map (fun x => if u_id x =? u_id u then u else x) (users a)).

(* storage.rs:722-752 update_user_with_named_id. [allowed]: the check_permission
   of storage.rs:1376-1470 on the user's id (always Ok without a session).
   The read and the write of the user are one step here; a concurrent change of
   the same user makes `update` fail with DocumentConflict (see Docs.v). *)
Definition update_user (a : admin) (allowed : N -> bool) (u : ref) (other : option N)
    (f : user -> N -> user * bool) : admin * outcome unit perr :=
  match load_user a u, other with
  | Some x, Some o =>
      if allowed (u_id x) then
        let '(x', changed) := f x o in
        (if changed then save_user a x' else a, Done tt)
      else (a, Fail EDenied)
  | _, _ => (a, Fail EUserNotFound)
  end.

(* storage.rs:875-911 *)
Definition add_group_inner (u : user) (g : N) : user * bool :=
  if has (u_groups u) g then (u, false)
  else (mkuser (u_id u) (u_name u) (u_groups u ++ [g]) (u_roles u), true).
Definition remove_group_inner (u : user) (g : N) : user * bool :=
  let l := filter (fun x => negb (x =? g)) (u_groups u) in
  (mkuser (u_id u) (u_name u) l (u_roles u), negb (Nat.eqb (length (u_groups u)) (length l))).
Definition add_role_inner (u : user) (r : N) : user * bool :=
  if has (u_roles u) r then (u, false)
  else (mkuser (u_id u) (u_name u) (u_groups u) (u_roles u ++ [r]), true).
Definition remove_role_inner (u : user) (r : N) : user * bool :=
  let l := filter (fun x => negb (x =? r)) (u_roles u) in
  (mkuser (u_id u) (u_name u) (u_groups u) l, negb (Nat.eqb (length (u_roles u)) (length l))).

(* storage.rs:1376-1470 (and 1142-1215 without the check) *)
Definition add_permission_group_to_user a allowed u g := update_user a allowed u (group_ref a g) add_group_inner.
Definition remove_permission_group_from_user a allowed u g := update_user a allowed u (group_ref a g) remove_group_inner.
(* storage.rs:1433-1450: the role is looked up as a PermissionGroup *)
Definition add_role_to_user a allowed u r := update_user a allowed u (group_ref a r) add_role_inner.
Definition remove_role_from_user a allowed u r := update_user a allowed u (role_ref a r) remove_role_inner.

(* storage.rs:1073-1081, 1276-1282 create_user: push; the id is the next one,
   which is not in use (PropAutoId); user names are unique (user.rs:104-111). *)
Definition fresh_user (a : admin) : N := fold_right (fun u m => N.max (u_id u + 1) m) 0 (users a).
Definition create_user (a : admin) (allowed : bool) (n : pname) : admin * outcome N perr :=
  if negb allowed then (a, Fail EDenied)
  else if existsb (fun u => peq (u_name u) n) (users a) then (a, Fail EUnique)
  else (mkadmin (groups a) (roles a) (users a ++ [mkuser (fresh_user a) n [] []]), Done (fresh_user a)).
(* storage.rs:1083-1094, 1284-1298 delete_user *)
Definition delete_user (a : admin) (allowed : N -> bool) (u : ref) : admin * outcome unit perr :=
  match load_user a u with
  | None => (a, Fail EUserNotFound)
  | Some x =>
      if allowed (u_id x) then
        (mkadmin (groups a) (roles a) (filter (fun y => negb (u_id y =? u_id x)) (users a)), Done tt)
      else (a, Fail EDenied)
  end.

Inductive op :=
| OAddGroup (allowed : N -> bool) (u g : ref)
| ORemoveGroup (allowed : N -> bool) (u g : ref)
| OAddRole (allowed : N -> bool) (u r : ref)
| ORemoveRole (allowed : N -> bool) (u r : ref)
| OCreateUser (allowed : bool) (n : pname)
| ODeleteUser (allowed : N -> bool) (u : ref).
Definition step (a : admin) (o : op) : admin :=
  match o with
  | OAddGroup al u g => fst (add_permission_group_to_user a al u g)
  | ORemoveGroup al u g => fst (remove_permission_group_from_user a al u g)
  | OAddRole al u r => fst (add_role_to_user a al u r)
  | ORemoveRole al u r => fst (remove_role_from_user a al u r)
  | OCreateUser al n => fst (create_user a al n)
  | ODeleteUser al u => fst (delete_user a al u)
  end.
Definition run (a : admin) (l : list op) : admin := fold_left step l a.
