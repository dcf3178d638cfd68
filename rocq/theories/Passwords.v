(* Passwords: local/src/storage/argon.rs (the pool of hashing threads), the two calls that
   use it (set_user_password, authenticate with a password: local/src/storage.rs) and the
   automatic choice of parameters (argon.rs, local/src/config/argon.rs).
   Simplifications: the Argon2 function itself (crate argon2) is a parameter; the text
   form of a stored hash (crate password-hash: to_string, PasswordHash::new) is a lossless
   record or a text that does not parse; User::load is one atomic read (the two-step read
   by name is C71); a revision is a counter plus the whole contents (in the code a counter
   plus a SHA-256 of the contents). flume channels are first-in first-out and deliver a
   message to exactly one receiver. *)
From Verif Require Import Base.
Local Open Scope N_scope.

(* ---------- hashing ---------- *)

(* argon2::ParamsBuilder / Params: m_cost, t_cost, p_cost and associated data *)
Record params := mkp { m_cost : N; t_cost : N; p_cost : N; p_data : bytes }.

(* argon2::password_hash::PasswordHash as built at argon.rs:240-248 *)
Record phc := mkphc { ph_alg : N; ph_version : N; ph_params : params; ph_salt : option bytes; ph_out : option bytes }.

(* User.argon_hash, admin/user.rs:32: text that parses as a password hash, or not *)
Inductive text := Phc (h : phc) | Garbage.

(* What the argon2 crate supplies. *)
Record crypto := mkcrypto {
  argon : N -> N -> params -> bytes -> bytes -> option bytes;  (* algorithm, version, parameters, salt, password: Err or the hash *)
  build_ok : params -> bool;                                   (* ParamsBuilder::build succeeds *)
  known_alg : N -> bool;                                       (* Algorithm::try_from succeeds *)
  known_version : N -> bool }.                                 (* Version::try_from succeeds *)

Definition V0x13 : N := 19.

(* u64::to_be_bytes *)
Definition be8 (n : N) : bytes :=
  map (fun k => (n / 2 ^ (8 * k)) mod 256) [7; 6; 5; 4; 3; 2; 1; 0].

(* ---------- parameters ---------- *)

Definition u32 : N := 4294967296.

(* config/argon.rs:74-82 *)
Record timed := mktimed { lanes : N; ram_per_hasher : N; minimum_duration : N (* nanoseconds *) }.
(* ArgonParams: config/argon.rs:49-60 *)
Inductive argon_params := Fixed (p : params) | Timed (c : timed).
(* ArgonConfiguration: config/argon.rs:10-21 *)
Record config := mkcfg { hashers : N; algorithm : N; cparams : argon_params }.

(* argon.rs:282-291 *)
Definition ceil_divide (dividend divisor : N) : outcome N unit :=
  if divisor =? 0 then Panic
  else if divisor =? 1 then Done dividend
  else Done ((dividend + (divisor - 1)) / divisor).

(* argon.rs:125-136: the cost to try next. Duration / u32 is the floor of the nanoseconds. *)
Definition next_cost (min min_cost spent total : N) : option N :=
  if 0 <? spent then
    match ceil_divide min (total / spent) with
    | Done c => if c <? u32 then Some (N.max c min_cost) else None (* u32::try_from(..).unwrap() *)
    | _ => None
    end
  else Some min_cost.

Inductive calibrated := Running | Chosen (t : N) | CFailed | CPanicked.

(* argon.rs:119-168, the loop. [clock] is what the clock shows for each attempt: None when
   the clock went backwards (checked_duration_since), Some d nanoseconds otherwise; an
   exhausted clock means the loop is still running. The trace lists the measured attempts
   (cost, duration). Overflowing u32 additions panic (as in a debug build). *)
Fixpoint calibrate (K : crypto) (alg : N) (c : timed) (salt : bytes) (min_cost spent total : N) (clock : list (option N)) : list (N * N) * calibrated :=
  match clock with
  | [] => ([], Running)
  | e :: clock' =>
      match next_cost (minimum_duration c) min_cost spent total with
      | None => ([], CPanicked)
      | Some t =>
          let p := mkp (ram_per_hasher c / 1024) t (lanes c) (be8 0) in
          if negb (build_ok K p) then ([], CFailed)
          else match argon K alg V0x13 p salt [104; 117; 110; 116; 101; 114; 50] with
               | None => ([], CFailed)
               | Some _ =>
                   match e with
                   | None => calibrate K alg c salt min_cost spent total clock'
                   | Some d =>
                       if d <? minimum_duration c then
                         if (u32 <=? spent + t) || (u32 <=? t + 1) then ([(t, d)], CPanicked)
                         else let (tr, r) := calibrate K alg c salt (t + 1) (spent + t) (total + d) clock' in ((t, d) :: tr, r)
                       else ([(t, d)], Chosen t)
                   end
               end
      end
  end.

Inductive initialised := IRunning | ITemplate (p : params) | IError | IPanic.

(* initialize_builder_template: argon.rs:102-171 *)
Definition initialize (K : crypto) (c : config) (salt : bytes) (clock : list (option N)) : initialised :=
  match cparams c with
  | Fixed p => ITemplate p
  | Timed tc =>
      match snd (calibrate K (algorithm c) tc salt 2 0 0 clock) with
      | Running => IRunning
      | Chosen t => ITemplate (mkp (ram_per_hasher tc / 1024) t (lanes tc) (be8 0))
      | CFailed => IError
      | CPanicked => IPanic
      end
  end.

(* TimedArgonParams::default_for, release build: config/argon.rs:145-168. total_memory() is
   in bytes; u32::try_from saturates. Division by zero hashers panics. *)
Definition MINIMUM_RAM_PER_HASHER : N := 19922944.
Definition default_ram (total_memory hashers : N) : outcome N unit :=
  let total := if total_memory <? u32 then total_memory else u32 - 1 in
  if hashers =? 0 then Panic else Done (N.max (total / 32 / hashers) MINIMUM_RAM_PER_HASHER).

(* ArgonConfiguration::default_for, the number of hashers: config/argon.rs:24-45 *)
Definition default_hashers (cpus total_memory : N) : N :=
  let h := (cpus + 3) / 4 in
  let max := let m := total_memory / MINIMUM_RAM_PER_HASHER in if m <? u32 then m else u32 - 1 in
  if (0 <? max) && (max <? h) then max else h.

(* ---------- one request ---------- *)

(* HashRequest: argon.rs:261-266; [rq_client]: whose result channel it carries *)
Record request := mkreq { rq_id : N; rq_pw : bytes; rq_against : option text; rq_client : nat }.
(* Result<HashResponse, Error>: argon.rs:269-272 *)
Inductive response := RHash (t : text) | RVerified | RError.

(* HashingThread::verify: argon.rs:186-202; hash.verify_password recomputes with the
   parameters, the salt, the version and the algorithm of the hash and compares. *)
Definition verify_request (K : crypto) (q : request) (t : text) : response :=
  match t with
  | Garbage => RError
  | Phc h =>
      if negb (known_alg K (ph_alg h)) then RError
      else if negb (known_version K (ph_version h)) then RError
      else if negb (build_ok K (ph_params h)) then RError
      else match ph_salt h, ph_out h with
           | Some salt, Some out =>
               match argon K (ph_alg h) (ph_version h) (ph_params h) salt (rq_pw q) with
               | Some out' => if bytes_eqb out out' then RVerified else RError
               | None => RError
               end
           | _, _ => RError
           end
  end.

(* HashingThread::hash: argon.rs:204-249, with the template at hand *)
Definition hash_request (K : crypto) (c : config) (tmpl : option params) (q : request) (salt : bytes) : response :=
  match tmpl with
  | None => RError
  | Some p =>
      let p := mkp (m_cost p) (t_cost p) (p_cost p) (be8 (rq_id q)) in
      if negb (build_ok K p) then RError
      else match argon K (algorithm c) V0x13 p salt (rq_pw q) with
           | None => RError
           | Some out => RHash (Phc (mkphc (algorithm c) V0x13 p (Some salt) (Some out)))
           end
  end.

(* ---------- the pool and its callers ---------- *)

(* admin/user.rs:17-34 *)
Record user := mku { u_name : bytes; u_groups : list N; u_roles : list N; u_hash : option text }.
Record udoc := mkd { d_id : N; d_rev : N; d_user : user }.

Inductive who := ByName (n : bytes) | ById (i : N).
Inductive call := CSet (w : who) (pw : bytes) | CAuth (w : who) (pw : bytes).
(* what the call returns *)
Inductive result := RSet | RLoggedIn (id : N) | RUserNotFound | RInvalidCredentials | RConflict | RHashError | RChannel.

(* a caller: storage.rs:1098-1110 (set), 786-803 and 1334-1360 (authenticate) *)
Inductive client :=
| CNew (c : call)                          (* before User::load *)
| CLoaded (c : call) (d : udoc)            (* loaded; about to send *)
| CWaiting (c : call) (d : udoc)           (* result_receiver.recv() *)
| CAnswered (c : call) (d : udoc) (a : option response)  (* in the result channel; None: the sender was dropped *)
| CHashed (c : call) (d : udoc) (t : text)               (* set: before user.update *)
| CDone (c : call) (d : option udoc) (r : result).

Inductive worker := WIdle | WBusy (q : request) | WDead.
(* Arc<OnceCell<Result<ParamsBuilder, ArgonError>>> *)
Inductive cell := CellEmpty | CellBusy (w : nat) | CellSet (p : option params).

Record state := mkst { users : list udoc; queue : list request; workers : list worker; tmpl : cell; clients : list client }.

Definition text_eq_dec : forall a b : text, {a = b} + {a <> b}.
Proof. repeat (decide equality; try apply N.eq_dec). Defined.
Definition user_eq_dec : forall a b : user, {a = b} + {a <> b}.
Proof. repeat (decide equality; try apply N.eq_dec; try apply text_eq_dec). Defined.

Definition load (us : list udoc) (w : who) : option udoc :=
  match w with
  | ByName n => find (fun d => bytes_eqb (u_name (d_user d)) n) us
  | ById i => find (fun d => d_id d =? i) us
  end.

Definition pw_of (c : call) : bytes := match c with CSet _ p => p | CAuth _ p => p end.
Definition who_of (c : call) : who := match c with CSet w _ => w | CAuth w _ => w end.

Fixpoint set_nth {A} (n : nat) (x : A) (l : list A) : list A :=
  match n, l with
  | _, [] => []
  | O, _ :: l' => x :: l'
  | S n', y :: l' => y :: set_nth n' x l'
  end.

Definition with_client (s : state) (i : nat) (c : client) : state :=
  mkst (users s) (queue s) (workers s) (tmpl s) (set_nth i c (clients s)).
Definition with_worker (s : state) (w : nat) (x : worker) : state :=
  mkst (users s) (queue s) (set_nth w x (workers s)) (tmpl s) (clients s).
Definition with_cell (s : state) (c : cell) : state :=
  mkst (users s) (queue s) (workers s) c (clients s).
Definition with_users (s : state) (us : list udoc) : state :=
  mkst us (queue s) (workers s) (tmpl s) (clients s).

Definition replace_user (us : list udoc) (d : udoc) : list udoc :=
  map (fun x => if d_id x =? d_id d then d else x) us.

(* The answer in a result channel; nothing happens when the requester does not wait. *)
Definition reply (s : state) (i : nat) (a : option response) : state :=
  match nth_error (clients s) i with
  | Some (CWaiting c d) => with_client s i (CAnswered c d a)
  | _ => s
  end.

Definition alive (w : worker) : bool := match w with WDead => false | _ => true end.

Inductive event :=
| EvCall (c : call)
| EvLoad (i : nat)
| EvSend (i : nat)
| EvTake (w : nat)                       (* receiver.recv() *)
| EvInit (w : nat)                       (* get_or_init enters the initialiser *)
| EvInitDone (w : nat) (salt : bytes) (clock : list (option N))
| EvReply (w : nat) (salt : bytes)
| EvRecv (i : nat)
| EvUpdate (i : nat)
| EvCreate (n : bytes)                   (* create_user *)
| EvDelete (i : N)                       (* delete_user *)
| EvGroups (i : N) (gs rs : list N).     (* adding or removing groups and roles, C61 *)

Definition ev_call (s : state) (c : call) : state :=
  mkst (users s) (queue s) (workers s) (tmpl s) (clients s ++ [CNew c]).

(* storage.rs:1105 and 1344-1345: User::load(..)?.ok_or(..); 794-798: no stored hash *)
Definition ev_load (s : state) (i : nat) : state :=
  match nth_error (clients s) i with
  | Some (CNew c) =>
      match load (users s) (who_of c), c with
      | None, CSet _ _ => with_client s i (CDone c None RUserNotFound)
      | None, CAuth _ _ => with_client s i (CDone c None RInvalidCredentials)
      | Some d, CSet _ _ => with_client s i (CLoaded c d)
      | Some d, CAuth _ _ =>
          match u_hash (d_user d) with
          | None => with_client s i (CDone c (Some d) RInvalidCredentials)
          | Some _ => with_client s i (CLoaded c d)
          end
      end
  | _ => s
  end.

(* argon.rs:44-53, 70-79: sending fails when every thread (receiver) is gone *)
Definition ev_send (s : state) (i : nat) : state :=
  match nth_error (clients s) i with
  | Some (CLoaded c d) =>
      if existsb alive (workers s) then
        let q := mkreq (d_id d) (pw_of c) (match c with CSet _ _ => None | CAuth _ _ => u_hash (d_user d) end) i in
        with_client (mkst (users s) (queue s ++ [q]) (workers s) (tmpl s) (clients s)) i (CWaiting c d)
      else with_client s i (CDone c (Some d) RChannel)
  | _ => s
  end.

(* argon.rs:175: the next request *)
Definition ev_take (s : state) (w : nat) : state :=
  match nth_error (workers s) w, queue s with
  | Some WIdle, q :: qs => mkst (users s) qs (set_nth w (WBusy q) (workers s)) (tmpl s) (clients s)
  | _, _ => s
  end.

(* argon.rs:210-211: get_or_init; at most one thread runs the initialiser, the others wait *)
Definition ev_init (s : state) (w : nat) : state :=
  match nth_error (workers s) w, tmpl s with
  | Some (WBusy q), CellEmpty => match rq_against q with None => with_cell s (CellBusy w) | Some _ => s end
  | _, _ => s
  end.

(* the initialiser returns (the result, even an error, is kept) or panics: the cell stays
   empty, the thread ends and drops the request with its result channel *)
Definition ev_init_done (K : crypto) (c : config) (s : state) (w : nat) (salt : bytes) (clock : list (option N)) : state :=
  match nth_error (workers s) w, tmpl s with
  | Some (WBusy q), CellBusy w' =>
      if (w =? w')%nat then
        match initialize K c salt clock with
        | IRunning => s
        | ITemplate p => with_cell s (CellSet (Some p))
        | IError => with_cell s (CellSet None)
        | IPanic => reply (with_worker (with_cell s CellEmpty) w WDead) (rq_client q) None
        end
      else s
  | _, _ => s
  end.

(* argon.rs:176-181 *)
Definition ev_reply (K : crypto) (c : config) (s : state) (w : nat) (salt : bytes) : state :=
  match nth_error (workers s) w with
  | Some (WBusy q) =>
      match rq_against q with
      | Some t => reply (with_worker s w WIdle) (rq_client q) (Some (verify_request K q t))
      | None =>
          match tmpl s with
          | CellSet p => reply (with_worker s w WIdle) (rq_client q) (Some (hash_request K c p q salt))
          | _ => s
          end
      end
  | _ => s
  end.

(* argon.rs:55-59 (hash), 81-87 (verify); recv()? fails when the sender is gone *)
Definition ev_recv (s : state) (i : nat) : state :=
  match nth_error (clients s) i with
  | Some (CAnswered c d None) => with_client s i (CDone c (Some d) RChannel)
  | Some (CAnswered (CSet w pw) d (Some (RHash t))) => with_client s i (CHashed (CSet w pw) d t)
  | Some (CAnswered (CSet w pw) d (Some _)) => with_client s i (CDone (CSet w pw) (Some d) RHashError)
  | Some (CAnswered (CAuth w pw) d (Some RError)) => with_client s i (CDone (CAuth w pw) (Some d) RInvalidCredentials)
  | Some (CAnswered (CAuth w pw) d (Some _)) => with_client s i (CDone (CAuth w pw) (Some d) (RLoggedIn (d_id d)))
  | _ => s
  end.

(* user.update: document/collection.rs:88-101, Docs.v: the stored document must be the
   loaded one; unchanged contents keep the revision *)
Definition ev_update (s : state) (i : nat) : state :=
  match nth_error (clients s) i with
  | Some (CHashed c d t) =>
      match find (fun x => d_id x =? d_id d) (users s) with
      | None => with_client s i (CDone c (Some d) RConflict)
      | Some x =>
          if (d_rev x =? d_rev d) && (if user_eq_dec (d_user x) (d_user d) then true else false) then
            let u := mku (u_name (d_user d)) (u_groups (d_user d)) (u_roles (d_user d)) (Some t) in
            let x' := if user_eq_dec u (d_user x) then x else mkd (d_id d) (d_rev d + 1) u in
            with_client (with_users s (replace_user (users s) x')) i (CDone c (Some d) RSet)
          else with_client s i (CDone c (Some d) RConflict)
      end
  | _ => s
  end.

(* create_user: storage.rs:1069-1083, User::push_into; names are unique (C29); the new id is
   the largest present id plus one, 1 for the first (C10) *)
Definition ev_create (s : state) (n : bytes) : state :=
  if existsb (fun d => bytes_eqb (u_name (d_user d)) n) (users s) then s
  else let i := fold_right (fun d m => N.max (d_id d + 1) m) 1 (users s) in
       with_users s (users s ++ [mkd i 0 (mku n [] [] None)]).

(* delete_user: storage.rs:1085-1095 *)
Definition ev_delete (s : state) (i : N) : state :=
  with_users s (filter (fun d => negb (d_id d =? i)) (users s)).

(* storage.rs:725-752: groups and roles of a user change, everything else is kept *)
Definition ev_groups (s : state) (i : N) (gs rs : list N) : state :=
  with_users s (map (fun d => if d_id d =? i then mkd i (d_rev d + 1) (mku (u_name (d_user d)) gs rs (u_hash (d_user d))) else d) (users s)).

Definition step (K : crypto) (c : config) (s : state) (e : event) : state :=
  match e with
  | EvCall x => ev_call s x
  | EvLoad i => ev_load s i
  | EvSend i => ev_send s i
  | EvTake w => ev_take s w
  | EvInit w => ev_init s w
  | EvInitDone w salt clock => ev_init_done K c s w salt clock
  | EvReply w salt => ev_reply K c s w salt
  | EvRecv i => ev_recv s i
  | EvUpdate i => ev_update s i
  | EvCreate n => ev_create s n
  | EvDelete i => ev_delete s i
  | EvGroups i gs rs => ev_groups s i gs rs
  end.

Definition run (K : crypto) (c : config) (s : state) (es : list event) : state := fold_left (step K c) es s.

(* Hasher::new: argon.rs:22-41: at least one thread; a storage without users *)
Definition init (c : config) : state :=
  mkst [] [] (repeat WIdle (N.to_nat (N.max (hashers c) 1))) CellEmpty [].
