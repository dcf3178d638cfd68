(* What a user of the key-value store relies on, without buffers, batches,
   threads or expiration queues: a map from keys to a value and an optional
   expiration. Uses only the data types of Kv.v (values, commands, results,
   timestamps, events), none of its functions on states. *)
From Verif Require Import Kv.
Local Open Scope Z_scope.

Definition cell : Type := value * option ts.
Definition kmap := bytes -> option cell.

(* ---------- numbers ---------- *)
Definition clamp (lo hi z : Z) : Z := Z.max lo (Z.min hi z).
Definition wrap (lo hi z : Z) : Z := lo + (z - lo) mod (hi - lo + 1).
Definition fit (saturating : bool) (lo hi z : Z) : Z := if saturating then clamp lo hi z else wrap lo hi z.
Definition num_ok (x : numeric) : Prop :=
  match x with
  | NInt z => - 2 ^ 63 <= z <= 2 ^ 63 - 1
  | NUInt z => 0 <= z <= 2 ^ 64 - 1
  | NFloat f => True
  end.
Definition val_ok (v : value) : Prop := match v with VNum x => num_ok x | VBytes _ => True end.
(* the number as an integer between lo and hi: integers are fitted, floats are
   rounded towards zero and always clamped (NaN is 0) *)
Definition to_int (saturating : bool) (lo hi : Z) (x : numeric) : Z :=
  match x with
  | NInt z => fit saturating lo hi z
  | NUInt z => fit saturating lo hi z
  | NFloat S754_nan => 0
  | NFloat (S754_zero _) => 0
  | NFloat (S754_infinity s) => if s then lo else hi
  | NFloat (S754_finite s m e) =>
      clamp lo hi (Z.quot ((if s then -1 else 1) * Zpos m * 2 ^ Z.max 0 e) (2 ^ Z.max 0 (- e)))
  end.
(* the nearest binary64 number (IEEE 754, ties to even) *)
Definition to_float (x : numeric) : spec_float :=
  match x with NInt z => binary_normalize 53 1024 z 0 false | NUInt z => binary_normalize 53 1024 z 0 false | NFloat f => f end.
(* arithmetic in the type of the amount *)
Definition spec_num (sub : bool) (existing amount : numeric) (saturating : bool) : numeric :=
  match amount with
  | NInt a => let x := to_int saturating (- 2 ^ 63) (2 ^ 63 - 1) existing in
              NInt (fit saturating (- 2 ^ 63) (2 ^ 63 - 1) (if sub then x - a else x + a))
  | NUInt a => let x := to_int saturating 0 (2 ^ 64 - 1) existing in
               NUInt (fit saturating 0 (2 ^ 64 - 1) (if sub then x - a else x + a))
  | NFloat a => let x := to_float existing in
                NFloat (if sub then SFsub 53 1024 x a else SFadd 53 1024 x a)
  end.
Definition is_nan (v : value) : bool := match v with VNum (NFloat S754_nan) => true | _ => false end.

(* ---------- commands on one key ---------- *)
Definition spec_arith (sub : bool) (amount : numeric) (saturating : bool) (cur : option cell) : kresult * option cell :=
  let c := match cur with Some c => c | None => (VNum (NUInt 0), None) end in
  match fst c with
  | VBytes _ => (KErr ENotNumeric, cur)
  | VNum x =>
      let y := VNum (spec_num sub x amount saturating) in
      if is_nan y then (KErr ENotANumber, cur) else (KOk (OValue (Some y)), Some (y, snd c))
  end.
Definition spec_cmd (c : command) (cur : option cell) : kresult * option cell :=
  match c with
  | CGet false => (KOk (OValue (option_map fst cur)), cur)
  | CGet true => (KOk (OValue (option_map fst cur)), None)
  | CDelete => (KOk (OStatus (match cur with Some _ => Deleted | None => NotChanged end)), None)
  | CIncr a sat => spec_arith false a sat cur
  | CDecr a sat => spec_arith true a sat cur
  | CSet sc =>
      if is_nan (s_val sc) then (KErr ENotANumber, cur)
      else if match s_check sc, cur with
              | Some OnlyIfPresent, None => true
              | Some OnlyIfVacant, Some _ => true
              | _, _ => false
              end
           then (KOk (OStatus NotChanged), cur)
      else (KOk (if s_ret sc then OValue (option_map fst cur)
                 else OStatus (match cur with Some _ => Updated | None => Inserted end)),
            Some (s_val sc, match s_keep sc, cur with true, Some (_, x) => x | _, _ => s_exp sc end))
  end.

(* ---------- the map over time ---------- *)
Definition expired (now : ts) (c : cell) : bool := match snd c with Some t => ts_leb t now | None => false end.
Definition purge (now : ts) (m : kmap) : kmap :=
  fun k => match m k with Some c => if expired now c then None else Some c | None => None end.
Definition put (k : bytes) (c : option cell) (m : kmap) : kmap := fun j => if bytes_eqb j k then c else m j.
(* only operations and the background worker's clock matter; persistence does not *)
Definition spec_event (m : kmap) (e : event) : option kresult * kmap :=
  match e with
  | EOp ns key c now =>
      let m1 := purge now m in
      let k := full_key ns key in
      let '(r, cell) := spec_cmd c (m1 k) in (Some r, put k cell m1)
  | ETick now => (None, purge now m)
  | _ => (None, m)
  end.
Fixpoint spec_run (m : kmap) (es : list event) : list kresult * kmap :=
  match es with
  | [] => ([], m)
  | e :: r => let '(o, m1) := spec_event m e in
              let '(rs, m2) := spec_run m1 r in
              (match o with Some x => x :: rs | None => rs end, m2)
  end.

(* what is visible in a state, and on disk *)
Definition cell_of (e : entry) : cell := (e_val e, e_exp e).
Definition disk_map (d : tree entry) : kmap := fun k => option_map cell_of (t_get k d).

(* no expiration loader among the events; numbers in their types' ranges *)
Definition no_loader (e : event) : Prop := match e with ESnap _ | ELoad => False | _ => True end.
Definition cmd_ok (c : command) : Prop :=
  match c with
  | CSet sc => val_ok (s_val sc)
  | CIncr a _ | CDecr a _ => num_ok a
  | _ => True
  end.
Definition event_ok (e : event) : Prop := match e with EOp _ _ c _ => cmd_ok c | _ => True end.
Definition disk_ok (d : tree entry) : Prop := t_wf d /\ forall k e, t_get k d = Some e -> val_ok (e_val e).

(* a database opened on stored data whose expiration loader has finished before
   anything else happened *)
Fixpoint load_all (n : nat) (s : kst) : option kst :=
  match n with O => Some s | S n' => match load_one s with Some s1 => load_all n' s1 | None => None end end.
Definition opened (p : policy) (now launched : ts) (d : tree entry) : option kst :=
  let s := load_snapshot launched (kv_open p now d) in load_all (length (k_load s)) s.
