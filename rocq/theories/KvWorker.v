(* The background worker of the key-value store: when it sleeps, what wakes it and
   when it acts (bonsaidb-local/src/database/keyvalue.rs), on top of the store
   itself (Kv.v). *)
From Coq Require Import List NArith Bool Lia.
From Verif Require Import Base Tree Kv.
Import ListNotations.
Local Open Scope N_scope.

Definition u64_max : N := 18446744073709551615.
(* core/src/keyvalue/timestamp.rs 64-76: Add<Duration>, with saturating seconds and
   the loop that stops at 1_000_000_000 (one pass suffices: nanos is at most
   1_999_999_998 for a clock reading; at most twice 1_000_000_000 in general) *)
Definition ts_add (a : ts) (d : N) : ts :=
  let nanos := t_nano a + d mod 1000000000 in
  let secs := N.min u64_max (t_sec a + d / 1000000000) in
  if 1000000000 <? nanos then Ts (N.min u64_max (secs + 1)) (nanos - 1000000000) else Ts secs nanos.
(* Ord::min of the derived order: the first of two equal values *)
Definition ts_min (a b : ts) : ts := if ts_leb a b then a else b.

(* keyvalue.rs 826-831 (BackgroundWorkerProcessTarget) *)
Inductive target := TNow | TAt (t : ts) | TNever.
Definition ts_eqb (a b : ts) : bool := (t_sec a =? t_sec b) && (t_nano a =? t_nano b).
Definition target_eqb (a b : target) : bool :=
  match a, b with TNow, TNow => true | TAt x, TAt y => ts_eqb x y | TNever, TNever => true | _, _ => false end.

(* where the thread of background_worker is (keyvalue.rs 774-823): at the top of the
   loop; in watch() having read version v; in watch_timeout(d) entered when the
   monotonic clock showed [from]; or with perform_operations = true, before the
   lock of the state *)
Inductive phase := WTop | WNever (v : N) | WSleep (v : N) (from d : N) | WWork.

(* the state of the store, the Watchable with its version (every replace and every
   update to a different value counts it up and wakes the watchers), the thread *)
Record wst := Wst { w_kv : kst; w_target : target; w_ver : N; w_phase : phase }.
Definition w_set (s : kst) (w : wst) : wst := Wst s (w_target w) (w_ver w) (w_phase w).
Definition at_phase (p : phase) (w : wst) : wst := Wst (w_kv w) (w_target w) (w_ver w) p.
(* Watchable::replace and Watchable::update (watchable crate) *)
Definition t_replace (t : target) (w : wst) : wst := Wst (w_kv w) t (w_ver w + 1) (w_phase w).
Definition t_update (t : target) (w : wst) : wst := if target_eqb (w_target w) t then w else t_replace t w.

(* keyvalue.rs 595-598. None: unwrap panics. *)
Definition first_expiration (s : kst) : option (option ts) :=
  match k_order s with
  | [] => Some None
  | k :: _ => match t_get k (k_exp s) with Some t => Some (Some t) | None => None end
  end.
(* keyvalue.rs 600-610 *)
Definition commit_target (s : kst) (now : ts) : option ts :=
  match k_pers s with
  | Some _ => None
  | None => option_map (ts_add now)
              (until_commit (k_pol s) (N.of_nat (length (k_dirty s))) (match ts_sub now (k_last s) with Some d => d | None => 0 end))
  end.
(* keyvalue.rs 594-631 (update_background_worker_target), computed from s. The guard
   of the first arm is tried for both alternatives of its pattern. *)
Definition retarget (s : kst) (now : ts) (w : wst) : option wst :=
  match first_expiration s with
  | None => None
  | Some ke =>
      let ct := commit_target s now in
      let is_due o := match o with Some t => ts_leb t now | None => false end in
      Some (if is_due ct || is_due ke then t_replace TNow w
            else match ct, ke with
                 | Some c, Some k => t_update (TAt (ts_min k c)) w
                 | Some t, None | None, Some t => t_update (TAt t) w
                 | None, None => t_update TNever w
                 end)
  end.

(* keyvalue.rs 381-396: where update_key_expiration inserts *)
Fixpoint insert_index (exps : tree ts) (t : ts) (l : list bytes) : option nat :=
  match l with
  | [] => None
  | j :: r => match t_get j exps with
              | Some tj => if ts_ltb t tj then Some O else option_map S (insert_index exps t r)
              | None => None
              end
  end.
(* changed_first_expiration of update_key_expiration, keyvalue.rs 357-415 *)
Definition changed_first (s : kst) (k : bytes) (e : option ts) : bool :=
  let is0 o := match o with Some O => true | _ => false end in
  match e with
  | Some t =>
      let '(c0, o1) := match t_get k (k_exp s), find_index (bytes_eqb k) (k_order s) with
                       | Some _, Some i => (is0 (Some i), remove_at i (k_order s))
                       | _, _ => (false, k_order s)
                       end in
      match insert_index (k_exp s) t o1 with
      | Some i => c0 || is0 (Some i)
      | None => c0 || match o1 with [] => true | _ => false end
      end
  | None => match t_get k (k_exp s) with Some _ => is0 (find_index (bytes_eqb k) (k_order s)) | None => false end
  end.

(* What can happen. [WKv e now]: an event of the store of Kv.v, where [now] is the
   clock when update_background_worker_target runs at its end; ETick is the
   worker's own work (keyvalue.rs 810-822). [WRead now mono]: the worker reads the
   target and decides (780-808), at the time [now] of the system clock and [mono]
   of the monotonic clock that timeouts are measured with. [WWake mono]: watch or
   watch_timeout returns. *)
Inductive wevent := WKv (e : event) (now : ts) | WRead (now : ts) (mono : N) | WWake (mono : N).
Definition day : N := 60 * 60 * 24 * 1000000000.

Inductive wres := WPanic | WDisabled | WOk (r : option kresult) (w : wst).
Definition wlift (r : option kresult) (o : option wst) : wres := match o with Some w => WOk r w | None => WPanic end.

Definition wstep (w : wst) (ev : wevent) : wres :=
  match ev with
  | WKv e now =>
      match e with
      | ETick _ =>
          match w_phase w with
          | WWork => match step (w_kv w) e with
                     | SPanic => WPanic
                     | SDisabled => WDisabled
                     | SOk r s => wlift r (retarget s now (at_phase WTop (w_set s w)))
                     end
          | _ => WDisabled
          end
      | _ =>
          match step (w_kv w) e with
          | SPanic => WPanic
          | SDisabled => WDisabled
          | SOk r s =>
              match e with
              (* perform_kv_operation, keyvalue.rs 282-287: only after a success. The
                 earlier update within update_key_expiration (418) is followed by this
                 one under the same lock and left out. *)
              | EOp _ _ _ _ => match r with
                               | Some (KOk _) => wlift r (retarget s now (w_set s w))
                               | _ => WOk r (w_set s w)
                               end
              (* persist_keys, keyvalue.rs 748-750: before a shutdown stages again *)
              | EFinish => wlift r (retarget (set_thread None (set_pers None (w_kv w))) now (w_set s w))
              (* ExpirationLoader: update_key_expiration, keyvalue.rs 417-419 *)
              | ELoad => match k_load (w_kv w) with
                         | [] => WOk r (w_set s w)
                         | (k, x) :: l => if changed_first (w_kv w) k x then wlift r (retarget s now (w_set s w)) else WOk r (w_set s w)
                         end
              | _ => WOk r (w_set s w)
              end
          end
      end
  | WRead now mono =>
      match w_phase w with
      | WTop => WOk None (at_phase (match w_target w with
                                    | TNever => WNever (w_ver w)
                                    | TNow => WWork
                                    | TAt t => match ts_sub t now with
                                               | Some d => WSleep (w_ver w) mono (N.min d day)
                                               | None => WWork
                                               end
                                    end) w)
      | _ => WDisabled
      end
  | WWake mono =>
      match w_phase w with
      | WNever v => if w_ver w =? v then WDisabled else WOk None (at_phase WTop w)
      | WSleep v from d => if (w_ver w =? v) && (mono <? from + d) then WDisabled else WOk None (at_phase WWork w)
      | _ => WDisabled
      end
  end.

(* a disabled event does nothing *)
Fixpoint wrun (w : wst) (es : list wevent) : option (list kresult * wst) :=
  match es with
  | [] => Some ([], w)
  | e :: r =>
      match wstep w e with
      | WPanic => None
      | WDisabled => wrun w r
      | WOk o w' => match wrun w' r with
                    | Some (rs, w'') => Some (match o with Some x => x :: rs | None => rs end, w'')
                    | None => None
                    end
      end
  end.

(* database.rs 1678-1708 (Context::new): no target, version 0, the thread starts *)
Definition w_open (p : policy) (now : ts) (d : tree entry) : wst := Wst (kv_open p now d) TNever 0 WTop.
(* the worker's turn at one moment: as far as it gets *)
Definition turn (now : ts) (mono : N) : list wevent := [WWake mono; WRead now mono; WWake mono; WKv (ETick now) now].
