(** Persistent zone timers: src/knot/zone/timers.c, over the LMDB wrapper of LmdbModel.v.
    Times are time_t, signed 64-bit; the address of the last master is its 28 bytes of memory
    (struct sockaddr_in6, family first, little-endian host). *)
From Verif Require Import Base WireModel DnameModel LmdbModel.

(** src/knot/zone/timers.h:31-44 *)
Record timers : Type := mktimers {
  tm_soa_expire : Z; tm_last_flush : Z; tm_last_refresh : Z; tm_next_refresh : Z; tm_last_refresh_ok : bool;
  tm_last_notified : Z; tm_next_ds_check : Z; tm_next_ds_push : Z; tm_catalog_member : Z; tm_next_expire : Z;
  tm_last_master : list Z; tm_master_pin_hit : Z }.
Definition MASTER_SIZE : Z := 28.
Definition timers0 : timers := mktimers 0 0 0 0 false 0 0 0 0 0 (zeros MASTER_SIZE) 0.
Definition s64 (v : Z) : Z := let v := u64 v in if v <? 2 ^ 63 then v else v - 2 ^ 64.

(** src/knot/zone/timers.c:50-66 *)
Definition TIMER_SOA_EXPIRE : Z := 128.
Definition TIMER_LAST_FLUSH : Z := 129.
Definition TIMER_LAST_REFRESH : Z := 130.
Definition TIMER_NEXT_REFRESH : Z := 131.
Definition TIMER_NEXT_DS_CHECK : Z := 133.
Definition TIMER_NEXT_DS_PUSH : Z := 134.
Definition TIMER_CATALOG_MEMBER : Z := 135.
Definition TIMER_LAST_NOTIFIED : Z := 136.
Definition TIMER_LAST_REFR_OK : Z := 137.
Definition TIMER_NEXT_EXPIRE : Z := 138.
Definition TIMER_LAST_MASTER : Z := 139.
Definition TIMER_MASTER_PIN_HIT : Z := 140.
Definition TIMER_SIZE : Z := 9.

Definition set_master (t : timers) (m : list Z) : timers :=
  mktimers (tm_soa_expire t) (tm_last_flush t) (tm_last_refresh t) (tm_next_refresh t) (tm_last_refresh_ok t) (tm_last_notified t)
    (tm_next_ds_check t) (tm_next_ds_push t) (tm_catalog_member t) (tm_next_expire t) m (tm_master_pin_hit t).
(** src/knot/zone/timers.c:90-103 *)
Definition set_timer (t : timers) (id v : Z) : timers :=
  let '(mktimers se lf lr nr ok ln dc dp cm ne ma pi) := t in
  if id =? TIMER_SOA_EXPIRE then mktimers (u32 v) lf lr nr ok ln dc dp cm ne ma pi else
  if id =? TIMER_LAST_FLUSH then mktimers se (s64 v) lr nr ok ln dc dp cm ne ma pi else
  if id =? TIMER_LAST_REFRESH then mktimers se lf (s64 v) nr ok ln dc dp cm ne ma pi else
  if id =? TIMER_NEXT_REFRESH then mktimers se lf lr (s64 v) ok ln dc dp cm ne ma pi else
  if id =? TIMER_LAST_REFR_OK then mktimers se lf lr nr (negb (v =? 0)) ln dc dp cm ne ma pi else
  if id =? TIMER_LAST_NOTIFIED then mktimers se lf lr nr ok v dc dp cm ne ma pi else
  if id =? TIMER_NEXT_DS_CHECK then mktimers se lf lr nr ok ln (s64 v) dp cm ne ma pi else
  if id =? TIMER_NEXT_DS_PUSH then mktimers se lf lr nr ok ln dc (s64 v) cm ne ma pi else
  if id =? TIMER_CATALOG_MEMBER then mktimers se lf lr nr ok ln dc dp (s64 v) ne ma pi else
  if id =? TIMER_NEXT_EXPIRE then mktimers se lf lr nr ok ln dc dp cm (s64 v) ma pi else
  if id =? TIMER_MASTER_PIN_HIT then mktimers se lf lr nr ok ln dc dp cm ne ma (s64 v) else t.

(** src/knot/zone/timers.c:83-104 *)
Fixpoint deser_loop (fuel : nat) (w : wire) (t : timers) : res (timers * wire) :=
  match fuel with
  | O => OOF
  | S fuel =>
    if wire_available w >=? TIMER_SIZE then
      let* (id, w) := wire_read_u8 w in
      if id =? TIMER_LAST_MASTER then
        let* (m, w) := wire_read w MASTER_SIZE in
        deser_loop fuel w (set_master t m)
      else
        let* (v, w) := wire_read_u64 w in
        deser_loop fuel w (set_timer t id v)
    else Ok (t, w)
  end.
(** src/knot/zone/timers.c:73-114; [None] is a value without data *)
Definition deserialize_timers (fuel : nat) (data : option (list Z)) : res timers :=
  match data with
  | None => Err KNOT_EINVAL
  | Some d =>
    let* (t, w) := deser_loop fuel (wire_init_const d) timers0 in
    if negb (wire_available w =? 0) then Err KNOT_EMALF else
    if negb (w_err w =? KNOT_EOK) then UB else Ok t
  end.

(** src/knot/zone/timers.c:116-138; AF_INET is 2, AF_INET6 is 10 *)
Definition family (m : list Z) : Z := nth 0 m 0 + 256 * nth 1 m 0.
Definition timers_args (t : timers) : list karg :=
  [KB TIMER_LAST_FLUSH; KL (u64 (tm_last_flush t)); KB TIMER_NEXT_REFRESH; KL (u64 (tm_next_refresh t));
   KB TIMER_LAST_REFR_OK; KL (if tm_last_refresh_ok t then 1 else 0); KB TIMER_LAST_NOTIFIED; KL (tm_last_notified t);
   KB TIMER_NEXT_DS_CHECK; KL (u64 (tm_next_ds_check t)); KB TIMER_NEXT_DS_PUSH; KL (u64 (tm_next_ds_push t));
   KB TIMER_CATALOG_MEMBER; KL (u64 (tm_catalog_member t)); KB TIMER_NEXT_EXPIRE; KL (u64 (tm_next_expire t))] ++
  (if (family (tm_last_master t) =? 2) || (family (tm_last_master t) =? 10) then
     [KB TIMER_LAST_MASTER; KD (tm_last_master t); KB TIMER_MASTER_PIN_HIT; KL (u64 (tm_master_pin_hit t))]
   else []).
(** the zone name is the memory at it; the value is not checked for lack of memory: LMDB would then reserve
    uninitialised space ([UB]) *)
Definition txn_write_timers (alloc : bool) (fresh : Z) (t : txn) (zone : list Z) (tm : timers) : res txn :=
  let* n := dname_size zone in
  let* k := take zone n in
  let* v := make_key alloc fresh (timers_args tm) in
  match v with
  | None => if (t_opened t && (t_ret t =? KNOT_EOK)) then UB else Ok (snd (lmdb_insert t (Some k) []))
  | Some v => Ok (snd (lmdb_insert t (Some k) v))
  end.

(** src/knot/zone/timers.c:163-188; result and the timers; the database exists and is open.
    The addition of signed times may overflow. *)
Definition timers_read (fuel : nat) (d : db) (io : list Z) (zone : list Z) (tm : timers) : res (Z * timers) :=
  let t := lmdb_begin d false io in
  let* n := dname_size zone in
  let* k := take zone n in
  let (found, t) := lmdb_find t (Some k) EXACT true in
  let* tm := if found then match deserialize_timers fuel (Some (t_cv t)) with
                           | Ok tm' => Ok tm' | Err _ => Ok tm | UB => UB | OOF => OOF end
             else Ok tm in
  let* tm := if (tm_next_expire tm =? 0) && (tm_last_refresh tm >? 0) then
               let '(mktimers se lf lr nr ok ln dc dp cm ne ma pi) := tm in
               if lr + se >=? 2 ^ 63 then UB else Ok (mktimers se lf lr nr ok ln dc dp cm (lr + se) ma pi)
             else Ok tm in
  Ok (t_ret t, tm).

(** src/knot/zone/timers.c:190-202; the committed database and the result *)
Definition timers_write (alloc : bool) (fresh : Z) (d : db) (io : list Z) (zone : list Z) (tm : timers) : res (db * Z) :=
  let t := lmdb_begin d true io in
  let* t := txn_write_timers alloc fresh t zone tm in
  let (d, t) := lmdb_commit d t in Ok (d, t_ret t).

(** src/knot/zone/timers.c:204-220 *)
Fixpoint write_all_loop (alloc : bool) (fresh : Z) (t : txn) (zs : list (list Z * timers)) : res txn :=
  match zs with
  | [] => Ok t
  | (zone, tm) :: zs => let* t := txn_write_timers alloc fresh t zone tm in write_all_loop alloc fresh t zs
  end.
Definition timers_write_all (alloc : bool) (fresh : Z) (d : db) (io : list Z) (zs : list (list Z * timers)) : res (db * Z) :=
  let* t := write_all_loop alloc fresh (lmdb_begin d true io) zs in
  let (d, t) := lmdb_commit d t in Ok (d, t_ret t).

(** src/knot/zone/timers.c:222-240 *)
Definition timers_sweep (fuel : nat) (d : db) (io : list Z) (keep_zone : list Z -> bool) : res (db * Z) :=
  let* (_, t) := forwhole fuel (fun (_ : unit) t =>
      if negb (keep_zone (t_ck t)) then let* t := lmdb_del_cur t in Ok (tt, t) else Ok (tt, t)) tt (lmdb_begin d true io) in
  let (d, t) := lmdb_commit d t in Ok (d, t_ret t).

(** src/knot/zone/timers.c:242-246 *)
Definition serial_notified (t : timers) (serial : Z) : bool :=
  negb (Z.land (tm_last_notified t) (Z.shiftl 1 32) =? 0) && (u32 (tm_last_notified t) =? serial).
