(** The LMDB wrapper: src/knot/journal/knot_lmdb.c.

    LMDB itself is a library and is modelled by the documented behaviour of the calls used here: a
    database is a list of (key, value) pairs kept in LMDB's default key order; a transaction works on
    its own snapshot; mdb_txn_commit replaces the database by the snapshot of the (only) writer. Any
    LMDB call may fail: [t_io] is the list of the codes the following calls return (0 or the end of the
    list: the call does what it is documented to do). Mutexes, the reader lock table and opening of
    the environment are not modelled. *)
From Verif Require Import Base WireModel DnameModel.

(** LMDB's default key order: memcmp of the common length, then the shorter key first *)
Fixpoint kcmp (a b : list Z) : comparison :=
  match a, b with
  | [], [] => Eq
  | [], _ :: _ => Lt
  | _ :: _, [] => Gt
  | x :: a, y :: b => match x ?= y with Eq => kcmp a b | c => c end
  end.
Definition db : Type := list (list Z * list Z).

Fixpoint db_get (d : db) (k : list Z) : option (list Z) :=
  match d with
  | [] => None
  | (k', v) :: d => match kcmp k' k with Eq => Some v | _ => db_get d k end
  end.
Fixpoint db_put (d : db) (k v : list Z) : db :=
  match d with
  | [] => [(k, v)]
  | (k', v') :: d' =>
    match kcmp k k' with
    | Lt => (k, v) :: d
    | Eq => (k, v) :: d'
    | Gt => (k', v') :: db_put d' k v
    end
  end.
Fixpoint db_del (d : db) (k : list Z) : db :=
  match d with
  | [] => []
  | (k', v) :: d => match kcmp k' k with Eq => d | _ => (k', v) :: db_del d k end
  end.
(** first pair whose key is at least (strictly greater than, if [strict]) [k] *)
Fixpoint db_geq (d : db) (k : list Z) (strict : bool) : option (list Z * list Z) :=
  match d with
  | [] => None
  | (k', v) :: d => match kcmp k' k with
                    | Lt => db_geq d k strict
                    | Eq => if strict then db_geq d k strict else Some (k', v)
                    | Gt => Some (k', v)
                    end
  end.
(** last pair whose key is strictly less than [k] *)
Fixpoint db_lt (d : db) (k : list Z) : option (list Z * list Z) :=
  match d with
  | [] => None
  | (k', v) :: d => match kcmp k' k with
                    | Lt => match db_lt d k with Some r => Some r | None => Some (k', v) end
                    | _ => None
                    end
  end.
Definition db_last (d : db) : option (list Z * list Z) :=
  match rev d with [] => None | x :: _ => Some x end.

(** LMDB's own codes (lmdb.h) and the largest key (MDB_MAXKEYSIZE) *)
Definition MDB_NOTFOUND : Z := -30798.
Definition MDB_TXN_FULL : Z := -30788.
Definition MDB_MAP_FULL : Z := -30792.
Definition MDB_BAD_VALSIZE : Z := -30781.
Definition LMDB_MAXKEY : Z := 511.
Definition ENOSPC : Z := 28.
Definition EACCES : Z := 13.
Definition EINVAL_ : Z := 22.

(** src/knot/journal/knot_lmdb.c:35-54 *)
Definition err_to_knot (e : Z) : Z :=
  if e =? 0 then KNOT_EOK else if e =? MDB_NOTFOUND then KNOT_ENOENT else
  if e =? MDB_TXN_FULL then KNOT_ELIMIT else if (e =? MDB_MAP_FULL) || (e =? ENOSPC) then KNOT_ESPACE else
  if e <? 0 then e else - e.

(** src/knot/journal/knot_lmdb.h:43-53. [t_cur]: NULL, open but not positioned, or at a key. *)
Inductive cursor : Type := CNull | CUnset | CAt (k : list Z).
Record txn : Type := mktxn {
  t_data : db; t_cur : cursor; t_ck : list Z; t_cv : list Z;
  t_opened : bool; t_rw : bool; t_ret : Z; t_io : list Z }.
Definition set_data (t : txn) (d : db) : txn := mktxn d (t_cur t) (t_ck t) (t_cv t) (t_opened t) (t_rw t) (t_ret t) (t_io t).
Definition set_cur (t : txn) (c : cursor) : txn := mktxn (t_data t) c (t_ck t) (t_cv t) (t_opened t) (t_rw t) (t_ret t) (t_io t).
Definition set_ckv (t : txn) (k v : list Z) : txn := mktxn (t_data t) (t_cur t) k v (t_opened t) (t_rw t) (t_ret t) (t_io t).
Definition set_ret (t : txn) (r : Z) : txn := mktxn (t_data t) (t_cur t) (t_ck t) (t_cv t) (t_opened t) (t_rw t) r (t_io t).
Definition set_io (t : txn) (io : list Z) : txn := mktxn (t_data t) (t_cur t) (t_ck t) (t_cv t) (t_opened t) (t_rw t) (t_ret t) io.
Definition set_opened (t : txn) (o : bool) : txn := mktxn (t_data t) (t_cur t) (t_ck t) (t_cv t) o (t_rw t) (t_ret t) (t_io t).

(** the code with which the environment makes the next LMDB call fail; a "not found" is never spurious *)
Definition io_next (io : list Z) : Z * list Z :=
  match io with [] => (0, []) | e :: io => (if e =? MDB_NOTFOUND then 0 else e, io) end.

(** mdb_cursor_get: result code and the transaction; the key and data are stored only on success *)
Inductive cop : Type := MDB_SET | MDB_SET_RANGE | MDB_PREV | MDB_LAST | MDB_FIRST | MDB_NEXT.
Definition mdb_first (d : db) : option (list Z * list Z) := match d with [] => None | x :: _ => Some x end.
Definition mdb_lookup (t : txn) (op : cop) : option (list Z * list Z) :=
  match op with
  | MDB_SET => match db_get (t_data t) (t_ck t) with Some v => Some (t_ck t, v) | None => None end
  | MDB_SET_RANGE => db_geq (t_data t) (t_ck t) false
  | MDB_PREV => match t_cur t with CAt k => db_lt (t_data t) k | _ => db_last (t_data t) end
  | MDB_NEXT => match t_cur t with CAt k => db_geq (t_data t) k true | _ => mdb_first (t_data t) end
  | MDB_LAST => db_last (t_data t)
  | MDB_FIRST => mdb_first (t_data t)
  end.
Definition is_set (op : cop) : bool := match op with MDB_SET | MDB_SET_RANGE => true | _ => false end.
Definition mdb_cursor_get (t : txn) (op : cop) : Z * txn :=
  let (e, io) := io_next (t_io t) in
  let t := set_io t io in
  if negb (e =? 0) then (e, t) else
  if is_set op && (zlen (t_ck t) =? 0) then (MDB_BAD_VALSIZE, t) else
  match mdb_lookup t op with
  | Some (k, v) => (0, set_cur (set_ckv t k v) (CAt k))
  | None => (MDB_NOTFOUND, if is_set op then set_cur t CUnset else t)
  end.
(** mdb_put *)
Definition mdb_put (t : txn) (k v : list Z) : Z * txn :=
  let (e, io) := io_next (t_io t) in
  let t := set_io t io in
  if negb (e =? 0) then (e, t) else
  if negb (t_rw t) then (EACCES, t) else
  if (zlen k =? 0) || (zlen k >? LMDB_MAXKEY) then (MDB_BAD_VALSIZE, t) else
  (0, set_data t (db_put (t_data t) k v)).
(** mdb_cursor_del; the cursor keeps its place, so that MDB_NEXT gives the following key *)
Definition mdb_cursor_del (t : txn) : Z * txn :=
  let (e, io) := io_next (t_io t) in
  let t := set_io t io in
  if negb (e =? 0) then (e, t) else
  if negb (t_rw t) then (EACCES, t) else
  match t_cur t with
  | CAt k => (0, set_data t (db_del (t_data t) k))
  | _ => (EINVAL_, t)
  end.

(** src/knot/journal/knot_lmdb.c:281-296; [t_cur] and the rest start zeroed *)
Definition lmdb_begin (d : db) (rw : bool) (io : list Z) : txn :=
  let (e, io) := io_next io in
  if e =? 0 then mktxn d CNull [] [] true rw KNOT_EOK io
  else mktxn d CNull [] [] false false (err_to_knot e) io.

(** src/knot/journal/knot_lmdb.c:298-308 *)
Definition lmdb_abort (t : txn) : txn := if t_opened t then set_opened (set_cur t CNull) false else t.

(** src/knot/journal/knot_lmdb.c:310-320 *)
Definition txn_semcheck (t : txn) : bool * txn :=
  let t := if negb (t_opened t) && (t_ret t =? KNOT_EOK) then set_ret t KNOT_ESEMCHECK else t in
  if negb (t_ret t =? KNOT_EOK) then (false, lmdb_abort t) else (true, t).

(** src/knot/journal/knot_lmdb.c:322-334; [d] is the committed database, replaced on success *)
Definition lmdb_commit (d : db) (t : txn) : db * txn :=
  let (ok, t) := txn_semcheck t in
  if negb ok then (d, t) else
  let t := set_cur t CNull in
  let (e, io) := io_next (t_io t) in
  let t := set_opened (set_ret (set_io t io) (err_to_knot e)) false in
  ((if (e =? 0) && t_rw t then t_data t else d), t).

(** src/knot/journal/knot_lmdb.c:337-345; [None] is a key whose allocation failed *)
Definition txn_enomem (t : txn) (k : option (list Z)) : bool * txn :=
  match k with
  | None => (false, lmdb_abort (set_ret t KNOT_ENOMEM))
  | Some _ => (true, t)
  end.

(** src/knot/journal/knot_lmdb.c:347-358 *)
Definition init_cursor (t : txn) : bool * txn :=
  match t_cur t with
  | CNull =>
    let (e, io) := io_next (t_io t) in
    let t := set_ret (set_io t io) (err_to_knot e) in
    if negb (t_ret t =? KNOT_EOK) then (false, lmdb_abort t) else (true, set_cur t CUnset)
  | _ => (true, t)
  end.

(** src/knot/journal/knot_lmdb.c:360-369 *)
Definition curget (t : txn) (op : cop) : bool * txn :=
  let (e, t) := mdb_cursor_get t op in
  let r := err_to_knot e in
  if r =? KNOT_ENOENT then (false, set_ret t KNOT_EOK) else (r =? KNOT_EOK, set_ret t r).

(** src/knot/journal/knot_lmdb.h:55-60 and src/knot/journal/knot_lmdb.c:382-410 *)
Inductive find_how : Type := EXACT | LEQ | GEQ.
Definition find_body (t : txn) (w : list Z) (how : find_how) : bool * txn :=
  let t := set_ckv t w [] in
  let (succ, t) := curget t (match how with EXACT => MDB_SET | _ => MDB_SET_RANGE end) in
  match how with
  | LEQ =>
    if t_ret t =? KNOT_EOK then
      if succ then
        match kcmp (t_ck t) w with Eq => (succ, t) | _ => curget t MDB_PREV end
      else curget t MDB_LAST
    else (succ, t)
  | _ => (succ, t)
  end.
Definition lmdb_find (t : txn) (what : option (list Z)) (how : find_how) (force : bool) : bool * txn :=
  let (ok, t) := txn_semcheck t in
  if negb ok then (false, t) else
  let (ok, t) := init_cursor t in
  if negb ok then (false, t) else
  match what with
  | None => (false, lmdb_abort (set_ret t KNOT_ENOMEM))
  | Some w =>
    let (succ, t) := find_body t w how in
    if force && negb succ && (t_ret t =? KNOT_EOK) then (succ, set_ret t KNOT_ENOENT) else (succ, t)
  end.

(** src/knot/journal/knot_lmdb.c:434-437 *)
Definition lmdb_first (t : txn) : bool * txn :=
  let (ok, t) := txn_semcheck t in
  if negb ok then (false, t) else
  let (ok, t) := init_cursor t in
  if negb ok then (false, t) else curget t MDB_FIRST.

(** src/knot/journal/knot_lmdb.c:439-448 *)
Definition is_null (c : cursor) : bool := match c with CNull => true | _ => false end.
Definition lmdb_next (t : txn) : bool * txn :=
  let t := if is_null (t_cur t) && (t_ret t =? KNOT_EOK) then set_ret t KNOT_EINVAL else t in
  let (ok, t) := txn_semcheck t in
  if negb ok then (false, t) else curget t MDB_NEXT.

(** src/knot/journal/knot_lmdb.c:450-460; the key may be absent only when the length test fails *)
Definition is_prefix_of (prefix of_ : list Z) : bool :=
  (zlen prefix <=? zlen of_) && bytes_eqb prefix (zfirstn (zlen prefix) of_).
Definition is_prefix_of2 (prefix of_ : list Z) (rest : Z) : bool :=
  (zlen prefix + rest =? zlen of_) && bytes_eqb prefix (zfirstn (zlen prefix) of_).

(** src/knot/journal/knot_lmdb.c:462-468; without a cursor LMDB would dereference NULL *)
Definition lmdb_del_cur (t : txn) : res txn :=
  let (ok, t) := txn_semcheck t in
  if negb ok then Ok t else
  match t_cur t with
  | CNull => UB
  | _ => let (e, t) := mdb_cursor_del t in Ok (set_ret t (err_to_knot e))
  end.

(** src/knot/journal/knot_lmdb.c:515-523; the value is given, or [None] if it could not be allocated
    (then LMDB reserves uninitialised space when the length is positive: not modelled, UB) *)
Definition lmdb_insert (t : txn) (k : option (list Z)) (v : list Z) : bool * txn :=
  let (ok, t) := txn_semcheck t in
  if negb ok then (t_ret t =? KNOT_EOK, t) else
  match k with
  | None => let t := lmdb_abort (set_ret t KNOT_ENOMEM) in (t_ret t =? KNOT_EOK, t)
  | Some k => let (e, t) := mdb_put t k v in let t := set_ret t (err_to_knot e) in (t_ret t =? KNOT_EOK, t)
  end.

(** src/knot/journal/knot_lmdb.c:525-538; committed database and result *)
Definition quick_insert (d : db) (k v : option (list Z)) (io : list Z) : db * Z :=
  match v with
  | None => (d, KNOT_ENOMEM)
  | Some v =>
    let t := lmdb_begin d true io in
    let (_, t) := lmdb_insert t k v in
    let (d, t) := lmdb_commit d t in
    (d, t_ret t)
  end.

(** src/knot/journal/knot_lmdb.h:303-315: the loops over a prefix and over the whole database.
    [body] is the loop's body over some state; a body that leaves by [break] returns true. *)
Fixpoint loop_from {S} (fuel : nat) (prefix : option (list Z)) (body : S -> txn -> res (S * txn)) (found : bool) (s : S) (t : txn) : res (S * txn) :=
  match fuel with
  | O => OOF
  | Datatypes.S fuel =>
    if found && (match prefix with Some p => is_prefix_of p (t_ck t) | None => true end) then
      let* (s, t) := body s t in
      let (found, t) := lmdb_next t in
      loop_from fuel prefix body found s t
    else Ok (s, t)
  end.
Definition foreach {S} (fuel : nat) (prefix : list Z) (body : S -> txn -> res (S * txn)) (s : S) (t : txn) : res (S * txn) :=
  let (found, t) := lmdb_find t (Some prefix) GEQ false in
  loop_from fuel (Some prefix) body found s t.
Definition forwhole {S} (fuel : nat) (body : S -> txn -> res (S * txn)) (s : S) (t : txn) : res (S * txn) :=
  let (found, t) := lmdb_first t in
  loop_from fuel None body found s t.

(** src/knot/journal/knot_lmdb.c:470-475 *)
Definition lmdb_del_prefix (fuel : nat) (t : txn) (prefix : list Z) : res txn :=
  let* (_, t) := foreach fuel prefix (fun (_ : unit) t => let* t := lmdb_del_cur t in Ok (tt, t)) tt t in Ok t.

(** src/knot/journal/knot_lmdb.c:540-552; result, source and target *)
Definition lmdb_copy_prefix (fuel : nat) (from to : txn) (prefix : list Z) : res (Z * txn * txn) :=
  let* (_, to) := foreach fuel prefix (fun (_ : unit) t => let* t := lmdb_del_cur t in Ok (tt, t)) tt to in
  if negb (t_ret to =? KNOT_EOK) then Ok (t_ret to, from, to) else
  let* (to, from) := foreach fuel prefix (fun to from =>
                       let (_, to) := lmdb_insert to (Some (t_ck from)) (t_cv from) in Ok (to, from)) to from in
  Ok ((if t_ret from =? KNOT_EOK then t_ret to else t_ret from), from, to).

(** src/knot/journal/knot_lmdb.c:554-579; opening is assumed to succeed. [iof], [iot] are the results of
    LMDB in the two databases. Returns the result and both committed databases. *)
Fixpoint copy_prefixes_loop (fuel : nat) (ps : list (list Z)) (ret : Z) (tr tw : txn) : res (Z * txn * txn) :=
  match ps with
  | [] => Ok (ret, tr, tw)
  | p :: ps =>
    if negb (ret =? KNOT_EOK) then Ok (ret, tr, tw) else
    let* (ret, tr, tw) := lmdb_copy_prefix fuel tr tw p in
    copy_prefixes_loop fuel ps ret tr tw
  end.
Definition copy_prefixes (fuel : nat) (from to : db) (ps : list (list Z)) (iof iot : list Z) : res (Z * db) :=
  match ps with
  | [] => Ok (KNOT_EOK, to)
  | _ =>
    let tr := lmdb_begin from false iof in
    let tw := lmdb_begin to true iot in
    let* (ret, tr, tw) := copy_prefixes_loop fuel ps KNOT_EOK tr tw in
    let (to, tw) := lmdb_commit to tw in
    Ok ((if ret =? KNOT_EOK then t_ret tw else ret), to)
  end.

(** src/knot/journal/knot_lmdb.c:594-633: the format characters with their arguments, as va_arg reads
    them. [KS] is a string without its zero, [KN] the memory at a name, [KD] the given bytes. *)
Inductive karg : Type := KB (v : Z) | KH (v : Z) | KI (v : Z) | KL (v : Z) | KS (s : list Z) | KN (d : list Z) | KD (d : list Z).
Definition make_key_item (w : wire) (a : karg) : res wire :=
  match a with
  | KB v => wire_write_u8 w v
  | KH v => wire_write_u16 w v
  | KI v => wire_write_u32 w v
  | KL v => wire_write_u64 w v
  | KS s => wire_write w (s ++ [0])
  | KN d => let* n := dname_size d in let* d := take d n in wire_write w d
  | KD d => wire_write w d
  end.
Fixpoint make_key_items (w : wire) (l : list karg) : res wire :=
  match l with [] => Ok w | a :: l => let* w := make_key_item w a in make_key_items w l end.
Definition make_key_part (buf : list Z) (l : list karg) : res (list Z * bool) :=
  let* w := make_key_items (wire_init buf) l in
  Ok (w_buf w, (w_err w =? KNOT_EOK) && (wire_available w =? 0)).

(** src/knot/journal/knot_lmdb.c:642-676 *)
Definition karg_size (a : karg) : res Z :=
  match a with
  | KB _ => Ok 1 | KH _ => Ok 2 | KI _ => Ok 4 | KL _ => Ok 8
  | KS s => Ok (zlen s + 1) | KN d => dname_size d | KD d => Ok (zlen d)
  end.
Fixpoint kargs_size (l : list karg) : res Z :=
  match l with [] => Ok 0 | a :: l => let* n := karg_size a in let* m := kargs_size l in Ok (n + m) end.
(** src/knot/journal/knot_lmdb.c:635-691; [None] is a key without data; the fresh memory is unspecified
    ([fresh]); the assertion is an error of the program *)
Definition make_key (alloc : bool) (fresh : Z) (l : list karg) : res (option (list Z)) :=
  let* n := kargs_size l in
  if (n =? 0) || negb alloc then Ok None else
  let* (d, succ) := make_key_part (repeat fresh (Z.to_nat n)) l in
  if succ then Ok (Some d) else UB.

(** src/knot/journal/knot_lmdb.c:702-762. A format item, with [true] if the caller wants the value. The
    results are the values stored, in order; a position stored for S and N is an offset into the data;
    [VNone] is an output left as it was. *)
Inductive kfmt : Type := FB (w : bool) | FH (w : bool) | FI (w : bool) | FL (w : bool) | FS (w : bool) | FN (w : bool) | FD (w : bool) (n : Z).
Inductive kval : Type := VInt (v : Z) | VPos (p : Z) | VData (d : list Z) | VNone.
Fixpoint strlen_loop (m : list Z) (n : Z) : res Z :=
  match m with [] => UB | c :: m => if c =? 0 then Ok n else strlen_loop m (n + 1) end.
Definition unmake_item (w : wire) (f : kfmt) : res (kval * wire) :=
  let int_ (want : bool) (n : Z) (rdf : wire -> res (Z * wire)) :=
    if want then let* (v, w) := rdf w in Ok (VInt v, w) else let* w := wire_skip w n in Ok (VNone, w) in
  match f with
  | FB want => int_ want 1 wire_read_u8
  | FH want => int_ want 2 wire_read_u16
  | FI want => int_ want 4 wire_read_u32
  | FL want => int_ want 8 wire_read_u64
  | FS want =>
    let* n := strlen_loop (zskipn (w_pos w) (w_buf w)) 0 in
    let* w' := wire_skip w (n + 1) in Ok (if want then VPos (w_pos w) else VNone, w')
  | FN want =>
    let* n := dname_size (zskipn (w_pos w) (w_buf w)) in
    let* w' := wire_skip w n in Ok (if want then VPos (w_pos w) else VNone, w')
  | FD want n =>
    let* d := if want then (let* d := mem_read (w_buf w) (w_pos w) n in Ok (VData d)) else Ok VNone in
    let* w := wire_skip w n in Ok (d, w)
  end.
Fixpoint unmake_items (w : wire) (l : list kfmt) : res (list kval * wire) :=
  match l with
  | [] => Ok ([], w)
  | f :: l' =>
    if (w_err w =? KNOT_EOK) && (wire_available w >? 0) then
      let* (v, w) := unmake_item w f in
      let* (vs, w) := unmake_items w l' in
      Ok (v :: vs, w)
    else Ok (map (fun _ => VNone) l, w)
  end.
Definition unmake_key (data : option (list Z)) (l : list kfmt) : res (bool * list kval) :=
  match data with
  | None => Ok (false, map (fun _ => VNone) l)
  | Some d =>
    let* (vs, w) := unmake_items (wire_init_const d) l in
    Ok ((w_err w =? KNOT_EOK) && (wire_available w =? 0), vs)
  end.
(** src/knot/journal/knot_lmdb.c:773-783 *)
Definition unmake_curval (t : txn) (l : list kfmt) : res (bool * list kval * txn) :=
  let* (ok, vs) := unmake_key (Some (t_cv t)) l in
  Ok (ok, vs, if negb ok && (t_ret t =? KNOT_EOK) then set_ret t KNOT_EMALF else t).
