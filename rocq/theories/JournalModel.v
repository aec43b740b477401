(** The journal of one zone: src/knot/journal/journal_write.c, journal_metadata.c, journal_read.c,
    journal_basic.c, over LMDB transactions of knot_lmdb.c.

    The database is abstracted to what its keys mean: changesets stored under the serial they start from
    (their chunks are the subject of JserModel.v), the zone-in-journal, and the zone's metadata. The content of
    a stored changeset is the list of the elementary changes it is made of: merging concatenates them. *)
From Verif Require Import Base SerialModel.

(** A change handed over to journal_insert(): the serials of its two SOAs and an identification of its content. *)
Record change : Type := mkch { c_from : Z; c_to : Z; c_id : Z }.

(** The chunks stored under one key prefix: the serial in their headers, the sum of mv_size, the content.
    s_ok is false when the chunks were overwritten while older ones existed; the older changeset may have
    had more chunks, so reading gives EMALF (a simplification to the worse case). *)
Record stored : Type := mkst { s_to : Z; s_size : Z; s_data : list change; s_ok : bool }.

(** The zone-in-journal: the serial and identification of the zone inserted, then the changes merged into it. *)
Record zij : Type := mkzij { z_serial : Z; z_id : Z; z_st : stored }.

(** src/knot/journal/journal_metadata.h: journal_metadata_t. Left out: _new_zone, which only counts journals,
    and JOURNAL_LAST_FLUSHED_VALID, which matters only when importing journals of version 1.0. *)
Record md : Type := mkmd {
  m_first : Z; m_to : Z; m_flushed : Z; m_merged : Z; m_count : Z;
  m_tov : bool;    (* JOURNAL_SERIAL_TO_VALID *)
  m_mv : bool }.   (* JOURNAL_MERGED_SERIAL_VALID *)
Definition md0 : md := mkmd 0 0 0 0 0 false false.

Record db : Type := mkdb { d_chs : list (Z * stored); d_zij : option zij; d_md : option md }.
Definition db0 : db := mkdb [] None None.

Fixpoint find_ch (k : Z) (l : list (Z * stored)) : option stored :=
  match l with
  | [] => None
  | (k', s) :: r => if k =? k' then Some s else find_ch k r
  end.
Fixpoint del_ch (k : Z) (l : list (Z * stored)) : list (Z * stored) :=
  match l with
  | [] => []
  | (k', s) :: r => if k =? k' then del_ch k r else (k', s) :: del_ch k r
  end.
Definition put_ch (k : Z) (s : stored) (l : list (Z * stored)) : list (Z * stored) :=
  match find_ch k l with
  | None => (k, s) :: l
  | Some _ => (k, mkst (s_to s) (s_size s) (s_data s) false) :: del_ch k l
  end.

(** What can go wrong in a primitive of knot_lmdb.c: no memory for the key (knot_lmdb.c:337-345), or an LMDB error,
    after which LMDB refuses to go on with the transaction (MDB_BAD_TXN). *)
Inductive fault : Type := FOk | FMem | FDb.

(** src/knot/journal/knot_lmdb.h: knot_lmdb_txn_t; t_base is what other transactions see, t_db what this one
    sees, t_log the states committed so far. t_rd are the faults of the reading inside journal_merge:
    1 at its beginning, 2 in the first changeset, 3 later, anything else none. *)
Record txn : Type := mktxn {
  t_base : db; t_db : db; t_log : list db; t_ret : Z; t_open : bool; t_bad : bool; t_fl : list fault; t_rd : list Z }.
Definition set_ret (t : txn) (r : Z) : txn :=
  mktxn (t_base t) (t_db t) (t_log t) r (t_open t) (t_bad t) (t_fl t) (t_rd t).
Definition set_db (t : txn) (d : db) : txn :=
  mktxn (t_base t) d (t_log t) (t_ret t) (t_open t) (t_bad t) (t_fl t) (t_rd t).
Definition set_open (t : txn) (o : bool) : txn :=
  mktxn (t_base t) (t_db t) (t_log t) (t_ret t) o (t_bad t) (t_fl t) (t_rd t).
Definition set_bad (t : txn) (b : bool) : txn :=
  mktxn (t_base t) (t_db t) (t_log t) (t_ret t) (t_open t) b (t_fl t) (t_rd t).
Definition set_fl (t : txn) (f : list fault) : txn :=
  mktxn (t_base t) (t_db t) (t_log t) (t_ret t) (t_open t) (t_bad t) f (t_rd t).
Definition set_rd (t : txn) (f : list Z) : txn :=
  mktxn (t_base t) (t_db t) (t_log t) (t_ret t) (t_open t) (t_bad t) (t_fl t) f.

(** src/knot/journal/knot_lmdb.c:310-358: txn_semcheck() && txn_enomem() && init_cursor(), the beginning of every
    primitive. A failed transaction is aborted by the first primitive called after the failure. *)
Definition enter (t : txn) : bool * txn :=
  if negb (t_ret t =? KNOT_EOK) then (false, set_open t false) else
  if negb (t_open t) then (false, set_ret t KNOT_ESEMCHECK) else
  if t_bad t then (false, set_ret t KNOT_ERROR) else
  match t_fl t with
  | [] => (true, t)
  | FOk :: r => (true, set_fl t r)
  | FMem :: r => (false, set_ret (set_fl t r) KNOT_ENOMEM)
  | FDb :: r => (false, set_ret (set_bad (set_fl t r) true) KNOT_ERROR)
  end.

(** src/knot/journal/knot_lmdb.c:281-296 *)
Definition begin_txn (fl : list fault) (rd : list Z) (d : db) : txn :=
  let t := mktxn d d [] KNOT_EOK true false fl rd in
  let '(ok, t) := enter t in if ok then t else set_open t false.

(** src/knot/journal/knot_lmdb.c:322-335 *)
Definition commit (t : txn) : txn :=
  let '(ok, t) := enter t in
  if ok then mktxn (t_db t) (t_db t) (t_log t ++ [t_db t]) KNOT_EOK false (t_bad t) (t_fl t) (t_rd t) else t.

(** src/knot/journal/journal_metadata.c:177-220, journals of version 2 *)
Definition md_of (d : db) : md := match d_md d with Some m => m | None => md0 end.
Definition load_md (t : txn) : txn * md :=
  let '(ok, t) := enter t in if ok then (t, md_of (t_db t)) else (t, md0).
(** src/knot/journal/journal_metadata.c:222-237 *)
Definition store_md (t : txn) (m : md) : txn :=
  let '(ok, t) := enter t in
  if ok then set_db t (mkdb (d_chs (t_db t)) (d_zij (t_db t)) (Some m)) else t.
(** src/knot/journal/journal_metadata.c:141-162: only accounting of the occupied space, here an input of the insertion *)
Definition update_last_inserter (t : txn) : txn := snd (enter t).
(** src/knot/journal/journal_metadata.c:289-295, journal_basic.c:49-55 *)
Definition del_zone (t : txn) : txn :=
  let '(ok, t) := enter t in if ok then set_db t db0 else t.

(** src/knot/journal/journal_metadata.c:239-253 *)
Definition after_delete (m : md) (upto count : Z) : res md :=
  if count =? 0 then Ok m else
  if negb (m_tov m) then UB else
  if upto =? m_to m then
    if negb (m_flushed m =? m_to m) || negb (m_count m =? count) then UB else
    Ok (mkmd upto (m_to m) (m_flushed m) (m_merged m) (m_count m - count) false (m_mv m))
  else Ok (mkmd upto (m_to m) (m_flushed m) (m_merged m) (m_count m - count) (m_tov m) (m_mv m)).

(** src/knot/journal/journal_metadata.c:255-268 *)
Definition after_merge (m : md) (zone : bool) (serial serial_to orig_to : Z) : res md :=
  let m := mkmd (m_first m) (m_to m) serial_to (m_merged m) (m_count m) (m_tov m) (m_mv m) in
  if m_mv m then (if zone || negb (serial =? m_merged m) then UB else Ok m) else
  if zone then Ok m else
  if negb (serial =? m_first m) then UB else
  after_delete (mkmd (m_first m) (m_to m) (m_flushed m) serial (m_count m) (m_tov m) true) orig_to 1.

(** src/knot/journal/journal_metadata.c:270-279 *)
Definition after_insert (m : md) (serial serial_to : Z) : md :=
  let e := m_first m =? m_to m in
  mkmd (if e then serial else m_first m) serial_to (if e then serial else m_flushed m)
       (m_merged m) (m_count m + 1) true (m_mv m).

(** src/knot/journal/journal_metadata.c:281-287 *)
Definition after_extra (m : md) (serial serial_to : Z) : res md :=
  if m_mv m then UB else
  Ok (mkmd (m_first m) (m_to m) serial_to serial (m_count m) (m_tov m) true).

(** src/knot/journal/journal_basic.c:74-84, journal_basic.h:126-129: the zone-in-journal or the changeset *)
Definition serial_to_zij (t : txn) : txn * option Z :=
  let '(ok, t) := enter t in
  (t, if ok then option_map (fun z => s_to (z_st z)) (d_zij (t_db t)) else None).
Definition contains_zij (t : txn) : txn * bool :=
  let '(t, r) := serial_to_zij t in (t, match r with Some _ => true | None => false end).
Definition contains_ch (t : txn) (k : Z) : txn * bool :=
  let '(ok, t) := enter t in
  (t, if ok then match find_ch k (d_chs (t_db t)) with Some _ => true | None => false end else false).

(** src/knot/journal/journal_write.c:89-104; the result is what was freed and, if anything, the next serial.
    A fault in the middle leaves a transaction which can't be committed. *)
Definition delete_ch (t : txn) (k : Z) : txn * Z * option Z :=
  let '(ok, t) := enter t in
  if negb ok then (t, 0, None) else
  match find_ch k (d_chs (t_db t)) with
  | None => (t, 0, None)
  | Some s =>
      let d := t_db t in
      (snd (enter (set_db t (mkdb (del_ch k (d_chs d)) (d_zij d) (d_md d)))), s_size s, Some (s_to s))
  end.
Definition delete_zij (t : txn) : txn * Z * option Z :=
  let '(ok, t) := enter t in
  if negb ok then (t, 0, None) else
  match d_zij (t_db t) with
  | None => (t, 0, None)
  | Some z =>
      let d := t_db t in
      (snd (enter (set_db t (mkdb (d_chs d) None (d_md d)))), s_size (z_st z), Some (s_to (z_st z)))
  end.

(** src/knot/journal/journal_write.c:20-77: writing of the chunks of a changeset or of a zone *)
Definition write_ch (t : txn) (k : Z) (s : stored) : txn :=
  let '(ok, t) := enter t in
  if ok then let d := t_db t in set_db t (mkdb (put_ch k s (d_chs d)) (d_zij d) (d_md d)) else t.
Definition write_zij (t : txn) (z : zij) : txn :=
  let '(ok, t) := enter t in
  if ok then let d := t_db t in set_db t (mkdb (d_chs d) (Some z) (d_md d)) else t.

(** src/knot/journal/journal_read.c:61-83, 197-212, 221-269: the changesets read one after another, starting
    with the key [next], and the error in the end. A changeset which can't be parsed ends the reading. *)
Fixpoint read_loop (fuel : nat) (d : db) (next nread total : Z) : res (list stored * Z) :=
  match fuel with
  | O => OOF
  | S fuel =>
      match find_ch next (d_chs d) with
      | None => Ok ([], KNOT_EOK)
      | Some s =>
          if next =? s_to s then Ok ([], KNOT_ELOOP) else
          if nread + 1 >? total then Ok ([], KNOT_ELOOP) else
          if negb (s_ok s) then Ok ([], KNOT_EMALF) else
          let* (l, e) := read_loop fuel d (s_to s) (nread + 1) total in Ok (s :: l, e)
      end
  end.
Definition read_fuel (total : Z) : nat := S (Z.to_nat total).

(** src/knot/journal/journal_read.c:85-116, 289-316: journal_read_begin() from a serial and reading to the end;
    Err is the error of journal_read_begin(). *)
Definition read_from (d : db) (serial : Z) : res (list stored * Z) :=
  let m := md_of d in
  if negb (m_tov m) then Err KNOT_ENOENT else
  let total := m_count m + (if m_mv m && (serial =? m_merged m) then 1 else 0) in
  match find_ch serial (d_chs d) with
  | None => Err KNOT_ENOENT
  | Some s =>
      if (serial =? s_to s) || (0 + 1 >? total) then Err KNOT_ENOENT else
      read_loop (read_fuel total) d serial 0 total
  end.
(** The same from the zone-in-journal *)
Definition read_zone (d : db) : res (zij * list stored * Z) :=
  let m := md_of d in
  if negb (m_tov m) then Err KNOT_ENOENT else
  match d_zij d with
  | None => Err KNOT_ENOENT
  | Some z =>
      let total := m_count m + 1 in
      if 0 + 1 >? total then Err KNOT_ENOENT else
      if negb (s_ok (z_st z)) then Ok (z, [], KNOT_EMALF) else
      let* (l, e) := read_loop (read_fuel total) d (s_to (z_st z)) 1 total in Ok (z, l, e)
  end.

Definition last_to (s : stored) (l : list stored) : Z := s_to (last l s).
Definition all_data (l : list stored) : list change := flat_map s_data l.

(** src/knot/journal/journal_write.c:114-141. The reading is a separate transaction: it sees [t_base].
    Reading fails in the first changeset: changeset_to() and journal_write_changeset() of an empty changeset
    dereference NULL (the reading of stored data which can't be parsed, or no memory). [msize]: the size of the
    merged changeset. The result is the serial_to of the changeset before merging, 0 if it can't be read. *)
Definition merge_zij (t : txn) (msize : Z) : res (txn * Z) :=
  let rd := match t_rd t with x :: _ => x | [] => 0 end in
  let t := set_rd t (tl (t_rd t)) in
  if rd =? 1 then Ok (set_ret t KNOT_ENOMEM, 0) else
  match read_zone (t_base t) with
  | Err e => Ok (set_ret t e, 0)
  | UB => UB
  | OOF => OOF
  | Ok (z, l, e) =>
      if (rd =? 2) || negb (s_ok (z_st z)) then UB else
      let orig := s_to (z_st z) in
      let t := set_ret t (if rd =? 3 then KNOT_ENOMEM else e) in
      let '(t, freed, next) := delete_zij t in
      if (t_ret t =? KNOT_EOK) && (negb (freed >? 0) || negb (match next with Some n => n =? orig | None => false end))
      then UB else
      let z' := mkzij (z_serial z) (z_id z)
                  (mkst (last_to (z_st z) l) msize (s_data (z_st z) ++ all_data l) true) in
      Ok (write_zij t z', orig)
  end.
Definition merge_ch (t : txn) (serial msize : Z) : res (txn * Z) :=
  let rd := match t_rd t with x :: _ => x | [] => 0 end in
  let t := set_rd t (tl (t_rd t)) in
  if rd =? 1 then Ok (set_ret t KNOT_ENOMEM, 0) else
  match read_from (t_base t) serial with
  | Err e => Ok (set_ret t e, 0)
  | UB => UB
  | OOF => OOF
  | Ok ([], _) => UB
  | Ok (s :: l, e) =>
      if rd =? 2 then UB else
      let orig := s_to s in
      let t := set_ret t (if rd =? 3 then KNOT_ENOMEM else e) in
      let '(t, freed, next) := delete_ch t serial in
      if (t_ret t =? KNOT_EOK) && (negb (freed >? 0) || negb (match next with Some n => n =? orig | None => false end))
      then UB else
      Ok (write_ch t serial (mkst (last_to s l) msize (all_data (s :: l)) true), orig)
  end.

(** src/knot/journal/journal_write.c:143-153 *)
Definition delete_merged (t : txn) (m : md) : txn * md * Z :=
  if negb (m_mv m) then (t, m, 0) else
  let '(t, freed, _) := delete_ch t (m_merged m) in
  (t, mkmd (m_first m) (m_to m) (m_flushed m) 0 (m_count m) (m_tov m) false, freed).

(** src/knot/journal/journal_write.c:155-170 *)
Fixpoint delete_loop (fuel : nat) (t : txn) (from tofree tocount stop fsize fcount : Z) : res (txn * Z * Z * Z) :=
  match fuel with
  | O => OOF
  | S fuel =>
      if negb (from =? stop) && ((fsize <? tofree) || (fcount <? tocount)) then
        let '(t, freed, next) := delete_ch t from in
        if freed >? 0 then
          let from' := match next with Some n => n | None => from end in
          delete_loop fuel t from' tofree tocount stop (fsize + freed) (fcount + 1)
        else Ok (t, fsize, fcount, from)
      else Ok (t, fsize, fcount, from)
  end.
Definition journal_delete (t : txn) (from tofree tocount stop : Z) : res (txn * Z * Z * Z) :=
  delete_loop (S (length (d_chs (t_db t)))) t from tofree tocount stop 0 0.

(** src/knot/journal/journal_write.c:172-203; [flush] is journal_allow_flush() *)
Definition try_flush (t : txn) (m : md) (flush : bool) (msize : Z) : res (txn * md) :=
  let '(t, z) := contains_zij t in
  let* (t, m) :=
    if z then
      let* (t, orig) := merge_zij t msize in
      if flush then Ok (t, m) else
      let* m := after_merge m true 0 (m_to m) orig in Ok (t, m)
    else if flush then Ok (t, m) else
      let serial := if m_mv m then m_merged m else m_first m in
      let* (t, orig) := merge_ch t serial msize in
      let* m := after_merge m false serial (m_to m) orig in Ok (t, m) in
  if negb flush then Ok (t, m) else
  let '(t, m) :=
    if m_mv m then
      (fst (fst (delete_ch t (m_merged m))),
       mkmd (m_first m) (m_to m) (m_flushed m) (m_merged m) (m_count m) (m_tov m) false)
    else (t, m) in
  let t := commit (store_md t m) in
  Ok (if t_ret t =? KNOT_EOK then set_ret t KNOT_EBUSY else t, m).

(** src/knot/journal/journal_write.c:205: the subtrahend is a signed number converted to an unsigned one *)
Definition u_minus (a b : Z) : Z := a - Z.min a (u64 b).

(** src/knot/journal/journal_write.c:207-236 *)
Fixpoint fix_loop (fuel : nat) (t : txn) (m : md) (flush : bool) (msize tofree todel : Z) : res (txn * md) :=
  if negb (((tofree >? 0) || (todel >? 0)) && (t_ret t =? KNOT_EOK)) then Ok (t, m) else
  match fuel with
  | O => OOF
  | S fuel =>
      let '(t, zto) := serial_to_zij t in
      let upto := match zto with Some z => z | None => m_flushed m end in
      let* (t, freed, removed, from) := journal_delete t (m_first m) tofree todel upto in
      if freed =? 0 then
        if negb (upto =? m_to m) then
          let* (t, m) := try_flush t m flush msize in fix_loop fuel t m flush msize tofree todel
        else Ok (set_ret t KNOT_ESPACE, m)
      else
        let* m := after_delete m from removed in
        fix_loop fuel t m flush msize (u_minus tofree freed) (u_minus todel removed)
  end.
Definition fix_occupation (t : txn) (m : md) (flush : bool) (msize occ max_usage max_count : Z) : res (txn * md) :=
  fix_loop (3 + length (d_chs (t_db t))) t m flush msize (u_minus occ max_usage) (u_minus (m_count m) max_count).

(** src/knot/journal/journal_write.c:238-266. The size [ssize] of the chunks, [size] by changeset_serialized_size() *)
Definition insert_zone (fl : list fault) (rd : list Z) (d : db) (serial id size ssize max_usage : Z) : res (list db * Z) :=
  if size >=? max_usage then Ok ([], KNOT_ESPACE) else
  let t := begin_txn fl rd d in
  let t := update_last_inserter t in
  let t := del_zone t in
  let t := write_zij t (mkzij serial id (mkst serial ssize [] true)) in
  let t := store_md t (mkmd serial serial 0 0 0 true false) in
  let t := commit t in
  Ok (t_log t, t_ret t).

(** A changeset to insert: the change, its size by changeset_serialized_size() and the size of its chunks *)
Record input : Type := mkin { i_ch : change; i_size : Z; i_ssize : Z }.
Definition i_stored (i : input) : stored := mkst (c_to (i_ch i)) (i_ssize i) [i_ch i] true.

(** The configuration of the zone and the space occupied by its journal *)
Record conf : Type := mkconf { cf_flush : bool; cf_usage : Z; cf_depth : Z; cf_occ : Z; cf_msize : Z }.

(** src/knot/journal/journal_write.c:327-346: the second half of journal_insert() *)
Definition insert_end (c : conf) (t : txn) (m : md) (i : input) (extra : option input) : res (list db * Z) :=
  let ch := i_ch i in
  let '(t, cyc) := contains_ch t (c_to ch) in
  let* (t, m) := if cyc then fix_occupation t m (cf_flush c) (cf_msize c) (cf_occ c) (2 ^ 63 - 1) 1 else Ok (t, m) in
  let t := write_ch t (c_from ch) (i_stored i) in
  let m := after_insert m (c_from ch) (c_to ch) in
  let* (t, m) :=
    match extra with
    | None => Ok (t, m)
    | Some x =>
        let t := write_ch t (c_from (i_ch x)) (i_stored x) in
        let* m := after_extra m (c_from (i_ch x)) (c_to (i_ch x)) in Ok (t, m)
    end in
  let t := commit (store_md t m) in
  Ok (t_log t, t_ret t).

(** src/knot/journal/journal_write.c:317-325: avoiding a discontinuity *)
Definition insert_cont (c : conf) (t : txn) (m : md) (i : input) (extra : option input) : res (list db * Z) :=
  let '(t, m) :=
    if m_tov m && negb (m_to m =? c_from (i_ch i)) then
      let '(t, z) := contains_zij t in
      if z then (set_ret t KNOT_ESEMCHECK, m) else (del_zone t, md0)
    else (t, m) in
  insert_end c t m i extra.

(** src/knot/journal/journal_write.c:268-347 *)
Definition insert (fl : list fault) (rd : list Z) (d : db) (c : conf) (i : input) (extra : option input) : res (list db * Z) :=
  let ch := i_ch i in
  if i_size i >=? cf_usage c then Ok ([], KNOT_ESPACE) else
  if match extra with
     | Some x => negb (c_to (i_ch x) =? c_to ch) || (c_from (i_ch x) =? c_from ch)
     | None => false
     end then Ok ([], KNOT_EINVAL) else
  let lower (ch : change) := match serial_compare (c_from ch) (c_to ch) with SERIAL_LOWER => true | _ => false end in
  if negb (lower ch) || match extra with Some x => negb (lower (i_ch x)) | None => false end
  then Ok ([], KNOT_ESEMCHECK) else
  let t := begin_txn fl rd d in
  let '(t, m) := load_md t in
  let t := update_last_inserter t in
  let '(t, m, size) :=
    match extra with
    | None => (t, m, i_size i)
    | Some x =>
        let '(t, z) := contains_zij t in
        let t := if z then set_ret t KNOT_ESEMCHECK else t in
        let '(t, m, freed) := delete_merged t m in
        (t, mkmd (m_first m) (m_to m) (m_to m) (m_merged m) (m_count m) (m_tov m) (m_mv m),
         u64 (i_size i + i_size x - freed))
    end in
  let* (t, m) := fix_occupation t m (cf_flush c) (cf_msize c) (cf_occ c) (u64 (cf_usage c - size)) (u64 (cf_depth c - 1)) in
  insert_cont c t m i extra.

(** src/knot/journal/journal_metadata.c:297-310 *)
Definition scrape (fl : list fault) (rd : list Z) (d : db) (check : bool) : res (list db * Z) :=
  if check && negb (m_tov (md_of d)) then Ok ([], KNOT_EOK) else
  let t := begin_txn fl rd d in
  let t := update_last_inserter t in
  let t := commit (del_zone t) in
  Ok (t_log t, t_ret t).

(** src/knot/journal/journal_metadata.c:332-344 *)
Definition set_flushed (fl : list fault) (rd : list Z) (d : db) : res (list db * Z) :=
  let t := begin_txn fl rd d in
  let '(t, m) := load_md t in
  let t := store_md t (mkmd (m_first m) (m_to m) (m_to m) (m_merged m) (m_count m) (m_tov m) (m_mv m)) in
  let t := commit t in
  Ok (t_log t, t_ret t).

(** The writing operations of the journal. *)
Inductive op : Type :=
| OZone (serial id size ssize max_usage : Z)
| OInsert (c : conf) (i : input) (extra : option input)
| OFlushed
| OScrape (check : bool).
(** The states committed by an operation, the last of them being what the next transaction or the next run of
    the server finds, and the code returned. *)
Definition exec (fl : list fault) (rd : list Z) (d : db) (o : op) : res (list db * Z) :=
  match o with
  | OZone serial id size ssize mu => insert_zone fl rd d serial id size ssize mu
  | OInsert c i extra => insert fl rd d c i extra
  | OFlushed => set_flushed fl rd d
  | OScrape check => scrape fl rd d check
  end.

(** The serial of the SOA a stored changeset starts with: changeset_from() *)
Definition s_from (s : stored) : Z := match s_data s with c :: _ => c_from c | [] => 0 end.

(** src/knot/journal/journal_read.c:289-316: journal_walk_from(), the changesets given to the callback and the result.
    No changeset and no error is reported to the callback as NULL, which check_cb() ignores. *)
Definition walk_from (d : db) (serial : Z) : res (list stored * Z) :=
  if negb (m_tov (md_of d)) then Ok ([], KNOT_EOK) else
  match read_from d serial with
  | Err e => Ok ([], e)
  | r => r
  end.

(** src/knot/journal/journal_read.c:379-401, 408-466: journal_walk() with check_cb(), then the checks. The
    special changeset is the zone-in-journal or the merged one; it is the first one of its reading. *)
Definition sem_check (d : db) : res Z :=
  let m := md_of d in
  if negb (m_tov m) then Ok KNOT_EOK else
  let has_zij := match d_zij d with Some _ => true | None => false end in
  let* (zl, ml, ret) :=
    if has_zij then
      match read_zone d with
      | Ok (z, _, _) => if s_ok (z_st z) then Ok ([z], [], KNOT_EOK) else Ok ([], [], KNOT_EMALF)
      | Err e => Ok ([], [], e)
      | UB => UB
      | OOF => OOF
      end
    else if m_mv m then
      match read_from d (m_merged m) with
      | Ok (s :: _, _) => Ok ([], [s], KNOT_EOK)
      | Ok ([], e) => Ok ([], [], e)
      | Err e => Ok ([], [], e)
      | UB => UB
      | OOF => OOF
      end
    else Ok ([], [], KNOT_EOK) in
  let* (chl, ret) :=
    if ret =? KNOT_EOK then
      let* (chl, ret) := walk_from d (m_first m) in
      Ok (chl, if (ret =? KNOT_ENOENT) && has_zij then KNOT_EOK else ret)
    else Ok ([], ret) in
  if negb (ret =? KNOT_EOK) then Ok ret else
  let observed_zij := Z.of_nat (length zl) in
  let observed_merged := Z.of_nat (length ml) in
  let observed_count := Z.of_nat (length chl) in
  let lasts := map (fun z => s_to (z_st z)) zl ++ map s_to chl in
  let last_valid := negb (match lasts with [] => true | _ => false end) in
  let first_valid := observed_count >? 0 in
  if negb (Bool.eqb (m_tov m) last_valid) then Ok 101 else
  if last_valid && negb (last lasts 0 =? m_to m) then Ok 102 else
  if negb (Bool.eqb (m_mv m) (observed_merged >? 0)) then Ok 103 else
  if observed_merged >? 1 then Ok 104 else
  if (observed_merged =? 1) && negb (match ml with s :: _ => s_from s =? m_merged m | [] => false end) then Ok 105 else
  if negb (Bool.eqb has_zij (observed_zij >? 0)) then Ok 106 else
  if observed_zij >? 1 then Ok 107 else
  if observed_zij + observed_merged >? 1 then Ok 108 else
  if negb (Bool.eqb (m_tov m && negb (m_first m =? m_to m)) first_valid) then Ok 109 else
  if negb (Bool.eqb first_valid (observed_count >? 0)) then Ok 110 else
  if first_valid && negb (match chl with s :: _ => s_from s =? m_first m | [] => false end) then Ok 111 else
  if negb (observed_count =? m_count m) then Ok 112 else
  if (observed_merged >? 0) && (observed_count =? 0) then Ok 113 else
  Ok KNOT_EOK.
