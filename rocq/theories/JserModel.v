(** Serialization of changesets in the journal: src/knot/journal/serialization.c, journal_write.c, journal_read.c,
    journal_basic.c. *)
From Verif Require Import Base DnameModel WireModel RdatasetModel.

(** src/libknot/rrset.h:33-43 *)
Record jrr := mkjrr { j_owner : list Z; j_type : Z; j_class : Z; j_ttl : Z; j_rrs : rdataset }.

(** src/knot/updates/changesets.h:31-38; the RRsets in the order of the iterators. [None] stands for NULL in both
    [soa_from] and [remove]. *)
Record jchange := mkjch { jc_from : option (jrr * list jrr); jc_to : jrr; jc_add : list jrr }.

Definition RRSET_INIT : Z := -1.
Definition RRSET_BUF_MAXSIZE : Z := 256.

(** serialization.c:38-53: what get_next_rrset will return, whether it reached PHASE_END, the position in the last
    buffered RRset, the buffer (the last RRset first) *)
Record sctx := mksc { sc_src : list jrr; sc_end : bool; sc_phase : Z; sc_buf : list jrr }.

(** serialization.c:55-69, 162-199: serialize_init, and get_next_rrset from PHASE_SOA_1 to PHASE_END *)
Definition source (ch : jchange) : list jrr :=
  match jc_from ch with
  | Some (soa, rem) => soa :: rem ++ jc_to ch :: jc_add ch
  | None => jc_to ch :: jc_add ch
  end.
Definition serialize_init (src : list jrr) : sctx := mksc src false RRSET_INIT [].

(** serialization.c:231-265: the loop of serialize_prepare; [cur] is the last RRset in the buffer, [rest] those before
    it, in the reverse order *)
Fixpoint prepare_loop (fuel : nat) (src : list jrr) (cur : jrr) (rest : list jrr) (tmp candidate realsize thresh max : Z) : res (list jrr * bool * list jrr * Z) :=
  match fuel with
  | O => OOF
  | S fuel =>
    let item src cur rest tmp :=
      let* n := if tmp =? RRSET_INIT then let* n := dname_size (j_owner cur) in Ok (6 + n)
                else let* d := rdataset_at (j_rrs cur) tmp in Ok (6 + zlen d) in
      let candidate := candidate + n in
      if candidate >? max then Ok (src, false, cur :: rest, realsize) else
      if candidate >=? thresh then Ok (src, false, cur :: rest, candidate) else
      prepare_loop fuel src cur rest (tmp + 1) candidate candidate thresh max in
    if tmp >=? count (j_rrs cur) then
      if zlen (cur :: rest) >=? RRSET_BUF_MAXSIZE then Ok (src, false, cur :: rest, realsize) else
      match src with
      | [] => Ok ([], true, cur :: rest, realsize)
      | next :: src => item src next (cur :: rest) RRSET_INIT
      end
    else item src cur rest tmp
  end.
Definition work (cur : jrr) (src : list jrr) : nat :=
  S (S (S (Z.to_nat (count (j_rrs cur)) + list_sum (map (fun r => S (S (Z.to_nat (count (j_rrs r))))) src)))).

(** serialization.c:201-266: the context and the size *)
Definition serialize_prepare (c : sctx) (thresh max : Z) : res (sctx * Z) :=
  let start cur src :=
    let* (src, e, buf, n) := prepare_loop (work cur src) src cur [] (sc_phase c) 0 0 thresh max in
    Ok (mksc src (sc_end c || e) (sc_phase c) buf, n) in
  match sc_buf c with
  | cur :: _ => start cur (sc_src c)
  | [] =>
    match sc_src c with
    | [] => Ok (mksc [] true (sc_phase c) [], 0)
    | cur :: src => start cur src
    end
  end.

(** serialization.c:268-310: [buf] is the buffer from the current RRset on *)
Fixpoint chunk_loop (fuel : nat) (w : wire) (buf : list jrr) (phase : Z) : res (wire * Z) :=
  match fuel with
  | O => OOF
  | S fuel =>
    match buf with
    | [] => UB
    | cur :: buf' =>
      let item cur buf phase :=
        if phase =? RRSET_INIT then
          let* n := dname_size (j_owner cur) in
          if n >? wire_available w then Ok (w, phase) else
          let* mem := mem_write (w_buf w) (w_pos w) (zfirstn n (j_owner cur)) in
          let w := mkwire mem (w_pos w) (w_err w) (w_ro w) in
          if wire_available w <? n + 6 then Ok (w, phase) else
          let* w := wire_skip w n in
          let* w := wire_write_u16 w (j_type cur) in
          let* w := wire_write_u16 w (j_class cur) in
          let* w := wire_write_u16 w (count (j_rrs cur)) in
          chunk_loop fuel w buf (phase + 1)
        else
          let* d := rdataset_at (j_rrs cur) phase in
          if wire_available w <? 6 + zlen d then Ok (w, phase) else
          let* w := wire_write_u32 w (j_ttl cur) in
          let* w := wire_write_u16 w (zlen d) in
          let* w := wire_write w d in
          chunk_loop fuel w buf (phase + 1) in
      if phase >=? count (j_rrs cur) then
        match buf' with
        | [] => Ok (w, phase)
        | next :: _ => item next buf' RRSET_INIT
        end
      else item cur buf phase
    end
  end.
Definition chunk_work (buf : list jrr) : nat := S (list_sum (map (fun r => S (S (Z.to_nat (count (j_rrs r))))) buf)).
(** The memory for the chunk comes from the database; the assert at the end is [UB]. *)
Definition serialize_chunk (c : sctx) (mem : list Z) : res (sctx * list Z) :=
  let* (w, phase) := chunk_loop (chunk_work (sc_buf c)) (wire_init mem) (rev (sc_buf c)) (sc_phase c) in
  if negb (w_err w =? KNOT_EOK) then UB else Ok (mksc (sc_src c) (sc_end c) phase (sc_buf c), w_buf w).

(** journal_basic.h:30-32 *)
Definition CHUNK_MAX : Z := 70 * 1024.
Definition CHUNK_THRESH : Z := 15 * 1024.
Definition HEADER_SIZE : Z := 32.
(** journal_basic.c:57-62 *)
Definition make_header (to now : Z) : list Z := be 4 to ++ be 4 0 ++ be 8 0 ++ be 8 now ++ be 8 0.

(** journal_write.c:27-53: the values stored under the keys with the numbers 0, 1, ...; the limits of the body are parameters.
    The database gives memory with any contents ([fresh]); it does not fail (a failure aborts the whole transaction). *)
Fixpoint write_loop (fuel : nat) (c : sctx) (thresh max to now fresh : Z) : res (list (list Z)) :=
  if sc_end c then Ok [] else
  match fuel with
  | O => OOF
  | S fuel =>
    let* (c, n) := serialize_prepare c thresh max in
    if n =? 0 then Ok [] else
    let* (c, body) := serialize_chunk c (repeat fresh (Z.to_nat n)) in
    let* l := write_loop fuel c thresh max to now fresh in
    Ok ((make_header to now ++ body) :: l)
  end.
Definition write_work (src : list jrr) : nat := S (S (list_sum (map (fun r => S (S (Z.to_nat (count (j_rrs r))))) src))).
Definition write_serialize (src : list jrr) (thresh max to now fresh : Z) : res (list (list Z)) :=
  write_loop (write_work src) (serialize_init src) thresh max to now fresh.
(** journal_write.c:55-67 *)
Definition write_changeset (ch : jchange) (to now fresh : Z) : res (list (list Z)) :=
  write_serialize (source ch) (CHUNK_THRESH - HEADER_SIZE) (CHUNK_MAX - HEADER_SIZE) to now fresh.

(** journal_read.c:29-38: within one changeset; the wire context, chunks that follow, the serial, the result *)
Record rctx := mkrc { rc_wire : wire; rc_rest : list (list Z); rc_next : Z; rc_ret : Z }.
(** journal_basic.c:64-72 *)
Definition next_serial (chunk : list Z) : res Z := let* d := mem_read chunk 0 4 in Ok (unbe d).
Definition ch_timestamp (chunk : list Z) : res Z := let* d := mem_read chunk 16 8 in Ok (unbe d).
(** journal_read.c:45-49 *)
Definition update_wire (chunk : list Z) : res wire := wire_skip (wire_init_const chunk) HEADER_SIZE.
(** journal_read.c:61-86: the part of go_next_changeset after the first chunk was found *)
Definition read_begin (chunks : list (list Z)) : res rctx :=
  match chunks with
  | [] => Err KNOT_ENOENT
  | c :: l => let* n := next_serial c in let* w := update_wire c in Ok (mkrc w l n KNOT_EOK)
  end.
(** journal_read.c:133-151 *)
Definition make_available (c : rctx) : res (bool * rctx) :=
  if wire_available (rc_wire c) =? 0 then
    match rc_rest c with
    | [] => Ok (false, c)
    | ch :: rest =>
      let* n := next_serial ch in
      if negb (rc_next c =? n) then Ok (false, mkrc (rc_wire c) rest (rc_next c) KNOT_EMALF) else
      let* w := update_wire ch in
      Ok (true, mkrc w rest (rc_next c) (rc_ret c))
    end
  else Ok (true, c).

(** journal_read.c:174-190; adding of RDATA reads them before the length is checked *)
Fixpoint read_rdata (n : nat) (first : bool) (al : Z -> bool) (c : rctx) (ttl : Z) (rrs : rdataset) : res (rctx * Z * rdataset) :=
  match n with
  | O => Ok (c, ttl, rrs)
  | S n =>
    if negb (w_err (rc_wire c) =? KNOT_EOK) then Ok (c, ttl, rrs) else
    let* (ok, c) := make_available c in
    let c := if ok then c else mkrc (set_err (rc_wire c) KNOT_EFEWDATA) (rc_rest c) (rc_next c) (rc_ret c) in
    let* (t, w) := wire_read_u32 (rc_wire c) in
    let ttl := if first then t else ttl in
    let* (len, w) := wire_read_u16 w in
    let* (w, rrs) :=
      if w_err w =? KNOT_EOK then
        let* d := mem_read (w_buf w) (w_pos w) len in
        match rdataset_add al rrs d with
        | Ok rrs => Ok (w, rrs)
        | Err e => Ok (set_err w e, rrs)
        | UB => UB
        | OOF => OOF
        end
      else Ok (w, rrs) in
    let* w := wire_skip w len in
    read_rdata n false al (mkrc w (rc_rest c) (rc_next c) (rc_ret c)) ttl rrs
  end.
(** journal_read.c:158-203, allow_next_changeset is false; the copy of the name is allocated. The name is read
    without regard to the end of the chunk. *)
Definition read_rrset (al : Z -> bool) (c : rctx) : res (option jrr * rctx) :=
  let* (ok, c) := make_available c in
  if negb ok then Ok (None, c) else
  let d := zskipn (w_pos (rc_wire c)) (w_buf (rc_wire c)) in
  let* n := dname_size d in
  let* owner := take d n in
  let* w := wire_skip (rc_wire c) n in
  let* (type, w) := wire_read_u16 w in
  let* (class, w) := wire_read_u16 w in
  let* (cnt, w) := wire_read_u16 w in
  let* (c, ttl, rrs) := read_rdata (Z.to_nat cnt) true al (mkrc w (rc_rest c) (rc_next c) (rc_ret c)) 0 rdataset_init in
  let ret := if rc_ret c =? KNOT_EOK then
               if w_err (rc_wire c) =? KNOT_ERANGE then KNOT_EMALF else w_err (rc_wire c)
             else rc_ret c in
  let c := mkrc (rc_wire c) (rc_rest c) (rc_next c) ret in
  if ret =? KNOT_EOK then Ok (Some (mkjrr owner type class ttl rrs), c) else Ok (None, c).

(** src/knot/zone/contents.h, updates/changesets.h: rr_is_apex_soa *)
Definition is_apex_soa (r : jrr) (apex : list Z) : res bool := if j_type r =? 6 then dname_is_equal (j_owner r) apex else Ok false.

(** journal_read.c:231-289: the loop of journal_read_changeset. Zone contents with the RRsets are lists here
    (in the order of reading): adding of them is modelled in ZoneModel. *)
Fixpoint read_changeset_loop (fuel : nat) (al : Z -> bool) (c : rctx) (apex : list Z) (from : option (jrr * list jrr)) (soa : jrr) (tree : list jrr) : res (option jchange * rctx) :=
  match fuel with
  | O => OOF
  | S fuel =>
    let* (r, c) := read_rrset al c in
    match r with
    | None => if rc_ret c =? KNOT_EOK then Ok (Some (mkjch from soa tree), c) else Ok (None, c)
    | Some r =>
      let* apex_soa := is_apex_soa r apex in
      if apex_soa then
        match from with
        | Some _ => Ok (None, mkrc (rc_wire c) (rc_rest c) (rc_next c) KNOT_EMALF)
        | None => read_changeset_loop fuel al c apex (Some (soa, tree)) r []
        end
      else read_changeset_loop fuel al c apex from soa (tree ++ [r])
    end
  end.
Definition read_changeset (al : Z -> bool) (chunks : list (list Z)) (apex : list Z) : res (option jchange * rctx) :=
  let* c := read_begin chunks in
  let* (soa, c) := read_rrset al c in
  match soa with
  | None => Ok (None, c)
  | Some soa => read_changeset_loop (S (length (concat chunks))) al c apex None soa []
  end.

(** journal_read.c:210-225: journal_read_rrsets with a callback that collects the RRsets and the section; one changeset *)
Fixpoint read_rrsets_loop (fuel : nat) (al : Z -> bool) (c : rctx) (apex : list Z) (in_remove : bool) : res (list (bool * jrr) * Z) :=
  match fuel with
  | O => OOF
  | S fuel =>
    let* (r, c) := read_rrset al c in
    match r with
    | None => Ok ([], rc_ret c)
    | Some r =>
      let* soa := is_apex_soa r apex in
      let in_remove := if soa then negb in_remove else in_remove in
      let* (l, ret) := read_rrsets_loop fuel al c apex in_remove in
      Ok ((in_remove, r) :: l, ret)
    end
  end.
Definition read_rrsets (al : Z -> bool) (chunks : list (list Z)) (apex : list Z) : res (list (bool * jrr) * Z) :=
  let* c := read_begin chunks in
  read_rrsets_loop (S (length (concat chunks))) al c apex false.
