(** TSIG: src/libknot/tsig-op.c, src/libknot/rrtype/tsig.c, src/libdnssec/tsig.c and src/knot/nameserver/tsig_ctx.c.

    HMAC is a parameter [H] (algorithm, secret, data) and the time is given. A TSIG RRset has one record, or none if
    the memory for its RDATA couldn't be allocated; then [rr_rdata] is empty. *)
From Verif Require Import Base DnameModel WireModel RrwireModel ComprModel PutModel PktparseModel AclModel.

Definition hmac := Z -> list Z -> list Z -> list Z.

(** src/libdnssec/tsig.h:38-46, src/libdnssec/tsig.c:46-58: the algorithms with their names in wire format,
    and gnutls_hmac_get_len() of them *)
Definition algorithms : list (Z * list Z * Z) :=
  [ (2, [9; 104; 109; 97; 99; 45; 115; 104; 97; 49; 0], 20);
    (3, [11; 104; 109; 97; 99; 45; 115; 104; 97; 50; 50; 52; 0], 28);
    (4, [11; 104; 109; 97; 99; 45; 115; 104; 97; 50; 53; 54; 0], 32);
    (5, [11; 104; 109; 97; 99; 45; 115; 104; 97; 51; 56; 52; 0], 48);
    (6, [11; 104; 109; 97; 99; 45; 115; 104; 97; 53; 49; 50; 0], 64);
    (1, [8; 104; 109; 97; 99; 45; 109; 100; 53; 7; 115; 105; 103; 45; 97; 108; 103; 3; 114; 101; 103; 3; 105; 110; 116; 0], 16) ].
Fixpoint alg_find (id : Z) (l : list (Z * list Z * Z)) : option (list Z * Z) :=
  match l with
  | [] => None
  | (i, d, n) :: l => if i =? id then Some (d, n) else alg_find id l
  end.
(** src/libdnssec/tsig.c:128-133, 221-226; 0 is the length of an unknown algorithm *)
Definition alg_to_dname (id : Z) : option (list Z) := option_map fst (alg_find id algorithms).
Definition alg_size (id : Z) : Z := match alg_find id algorithms with Some (_, n) => n | None => 0 end.
(** src/libdnssec/shared/dname.c:132-165; the labels are compared byte by byte, whole ones are read here *)
Fixpoint dname_equal_nc (fuel : nat) (d1 d2 : list Z) : res bool :=
  match fuel with
  | O => OOF
  | S fuel =>
    let* c1 := rd0 d1 in
    let* c2 := rd0 d2 in
    if negb (c1 =? c2) then Ok false else
    if c1 =? 0 then Ok true else
    if c1 >? 63 then Ok false else
    let* l1 := take d1 (c1 + 1) in
    let* l2 := take d2 (c1 + 1) in
    if negb (bytes_eqb (map tolower (tl l1)) (map tolower (tl l2))) then Ok false else
    let* d1 := advance d1 (c1 + 1) in
    let* d2 := advance d2 (c1 + 1) in
    dname_equal_nc fuel d1 d2
  end.
(** src/libdnssec/tsig.c:68-81, 117-126; DNSSEC_TSIG_UNKNOWN is 0 *)
Fixpoint alg_from (d : list Z) (l : list (Z * list Z * Z)) : res Z :=
  match l with
  | [] => Ok 0
  | (i, a, _) :: l => let* e := dname_equal_nc (S (length d)) d a in if e : bool then Ok i else alg_from d l
  end.
Definition alg_from_dname (d : list Z) : res Z := alg_from d algorithms.

(** src/libknot/wire.h:132-137 *)
Definition be48 (v : Z) : list Z := zfirstn 6 (zskipn 1 (be 8 (u64 (Z.shiftl v 8)))).

(** ** src/libknot/rrtype/tsig.c *)
(** tsig.c:247-256, 275-338, 348-356: numbers from the RDATA, 0 if there is none *)
Definition rd_num (rd : list Z) (id : tsig_off) (n : Z) : res Z :=
  let* p := rdata_seek rd id n in
  match p with None => Ok 0 | Some p => let* l := mem_read rd p n in Ok (unbe l) end.
Definition rd_time (rd : list Z) : res Z := rd_num rd TSIGNED_O 6.
Definition rd_fudge (rd : list Z) : res Z := rd_num rd FUDGE_O 2.
Definition rd_mac_length (rd : list Z) : res Z := rd_num rd MACLEN_O 2.
Definition rd_orig_id (rd : list Z) : res Z := rd_num rd ORIGID_O 2.
Definition rd_error (rd : list Z) : res Z := rd_num rd ERROR_O 2.
Definition rd_other_length (rd : list Z) : res Z := rd_num rd OLEN_O 2.
(** tsig.c:285-293, 338-346: pointers into the RDATA *)
Definition rd_mac (rd : list Z) : res (option Z) := rdata_seek rd MAC_O 0.
Definition rd_other (rd : list Z) : res (option Z) := rdata_seek rd OTHER_O 0.
(** tsig.c:123-132, 168-245: the setters; their errors are ignored *)
Definition rd_set (rd : list Z) (id : tsig_off) (n : Z) (l : list Z) : res (list Z) :=
  let* p := rdata_seek rd id n in
  match p with None => Ok rd | Some p => mem_write rd p l end.
Definition rd_set_other (rd : list Z) (l : list Z) : res (list Z) :=
  if zlen l >? 6 then Ok rd else rd_set rd OLEN_O (zlen l + 2) (be 2 (zlen l) ++ l).
(** tsig.c:134-166; [al]: the memory for the RDATA *)
Definition create_rdata (alg : list Z) (maclen err : Z) (al : bool) : res (list Z) :=
  let* alg_len := dname_size alg in
  let rdlen := alg_len + 16 + maclen + (if err =? 18 then 6 else 0) in
  let* a := take alg alg_len in
  let* rd := mem_write (zeros rdlen) 0 a in
  let* rd := mem_write rd (alg_len + 8) (be 2 maclen) in
  if negb al then Ok [] else
  rd_set rd ERROR_O 2 (be 2 err).
(** tsig.c:358-379 *)
Definition variables_length (r : rr) : res Z :=
  if zlen (rr_rdata r) =? 0 then Ok 0 else
  let* other := rd_other_length (rr_rdata r) in
  let* n := dname_size (rr_owner r) in
  let* a := dname_size (rr_rdata r) in
  Ok (n + a + other + 18).

(** ** src/libknot/tsig-op.c *)
(** tsig-op.c:38-54 *)
Definition check_algorithm (r : rr) : res Z :=
  if zlen (rr_rdata r) =? 0 then Ok KNOT_EMALF else
  let* alg := alg_from_dname (rr_rdata r) in
  Ok (if alg =? 0 then KNOT_TSIG_EBADKEY else KNOT_EOK).
(** tsig-op.c:56-72 *)
Definition check_key (r : rr) (k : key) : res Z :=
  let* e := dname_is_equal (rr_owner r) (k_name k) in
  Ok (if e : bool then KNOT_EOK else KNOT_TSIG_EBADKEY).
(** tsig-op.c:74-101; [al]: memory for the context. The size of the digest is what HMAC gives. *)
Definition compute_digest (H : hmac) (w : list Z) (k : key) (al : bool) : res (list Z) :=
  if negb al || (match alg_find (k_alg k) algorithms with None => true | _ => false end) then Err KNOT_TSIG_EBADSIG else
  Ok (H (k_alg k) (k_secret k) w).
(** tsig-op.c:103-138; difftime() is exact for the 48-bit time *)
Definition check_time_signed (rd : list Z) (prev now : Z) : res Z :=
  let* time := rd_time rd in
  if time =? 0 then Ok KNOT_TSIG_EBADTIME else
  let* fudge := rd_fudge rd in
  if fudge =? 0 then Ok KNOT_TSIG_EBADTIME else
  let diff := now - time in
  if (diff >? fudge) || (diff <? - fudge) then Ok KNOT_TSIG_EBADTIME else
  if time - prev <? 0 then Ok KNOT_TSIG_EBADTIME else
  Ok KNOT_EOK.
(** tsig-op.c:140-207: into [w] from [off] *)
Definition put_name (w : list Z) (off : Z) (d : list Z) : res (Z * list Z) :=
  let* n := dname_size d in
  let* l := take d n in
  let* w := mem_write w off l in
  Ok (n, w).
Definition write_variables (w : list Z) (off : Z) (r : rr) : res (list Z) :=
  let rd := rr_rdata r in
  let* (n, w) := put_name w off (rr_owner r) in
  let off := off + n in
  let* w := mem_write w off (be 2 (rr_class r)) in
  let off := off + 2 in
  let* w := mem_write w off (be 4 (rr_ttl r)) in
  let off := off + 4 in
  if zlen rd =? 0 then Err KNOT_EINVAL else
  let* (n, w) := put_name w off rd in
  let* low := dname_to_lower (zskipn off w) in
  let* w := mem_write w off low in
  let off := off + n in
  let* t := rd_time rd in
  let* w := mem_write w off (be48 t) in
  let off := off + 6 in
  let* f := rd_fudge rd in
  let* w := mem_write w off (be 2 f) in
  let off := off + 2 in
  let* e := rd_error rd in
  let* w := mem_write w off (be 2 e) in
  let off := off + 2 in
  let* olen := rd_other_length rd in
  let* o := rd_other rd in
  match o with
  | None => Err KNOT_EINVAL
  | Some o =>
    let* w := mem_write w off (be 2 olen) in
    let off := off + 2 in
    let* l := mem_read rd o olen in
    mem_write w off l
  end.
(** tsig-op.c:209-221 *)
Definition write_timers (w : list Z) (off : Z) (rd : list Z) : res (list Z) :=
  let* t := rd_time rd in
  let* w := mem_write w off (be48 t) in
  let* f := rd_fudge rd in
  mem_write w (off + 6) (be 2 f).
(** tsig-op.c:223-279. [al1], [al2]: memory *)
Definition create_sign_wire (H : hmac) (msg mac : list Z) (r : rr) (k : key) (al1 al2 : bool) : res (list Z) :=
  let* vl := variables_length r in
  let w := zeros (zlen msg + zlen mac + (if zlen mac >? 0 then 2 else 0) + vl) in
  if negb al1 then Err KNOT_ENOMEM else
  let* (w, pos) :=
    if zlen mac >? 0 then
      let* w := mem_write w 0 (be 2 (zlen mac)) in
      let* w := mem_write w 2 mac in
      Ok (w, 2)
    else Ok (w, 0) in
  let pos := pos + zlen mac in
  let* w := mem_write w pos msg in
  let pos := pos + zlen msg in
  let* w := write_variables w pos r in
  compute_digest H w k al2.
(** tsig-op.c:281-331, and the same in tsig-op.c:442-466 *)
Definition create_sign_wire_next (H : hmac) (msg mac : list Z) (rd : list Z) (k : key) (al1 al2 : bool) : res (list Z) :=
  let w := zeros (zlen msg + zlen mac + 8 + 2) in
  if negb al1 then Err KNOT_ENOMEM else
  let* w := mem_write w 0 (be 2 (zlen mac)) in
  let* w := mem_write w 2 mac in
  let* w := mem_write w (zlen mac + 2) msg in
  let* w := write_timers w (zlen mac + zlen msg + 2) rd in
  compute_digest H w k al2.

(** A message in a buffer: the buffer, its used part *)
(** src/libknot/packet/rrset-wire.h:66-70 with tsig-op.c:389-409, 484-503, 668-682: the record is written behind the
    message. [Err]: the buffer may be changed behind the message *)
Definition append (buf : list Z) (len max : Z) (r : rr) : res (list Z * Z) :=
  let rs := mkrrset (rr_owner r) (rr_type r) (rr_class r) (rr_ttl r) (if zlen (rr_rdata r) =? 0 then [] else [rr_rdata r]) in
  match to_wire_extra rs 0 false false (mkst buf len (max - len) None) with
  | Done n s =>
    let* ar := get16 (s_mem s) 10 in
    let* buf := set16 (s_mem s) 10 (ar + 1) in
    Ok (buf, len + n)
  | Fail e _ => Err e
  | Crash => UB
  | Loop => OOF
  end.

(** What memory is available: for the RRset, its RDATA, the data to sign, the HMAC context *)
Record memory := mkmem { a_rrset : bool; a_rdata : bool; a_wire : bool; a_ctx : bool }.
Definition plenty : memory := mkmem true true true true.

(** tsig-op.c:333-422. Returns the buffer, the size of the message and the digest. The algorithm of the key is known, as
    the pointer to its name is given to knot_dname_size(). *)
Definition tsig_sign (H : hmac) (buf : list Z) (len max : Z) (mac : list Z) (k : key) (rcode req_time now : Z) (al : memory) : res (list Z * Z * list Z) :=
  if negb (a_rrset al) then Err KNOT_ENOMEM else
  let err := if rcode =? 18 then rcode else 0 in
  let* rd := match alg_to_dname (k_alg k) with None => Ok [] | Some alg => create_rdata alg (alg_size (k_alg k)) err (a_rdata al) end in
  let* rd :=
    if rcode =? 18 then
      let* rd := rd_set rd TSIGNED_O 6 (be48 req_time) in
      rd_set_other rd (be48 now)
    else
      let* rd := rd_set rd TSIGNED_O 6 (be48 now) in
      rd_set_other rd [] in
  let* rd := rd_set rd FUDGE_O 2 (be 2 300) in
  let* id := get16 buf 0 in
  let* rd := rd_set rd ORIGID_O 2 (be 2 id) in
  let r := mkrr (k_name k) 250 255 0 rd in
  let* digest := create_sign_wire H (zfirstn len buf) mac r k (a_wire al) (a_ctx al) in
  let* rd := rd_set rd MAC_O (zlen digest) digest in
  let* (buf, len) := append buf len max (mkrr (k_name k) 250 255 0 rd) in
  Ok (buf, len, digest).

(** tsig-op.c:424-511; [dlen]: the space for the digest, [to_sign] is given *)
Definition tsig_sign_next (H : hmac) (buf : list Z) (len max : Z) (prev : list Z) (dlen : Z) (k : key) (to_sign : list Z) (now : Z) (al : memory) : res (list Z * Z * list Z) :=
  if negb (a_rrset al) then Err KNOT_ENOMEM else
  let* rd := match alg_to_dname (k_alg k) with None => Ok [] | Some alg => create_rdata alg (alg_size (k_alg k)) 0 (a_rdata al) end in
  let* rd := rd_set rd TSIGNED_O 6 (be48 now) in
  let* rd := rd_set rd FUDGE_O 2 (be 2 300) in
  let* digest := create_sign_wire_next H to_sign prev rd k (a_wire al) (a_ctx al) in
  if zlen digest >? dlen then Err KNOT_ESPACE else
  let* rd := rd_set rd MAC_O (zlen digest) digest in
  let* id := get16 buf 0 in
  let* rd := rd_set rd ORIGID_O 2 (be 2 id) in
  let* rd := rd_set_other rd [] in
  let* (buf, len) := append buf len max (mkrr (k_name k) 250 255 0 rd) in
  Ok (buf, len, digest).

(** tsig-op.c:513-598. [next]: use_times; [al0]: memory for the copy. The octets of the digest behind its size are not
    initialized. *)
Definition check_digest (H : hmac) (rr : option rr) (wire mac : list Z) (k : key) (prev : Z) (next : bool) (now : Z) (al0 : bool) (al : memory) : res Z :=
  match rr with
  | None => Ok KNOT_TSIG_EBADKEY
  | Some r =>
    let rd := rr_rdata r in
    let* ret := check_algorithm r in
    if negb (ret =? KNOT_EOK) then Ok ret else
    let* ret := check_key r k in
    if negb (ret =? KNOT_EOK) then Ok ret else
    if negb al0 then Ok KNOT_ENOMEM else
    let* id := rd_orig_id rd in
    let* w := set16 wire 0 id in
    match (if next then create_sign_wire_next H w mac rd k (a_wire al) (a_ctx al) else create_sign_wire H w mac r k (a_wire al) (a_ctx al)) with
    | Ok digest =>
      let* alg := alg_from_dname rd in
      let* mac_length := rd_mac_length rd in
      let* tsig_mac := rd_mac rd in
      if negb (mac_length =? alg_size alg) then Ok KNOT_TSIG_EBADSIG else
      match tsig_mac with
      | None => UB
      | Some p =>
        let* m := mem_read rd p mac_length in
        if mac_length >? zlen digest then UB else
        if negb (bytes_eqb m (zfirstn mac_length digest)) then Ok KNOT_TSIG_EBADSIG else
        check_time_signed rd prev now
      end
    | Err e => Ok e
    | UB => UB
    | OOF => OOF
    end
  end.
(** tsig-op.c:600-635 *)
Definition server_check (H : hmac) (rr : option rr) (wire : list Z) (k : key) (now : Z) (al0 : bool) (al : memory) : res Z :=
  check_digest H rr wire [] k 0 false now al0 al.
Definition client_check (H : hmac) (rr : option rr) (wire mac : list Z) (k : key) (prev now : Z) (al0 : bool) (al : memory) : res Z :=
  check_digest H rr wire mac k prev false now al0 al.
Definition client_check_next (H : hmac) (rr : option rr) (wire mac : list Z) (k : key) (prev now : Z) (al0 : bool) (al : memory) : res Z :=
  check_digest H rr wire mac k prev true now al0 al.

(** ** src/knot/nameserver/tsig_ctx.c *)
(** tsig_ctx.h:27-39; the used parts of the digest and of the buffer *)
Record tctx := mkctx { x_prev : Z; x_digest : list Z; x_unsigned : Z; x_buffer : list Z }.
Definition ctx_init : tctx := mkctx 0 [] 0 [].
(** tsig_ctx.c:24, UINT16_MAX * 100 *)
Definition BUFFER_MAX : Z := 6553500.
(** tsig_ctx.c:59-87: requests are signed; the same function signs following messages *)
Definition sign_packet (H : hmac) (c : tctx) (k : key) (buf : list Z) (len max now : Z) (al : memory) : res (list Z * Z * tctx) :=
  let* (b, digest) :=
    if zlen (x_digest c) =? 0 then tsig_sign H buf len max [] k 0 0 now al
    else tsig_sign_next H buf len max (x_digest c) (zlen (x_digest c)) k (zfirstn len buf) now al in
  Ok (fst b, snd b, mkctx (x_prev c) digest (x_unsigned c) (x_buffer c)).
(** tsig_ctx.c:89-104 *)
Definition after_verify (c : tctx) (rd : list Z) : res (Z * tctx) :=
  let* n := rd_mac_length rd in
  if negb (zlen (x_digest c) =? n) then Ok (KNOT_EMALF, c) else
  let* p := rd_mac rd in
  match p with
  | None => UB
  | Some p =>
    let* m := mem_read rd p n in
    let* t := rd_time rd in
    Ok (KNOT_EOK, mkctx t m 0 [])
  end.
(** tsig_ctx.c:106-180. A message with its TSIG record taken away from it. [alb]: memory for the buffer *)
Definition verify_packet (H : hmac) (c : tctx) (k : key) (wire : list Z) (tsig : option rr) (now : Z) (alb al0 : bool) (al : memory) : res (Z * tctx) :=
  let need := zlen (x_buffer c) + zlen wire in
  if need >? BUFFER_MAX then Ok (KNOT_ENOMEM, c) else
  if negb alb then Ok (KNOT_ENOMEM, c) else
  let c := mkctx (x_prev c) (x_digest c) (x_unsigned c) (x_buffer c ++ wire) in
  match tsig with
  | None => Ok (KNOT_EOK, mkctx (x_prev c) (x_digest c) ((x_unsigned c + 1) mod 2 ^ 32) (x_buffer c))
  | Some r =>
    let* ret :=
      if x_prev c =? 0 then client_check H tsig (x_buffer c) (x_digest c) k 0 now al0 al
      else client_check_next H tsig (x_buffer c) (x_digest c) k (x_prev c) now al0 al in
    if negb (ret =? KNOT_EOK) then Ok (ret, c) else
    after_verify c (rr_rdata r)
  end.

(** src/knot/query/requestor.c:441-461, 521-524: messages with their TSIG records and times are received one after another, until
    the layer is done; the memory is given with each. The result is what the requestor returns when the layer is content. *)
Record received := mkrecv { v_wire : list Z; v_tsig : option rr; v_now : Z; v_buf : bool; v_copy : bool; v_mem : memory }.
Fixpoint receive_all (H : hmac) (c : tctx) (k : key) (l : list received) : res Z :=
  match l with
  | [] => Ok (if negb (x_unsigned c =? 0) then KNOT_TSIG_EBADSIG else KNOT_EOK)
  | v :: l =>
    let* (ret, c) := verify_packet H c k (v_wire v) (v_tsig v) (v_now v) (v_buf v) (v_copy v) (v_mem v) in
    if negb (ret =? KNOT_EOK) then Ok ret else
    if x_unsigned c >=? 100 then Ok KNOT_TSIG_EBADSIG else
    receive_all H c k l
  end.

(** src/knot/nameserver/process_query.c:857-908, a good request: [count] messages were signed, [digest] is the MAC of the
    previous one or of the request. The buffers with the sizes of the messages and of the buffers and the times of signing. *)
Fixpoint sign_all (H : hmac) (count : Z) (digest : list Z) (k : key) (l : list (list Z * Z * Z * Z)) (al : memory) : res (list (list Z * Z)) :=
  match l with
  | [] => Ok []
  | (buf, len, max, now) :: l =>
    let* (b, digest) :=
      if count =? 0 then tsig_sign H buf len max digest k 0 0 now al
      else tsig_sign_next H buf len max digest (alg_size (k_alg k)) k (zfirstn len buf) now al in
    let* rest := sign_all H (count + 1) digest k l al in
    Ok (b :: rest)
  end.
