(** Parsing of messages: src/libknot/packet/pkt.c:572-790, src/libknot/rrtype/tsig.c:48-121,407-413. *)
From Verif Require Import Base DnameModel WireModel EdnsModel RrwireModel ComprModel PutModel.

(** tsig.c:35-45 *)
Inductive tsig_off := ALGNAME_O | TSIGNED_O | FUDGE_O | MACLEN_O | MAC_O | ORIGID_O | ERROR_O | OLEN_O | OTHER_O.

(** tsig.c:61-121: the position of a field in the RDATA, or NULL. There is one record. *)
Definition rdata_seek (rd : list Z) (id : tsig_off) (nb : Z) : res (option Z) :=
  if zlen rd =? 0 then Ok None else
  let w := wire_init_const rd in
  let* alg_len := dname_size rd in
  let skip_mac w := let* w := wire_skip w (alg_len + 8) in let* (n, w) := wire_read_u16 w in wire_skip w n in
  let* r :=
    match id with
    | ALGNAME_O => Ok (Some (w, nb))
    | TSIGNED_O => let* w := wire_skip w alg_len in Ok (Some (w, nb))
    | FUDGE_O => let* w := wire_skip w (alg_len + 6) in Ok (Some (w, nb))
    | MACLEN_O => let* w := wire_skip w (alg_len + 8) in Ok (Some (w, nb))
    | MAC_O => let* w := wire_skip w (alg_len + 10) in Ok (Some (w, nb))
    | ORIGID_O => let* w := skip_mac w in Ok (Some (w, nb))
    | ERROR_O => let* w := skip_mac w in let* w := wire_skip w 2 in Ok (Some (w, nb))
    | OLEN_O => let* w := skip_mac w in let* w := wire_skip w 4 in Ok (Some (w, nb))
    | OTHER_O =>
      let* w := skip_mac w in
      let* w := wire_skip w 4 in
      if negb (nb =? 0) then UB else
      let* (nb, w) := wire_read_u16 w in
      if negb (wire_available w =? nb) then Ok None else Ok (Some (w, nb))
    end in
  match r with
  | None => Ok None
  | Some (w, nb) =>
    if negb (w_err w =? KNOT_EOK) then Ok None else
    if wire_available w <? nb then Ok None else Ok (Some (w_pos w))
  end.

(** tsig.c:407-413, 190-195 *)
Definition tsig_rdata_is_ok (rd : list Z) : res bool :=
  let* other := rdata_seek rd OTHER_O 0 in
  match other with
  | None => Ok false
  | Some _ => let* alg := rdata_seek rd ALGNAME_O 0 in Ok (match alg with None => false | Some _ => true end)
  end.

(** pkt.h:73-111 for parsing. [d_rr]: the records with their positions in the wire (rr, rr_info.pos); the pointers
    [d_opt] and [d_tsig] to records are their indexes; [d_tsig_wire]: position and length. [d_nullbyte]: the flag
    KNOT_PF_NULLBYTE. *)
Record dpkt := mkdpkt {
  d_wire : list Z; d_size : Z; d_parsed : Z; d_qname_size : Z; d_lower : list Z; d_nullbyte : bool;
  d_rr : list (rr * Z); d_allocd : Z; d_current : Z; d_sections : list (Z * Z);
  d_opt : option Z; d_tsig : option Z; d_tsig_wire : option (Z * Z) }.

(** pkt.c:97-105, 181-204, 222-237: knot_pkt_new over the memory [wire]; its user sets the size (as
    src/knot/query/requestor.c does), otherwise it is the length of the memory *)
Definition dpkt_new (w : list Z) (size : Z) : dpkt := mkdpkt w size 0 0 [] false [] 0 0 [(0, 0); (0, 0); (0, 0)] None None None.

(** pkt.c:573-623: knot_pkt_parse_question; question_size is uint16_t. *)
Definition parse_question (p : dpkt) : res (Z * dpkt) :=
  if d_size p <? 12 then Ok (KNOT_EMALF, p) else
  let p := mkdpkt (d_wire p) (d_size p) 12 (d_qname_size p) (d_lower p) (d_nullbyte p) (d_rr p) (d_allocd p) (d_current p) (d_sections p) (d_opt p) (d_tsig p) (d_tsig_wire p) in
  let* qd := get16 (d_wire p) 4 in
  if qd >? 1 then Ok (KNOT_EMALF, p) else
  if qd =? 0 then
    Ok (KNOT_EOK, mkdpkt (d_wire p) (d_size p) (d_parsed p) 0 (d_lower p) (d_nullbyte p) (d_rr p) (d_allocd p) (d_current p) (d_sections p) (d_opt p) (d_tsig p) (d_tsig_wire p))
  else
  match wire_check (zfirstn (d_size p) (d_wire p)) false (d_parsed p) with
  | UB => UB
  | OOF => OOF
  | Err _ => Ok (KNOT_EMALF, p)
  | Ok len =>
    if len <=? 0 then Ok (KNOT_EMALF, p) else
    let question_size := u16 (len + 4) in
    if d_parsed p + question_size >? d_size p then Ok (KNOT_EMALF, p) else
    let* l := dname_to_lower (zskipn 12 (d_wire p)) in
    let* q := rdn (d_wire p) 12 len in
    Ok (KNOT_EOK, mkdpkt (d_wire p) (d_size p) (d_parsed p + question_size) len l (d_nullbyte p || existsb (Z.eqb 0) (removelast q))
                         (d_rr p) (d_allocd p) (d_current p) (d_sections p) (d_opt p) (d_tsig p) (d_tsig_wire p))
  end.

(** pkt.c:140-172 *)
Definition d_alloc (p : dpkt) (count : Z) (al : bool) : Z * dpkt :=
  let count := u16 count in
  if d_allocd p >=? count then (KNOT_EOK, p) else
  if negb al then (KNOT_ENOMEM, p) else
  (KNOT_EOK, mkdpkt (d_wire p) (d_size p) (d_parsed p) (d_qname_size p) (d_lower p) (d_nullbyte p) (d_rr p) ((count / 16 + 1) * 16) (d_current p) (d_sections p) (d_opt p) (d_tsig p) (d_tsig_wire p)).

(** pkt.c:441-456 *)
Definition d_section (p : dpkt) (i : Z) : Z * Z := nth (Z.to_nat i) (d_sections p) (0, 0).
Definition d_begin (p : dpkt) (section : Z) : Z * dpkt :=
  if section <? d_current p then (KNOT_EINVAL, p) else
  let secs := if section >? d_current p
              then set_nth (Z.to_nat section) (u16 (zlen (d_rr p)), snd (d_section p section)) (d_sections p)
              else d_sections p in
  (KNOT_EOK, mkdpkt (d_wire p) (d_size p) (d_parsed p) (d_qname_size p) (d_lower p) (d_nullbyte p) (d_rr p) (d_allocd p) section secs (d_opt p) (d_tsig p) (d_tsig_wire p)).

(** pkt.c:625-666: check_rr_constraints; the record is the last one in [d_rr]. The memory for the positions of
    options is available. *)
Definition check_rr_constraints (p : dpkt) (r : rr) (rr_size : Z) (keepwire : bool) : res (Z * dpkt) :=
  let index := zlen (d_rr p) - 1 in
  if rr_type r =? 250 then
    if negb (d_current p =? 2) || (match d_tsig p with Some _ => true | None => false end) then Ok (KNOT_EMALF, p) else
    let* ok := tsig_rdata_is_ok (rr_rdata r) in
    if negb ok then Ok (KNOT_EMALF, p) else
    let* p :=
      if keepwire then Ok p else
      let parsed := d_parsed p - rr_size in
      let* ar := get16 (d_wire p) 10 in
      let* w := set16 (d_wire p) 10 (ar - 1) in
      Ok (mkdpkt w (d_size p - rr_size) parsed (d_qname_size p) (d_lower p) (d_nullbyte p) (d_rr p) (d_allocd p) (d_current p) (d_sections p) (d_opt p) (d_tsig p) (Some (parsed, rr_size))) in
    Ok (KNOT_EOK, mkdpkt (d_wire p) (d_size p) (d_parsed p) (d_qname_size p) (d_lower p) (d_nullbyte p) (d_rr p) (d_allocd p) (d_current p) (d_sections p) (d_opt p) (Some index) (d_tsig_wire p))
  else if rr_type r =? 41 then
    if negb (d_current p =? 2) || (match d_opt p with Some _ => true | None => false end) then Ok (KNOT_EMALF, p) else
    let* (ret, _) := edns_get_options (mkopt (rr_class r) (rr_ttl r) (Some (rr_rdata r))) in
    if negb (ret =? KNOT_EOK) then Ok (KNOT_EMALF, p) else
    Ok (KNOT_EOK, mkdpkt (d_wire p) (d_size p) (d_parsed p) (d_qname_size p) (d_lower p) (d_nullbyte p) (d_rr p) (d_allocd p) (d_current p) (d_sections p) (Some index) (d_tsig p) (d_tsig_wire p))
  else Ok (KNOT_EOK, p).

(** pkt.c:668-705: parse_rr. [al] tells for the number of a record whether the allocations of its owner and RDATA
    succeed, [ala] whether the arrays can be enlarged. The arrays have [d_allocd] entries. *)
Definition parse_rr (p : dpkt) (keepwire nocanon : bool) (ala : bool) (al : Z -> bool * bool) : res (Z * dpkt) :=
  if d_parsed p >=? d_size p then Ok (KNOT_EFEWDATA, p) else
  let '(ret, p) := d_alloc p (u16 (zlen (d_rr p)) + 1) ala in
  if negb (ret =? KNOT_EOK) then Ok (ret, p) else
  if zlen (d_rr p) >=? d_allocd p then UB else
  let pos := d_parsed p in
  let '(al1, al2) := al (zlen (d_rr p)) in
  let* (x, st) := rr_from_wire (zfirstn (d_size p) (d_wire p)) pos (negb nocanon) al1 al2 in
  let '(ret, parsed) := x in
  let p := mkdpkt (d_wire p) (d_size p) parsed (d_qname_size p) (d_lower p) (d_nullbyte p) (d_rr p) (d_allocd p) (d_current p) (d_sections p) (d_opt p) (d_tsig p) (d_tsig_wire p) in
  if negb (ret =? KNOT_EOK) then Ok (ret, p) else
  let rr_size := parsed - pos in
  match st with
  | SFilled r =>
    let '(spos, count) := d_section p (d_current p) in
    let p := mkdpkt (d_wire p) (d_size p) (d_parsed p) (d_qname_size p) (d_lower p) (d_nullbyte p) (d_rr p ++ [(r, pos)]) (d_allocd p)
                    (d_current p) (set_nth (Z.to_nat (d_current p)) (spos, u16 (count + 1)) (d_sections p)) (d_opt p) (d_tsig p) (d_tsig_wire p) in
    check_rr_constraints p r rr_size keepwire
  | _ => UB
  end.

(** pkt.c:707-723: parse_section, [n] records left *)
Fixpoint parse_section (n : nat) (p : dpkt) (keepwire nocanon ala : bool) (al : Z -> bool * bool) : res (Z * dpkt) :=
  match n with
  | O => Ok (KNOT_EOK, p)
  | S n =>
    let* (ret, p) := parse_rr p keepwire nocanon ala al in
    if negb (ret =? KNOT_EOK) then Ok (ret, p) else parse_section n p keepwire nocanon ala al
  end.

(** pkt.c:740-750: one section *)
Definition parse_one (i : Z) (p : dpkt) (keepwire nocanon ala : bool) (al : Z -> bool * bool) : res (Z * dpkt) :=
  let '(ret, p) := d_begin p i in
  if negb (ret =? KNOT_EOK) then Ok (ret, p) else
  let* rr_count := get16 (d_wire p) (count_offset i) in
  parse_section (Z.to_nat rr_count) p keepwire nocanon ala al.

(** pkt.c:725-768: parse_payload. The RDATA of two records are in different memory, so that comparing the pointers is
    comparing the indexes. *)
Definition parse_payload (p : dpkt) (keepwire nocanon ala : bool) (al : Z -> bool * bool) : res (Z * dpkt) :=
  if negb (d_size p >? 0) then UB else
  let* an := get16 (d_wire p) 6 in
  let* ns := get16 (d_wire p) 8 in
  let* ar := get16 (d_wire p) 10 in
  if an + ns + ar >? d_size p / 11 then Ok (KNOT_EMALF, p) else
  let '(ret, p) := d_alloc p (an + ns + ar) ala in
  if negb (ret =? KNOT_EOK) then Ok (ret, p) else
  let* (ret, p) := parse_one 0 p keepwire nocanon ala al in
  if negb (ret =? KNOT_EOK) then Ok (ret, p) else
  let* (ret, p) := parse_one 1 p keepwire nocanon ala al in
  if negb (ret =? KNOT_EOK) then Ok (ret, p) else
  let* (ret, p) := parse_one 2 p keepwire nocanon ala al in
  if negb (ret =? KNOT_EOK) then Ok (ret, p) else
  let '(pos, count) := d_section p 2 in
  if (match d_tsig p with Some i => (count >? 0) && negb (i =? pos + count - 1) | None => false end) then Ok (KNOT_EMALF, p) else
  if d_parsed p <? d_size p then Ok (KNOT_ETRAIL, p) else Ok (KNOT_EOK, p).

(** pkt.c:771-787: knot_pkt_parse on a packet without records; sections_reset of pkt.c:207-214 *)
Definition pkt_parse (w : list Z) (size : Z) (keepwire nocanon ala : bool) (al : Z -> bool * bool) : res (Z * dpkt) :=
  let* (ret, p) := parse_question (snd (d_begin (dpkt_new w size) 0)) in
  if ret =? KNOT_EOK then parse_payload p keepwire nocanon ala al else Ok (ret, p).
