(** Writing of messages: src/libknot/packet/pkt.c, the functions which fill a packet.

    The buffer is a list of bytes; its length is what was allocated, while [p_max] may be set by the
    user of the packet. The records themselves are not kept, only the pointer to them. Not modelled:
    the pointers opt_rr and tsig_rr, the lowercase copy of QNAME, memory of the packet itself. *)
From Verif Require Import Base DnameModel WireModel RrwireModel ComprModel.

(** pkt.h:65-111. [p_rr] and [p_info]: of each RRset the type with the pointer to its records, and the
    compression hints; their number is rrset_count. [p_sections]: pos and count of each section. *)
Record pkt := mkpkt {
  p_wire : list Z; p_size : Z; p_max : Z; p_reserved : Z; p_qname_size : Z;
  p_rr : list (Z * Z); p_info : list (list Z); p_allocd : Z;
  p_current : Z; p_sections : list (Z * Z); p_suffix : Z * Z }.

Definition with_wire (p : pkt) (w : list Z) : pkt :=
  mkpkt w (p_size p) (p_max p) (p_reserved p) (p_qname_size p) (p_rr p) (p_info p) (p_allocd p) (p_current p) (p_sections p) (p_suffix p).
Definition with_size (p : pkt) (n : Z) : pkt :=
  mkpkt (p_wire p) n (p_max p) (p_reserved p) (p_qname_size p) (p_rr p) (p_info p) (p_allocd p) (p_current p) (p_sections p) (p_suffix p).
Definition with_reserved (p : pkt) (n : Z) : pkt :=
  mkpkt (p_wire p) (p_size p) (p_max p) n (p_qname_size p) (p_rr p) (p_info p) (p_allocd p) (p_current p) (p_sections p) (p_suffix p).
Definition with_qname (p : pkt) (n : Z) : pkt :=
  mkpkt (p_wire p) (p_size p) (p_max p) (p_reserved p) n (p_rr p) (p_info p) (p_allocd p) (p_current p) (p_sections p) (p_suffix p).
Definition with_rrs (p : pkt) (rr : list (Z * Z)) (info : list (list Z)) : pkt :=
  mkpkt (p_wire p) (p_size p) (p_max p) (p_reserved p) (p_qname_size p) rr info (p_allocd p) (p_current p) (p_sections p) (p_suffix p).
Definition with_allocd (p : pkt) (n : Z) : pkt :=
  mkpkt (p_wire p) (p_size p) (p_max p) (p_reserved p) (p_qname_size p) (p_rr p) (p_info p) n (p_current p) (p_sections p) (p_suffix p).
Definition with_section (p : pkt) (cur : Z) (secs : list (Z * Z)) : pkt :=
  mkpkt (p_wire p) (p_size p) (p_max p) (p_reserved p) (p_qname_size p) (p_rr p) (p_info p) (p_allocd p) cur secs (p_suffix p).
Definition with_suffix (p : pkt) (s : Z * Z) : pkt :=
  mkpkt (p_wire p) (p_size p) (p_max p) (p_reserved p) (p_qname_size p) (p_rr p) (p_info p) (p_allocd p) (p_current p) (p_sections p) s.

(** src/libknot/packet/wire.h:132-280: 16-bit numbers in the header *)
Definition get16 (w : list Z) (off : Z) : res Z := let* l := rdn w off 2 in Ok (unbe l).
Definition set16 (w : list Z) (off v : Z) : res (list Z) :=
  if off + 2 >? zlen w then UB else Ok (overwrite w off (be 2 (u16 v))).
(** src/libknot/packet/wire.h: flags; a bit is set or cleared in the byte at [off] *)
Definition set_bit (w : list Z) (off bit : Z) : res (list Z) :=
  let* b := rd w off in Ok (overwrite w off [Z.lor b bit]).
Definition clear_bit (w : list Z) (off bit : Z) : res (list Z) :=
  let* b := rd w off in Ok (overwrite w off [Z.land b (255 - bit)]).

(** pkt.c:74-95 with wire == NULL, pkt.c:182-204: [buf] is the allocated memory. *)
Definition pkt_new (buf : list Z) : option pkt :=
  let len := zlen buf in
  if len <? 12 then None else
  Some (mkpkt (overwrite buf 0 (repeat 0 12)) 12 len 0 0 [] [] 0 0 [(0, 0); (0, 0); (0, 0)] (0, 0)).

(** pkt.c:108-113; uint16_t *)
Definition pkt_remaining (p : pkt) : Z := u16 (p_max p - p_size p - p_reserved p).

(** pkt.c:39-53 *)
Definition pkt_contains (p : pkt) (type ptr : Z) : bool :=
  existsb (fun x => (fst x =? type) && (snd x =? ptr)) (p_rr p).

(** pkt.c:128-137; [val] is converted to int16_t and the sum to uint16_t *)
Definition count_offset (section : Z) : Z := 6 + 2 * section.
Definition pkt_rr_wirecount_add (w : list Z) (section val : Z) : res (list Z) :=
  let* n := get16 w (count_offset section) in set16 w (count_offset section) (n + val).

(** pkt.c:140-172; [al1], [al2]: the allocations succeed; count is uint16_t. The entries are copied. *)
Definition pkt_rr_array_alloc (p : pkt) (count : Z) (al1 al2 : bool) : Z * pkt :=
  let count := u16 count in
  if p_allocd p >=? count then (KNOT_EOK, p) else
  if negb (al1 && al2) then (KNOT_ENOMEM, p) else
  (KNOT_EOK, with_allocd p ((count / 16 + 1) * 16)).

(** pkt.c:410-438 *)
Definition pkt_reserve (p : pkt) (size : Z) : Z * pkt :=
  if pkt_remaining p >=? size then (KNOT_EOK, with_reserved p (u16 (p_reserved p + size))) else (KNOT_ERANGE, p).
Definition pkt_reclaim (p : pkt) (size : Z) : Z * pkt :=
  if p_reserved p >=? size then (KNOT_EOK, with_reserved p (p_reserved p - size)) else (KNOT_ERANGE, p).

(** pkt.c:441-456; the sections are 0 ANSWER, 1 AUTHORITY, 2 ADDITIONAL *)
Fixpoint set_nth {A} (n : nat) (x : A) (l : list A) : list A :=
  match l, n with
  | [], _ => []
  | _ :: l, O => x :: l
  | y :: l, S n => y :: set_nth n x l
  end.
Definition section_of (p : pkt) (i : Z) : Z * Z := nth (Z.to_nat i) (p_sections p) (0, 0).
Definition pkt_begin (p : pkt) (section : Z) : Z * pkt :=
  if section <? p_current p then (KNOT_EINVAL, p) else
  let secs := if section >? p_current p
              then set_nth (Z.to_nat section) (u16 (zlen (p_rr p)), snd (section_of p section)) (p_sections p)
              else p_sections p in
  (KNOT_EOK, with_section p section secs).

(** pkt.c:207-212: sections_reset *)
Definition sections_reset (p : pkt) : pkt := snd (pkt_begin (with_section p 0 [(0, 0); (0, 0); (0, 0)]) 0).

(** pkt.c:298-319: payload_clear, and compr_clear of pkt.c:174-179 *)
Definition payload_clear (p : pkt) : pkt := sections_reset (with_rrs (with_reserved p 0) [] []).
Definition compr_clear (p : pkt) : pkt := with_suffix p (0, 0).

(** pkt.c:367-385: knot_pkt_clear *)
Definition pkt_clear (p : pkt) : res pkt :=
  if 12 >? zlen (p_wire p) then UB else
  Ok (compr_clear (payload_clear (with_wire (with_size p 12) (overwrite (p_wire p) 0 (repeat 0 12))))).

(** pkt.c:322-364: knot_pkt_init_response; [qwire] and [qsize] are the wire and qname_size of the query.
    pkt.h:174-181: the size of the question *)
Definition pkt_init_response (p : pkt) (qwire : list Z) (qsize : Z) : res (Z * pkt) :=
  let base_size := 12 + (if qsize =? 0 then 0 else qsize + 4) in
  if base_size >? p_max p then Ok (KNOT_ESPACE, p) else
  let p := with_size p base_size in
  let* l := rdn qwire 0 base_size in
  if base_size >? zlen (p_wire p) then UB else
  let w := overwrite (p_wire p) 0 l in
  let p := with_qname p qsize in
  let* w := if qsize =? 0 then set16 w 4 0 else Ok w in
  let* w := set16 w 6 0 in
  let* w := set16 w 8 0 in
  let* w := set16 w 10 0 in
  let* w := set_bit w 2 128 in
  let* w := clear_bit w 2 2 in
  let* w := clear_bit w 3 32 in
  let* w := clear_bit w 3 128 in
  let* w := clear_bit w 2 4 in
  let* w := clear_bit w 3 64 in
  Ok (KNOT_EOK, compr_clear (payload_clear (with_wire p w))).

(** pkt.c:459-498; the size of the buffer for wire_ctx is max_size, at least 12. *)
Definition pkt_put_question (p : pkt) (qname : list Z) (qclass qtype : Z) : res (Z * pkt) :=
  if negb (p_size p =? 12) || negb (zlen (p_rr p) =? 0) then UB else
  match (do* qname_len := dname_to_wire 12 qname (p_max p - 12) in
         do* _ := move qname_len in
         do* _ := write_be 2 qtype in
         do* _ := write_be 2 qclass in
         ret qname_len) (mkst (p_wire p) 12 (p_max p - 12) None) with
  | Done qname_len s =>
    let* w := set16 (s_mem s) 4 1 in
    Ok (pkt_begin (with_qname (with_size (with_wire p w) (s_dst s)) qname_len) 0)
  | Fail e s => Ok (e, with_wire p (s_mem s))
  | Crash => UB
  | Loop => OOF
  end.

(** pkt.c:501-570: knot_pkt_put_rotate; [ptr] is the pointer to the records. Flags: KNOT_PF_CHECKDUP, KNOT_PF_NOTRUNC,
    KNOT_PF_ORIGTTL and KNOT_PF_SOAMINTTL. *)
Record pflags := mkflags { f_checkdup : bool; f_notrunc : bool; f_origttl : bool; f_soaminttl : bool }.
Definition pkt_put_rotate (p : pkt) (al1 al2 : bool) (hint : Z) (rr : rrset) (ptr rotate : Z) (flags : pflags) : res (Z * pkt) :=
  let '(ret, p) := pkt_rr_array_alloc p (u16 (zlen (p_rr p)) + 1) al1 al2 in
  if negb (ret =? KNOT_EOK) then Ok (ret, p) else
  if f_checkdup flags && pkt_contains p (rs_type rr) ptr then Ok (KNOT_EOK, p) else
  let hints := hint :: repeat 0 15 in
  let* p :=
    if negb (p_qname_size p =? 0) && (fst (p_suffix p) =? 0) then
      let* n := wire_labels (p_wire p) 12 in Ok (with_suffix p (12, u8 n))
    else Ok p in
  let compr := if negb (p_qname_size p =? 0) then Some (mkcompr hints (fst (p_suffix p)) (snd (p_suffix p))) else None in
  let written_suffix c := match c with Some c => (c_pos c, c_labels c) | None => p_suffix p end in
  match to_wire_extra rr rotate (f_origttl flags) (f_soaminttl flags) (mkst (p_wire p) (p_size p) (pkt_remaining p) compr) with
  | Fail e s =>
    let p := with_suffix p (written_suffix (s_compr s)) in
    let* w := if (e =? KNOT_ESPACE) && negb (f_notrunc flags) then set_bit (s_mem s) 2 2 else Ok (s_mem s) in
    Ok (e, with_wire p w)
  | Done len s =>
    let p := with_suffix (with_wire p (s_mem s)) (written_suffix (s_compr s)) in
    let rr_added := u16 (zlen (rs_rdata rr)) in
    if rr_added >? 0 then
      let p := with_rrs p (p_rr p ++ [(rs_type rr, ptr)]) (p_info p ++ [match s_compr s with Some c => c_hints c | None => hints end]) in
      let '(pos, count) := section_of p (p_current p) in
      let p := with_section p (p_current p) (set_nth (Z.to_nat (p_current p)) (pos, u16 (count + 1)) (p_sections p)) in
      let p := with_size p (p_size p + len) in
      let* w := pkt_rr_wirecount_add (p_wire p) (p_current p) rr_added in
      Ok (KNOT_EOK, with_wire p w)
    else Ok (KNOT_EOK, p)
  | Crash => UB
  | Loop => OOF
  end.

(** A history: calls of the functions above on one packet *)
Inductive op : Type :=
| OQuestion (qname : list Z) (qclass qtype : Z)
| OBegin (section : Z)
| OReserve (size : Z)
| OReclaim (size : Z)
| OPut (al1 al2 : bool) (hint : Z) (rr : rrset) (ptr rotate : Z) (flags : pflags).
Definition do_op (o : op) (p : pkt) : res (Z * pkt) :=
  match o with
  | OQuestion q c t => pkt_put_question p q c t
  | OBegin s => Ok (pkt_begin p s)
  | OReserve n => Ok (pkt_reserve p n)
  | OReclaim n => Ok (pkt_reclaim p n)
  | OPut al1 al2 h rr ptr rot f => pkt_put_rotate p al1 al2 h rr ptr rot f
  end.
