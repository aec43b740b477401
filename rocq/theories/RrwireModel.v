(** Records in messages: src/libknot/packet/rrset-wire.c, src/libknot/packet/compr.h,
    src/libknot/descriptor.c, src/libknot/rrtype/naptr.c, src/libknot/rrset.c:140-196.

    A message is the list of its bytes, a pointer into it is an offset. A pointer into RDATA is the
    list of the bytes from there to the end of the RDATA. *)
From Verif Require Import Base DnameModel WireModel.

(** src/libknot/descriptor.h:166-189: the blocks of RDATA *)
Inductive block :=
| BFixed (n : Z)   (* a positive number *)
| BCompr           (* KNOT_RDATA_WF_COMPRESSIBLE_DNAME *)
| BDecompr         (* KNOT_RDATA_WF_DECOMPRESSIBLE_DNAME *)
| BName            (* KNOT_RDATA_WF_FIXED_DNAME *)
| BNaptr           (* KNOT_RDATA_WF_NAPTR_HEADER *)
| BRem.            (* KNOT_RDATA_WF_REMAINDER *)

(** src/libknot/descriptor.c:36-156 with the types of src/libknot/descriptor.h:57-132;
    [None] for entries without a name, including the first one *)
Definition rdata_descriptors (t : Z) : option (list block) :=
  match t with
  | 1 => Some [BFixed 4]
  | 2 | 5 | 12 => Some [BCompr]
  | 6 => Some [BCompr; BCompr; BFixed 20]
  | 10 | 13 | 16 | 25 => Some [BRem]
  | 14 => Some [BCompr; BCompr]
  | 15 => Some [BFixed 2; BCompr]
  | 17 => Some [BDecompr; BDecompr]
  | 18 | 21 => Some [BFixed 2; BDecompr]
  | 24 => Some [BFixed 18; BDecompr; BRem]
  | 28 | 29 => Some [BFixed 16]
  | 33 => Some [BFixed 6; BDecompr]
  | 35 => Some [BNaptr; BDecompr]
  | 36 => Some [BFixed 2; BName]
  | 39 => Some [BName]
  | 37 | 41 | 42 | 43 | 44 | 45 => Some [BRem]
  | 46 => Some [BFixed 18; BName; BRem]
  | 47 => Some [BName; BRem]
  | 48 | 49 | 50 | 51 | 52 | 53 | 59 | 60 | 61 | 62 | 63 | 64 | 65 | 99 => Some [BRem]
  | 104 => Some [BFixed 10]
  | 105 => Some [BFixed 6]
  | 106 => Some [BFixed 10]
  | 107 => Some [BFixed 2; BName]
  | 108 => Some [BFixed 6]
  | 109 => Some [BFixed 8]
  | 128 => Some []
  | 249 | 250 => Some [BName; BRem]
  | 251 | 252 | 255 | 256 | 257 | 262 => Some [BRem]
  | _ => None
  end.

(** src/libknot/descriptor.c:163-181 *)
Definition obsolete_descriptors (t : Z) : option (list block) :=
  match t with
  | 3 | 4 | 7 | 8 | 9 => Some [BDecompr]
  | 26 => Some [BFixed 2; BDecompr; BDecompr]
  | 30 => Some [BDecompr; BRem]
  | _ => None
  end.

(** src/libknot/descriptor.c:183-202; the descriptor without a name has the remainder only.
    The boolean is "type_name != NULL". *)
Definition get_desc (t : Z) : bool * list block :=
  match rdata_descriptors t with Some b => (true, b) | None => (false, [BRem]) end.
Definition get_obsolete_desc (t : Z) : bool * list block :=
  match obsolete_descriptors t with Some b => (true, b) | None => (false, [BRem]) end.
(** rrset-wire.c:662-665 and rrset.c:154-157 *)
Definition parse_desc (t : Z) : bool * list block :=
  if fst (get_desc t) then get_desc t else get_obsolete_desc t.

(** src/libknot/rrtype/naptr.c:25-47; [d] are the bytes between the two pointers *)
Definition naptr_header_size (d : list Z) : res Z :=
  if zlen d =? 0 then Err KNOT_EINVAL else
  let w := wire_init_const d in
  let* w := wire_skip w 4 in
  let* (n, w) := wire_read_u8 w in
  let* w := wire_skip w n in
  let* (n, w) := wire_read_u8 w in
  let* w := wire_skip w n in
  let* (n, w) := wire_read_u8 w in
  let* w := wire_skip w n in
  if negb (w_err w =? KNOT_EOK) then Err KNOT_EMALF else Ok (wire_offset w).

(** * Parsing *)

Definition catch {A} (r : res A) (e : Z) : res A := match r with Err _ => Err e | r => r end.

(** rrset-wire.c:118-146. [m] is the message, [src] and [avail] the source, [out] the bytes already
    in the destination, which has room for [cap] of them. *)
Definition read_fixed (m : list Z) (src avail : Z) (out : list Z) (cap size : Z) : res (Z * Z * list Z) :=
  if size >? avail then Err KNOT_EMALF else
  if size >? cap - zlen out then Err KNOT_ESPACE else
  let* l := rdn m src size in
  Ok (src + size, avail - size, out ++ l).

(** rrset-wire.c:148-163 *)
Definition read_naptr (m : list Z) (src avail : Z) (out : list Z) (cap : Z) : res (Z * Z * list Z) :=
  let* d := rdn m src avail in
  let* n := naptr_header_size d in
  read_fixed m src avail out cap n.

(** rrset-wire.c:578-605; the check may read up to the end of the RDATA, the decompression reads the
    whole message *)
Definition read_dname (m : list Z) (src avail : Z) (out : list Z) (cap : Z) : res (Z * Z * list Z) :=
  let* compr_size := wire_check (zfirstn (src + avail) m) true src in
  if compr_size <=? 0 then Err compr_size else
  let* d := unpack m src (cap - zlen out) in
  Ok (src + compr_size, avail - compr_size, out ++ d).

(** rrset-wire.c:607-639 *)
Fixpoint traverse_parse (m : list Z) (bl : list block) (src avail : Z) (out : list Z) (cap : Z) :
  res (Z * Z * list Z) :=
  match bl with
  | [] => Ok (src, avail, out)
  | b :: bl =>
    let* (st, out) :=
      match b with
      | BCompr | BDecompr | BName => read_dname m src avail out cap
      | BNaptr => read_naptr m src avail out cap
      | BRem => read_fixed m src avail out cap avail
      | BFixed n => read_fixed m src avail out cap n
      end in
    let (src, avail) := (st : Z * Z) in
    traverse_parse m bl src avail out cap
  end.

(** A record: the owner and the RDATA in wire format. *)
Record rr := mkrr { rr_owner : list Z; rr_type : Z; rr_class : Z; rr_ttl : Z; rr_rdata : list Z }.

(** rrset-wire.c:527-576; [al]: the allocation of the owner succeeds. Returns the record without
    RDATA, the length of the RDATA and the new position. *)
Definition parse_header (m : list Z) (pos : Z) (al : bool) : res (rr * Z * Z) :=
  let src := wire_set_offset (wire_init_const m) pos in
  let* compr_size := catch (wire_check m true (w_pos src)) KNOT_EMALF in
  if compr_size <=? 0 then Err KNOT_EMALF else
  let* owner := catch (unpack m (w_pos src) KNOT_DNAME_MAXLEN) KNOT_EMALF in
  if negb al then Err KNOT_ENOMEM else
  let* src := wire_skip src compr_size in
  let* (type, src) := wire_read_u16 src in
  let* (rclass, src) := wire_read_u16 src in
  let* (ttl, src) := wire_read_u32 src in
  let* (rdlen, src) := wire_read_u16 src in
  if negb (w_err src =? KNOT_EOK) then Err KNOT_EMALF else
  if wire_available src <? rdlen then Err KNOT_EMALF else
  Ok (mkrr owner type rclass ttl [], rdlen, wire_offset src).

(** rrset-wire.c:641-648 *)
Definition allow_zero_rdata (rclass type : Z) (named : bool) : bool :=
  negb (rclass =? 1) || (type =? 42) || (type =? 10) || negb named.

(** rrset-wire.c:650-704; [al]: the allocation in knot_rdataset_add succeeds. A record is added to a
    set without records, which has no other reason to fail (rdataset.c:51-88, rdataset.c:172-204).
    Returns the RDATA and the new position. *)
Definition parse_rdata (m : list Z) (pos rdlength rclass type : Z) (al : bool) : res (list Z * Z) :=
  let (named, bl) := parse_desc type in
  if rdlength =? 0 then
    if allow_zero_rdata rclass type named then (if al then Ok ([], pos) else Err KNOT_ENOMEM)
    else Err KNOT_EMALF
  else if zlen m - pos <? rdlength then Err KNOT_EMALF else
  let* (_, out) := catch (traverse_parse m bl pos rdlength [] 65535) KNOT_EMALF in
  if zlen out <? rdlength then Err KNOT_EMALF else
  if al then Ok (out, pos + rdlength) else Err KNOT_ENOMEM.

(** src/libknot/descriptor.c:364-389 *)
Definition should_be_lowercased (t : Z) : bool :=
  existsb (Z.eqb t) [2; 3; 4; 5; 6; 7; 8; 9; 12; 14; 15; 17; 18; 21; 24; 26; 30; 35; 36; 33; 39; 46].

(** rrset.c:168-193; [d] are the bytes from the position to the end, [out] the ones before it *)
Fixpoint canonical_loop (bl : list block) (d out : list Z) : res (list Z) :=
  match bl with
  | [] => Ok (out ++ d)
  | b :: bl =>
    match b with
    | BCompr | BDecompr | BName =>
      let* low := dname_to_lower d in
      let* n := dname_size d in
      let* d := advance d n in
      canonical_loop bl d (out ++ low)
    | BNaptr =>
      let* n := naptr_header_size d in
      let* l := take d n in
      let* d := advance d n in
      canonical_loop bl d (out ++ l)
    | BRem => canonical_loop bl d out
    | BFixed n =>
      let* l := take d n in
      let* d := advance d n in
      canonical_loop bl d (out ++ l)
    end
  end.

(** rrset.c:140-196 with one record *)
Definition rr_to_canonical (r : rr) : res rr :=
  let* owner := dname_to_lower (rr_owner r) in
  let r := mkrr owner (rr_type r) (rr_class r) (rr_ttl r) (rr_rdata r) in
  if negb (should_be_lowercased (rr_type r)) then Ok r else
  if zlen (rr_rdata r) =? 0 then Ok r else
  let* d := canonical_loop (snd (parse_desc (rr_type r))) (rr_rdata r) [] in
  Ok (mkrr (rr_owner r) (rr_type r) (rr_class r) (rr_ttl r) d).

(** The rrset of the caller after the function: as it was, without owner and records, or filled *)
Inductive rrset_state := SUntouched | SCleared | SFilled (r : rr).

(** rrset-wire.c:707-735. Returns the error code, the position and the rrset. The allocations of the
    owner and of the RDATA are told to succeed by [al1] and [al2]. *)
Definition rr_from_wire (m : list Z) (pos : Z) (canonical al1 al2 : bool) : res (Z * Z * rrset_state) :=
  if pos >? zlen m then Ok (KNOT_EINVAL, pos, SUntouched) else
  match parse_header m pos al1 with
  | Err e => Ok (e, pos, SUntouched)
  | UB => UB
  | OOF => OOF
  | Ok (h, rdlen, pos) =>
    match parse_rdata m pos rdlen (rr_class h) (rr_type h) al2 with
    | Err e => Ok (e, pos, SCleared)
    | UB => UB
    | OOF => OOF
    | Ok (d, pos) =>
      let r := mkrr (rr_owner h) (rr_type h) (rr_class h) (rr_ttl h) d in
      if canonical then
        match rr_to_canonical r with
        | Err e => Ok (KNOT_EOK, pos, SCleared)
        | UB => UB
        | OOF => OOF
        | Ok r => Ok (KNOT_EOK, pos, SFilled r)
        end
      else Ok (KNOT_EOK, pos, SFilled r)
    end
  end.
