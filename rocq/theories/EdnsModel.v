(** EDNS: src/libknot/rrtype/opt.c, opt.h. The OPT RRset is its TTL and its RDATA ([None]: no RDATA); a position
    in the RDATA is an offset. *)
From Verif Require Import Base WireModel.

Definition HDRLEN : Z := 4.
Record opt_rr : Type := mkopt { o_class : Z; o_ttl : Z; o_rdata : option (list Z) }.

(** src/libknot/rrtype/opt.c:77-86, 112-121; [off] is the byte in the TTL *)
Definition ttl_byte (ttl off : Z) : res Z :=
  let* w := wire_write_u32 (wire_init (zeros 4)) ttl in
  let* (v, _) := wire_read_u8 (wire_set_offset w off) in Ok v.
Definition edns_get_ext_rcode (o : opt_rr) : res Z := ttl_byte (o_ttl o) 0.
Definition edns_get_version (o : opt_rr) : res Z := ttl_byte (o_ttl o) 1.
(** src/libknot/rrtype/opt.c:88-102 *)
Definition set_value_to_ttl (o : opt_rr) (off v : Z) : res opt_rr :=
  let* w := wire_write_u32 (wire_init (zeros 4)) (o_ttl o) in
  let* w := wire_write_u8 (wire_set_offset w off) v in
  let* (ttl, _) := wire_read_u32 (wire_set_offset w 0) in
  Ok (mkopt (o_class o) ttl (o_rdata o)).
(** src/libknot/rrtype/opt.c:104-109, 123-128 *)
Definition edns_set_ext_rcode (o : opt_rr) (v : Z) : res opt_rr := set_value_to_ttl o 0 v.
Definition edns_set_version (o : opt_rr) (v : Z) : res opt_rr := set_value_to_ttl o 1 v.
(** src/libknot/rrtype/opt.h:261-280 *)
Definition edns_do (o : opt_rr) : bool := negb (Z.land (o_ttl o) 32768 =? 0).
Definition edns_set_do (o : opt_rr) : opt_rr := mkopt (o_class o) (Z.lor (o_ttl o) 32768) (o_rdata o).
(** src/libknot/rrtype/opt.c:50-74; memory is available *)
Definition edns_init (max_pld ext_rcode ver : Z) : res opt_rr :=
  let* o := edns_set_ext_rcode (mkopt max_pld 0 (Some [])) ext_rcode in edns_set_version o ver.

(** src/libknot/rrtype/opt.c:140-176; the offset of the option data ([None]: NULL) and the new RRset; [alloc]: the
    new RDATA can be allocated *)
Definition edns_add (alloc : bool) (o : opt_rr) (code size : Z) : res (option Z * opt_rr) :=
  match o_rdata o with
  | None => UB
  | Some old =>
    let new_len := u16 (zlen old + HDRLEN + size) in
    let* w := wire_write (wire_init (zeros new_len)) old in
    let* w := wire_write_u16 w code in
    let* w := wire_write_u16 w size in
    let offset := wire_offset w in
    let* w := wire_clear w size in
    if negb (wire_available w =? 0) then UB else
    if negb (w_err w =? KNOT_EOK) then UB else
    if alloc then Ok (Some offset, mkopt (o_class o) (o_ttl o) (Some (w_buf w))) else Ok (None, mkopt (o_class o) (o_ttl o) None)
  end.
(** src/libknot/rrtype/opt.c:178-196 *)
Definition edns_reserve_option (alloc : bool) (o : opt_rr) (code size : Z) : res (Z * option Z * opt_rr) :=
  let* (p, o) := edns_add alloc o code size in
  match p with None => Ok (KNOT_ENOMEM, None, o) | Some p => Ok (KNOT_EOK, Some p, o) end.
(** src/libknot/rrtype/opt.c:198-216 *)
Definition edns_add_option (alloc : bool) (o : opt_rr) (code : Z) (data : list Z) : res (Z * opt_rr) :=
  let* (p, o) := edns_add alloc o code (zlen data) in
  match p, o_rdata o with
  | None, _ => Ok (KNOT_ENOMEM, o)
  | Some p, Some rd => let* rd := mem_write rd p data in Ok (KNOT_EOK, mkopt (o_class o) (o_ttl o) (Some rd))
  | Some _, None => UB
  end.

(** src/libknot/rrtype/opt.c:241-249 *)
Fixpoint get_loop (fuel : nat) (w : wire) (code : Z) : res (option Z) :=
  match fuel with
  | O => OOF
  | S fuel =>
    if (wire_available w >? 0) && (w_err w =? KNOT_EOK) then
      let pos := w_pos w in
      let* (opt_code, w) := wire_read_u16 w in
      let* (opt_len, w) := wire_read_u16 w in
      let* w := wire_skip w opt_len in
      if (w_err w =? KNOT_EOK) && (opt_code =? code) then Ok (Some pos) else get_loop fuel w code
    else Ok None
  end.
(** src/libknot/rrtype/opt.c:218-252; [previous] is an offset into the RDATA *)
Definition edns_get_option (o : opt_rr) (code : Z) (previous : option Z) : res (option Z) :=
  match o_rdata o with
  | None => Ok None
  | Some rd =>
    if zlen rd =? 0 then Ok None else
    let w := wire_init_const rd in
    match previous with
    | None => get_loop (S (length rd)) w code
    | Some p =>
      if p <? 0 then Ok None else
      let w := wire_set_offset w (p + 2) in
      let* (opt_len, w) := wire_read_u16 w in
      let* w := wire_skip w opt_len in
      get_loop (S (length rd)) w code
    end
  end.
(** src/libknot/rrtype/opt.c:271-279; [t] is the array of pointers *)
Fixpoint options_loop (fuel : nat) (w : wire) (t : list (option Z)) : res (wire * list (option Z)) :=
  match fuel with
  | O => OOF
  | S fuel =>
    if (wire_available w >? 0) && (w_err w =? KNOT_EOK) then
      let pos := w_pos w in
      let* (opt_code, w) := wire_read_u16 w in
      let* (opt_len, w) := wire_read_u16 w in
      let* w := wire_skip w opt_len in
      if (w_err w =? KNOT_EOK) && (opt_code <=? 17) then
        if (0 <=? opt_code) && (opt_code <? zlen t) then options_loop fuel w (zset t opt_code (Some pos)) else UB
      else options_loop fuel w t
    else Ok (w, t)
  end.
(** src/libknot/rrtype/opt.c:254-288; [None]: the output is not set. Memory is available *)
Definition edns_get_options (o : opt_rr) : res (Z * option (list (option Z))) :=
  match o_rdata o with
  | None => Ok (KNOT_EOK, None)
  | Some rd =>
    if zlen rd =? 0 then Ok (KNOT_EOK, None) else
    let* (w, t) := options_loop (S (length rd)) (wire_init_const rd) (repeat None 18) in
    if negb (w_err w =? KNOT_EOK) then Ok (w_err w, None) else Ok (KNOT_EOK, Some t)
  end.
(** src/libknot/rrtype/opt.h:368-388; the data of the option at [p] *)
Definition opt_get_data (rd : list Z) (p : Z) : res (list Z) :=
  let* l := mem_read rd (p + 2) 2 in mem_read rd (p + HDRLEN) (unbe l).

(** src/libknot/rrtype/opt.c:290-307; the result is converted to int *)
Definition to_int (x : Z) : Z := let y := x mod 2 ^ 32 in if y >=? 2 ^ 31 then y - 2 ^ 32 else y.
Definition edns_alignment_size (pkt opt block : Z) : Z :=
  if (opt =? 0) || (block =? 0) then -1 else
  let current := u64 (pkt + opt) in
  if current mod block =? 0 then -1 else
  let modulo := u64 (current + HDRLEN) mod block in
  if modulo =? 0 then 0 else to_int (u64 (block - modulo)).

(** src/libknot/rrtype/opt.h:405-415 *)
Record ecs : Type := mkecs { e_family : Z; e_source : Z; e_scope : Z; e_addr : list Z }.
(** src/libknot/rrtype/opt.c:327-331, 350-359; the size of the address *)
Definition ecs_size_by_iana (family : Z) : option Z := if family =? 1 then Some 4 else if family =? 2 then Some 16 else None.
(** src/libknot/rrtype/opt.c:364-377 *)
Definition ecs_prefix_size (prefix : Z) : Z := (prefix + 7) / 8.
Definition ecs_lsb_mask (prefix : Z) : Z := if prefix mod 8 =? 0 then 255 else u8 (Z.shiftl 255 (8 - prefix mod 8)).
(** src/libknot/rrtype/opt.c:382-397; the prefix passes through int8_t and back without change *)
Definition ecs_write_address (dst src : wire) (prefix : Z) : res (wire * wire) :=
  let count := ecs_prefix_size prefix in
  let* (dst, src) := if count >? 0 then wire_copy dst src count else Ok (dst, src) in
  if (count >? 0) && negb (w_err dst =? KNOT_EOK) then Ok (dst, src) else
  let* dst := if count >? 0 then
      let* x := mem_read (w_buf dst) (w_pos dst - 1) 1 in
      let* b := mem_write (w_buf dst) (w_pos dst - 1) [Z.land (unbe x) (ecs_lsb_mask prefix)] in
      Ok (mkwire b (w_pos dst) (w_err dst) (w_ro dst))
    else Ok dst in
  let* dst := wire_clear dst (wire_available dst) in
  Ok (dst, src).
(** src/libknot/rrtype/opt.c:402-413 *)
Definition ecs_is_valid (e : ecs) : bool :=
  match ecs_size_by_iana (e_family e) with
  | None => false
  | Some size => (e_source e <=? size * 8) && (e_scope e <=? size * 8)
  end.
(** src/libknot/rrtype/opt.c:415-426 *)
Definition client_subnet_size (e : ecs) : Z :=
  if negb (ecs_is_valid e) then 0 else 2 + 1 + 1 + ecs_prefix_size (e_source e).
(** src/libknot/rrtype/opt.c:428-453; the buffer is [option] *)
Definition client_subnet_write (option : list Z) (e : ecs) : res (Z * list Z) :=
  if negb (ecs_is_valid e) then Ok (KNOT_EINVAL, option) else
  let* w := wire_write_u16 (wire_init option) (e_family e) in
  let* w := wire_write_u8 w (e_source e) in
  let* w := wire_write_u8 w (e_scope e) in
  let* (w, _) := ecs_write_address w (wire_init_const (e_addr e)) (e_source e) in
  Ok (w_err w, w_buf w).
(** src/libknot/rrtype/opt.c:455-483 *)
Definition client_subnet_parse (option : list Z) : res (Z * ecs) :=
  let w := wire_init_const option in
  let* (family, w) := wire_read_u16 w in
  let* (source, w) := wire_read_u8 w in
  let* (scope, w) := wire_read_u8 w in
  let* (addr, w) := ecs_write_address (wire_init (zeros 16)) w source in
  let e := mkecs family source scope (w_buf addr) in
  if negb (w_err addr =? KNOT_EOK) || negb (w_err w =? KNOT_EOK) then Ok (KNOT_EMALF, mkecs 0 0 0 []) else
  if negb (ecs_is_valid e) then Ok (KNOT_EMALF, mkecs 0 0 0 []) else Ok (KNOT_EOK, e).
(** src/libknot/rrtype/opt.c:485-509; the address is given by its family and bytes *)
Definition client_subnet_set_addr (family : Z) (raw : list Z) : res (Z * ecs) :=
  match ecs_size_by_iana family with
  | None => Ok (KNOT_ENOTSUP, mkecs 0 0 0 [])
  | Some size =>
    let* (dst, _) := ecs_write_address (wire_init (zeros 16)) (wire_init_const (zfirstn size raw)) (size * 8) in
    if negb (w_err dst =? KNOT_EOK) then UB else Ok (KNOT_EOK, mkecs family (size * 8) 0 (w_buf dst))
  end.
(** src/libknot/rrtype/opt.c:511-533 *)
Definition client_subnet_get_addr (e : ecs) : res (Z * list Z) :=
  match ecs_size_by_iana (e_family e) with
  | None => Ok (KNOT_ENOTSUP, [])
  | Some size =>
    let* (dst, _) := ecs_write_address (wire_init (zeros size)) (wire_init_const (e_addr e)) (e_source e) in
    if negb (w_err dst =? KNOT_EOK) then UB else Ok (KNOT_EOK, w_buf dst)
  end.

(** src/libknot/rrtype/opt.c:535-578 *)
Definition keepalive_size (timeout : Z) : Z := if timeout >? 0 then 2 else 0.
Definition keepalive_write (option : list Z) (timeout : Z) : res (Z * list Z) :=
  if timeout =? 0 then Ok (KNOT_EOK, option) else
  let* w := wire_write_u16 (wire_init option) timeout in Ok (w_err w, w_buf w).
Definition keepalive_parse (option : list Z) : res (Z * Z) :=
  if zlen option >? 0 then
    let* (t, w) := wire_read_u16 (wire_init_const option) in
    if negb (w_err w =? KNOT_EOK) then Ok (KNOT_EMALF, t) else Ok (KNOT_EOK, t)
  else Ok (KNOT_EOK, 0).

(** src/libknot/rrtype/opt.c:621-687; a cookie is the list of its bytes. [sc] = []: no server cookie *)
Definition cookie_size (cc sc : list Z) : Z :=
  if negb (zlen cc =? 8) then 0 else if zlen sc =? 0 then 8 else
  if (zlen sc <? 8) || (zlen sc >? 32) then 0 else zlen cc + zlen sc.
Definition cookie_write (option cc sc : list Z) : res (Z * list Z) :=
  if negb (zlen cc =? 8) then Ok (KNOT_EINVAL, option) else
  let* w := wire_write (wire_init option) cc in
  if zlen sc >? 0 then
    if (zlen sc <? 8) || (zlen sc >? 32) then Ok (KNOT_EINVAL, w_buf w) else
    let* w := wire_write w sc in Ok (w_err w, w_buf w)
  else Ok (w_err w, w_buf w).
Definition cookie_parse (option : list Z) : res (Z * list Z * list Z) :=
  let len := zlen option in
  if negb (len =? 8) && ((len <? 8 + 8) || (len >? 8 + 32)) then Ok (KNOT_EMALF, [], []) else
  if len <? 8 then UB else
  let* cc := mem_read option 0 8 in
  let* sc := mem_read option 8 (len - 8) in
  Ok (KNOT_EOK, cc, sc).
