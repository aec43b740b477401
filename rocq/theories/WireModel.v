(** The bounded buffer reader/writer: src/contrib/wire_ctx.h.

    The buffer is the list of its bytes; the position is an offset into it. memcpy and memset are
    modelled with their own check: an access outside the buffer is [UB], whatever the code
    compared before. Sizes are 64-bit, with wrap-around. *)
From Verif Require Import Base.

(** src/contrib/wire_ctx.h:36-42 *)
Record wire : Type := mkwire { w_buf : list Z; w_pos : Z; w_err : Z; w_ro : bool }.
Definition w_size (w : wire) : Z := zlen (w_buf w).

(** reading and writing memory *)
Definition mem_read (buf : list Z) (pos n : Z) : res (list Z) :=
  if (0 <=? pos) && (0 <=? n) && (pos + n <=? zlen buf) then Ok (zfirstn n (zskipn pos buf)) else UB.
Definition mem_write (buf : list Z) (pos : Z) (d : list Z) : res (list Z) :=
  if (0 <=? pos) && (pos + zlen d <=? zlen buf) then Ok (zfirstn pos buf ++ d ++ zskipn (pos + zlen d) buf) else UB.
Definition zeros (n : Z) : list Z := repeat 0 (Z.to_nat n).

(** big-endian bytes (htobeXX followed by memcpy, and back) *)
Fixpoint be (n : nat) (v : Z) : list Z :=
  match n with O => [] | S n => (v / 256 ^ Z.of_nat n) mod 256 :: be n v end.
Definition unbe (l : list Z) : Z := fold_left (fun a b => a * 256 + b) l 0.

(** src/contrib/wire_ctx.h:46-77 *)
Definition wire_init (d : list Z) : wire := mkwire d 0 KNOT_EOK false.
Definition wire_init_const (d : list Z) : wire := mkwire d 0 KNOT_EOK true.

(** src/contrib/wire_ctx.h:82-87 *)
Definition wire_offset (w : wire) : Z := u64 (w_pos w).
Definition set_err (w : wire) (e : Z) : wire := mkwire (w_buf w) (w_pos w) e (w_ro w).
Definition set_pos (w : wire) (p : Z) : wire := mkwire (w_buf w) p (w_err w) (w_ro w).

(** src/contrib/wire_ctx.h:96-110 *)
Definition wire_set_offset (w : wire) (off : Z) : wire :=
  if negb (w_err w =? KNOT_EOK) then w else
  if off >? w_size w then set_err w KNOT_ERANGE else set_pos w off.

(** src/contrib/wire_ctx.h:117-122 *)
Definition wire_available (w : wire) : Z := u64 (w_size w - wire_offset w).

(** src/contrib/wire_ctx.h:129-151; negating the smallest ssize_t overflows *)
Definition wire_skip (w : wire) (off : Z) : res wire :=
  if negb (w_err w =? KNOT_EOK) then Ok w else
  if off >=? 0 then
    if off >? wire_available w then Ok (set_err w KNOT_ERANGE) else Ok (set_pos w (w_pos w + off))
  else if off =? - 2 ^ 63 then UB else
    if - off >? wire_offset w then Ok (set_err w KNOT_ERANGE) else Ok (set_pos w (w_pos w + off)).

(** src/contrib/wire_ctx.h:156-169 *)
Definition wire_can_read (w : wire) (n : Z) : Z :=
  if negb (w_err w =? KNOT_EOK) then w_err w else
  if wire_available w <? n then KNOT_EFEWDATA else KNOT_EOK.

(** src/contrib/wire_ctx.h:174-191 *)
Definition wire_can_write (w : wire) (n : Z) : Z :=
  if negb (w_err w =? KNOT_EOK) then w_err w else
  if w_ro w then KNOT_EACCES else
  if wire_available w <? n then KNOT_ESPACE else KNOT_EOK.

(** src/contrib/wire_ctx.h:194-214 *)
Definition wire_read (w : wire) (n : Z) : res (list Z * wire) :=
  if negb (w_err w =? KNOT_EOK) then Ok (zeros n, w) else
  let ret := wire_can_read w n in
  if negb (ret =? KNOT_EOK) then Ok (zeros n, set_err w ret) else
  let* d := mem_read (w_buf w) (w_pos w) n in
  Ok (d, set_pos w (w_pos w + n)).

(** src/contrib/wire_ctx.h:216-255 *)
Definition wire_read_u8 (w : wire) : res (Z * wire) := let* (d, w) := wire_read w 1 in Ok (unbe d, w).
Definition wire_read_u16 (w : wire) : res (Z * wire) := let* (d, w) := wire_read w 2 in Ok (unbe d, w).
Definition wire_read_u32 (w : wire) : res (Z * wire) := let* (d, w) := wire_read w 4 in Ok (unbe d, w).
Definition wire_read_u48 (w : wire) : res (Z * wire) :=
  let* (d, w) := wire_read w 6 in Ok (Z.shiftr (unbe ([0] ++ d ++ [0])) 8, w).
Definition wire_read_u64 (w : wire) : res (Z * wire) := let* (d, w) := wire_read w 8 in Ok (unbe d, w).

(** src/contrib/wire_ctx.h:258-280 *)
Definition wire_write (w : wire) (d : list Z) : res wire :=
  if negb (w_err w =? KNOT_EOK) then Ok w else
  if zlen d =? 0 then Ok w else
  let ret := wire_can_write w (zlen d) in
  if negb (ret =? KNOT_EOK) then Ok (set_err w ret) else
  let* buf := mem_write (w_buf w) (w_pos w) d in
  Ok (mkwire buf (w_pos w + zlen d) (w_err w) (w_ro w)).

(** src/contrib/wire_ctx.h:282-310; the 48-bit value is given as uint64_t *)
Definition wire_write_u8 (w : wire) (v : Z) : res wire := wire_write w (be 1 v).
Definition wire_write_u16 (w : wire) (v : Z) : res wire := wire_write w (be 2 v).
Definition wire_write_u32 (w : wire) (v : Z) : res wire := wire_write w (be 4 v).
Definition wire_write_u48 (w : wire) (v : Z) : res wire :=
  wire_write w (zfirstn 6 (zskipn 1 (be 8 (u64 (Z.shiftl v 8))))).
Definition wire_write_u64 (w : wire) (v : Z) : res wire := wire_write w (be 8 v).

(** src/contrib/wire_ctx.h:312-325; [txt] is the formatted text ([None]: vsnprintf failed).
    vsnprintf stores at most max-1 characters and a zero. Returns the result and the context *)
Definition wire_printf (w : wire) (txt : option (list Z)) : res (Z * wire) :=
  let max := wire_available w in
  match txt with
  | None => Ok (KNOT_ESPACE, set_err w KNOT_ESPACE)
  | Some t =>
    let* buf := if max =? 0 then Ok (w_buf w) else
                mem_write (w_buf w) (w_pos w) (zfirstn (max - 1) t ++ [0]) in
    let w := mkwire buf (w_pos w) (w_err w) (w_ro w) in
    if zlen t >? max then Ok (KNOT_ESPACE, set_err w KNOT_ESPACE)
    else Ok (zlen t, set_pos w (w_pos w + zlen t))
  end.

(** src/contrib/wire_ctx.h:327-347 *)
Definition wire_clear (w : wire) (n : Z) : res wire :=
  if negb (w_err w =? KNOT_EOK) then Ok w else
  if n =? 0 then Ok w else
  let ret := wire_can_write w n in
  if negb (ret =? KNOT_EOK) then Ok (set_err w ret) else
  let* buf := mem_write (w_buf w) (w_pos w) (zeros n) in
  Ok (mkwire buf (w_pos w + n) (w_err w) (w_ro w)).

(** src/contrib/wire_ctx.h:349-372; source and destination are different buffers *)
Definition wire_copy (dst src : wire) (n : Z) : res (wire * wire) :=
  if (n =? 0) || negb (w_err dst =? KNOT_EOK) then Ok (dst, src) else
  if negb (wire_can_read src n =? KNOT_EOK) then Ok (set_err dst KNOT_EFEWDATA, src) else
  let ret := wire_can_write dst n in
  if negb (ret =? KNOT_EOK) then Ok (set_err dst ret, src) else
  let* d := mem_read (w_buf src) (w_pos src) n in
  let* buf := mem_write (w_buf dst) (w_pos dst) d in
  Ok (mkwire buf (w_pos dst + n) (w_err dst) (w_ro dst), set_pos src (w_pos src + n)).
