(** NSEC type bitmaps: src/libdnssec/nsec/bitmap.c and the lookup in src/libdnssec/nsec/nsec.c. *)
From Verif Require Import Base WireModel.

(** src/libdnssec/nsec/bitmap.c:24-39 *)
Record window : Type := mkwin { win_used : Z; win_data : list Z }.
Record bitmap : Type := mkbm { bm_used : Z; bm_windows : list window }.

(** src/libdnssec/nsec/bitmap.c:47-66 *)
Definition bitmap_new : bitmap := mkbm 0 (repeat (mkwin 0 (repeat 0 32)) 256).

(** src/libdnssec/nsec/bitmap.c:81-98 *)
Definition bitmap_add (b : bitmap) (type : Z) : res bitmap :=
  let win := type / 256 in
  let bit := type mod 256 in
  let used := if bm_used b <=? win then win + 1 else bm_used b in
  let win_byte := bit / 8 in
  let win_bit := bit mod 8 in
  match zget (bm_windows b) win with
  | None => UB
  | Some w =>
    match zget (win_data w) win_byte with
    | None => UB
    | Some x =>
      let w := mkwin (if win_used w <=? win_byte then u8 (win_byte + 1) else win_used w)
                     (zset (win_data w) win_byte (u8 (Z.lor x (Z.shiftr 128 win_bit)))) in
      Ok (mkbm used (zset (bm_windows b) win w))
    end
  end.

(** src/libdnssec/nsec/bitmap.c:104-118; [n] iterations from window [i] *)
Fixpoint size_loop (n : nat) (ws : list window) (i result : Z) : res Z :=
  match n with
  | O => Ok result
  | S n =>
    match zget ws i with
    | None => UB
    | Some w => if win_used w =? 0 then size_loop n ws (i + 1) result else size_loop n ws (i + 1) (result + (2 + win_used w))
    end
  end.
Definition bitmap_size (b : bitmap) : res Z := size_loop (Z.to_nat (bm_used b)) (bm_windows b) 0 0.

(** src/libdnssec/nsec/bitmap.c:124-142; writes into the buffer [out] at [pos] *)
Fixpoint write_loop (n : nat) (ws : list window) (win : Z) (out : list Z) (pos : Z) : res (list Z) :=
  match n with
  | O => Ok out
  | S n =>
    match zget ws win with
    | None => UB
    | Some w =>
      let used := win_used w in
      if used =? 0 then write_loop n ws (win + 1) out pos else
      let* out := mem_write out pos [u8 win] in
      let pos := pos + 1 in
      let* out := mem_write out pos [u8 used] in
      let pos := pos + 1 in
      let* d := mem_read (win_data w) 0 used in
      let* out := mem_write out pos d in
      write_loop n ws (win + 1) out (pos + used)
    end
  end.
Definition bitmap_write (b : bitmap) (out : list Z) : res (list Z) :=
  write_loop (Z.to_nat (bm_used b)) (bm_windows b) 0 out 0.

(** src/libdnssec/nsec/nsec.c:82-116; the buffer [bm] may be longer than [size] *)
Definition bm_at (bm : list Z) (i : Z) : res Z := match zget bm i with Some x => Ok x | None => UB end.
Fixpoint contains_loop (fuel : nat) (bm : list Z) (size type_hi bitmap_idx bit_mask pos : Z) : res bool :=
  match fuel with
  | O => OOF
  | S fuel =>
    if pos + 3 <=? size then
      let* block_idx := bm_at bm pos in
      let* block_size := bm_at bm (pos + 1) in
      let pos := pos + 2 in
      if (block_size =? 0) || (pos + block_size >? size) then Ok false else
      if block_idx =? type_hi then
        if bitmap_idx <? block_size then
          let* x := bm_at bm (pos + bitmap_idx) in Ok (negb (Z.land x bit_mask =? 0))
        else Ok false
      else contains_loop fuel bm size type_hi bitmap_idx bit_mask (pos + block_size)
    else Ok false
  end.
Definition bitmap_contains (bm : list Z) (size type : Z) : res bool :=
  if size =? 0 then Ok false else
  let type_hi := u8 (Z.shiftr type 8) in
  let type_lo := Z.land type 255 in
  let bitmap_idx := Z.shiftr type_lo 3 in
  let bit_mask := u8 (Z.shiftl 1 (7 - Z.land type_lo 7)) in
  contains_loop (S (Z.to_nat size)) bm size type_hi bitmap_idx bit_mask 0.
