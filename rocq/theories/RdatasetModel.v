(** RDATA sets: src/libknot/rdataset.c, src/libknot/rdataset.h, src/libknot/rdata.h.

    The array [rrs->rdata] is modelled byte for byte by the list [raw] (exactly the allocated
    bytes); a knot_rdata_t pointer into it is an offset; reading or moving outside is [UB].
    The uint16_t length field is stored little endian (the byte order of the common targets;
    nothing depends on it). A NULL rdata pointer is the empty list. A record passed as an
    argument is the list of its data bytes. [al n] tells whether the allocator can provide a
    block of n bytes; within one operation no size is requested twice with different needs,
    so a function of the size is fully general. *)
From Verif Require Import Base DnameModel.

Record rdataset := mkset { count : Z; size : Z; raw : list Z }.

(** src/libknot/rdataset.h:42-49 *)
Definition rdataset_init : rdataset := mkset 0 0 [].

(** src/libknot/rdata.h:72-75; sizeof(uint16_t) + len + (len & 1) *)
Definition rdata_size (len : Z) : Z := 2 + len + Z.land len 1.

(** ((knot_rdata_t * )(raw + off))->len *)
Definition rr_len (r : list Z) (off : Z) : res Z :=
  let* lo := rd r off in
  let* hi := rd r (off + 1) in
  Ok (lo + 256 * hi).
(** the data bytes of the record at [off] *)
Definition rr_get (r : list Z) (off : Z) : res (list Z) :=
  let* len := rr_len r off in
  rdn r (off + 2) len.

(** src/libknot/rdata.h:46-62: the bytes written by knot_rdata_init, with the padding byte *)
Definition rdata_init (data : list Z) : list Z :=
  [zlen data mod 256; zlen data / 256] ++ data ++ (if Z.land (zlen data) 1 =? 1 then [0] else []).

(** src/libknot/rdata.h:86-99 *)
Definition rdata_cmp (a b : list Z) : res Z :=
  let common := if zlen a <=? zlen b then zlen a else zlen b in
  let* cmp := memcmp a b (Z.to_nat common) in
  Ok (if (cmp =? 0) && negb (zlen a =? zlen b) then (if zlen a <? zlen b then -1 else 1) else cmp).

(** src/libknot/rdataset.h:62-66 *)
Definition rdataset_next (r : list Z) (off : Z) : res Z :=
  let* len := rr_len r off in
  Ok (off + rdata_size len).

(** src/libknot/rdataset.c:24-36 *)
Fixpoint rr_seek_loop (n : nat) (r : list Z) (off : Z) : res Z :=
  match n with
  | O => Ok off
  | S n => let* off := rdataset_next r off in rr_seek_loop n r off
  end.
Definition rr_seek (rrs : rdataset) (pos : Z) : res Z :=
  if negb (0 <? count rrs) || negb (pos <? count rrs) then UB
  else rr_seek_loop (Z.to_nat pos) (raw rrs) 0.

(** src/libknot/rdataset.c:38-49; [n] records are left, [i] is the current index *)
Fixpoint find_rr_pos_loop (n : nat) (r : list Z) (off i : Z) (rr : list Z) : res Z :=
  match n with
  | O => Err KNOT_ENOENT
  | S n =>
    let* cur := rr_get r off in
    let* c := rdata_cmp rr cur in
    if c =? 0 then Ok i else
    let* off := rdataset_next r off in
    find_rr_pos_loop n r off (i + 1) rr
  end.
Definition find_rr_pos (rrs : rdataset) (rr : list Z) : res Z :=
  find_rr_pos_loop (Z.to_nat (count rrs)) (raw rrs) 0 0 rr.

(** src/libknot/rdataset.c:51-88. Enlarging by realloc, moving the tail and writing the record
    is inserting [rdata_init rr] at the offset; the counters are uint16_t and uint32_t. *)
Definition add_rr_at (al : Z -> bool) (rrs : rdataset) (rr : list Z) (ins_offset : Z) : res rdataset :=
  if ins_offset >? size rrs then UB else
  if count rrs =? 65535 then Err KNOT_ESPACE else
  if size rrs >? 2 ^ 32 - 1 - rdata_size 65535 then Err KNOT_ESPACE else
  let rr_size := rdata_size (zlen rr) in
  if negb (al (size rrs + rr_size)) then Err KNOT_ENOMEM else
  let* head := rdn (raw rrs) 0 ins_offset in
  let* tail := rdn (raw rrs) ins_offset (size rrs - ins_offset) in
  Ok (mkset (u16 (count rrs + 1)) (u32 (size rrs + rr_size)) (head ++ rdata_init rr ++ tail)).

(** src/libknot/rdataset.c:90-128. The set is modified even when ENOMEM is returned (the tail
    is moved first and the counters are left as they were), hence the pair. The block keeps
    its old bytes beyond the moved tail until it is shrunk. *)
Definition remove_rr_at (al : Z -> bool) (rrs : rdataset) (pos : Z) : res (Z * rdataset) :=
  if negb (0 <? count rrs) || negb (pos <? count rrs) then UB else
  let* old_rr := rr_seek rrs pos in
  let* last_rr := rr_seek rrs (count rrs - 1) in
  let* old_len := rr_len (raw rrs) old_rr in
  let* last_len := rr_len (raw rrs) last_rr in
  let old_size := rdata_size old_len in
  let old_threshold := old_rr + old_size in
  let last_threshold := last_rr + rdata_size last_len in
  if old_threshold >? last_threshold then UB else
  let* head := rdn (raw rrs) 0 old_rr in
  let* moved := rdn (raw rrs) old_threshold (last_threshold - old_threshold) in
  let after := head ++ moved ++ zskipn (zlen head + zlen moved) (raw rrs) in
  if count rrs >? 1 then
    if negb (al (size rrs - old_size)) then Ok (KNOT_ENOMEM, mkset (count rrs) (size rrs) after) else
    let* shrunk := rdn after 0 (size rrs - old_size) in
    Ok (KNOT_EOK, mkset (count rrs - 1) (size rrs - old_size) shrunk)
  else Ok (KNOT_EOK, mkset (count rrs - 1) (size rrs - old_size) []).

(** src/libknot/rdataset.c:130-139 *)
Definition rdataset_clear (rrs : rdataset) : rdataset := rdataset_init.

(** src/libknot/rdataset.c:141-164 *)
Definition rdataset_copy (al : Z -> bool) (src : rdataset) : res rdataset :=
  if 0 <? count src then
    if negb (al (size src)) then Err KNOT_ENOMEM else
    let* r := rdn (raw src) 0 (size src) in
    Ok (mkset (count src) (size src) r)
  else if negb (size src =? 0) then UB else Ok (mkset (count src) (size src) []).

(** src/libknot/rdataset.c:166-174; the record data at a position, NULL is RET_NULL *)
Definition rdataset_at (rrs : rdataset) (pos : Z) : res (list Z) :=
  if (count rrs =? 0) || (pos >=? count rrs) then Err RET_NULL else
  let* off := rr_seek rrs pos in rr_get (raw rrs) off.

(** src/libknot/rdataset.c:192-204, the insertion loop; [n] records are left *)
Fixpoint add_loop (n : nat) (al : Z -> bool) (rrs : rdataset) (rr : list Z) (ins_pos : Z) : res rdataset :=
  match n with
  | O =>
    if negb ((zlen (raw rrs) =? 0) || (size rrs =? ins_pos)) then UB
    else add_rr_at al rrs rr ins_pos
  | S n =>
    let* cur := rr_get (raw rrs) ins_pos in
    let* cmp := rdata_cmp cur rr in
    if cmp =? 0 then Ok rrs
    else if cmp >? 0 then add_rr_at al rrs rr ins_pos
    else
      let* ins_pos := rdataset_next (raw rrs) ins_pos in
      add_loop n al rrs rr ins_pos
  end.
(** src/libknot/rdataset.c:176-208; on an error the set is not touched *)
Definition rdataset_add (al : Z -> bool) (rrs : rdataset) (rr : list Z) : res rdataset :=
  let full := add_loop (Z.to_nat (count rrs)) al rrs rr 0 in
  if count rrs >? 4 then
    let* last := rr_seek rrs (count rrs - 1) in
    let* cur := rr_get (raw rrs) last in
    let* cmp := rdata_cmp cur rr in
    if cmp <? 0 then
      let* next := rdataset_next (raw rrs) last in
      add_rr_at al rrs rr next
    else full
  else full.

(** src/libknot/rdataset.c:210-229 *)
Fixpoint eq_loop (n : nat) (r1 r2 : list Z) (o1 o2 : Z) : res bool :=
  match n with
  | O => Ok true
  | S n =>
    let* a := rr_get r1 o1 in
    let* b := rr_get r2 o2 in
    let* c := rdata_cmp a b in
    if negb (c =? 0) then Ok false else
    let* o1 := rdataset_next r1 o1 in
    let* o2 := rdataset_next r2 o2 in
    eq_loop n r1 r2 o1 o2
  end.
Definition rdataset_eq (a b : rdataset) : res bool :=
  if negb (count a =? count b) then Ok false
  else eq_loop (Z.to_nat (count a)) (raw a) (raw b) 0 0.

(** src/libknot/rdataset.c:231-252 *)
Fixpoint member_loop (n : nat) (r : list Z) (off : Z) (rr : list Z) : res bool :=
  match n with
  | O => Ok false
  | S n =>
    let* cur := rr_get r off in
    let* cmp := rdata_cmp cur rr in
    if cmp =? 0 then Ok true else if cmp >? 0 then Ok false else
    let* off := rdataset_next r off in
    member_loop n r off rr
  end.
Definition rdataset_member (rrs : rdataset) (rr : list Z) : res bool :=
  member_loop (Z.to_nat (count rrs)) (raw rrs) 0 rr.

(** src/libknot/rdataset.c:254-270; [same] is "subset->rdata == of->rdata" *)
Fixpoint subset_loop (n : nat) (r : list Z) (off : Z) (of : rdataset) : res bool :=
  match n with
  | O => Ok true
  | S n =>
    let* cur := rr_get r off in
    let* m := rdataset_member of cur in
    if negb m then Ok false else
    let* off := rdataset_next r off in
    subset_loop n r off of
  end.
Definition rdataset_subset (same : bool) (subset of : rdataset) : res bool :=
  if same then Ok true else subset_loop (Z.to_nat (count subset)) (raw subset) 0 of.

(** src/libknot/rdataset.c:272-290; the first component is the return code, the second the
    final state of rrs1. The two sets do not share memory. *)
Fixpoint merge_loop (n : nat) (al : Z -> bool) (rrs1 : rdataset) (r2 : list Z) (off : Z) : res (Z * rdataset) :=
  match n with
  | O => Ok (KNOT_EOK, rrs1)
  | S n =>
    let* cur := rr_get r2 off in
    match rdataset_add al rrs1 cur with
    | Ok rrs1 =>
      let* off := rdataset_next r2 off in
      merge_loop n al rrs1 r2 off
    | Err e => Ok (e, rrs1)
    | UB => UB
    | OOF => OOF
    end
  end.
Definition rdataset_merge (al : Z -> bool) (rrs1 rrs2 : rdataset) : res (Z * rdataset) :=
  merge_loop (Z.to_nat (count rrs2)) al rrs1 (raw rrs2) 0.

(** src/libknot/rdataset.c:292-316 *)
Fixpoint intersect_loop (n : nat) (al : Z -> bool) (r1 : list Z) (off : Z) (rrs2 out : rdataset) : res (Z * rdataset) :=
  match n with
  | O => Ok (KNOT_EOK, out)
  | S n =>
    let* cur := rr_get r1 off in
    let* m := rdataset_member rrs2 cur in
    let* (ret, out) :=
      if m then
        match rdataset_add al out cur with
        | Ok out => Ok (KNOT_EOK, out)
        | Err e => Ok (e, rdataset_clear out)
        | UB => UB
        | OOF => OOF
        end
      else Ok (KNOT_EOK, out) in
    if negb (ret =? KNOT_EOK) then Ok (ret, out) else
    let* off := rdataset_next r1 off in
    intersect_loop n al r1 off rrs2 out
  end.
Definition rdataset_intersect (al : Z -> bool) (rrs1 rrs2 : rdataset) : res (Z * rdataset) :=
  intersect_loop (Z.to_nat (count rrs1)) al (raw rrs1) 0 rrs2 rdataset_init.

(** src/libknot/rdataset.c:318-350; [same] is "from->rdata == what->rdata". Each iteration
    either removes a record or advances i, so count iterations suffice. *)
Fixpoint intersect2_loop (fuel : nat) (al : Z -> bool) (from : rdataset) (i rr1 : Z) (what : rdataset) : res (Z * rdataset) :=
  if i <? count from then
    match fuel with
    | O => OOF
    | S fuel =>
      let* cur := rr_get (raw from) rr1 in
      let* m := rdataset_member what cur in
      if negb m then
        let* (ret, from) := remove_rr_at al from i in
        if negb (ret =? KNOT_EOK) then Ok (ret, from) else
        let* rr1 := if i <? count from then rr_seek from i else Ok rr1 in
        intersect2_loop fuel al from i rr1 what
      else
        let* rr1 := rdataset_next (raw from) rr1 in
        intersect2_loop fuel al from (i + 1) rr1 what
    end
  else Ok (KNOT_EOK, from).
Definition rdataset_intersect2 (al : Z -> bool) (same : bool) (from what : rdataset) : res (Z * rdataset) :=
  if same then Ok (KNOT_EOK, from)
  else intersect2_loop (Z.to_nat (count from)) al from 0 0 what.

(** src/libknot/rdataset.c:352-380; returns code, from and what *)
Fixpoint subtract_loop (n : nat) (al : Z -> bool) (from : rdataset) (rw : list Z) (off : Z) : res (Z * rdataset) :=
  match n with
  | O => Ok (KNOT_EOK, from)
  | S n =>
    let* to_remove := rr_get rw off in
    let* (ret, from) :=
      match find_rr_pos from to_remove with
      | Ok pos => remove_rr_at al from pos
      | Err _ => Ok (KNOT_EOK, from)
      | UB => UB
      | OOF => OOF
      end in
    if negb (ret =? KNOT_EOK) then Ok (ret, from) else
    let* off := rdataset_next rw off in
    subtract_loop n al from rw off
  end.
Definition rdataset_subtract (al : Z -> bool) (same : bool) (from what : rdataset) : res (Z * rdataset * rdataset) :=
  if same then Ok (KNOT_EOK, rdataset_clear from, rdataset_init)
  else
    let* (ret, from) := subtract_loop (Z.to_nat (count what)) al from (raw what) 0 in
    Ok (ret, from, what).

(** src/libknot/rdataset.h:213-223 *)
Definition rdataset_remove (al : Z -> bool) (rrs : rdataset) (rr : list Z) : res (Z * rdataset) :=
  let* (ret, from, _) := rdataset_subtract al false rrs (mkset 1 (rdata_size (zlen rr)) (rdata_init rr)) in
  Ok (ret, from).
