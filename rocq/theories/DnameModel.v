(** Domain names: src/libknot/dname.c, src/libknot/packet/wire.h:992-1058,
    src/contrib/tolower.h, src/contrib/ctype.h.

    A pointer into a buffer is modelled in two ways:
    - for packets: the whole readable memory [m] (packet base .. end of the readable window)
      and an offset [pos]; every read is [zget m pos], out of range is [UB];
    - for plain (uncompressed) names: the list of bytes starting at the pointer; reading
      from the empty list is [UB]. *)
From Verif Require Import Base.

(** src/libknot/consts.h:31-45 *)
Definition KNOT_DNAME_MAXLEN : Z := 255.
Definition KNOT_DNAME_MAXLABELLEN : Z := 63.
Definition KNOT_DNAME_TXT_MAXLEN : Z := 1004.
(** NULL returned by functions that return a pointer. *)
Definition RET_NULL : Z := 1.

(** one byte read, UB outside *)
Definition rd (m : list Z) (i : Z) : res Z :=
  match zget m i with Some b => Ok b | None => UB end.

(** src/libknot/packet/wire.h:1001-1004 *)
Definition is_pointer (b : Z) : bool := Z.land b 192 =? 192.

(** src/libknot/packet/wire.h:1022-1026; the two bytes are the arguments. *)
Definition get_pointer (hi lo : Z) : Z := u16 (hi * 256 + lo - 49152).

(** src/libknot/dname.c:87-133, the loop of knot_dname_wire_check; endp is the end of [m].
    [has_pkt] is "pkt != NULL" and the packet base is offset 0 of [m]. *)
Fixpoint wire_check_loop (fuel : nat) (m : list Z) (has_pkt : bool)
    (name wire_len name_len : Z) (is_compressed : bool) : res Z :=
  match fuel with
  | O => OOF
  | S fuel =>
    let endp := zlen m in
    let* c := rd m name in
    if c =? 0 then
      Ok (if is_compressed then wire_len else wire_len + 1)
    else
    if name + 2 >? endp then Err KNOT_EMALF else
    if is_pointer c then
      if negb has_pkt then Err KNOT_EINVAL else
      let* lo := rd m (name + 1) in
      let ptr := get_pointer c lo in
      if ptr >=? name then Err KNOT_EMALF else
      let name := ptr in
      let wire_len := if is_compressed then wire_len else wire_len + 2 in
      if name + 1 >? endp then Err KNOT_EMALF else
      wire_check_loop fuel m has_pkt name wire_len name_len true
    else
      if c >? KNOT_DNAME_MAXLABELLEN then Err KNOT_EMALF else
      let lblen := c + 1 in
      if name_len + lblen >? KNOT_DNAME_MAXLEN then Err KNOT_EMALF else
      let name_len := name_len + lblen in
      let wire_len := if is_compressed then wire_len else wire_len + lblen in
      let name := name + lblen in
      if name + 1 >? endp then Err KNOT_EMALF else
      wire_check_loop fuel m has_pkt name wire_len name_len is_compressed
  end.

(** Enough iterations for every input of this length (proved sufficient). *)
Definition wire_check_fuel (m : list Z) : nat := (256 * S (length m))%nat.

(** src/libknot/dname.c:76-140; [name] is an offset in [m] with name <= endp. *)
Definition wire_check (m : list Z) (has_pkt : bool) (name : Z) : res Z :=
  if name =? zlen m then Err KNOT_EINVAL
  else wire_check_loop (wire_check_fuel m) m has_pkt name 0 1 false.

(** src/libknot/packet/wire.h:1028-1041; the non-decreasing case is assert(0). The position
    strictly decreases, so the position itself bounds the iterations. *)
Fixpoint seek_label_loop (fuel : nat) (m : list Z) (lp : Z) : res Z :=
  match fuel with
  | O => OOF
  | S fuel =>
    let* c := rd m lp in
    if is_pointer c then
      let* lo := rd m (lp + 1) in
      let new_lp := get_pointer c lo in
      if new_lp >=? lp then UB else seek_label_loop fuel m new_lp
    else Ok lp
  end.
Definition seek_label (m : list Z) (lp : Z) : res Z :=
  seek_label_loop (S (Z.to_nat lp)) m lp.

(** src/libknot/packet/wire.h:1043-1049 *)
Definition wire_next_label (m : list Z) (lp : Z) : res Z :=
  let* c := rd m lp in
  if c =? 0 then UB else seek_label m (lp + c + 1).

(** bytes [off, off+n) of m, as read by memcpy *)
Definition rdn (m : list Z) (off n : Z) : res (list Z) :=
  if (off <? 0) || (n <? 0) || (off + n >? zlen m) then UB
  else Ok (zfirstn n (zskipn off m)).

(** src/libknot/dname.c:200-218; [out] are the bytes already written to dst. The check
    against maxlen bounds the number of iterations. *)
Fixpoint unpack_loop (fuel : nat) (m : list Z) (src maxlen : Z) (out : list Z) : res (list Z) :=
  match fuel with
  | O => OOF
  | S fuel =>
    let* c := rd m src in
    if c =? 0 then
      if zlen out + 1 >? maxlen then Err KNOT_EINVAL else Ok (out ++ [0])
    else
      let lblen := u8 (c + 1) in
      if zlen out + lblen >? maxlen then Err KNOT_ESPACE else
      let* lab := rdn m src lblen in
      let* src := wire_next_label m src in
      unpack_loop fuel m src maxlen (out ++ lab)
  end.

(** src/libknot/dname.c:190-219: returns the bytes written. *)
Definition unpack (m : list Z) (src maxlen : Z) : res (list Z) :=
  let* src := seek_label m src in
  unpack_loop (S (Z.to_nat maxlen)) m src maxlen [].

(** src/libknot/dname.c:543-550; 256 iterations are enough for names accepted by
    wire_check (theorem), other names may loop forever in C. *)
Fixpoint realsize_loop (fuel : nat) (m : list Z) (name len : Z) : res Z :=
  match fuel with
  | O => OOF
  | S fuel =>
    let* c := rd m name in
    if c =? 0 then Ok (len + 1) else
    let* name := wire_next_label m name in
    realsize_loop fuel m name (len + c + 1)
  end.
(** src/libknot/dname.c:533-551 *)
Definition realsize (m : list Z) (name : Z) : res Z :=
  let* name := seek_label m name in
  realsize_loop 256 m name 0.

(** ** Plain names: a pointer is the list of bytes from there on. *)

Definition rd0 (d : list Z) : res Z :=
  match d with b :: _ => Ok b | [] => UB end.

(** pointer addition inside a buffer; one past the end is allowed *)
Definition advance (d : list Z) (n : Z) : res (list Z) :=
  if n >? zlen d then UB else Ok (zskipn n d).

(** the [n] bytes at [d] *)
Definition take (d : list Z) (n : Z) : res (list Z) :=
  if n >? zlen d then UB else Ok (zfirstn n d).

(** src/libknot/packet/wire.h:1051-1058 *)
Definition next_label (d : list Z) : res (list Z) :=
  let* c := rd0 d in
  if (c =? 0) || is_pointer c then UB else advance d (c + 1).

(** src/libknot/dname.c:509-531 *)
Fixpoint dname_size_loop (fuel : nat) (d : list Z) (len : Z) : res Z :=
  match fuel with
  | O => OOF
  | S fuel =>
    let* c := rd0 d in
    if c =? 0 then Ok (len + 1)
    else if is_pointer c then Ok (len + 2)
    else
      let lblen := u8 (c + 1) in
      let* d := advance d lblen in
      dname_size_loop fuel d (len + lblen)
  end.
Definition dname_size (d : list Z) : res Z := dname_size_loop (S (length d)) d 0.

(** src/libknot/dname.c:744-762 with pkt == NULL *)
Fixpoint dname_labels_loop (fuel : nat) (d : list Z) (count : Z) : res Z :=
  match fuel with
  | O => OOF
  | S fuel =>
    let* c := rd0 d in
    if c =? 0 then Ok count else
    let* d := next_label d in
    dname_labels_loop fuel d (count + 1)
  end.
Definition dname_labels (d : list Z) : res Z := dname_labels_loop (S (length d)) d 0.

(** src/libknot/dname.c:720-742 *)
Fixpoint prefixlen_loop (fuel : nat) (d : list Z) (nlabels len : Z) : res Z :=
  match fuel with
  | O => OOF
  | S fuel =>
    let* c := rd0 d in
    if c =? 0 then Ok len else
    let* d := next_label d in
    if nlabels - 1 =? 0 then Ok (len + c + 1)
    else prefixlen_loop fuel d (nlabels - 1) (len + c + 1)
  end.
Definition dname_prefixlen (d : list Z) (nlabels : Z) : res Z :=
  if nlabels =? 0 then Ok 0 else prefixlen_loop (S (length d)) d nlabels 0.

(** src/contrib/tolower.h:33-49 *)
Definition tolower_table : list Z :=
  [0; 1; 2; 3; 4; 5; 6; 7; 8; 9; 10; 11; 12; 13; 14; 15;
   16; 17; 18; 19; 20; 21; 22; 23; 24; 25; 26; 27; 28; 29; 30; 31;
   32; 33; 34; 35; 36; 37; 38; 39; 40; 41; 42; 43; 44; 45; 46; 47;
   48; 49; 50; 51; 52; 53; 54; 55; 56; 57; 58; 59; 60; 61; 62; 63;
   64; 97; 98; 99; 100; 101; 102; 103; 104; 105; 106; 107; 108; 109; 110; 111;
   112; 113; 114; 115; 116; 117; 118; 119; 120; 121; 122; 91; 92; 93; 94; 95;
   96; 97; 98; 99; 100; 101; 102; 103; 104; 105; 106; 107; 108; 109; 110; 111;
   112; 113; 114; 115; 116; 117; 118; 119; 120; 121; 122; 123; 124; 125; 126; 127;
   128; 129; 130; 131; 132; 133; 134; 135; 136; 137; 138; 139; 140; 141; 142; 143;
   144; 145; 146; 147; 148; 149; 150; 151; 152; 153; 154; 155; 156; 157; 158; 159;
   160; 161; 162; 163; 164; 165; 166; 167; 168; 169; 170; 171; 172; 173; 174; 175;
   176; 177; 178; 179; 180; 181; 182; 183; 184; 185; 186; 187; 188; 189; 190; 191;
   192; 193; 194; 195; 196; 197; 198; 199; 200; 201; 202; 203; 204; 205; 206; 207;
   208; 209; 210; 211; 212; 213; 214; 215; 216; 217; 218; 219; 220; 221; 222; 223;
   224; 225; 226; 227; 228; 229; 230; 231; 232; 233; 234; 235; 236; 237; 238; 239;
   240; 241; 242; 243; 244; 245; 246; 247; 248; 249; 250; 251; 252; 253; 254; 255].
(** src/contrib/tolower.h:32-52 (the argument is a uint8_t) *)
Definition tolower (c : Z) : Z := nth (Z.to_nat c) tolower_table 0.

(** src/libknot/dname.c:31-49 *)
Fixpoint bytes_eqb (l1 l2 : list Z) : bool :=
  match l1, l2 with
  | [], [] => true
  | a :: l1, b :: l2 => (a =? b) && bytes_eqb l1 l2
  | _, _ => false
  end.
Definition label_is_equal (d1 d2 : list Z) (no_case : bool) : res bool :=
  let* n1 := rd0 d1 in
  let* n2 := rd0 d2 in
  if negb (n1 =? n2) then Ok false else
  let* l1 := take d1 (n1 + 1) in
  let* l2 := take d2 (n1 + 1) in
  if no_case then Ok (bytes_eqb (map tolower (tl l1)) (map tolower (tl l2)))
  else Ok (bytes_eqb (tl l1) (tl l2)).

(** src/libknot/dname.c:64-70: skip [n] labels *)
Fixpoint skip_labels (n : nat) (d : list Z) : res (list Z) :=
  match n with
  | O => Ok d
  | S n => let* d := next_label d in skip_labels n d
  end.

(** src/libknot/dname.c:679-695 *)
Fixpoint dname_is_equal_loop (fuel : nat) (d1 d2 : list Z) (no_case : bool) : res bool :=
  match fuel with
  | O => OOF
  | S fuel =>
    let* c1 := rd0 d1 in
    let* c2 := rd0 d2 in
    if (c1 =? 0) && (c2 =? 0) then Ok true else
    let* e := label_is_equal d1 d2 no_case in
    if e then
      let* d1 := next_label d1 in
      let* d2 := next_label d2 in
      dname_is_equal_loop fuel d1 d2 no_case
    else Ok false
  end.
(** src/libknot/dname.c:697-707 *)
Definition dname_is_equal (d1 d2 : list Z) : res bool :=
  dname_is_equal_loop (S (length d1)) d1 d2 false.
Definition dname_is_case_equal (d1 d2 : list Z) : res bool :=
  dname_is_equal_loop (S (length d1)) d1 d2 true.

(** src/libknot/dname.c:566-581 *)
Fixpoint matched_loop (common : nat) (d1 d2 : list Z) (matched : Z) : res Z :=
  match common with
  | O => Ok matched
  | S common =>
    let* e := label_is_equal d1 d2 false in
    let matched := if e then matched + 1 else 0 in
    let* d1 := next_label d1 in
    let* d2 := next_label d2 in
    matched_loop common d1 d2 matched
  end.
(** src/libknot/dname.c:553-582 with dname_align (59-73). The label counts passed to
    dname_align are uint8_t. *)
Definition matched_labels (d1 d2 : list Z) : res Z :=
  let* l1 := dname_labels d1 in
  let* l2 := dname_labels d2 in
  if (l1 =? 0) || (l2 =? 0) then Ok 0 else
  let l1 := u8 l1 in
  let l2 := u8 l2 in
  let* d2 := skip_labels (Z.to_nat (l2 - l1)) d2 in
  let* d1 := skip_labels (Z.to_nat (l1 - l2)) d1 in
  matched_loop (Z.to_nat (Z.min l1 l2)) d1 d2 0.

(** src/libknot/dname.c:793-810 *)
Definition in_bailiwick (name bailiwick : list Z) : res Z :=
  let* l1 := dname_labels name in
  let* l2 := dname_labels bailiwick in
  let label_diff := l1 - l2 in
  if label_diff <? 0 then Err KNOT_EOUTOFZONE else
  let* name := skip_labels (Z.to_nat label_diff) name in
  let* e := dname_is_equal name bailiwick in
  if e then Ok label_diff else Err KNOT_EOUTOFZONE.

(** src/libknot/dname.c:612-619: the first [n] labels, copied *)
Fixpoint copy_labels (n : nat) (d : list Z) (out : list Z) : res (list Z) :=
  match n with
  | O => Ok out
  | S n =>
    let* c := rd0 d in
    let* lab := take d (c + 1) in
    let* d := next_label d in
    copy_labels n d (out ++ lab)
  end.
(** src/libknot/dname.c:621-628: all labels and the root, copied *)
Fixpoint copy_all (fuel : nat) (d : list Z) (out : list Z) : res (list Z) :=
  match fuel with
  | O => OOF
  | S fuel =>
    let* c := rd0 d in
    if c =? 0 then Ok (out ++ [0]) else
    let* lab := take d (c + 1) in
    let* d := next_label d in
    copy_all fuel d (out ++ lab)
  end.
(** src/libknot/dname.c:584-630; writing more than the allocated new_len bytes is UB *)
Definition replace_suffix (name : list Z) (labels : Z) (suffix : list Z) : res (list Z) :=
  let* dname_lbs := dname_labels name in
  if dname_lbs <? labels then Err RET_NULL else
  let prefix_lbs := dname_lbs - labels in
  let* prefix_len := dname_prefixlen name prefix_lbs in
  let* suffix_len := dname_size suffix in
  if (prefix_len =? 0) || (suffix_len =? 0) then Err RET_NULL else
  let new_len := prefix_len + suffix_len in
  let* out := copy_labels (Z.to_nat prefix_lbs) name [] in
  let* out := copy_all (S (length suffix)) suffix out in
  if zlen out >? new_len then UB else Ok out.

(** src/libknot/dname.c:474-507: knot_dname_to_lower (in place) and knot_dname_copy_lower
    compute the same bytes; the result is the name with its root label. *)
Fixpoint to_lower_loop (fuel : nat) (d : list Z) (out : list Z) : res (list Z) :=
  match fuel with
  | O => OOF
  | S fuel =>
    let* c := rd0 d in
    if c =? 0 then Ok (out ++ [0]) else
    let* lab := take d (c + 1) in
    let* d := advance d (c + 1) in
    to_lower_loop fuel d (out ++ c :: map tolower (tl lab))
  end.
Definition dname_to_lower (d : list Z) : res (list Z) := to_lower_loop (S (length d)) d [].

(** src/libknot/dname.c:764-791. [acc] are the bytes at dst+1 .. end of the 255-byte storage,
    [dst] the offset in the storage. *)
Fixpoint lf_loop (fuel : nat) (src : list Z) (dst : Z) (acc : list Z) : res (Z * list Z) :=
  match fuel with
  | O => OOF
  | S fuel =>
    let* len := rd0 src in
    if len =? 0 then Ok (dst, acc) else
    let* src := advance src 1 in
    if dst <? 0 then UB else             (* *dst = '\0' *)
    let dst := dst - len in
    if dst <? 0 then UB else             (* assert(dst >= storage) *)
    let* lab := take src len in
    let* src := advance src len in
    lf_loop fuel src (dst - 1) (lab ++ 0 :: acc)
  end.
Definition dname_lf (src : list Z) : res (list Z) :=
  let* (dst, acc) := lf_loop (S (length src)) src (KNOT_DNAME_MAXLEN - 1) [] in
  if dst <? 0 then UB else Ok (u8 (KNOT_DNAME_MAXLEN - 1 - dst) :: acc).

(** memcmp over the common length: sign of the first difference *)
Fixpoint memcmp (l1 l2 : list Z) (n : nat) : res Z :=
  match n with
  | O => Ok 0
  | S n =>
    match l1, l2 with
    | a :: l1, b :: l2 => if a <? b then Ok (-1) else if b <? a then Ok 1 else memcmp l1 l2 n
    | _, _ => UB
    end
  end.

(** src/libknot/dname.c:642-677 *)
Definition dname_cmp (d1 d2 : list Z) : res Z :=
  let* lf1 := dname_lf d1 in
  let* lf2 := dname_lf d2 in
  let* n1 := rd0 lf1 in
  let* n2 := rd0 lf2 in
  let common := if n1 >? n2 then n2 else n1 in
  let* ret := memcmp (tl lf1) (tl lf2) (Z.to_nat common) in
  if negb (ret =? 0) then Ok ret else
  if n1 <? n2 then Ok (-1) else if n1 >? n2 then Ok 1 else Ok 0.

(** src/libknot/dname.c:709-718 *)
Definition with_null (d : list Z) : res bool :=
  let* size := dname_size d in
  let* whole := take d size in
  (* strnlen(name, size) *)
  let fix strnlen (l : list Z) : Z :=
    match l with [] => 0 | b :: l => if b =? 0 then 0 else 1 + strnlen l end in
  Ok (negb (size =? strnlen whole + 1)).

(** ** Presentation format *)

(** src/contrib/ctype.h:37-193, the classes used here *)
Definition is_digit (c : Z) : bool := (48 <=? c) && (c <=? 57).
Definition is_alnum (c : Z) : bool :=
  is_digit c || ((65 <=? c) && (c <=? 90)) || ((97 <=? c) && (c <=? 122)).
Definition is_punct (c : Z) : bool :=
  ((33 <=? c) && (c <=? 47)) || ((58 <=? c) && (c <=? 64)) ||
  ((91 <=? c) && (c <=? 96)) || ((123 <=? c) && (c <=? 126)).

(** src/libknot/dname.c:244-317. [dst]: Some maxlen if a buffer was supplied, None when the
    function allocates. [res] are the characters written so far. Writing at or after
    [alloc_size] is UB. *)
Definition putc (alloc : Z) (out : list Z) (cs : list Z) : res (list Z) :=
  if zlen out + zlen cs >? alloc then UB else Ok (out ++ cs).

Fixpoint to_str_loop (d : list Z) (dname_size : Z) (dst : option Z) (alloc label_len : Z)
    (out : list Z) : res (Z * list Z) :=
  match d with
  | [] => Ok (alloc, out)
  | c :: d =>
    if label_len =? 0 then
      if (zlen out >? 0) || (dname_size =? 1) then
        if alloc <=? zlen out + 1 then Err RET_NULL else
        let* out := putc alloc out [46] in
        to_str_loop d dname_size dst alloc c out
      else to_str_loop d dname_size dst alloc c out
    else
    if is_alnum c || (c =? 45) || (c =? 95) || (c =? 42) || (c =? 47) then
      if alloc <=? zlen out + 1 then Err RET_NULL else
      let* out := putc alloc out [c] in
      to_str_loop d dname_size dst alloc (label_len - 1) out
    else if is_punct c && negb (c =? 35) then
      let* alloc := match dst with
                    | Some maxlen => if maxlen <=? zlen out + 2 then Err RET_NULL else Ok alloc
                    | None => Ok (alloc + 1)
                    end in
      let* out := putc alloc out [92; c] in
      to_str_loop d dname_size dst alloc (label_len - 1) out
    else
      let* alloc := match dst with
                    | Some maxlen => if maxlen <=? zlen out + 4 then Err RET_NULL else Ok alloc
                    | None => Ok (alloc + 3)
                    end in
      (* snprintf(res + str_len, alloc_size - str_len, "\\%03u", c) returns 4 for a byte *)
      if alloc - zlen out <? 0 then UB else
      if 4 >=? alloc - zlen out then Err RET_NULL else
      let* out := putc alloc out [92; 48 + c / 100; 48 + c / 10 mod 10; 48 + c mod 10] in
      to_str_loop d dname_size dst alloc (label_len - 1) out
  end.

(** src/libknot/dname.c:221-332: the returned string without the terminating NUL *)
Definition dname_to_str (d : list Z) (dst : option Z) : res (list Z) :=
  let* size := dname_size d in
  let alloc := match dst with None => size + 1 | Some maxlen => maxlen end in
  if alloc <? size + 1 then Err RET_NULL else
  let* name := take d size in
  let* (alloc, out) := to_str_loop name size dst alloc 0 [] in
  if negb (zlen out <? alloc) then UB else Ok out.

(** src/libknot/dname.c:390-444. The bytes before the current label are [done], the value of
    the current label's length byte is [label], its bytes so far are [cur]; thus
    wire_pos = |done| + 1 + |cur|. [ch] are the characters from the read position to [end].
    A write at or after wire_end is UB. *)
Definition can_write (done cur : list Z) (wire_end : Z) : bool :=
  zlen done + 1 + zlen cur <? wire_end.
Fixpoint from_str_loop (fuel : nat) (ch : list Z) (name_len wire_end : Z)
    (done : list Z) (label : Z) (cur : list Z) : res (list Z * Z * list Z) :=
  match fuel with
  | O => OOF
  | S fuel =>
    match ch with
    | [] => Ok (done, label, cur)
    | c :: ch =>
      if zlen done + 1 + zlen cur >=? wire_end then Err RET_NULL else
      if c =? 46 then
        if (label =? 0) && (name_len >? 1) then Err RET_NULL else
        if negb (can_write done cur wire_end) then UB else
        from_str_loop fuel ch name_len wire_end (done ++ label :: cur) 0 []
      else if c =? 92 then
        match ch with
        | [] => Err RET_NULL
        | c0 :: ch' =>
          let label := u8 (label + 1) in
          if label >? KNOT_DNAME_MAXLABELLEN then Err RET_NULL else
          if is_digit c0 then
            match ch' with
            | c1 :: c2 :: ch'' =>
              if negb (is_digit c1) || negb (is_digit c2) then Err RET_NULL else
              let num := (c0 - 48) * 100 + (c1 - 48) * 10 + (c2 - 48) in
              if num >? 255 then Err RET_NULL else
              if negb (can_write done cur wire_end) then UB else
              from_str_loop fuel ch'' name_len wire_end done label (cur ++ [num])
            | _ => Err RET_NULL
            end
          else
            if negb (can_write done cur wire_end) then UB else
            from_str_loop fuel ch' name_len wire_end done label (cur ++ [c0])
        end
      else
        let label := u8 (label + 1) in
        if label >? KNOT_DNAME_MAXLABELLEN then Err RET_NULL else
        if negb (can_write done cur wire_end) then UB else
        from_str_loop fuel ch name_len wire_end done label (cur ++ [c])
    end
  end.

(** src/libknot/dname.c:334-472; [name] is the C string without its NUL, [dst] as above.
    Returns all bytes written to the buffer. *)
Definition dname_from_str (dst : option Z) (name : list Z) : res (list Z) :=
  let name_len := zlen name in
  if name_len =? 0 then Err RET_NULL else
  let* (name, alloc) :=
    match dst with
    | Some maxlen => Ok (name, maxlen)
    | None =>
      if hd 0 name =? 46 then
        if name_len >? 1 then Err RET_NULL else Ok ([], 1)
      else if negb (last name 0 =? 46) then Ok (name, 1 + name_len + 1)
      else Ok (name, 1 + name_len)
    end in
  if alloc =? 0 then Err RET_NULL else
  let alloc := if alloc >? KNOT_DNAME_MAXLEN then KNOT_DNAME_MAXLEN else alloc in
  let* (done, label, cur) := from_str_loop (S (length name)) name (zlen name) alloc [] 0 [] in
  if label >? 0 then
    if zlen done + 1 + zlen cur >=? alloc then Err RET_NULL
    else if negb (can_write done cur alloc) then UB
    else Ok (done ++ label :: cur ++ [0])
  else Ok (done ++ label :: cur).
