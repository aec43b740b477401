(** Conversions of configuration values between text and binary data: src/libknot/yparser/yptrafo.c.

    A text is a list of characters, a zero follows it in memory. The input context is what remains of the input; [len] is
    YP_LEN, the distance of [stop]. The output context is what was written and the space behind it. Errors of the contexts
    are returned at once here, and at the end of the function in the source; the error code may be another one then.
    inet_pton() is a pair of functions given to the model. *)
From Verif Require Import Base DnameModel WireModel CodecModel.

Record out := mkout { o_data : list Z; o_room : Z }.
(** src/contrib/wire_ctx.h:312-337 *)
Definition write (o : out) (l : list Z) : res out :=
  if zlen l >? o_room o then Err KNOT_ESPACE else Ok (mkout (o_data o ++ l) (o_room o - zlen l)).
(** the text is written with a terminator and the position is set back to the terminator; also the check of snprintf() *)
Definition write_txt (o : out) (l : list Z) : res out :=
  if zlen l >=? o_room o then Err KNOT_ESPACE else Ok (mkout (o_data o ++ l) (o_room o - zlen l)).
(** src/contrib/wire_ctx.h:227-250 *)
Definition read (i : list Z) (n : Z) : res (list Z * list Z) :=
  if n >? zlen i then Err KNOT_EFEWDATA else Ok (zfirstn n i, zskipn n i).
(** a C string in memory *)
Fixpoint cstr (l : list Z) : list Z := match l with [] => [] | c :: l => if c =? 0 then [] else c :: cstr l end.
Fixpoint index_of (c : Z) (l : list Z) : option Z :=
  match l with [] => None | x :: l => if x =? c then Some 0 else option_map (Z.add 1) (index_of c l) end.
Fixpoint last_index (c : Z) (l : list Z) : option Z :=
  match l with
  | [] => None
  | x :: l => match last_index c l with Some i => Some (i + 1) | None => if x =? c then Some 0 else None end
  end.
Definition strchr (c : Z) (l : list Z) : option Z := index_of c (cstr l).
Definition strrchr (c : Z) (l : list Z) : option Z := last_index c (cstr l).
(** strncasecmp() == 0 with a string that ends by zero *)
Fixpoint ncase_equal (n : nat) (a b : list Z) : bool :=
  match n with
  | O => true
  | S n =>
    let x := hd 0 a in
    let y := hd 0 b in
    (tolower x =? tolower y) && ((x =? 0) || ncase_equal n (tl a) (tl b))
  end.
(** yptrafo.c:95-108 *)
Definition copy_in (i : list Z) (len size : Z) : res (list Z * list Z) :=
  if len + 1 >? size then Err KNOT_ESPACE else Ok (cstr (zfirstn len i), zskipn len i).

(** ** Strings: yptrafo.c:110-141 *)
Definition str_to_bin (i : list Z) (len : Z) (o : out) : res (list Z * out) :=
  let* o := write o (zfirstn len i) in
  let* o := write o [0] in
  Ok (zskipn len i, o).
Definition str_to_txt (i : list Z) (o : out) : res (list Z * out) :=
  match index_of 0 i with
  | None => UB
  | Some n => let* o := write_txt o (zfirstn n i) in Ok (zskipn (n + 1) i, o)
  end.

(** ** Booleans: yptrafo.c:143-195 *)
Definition bool_to_bin (i : list Z) (len : Z) (o : out) : res (list Z * out) :=
  let is l := ncase_equal (Z.to_nat len) i l in
  let* o :=
    if is [111; 110] || is [116; 114; 117; 101] then write o [1]
    else if is [111; 102; 102] || is [102; 97; 108; 115; 101] then write o [0]
    else Err KNOT_EINVAL in
  Ok (zskipn len i, o).
Definition bool_to_txt (i : list Z) (o : out) : res (list Z * out) :=
  let* (v, i) := read i 1 in
  let* o :=
    if hd 0 v =? 0 then write_txt o [111; 102; 102]
    else if hd 0 v =? 1 then write_txt o [111; 110]
    else Err KNOT_EINVAL in
  Ok (i, o).

(** ** Numbers *)
Definition INT64_MAX : Z := 2 ^ 63 - 1.
Definition INT64_MIN : Z := - 2 ^ 63.
(** ypschema.h:111-117: the bits of YP_SSIZE and YP_STIME *)
Record style := mkstyle { s_size : bool; s_time : bool }.
Definition YP_SNONE : style := mkstyle false false.
(** strtoll(): spaces, a sign and digits. The number, the rest, and whether it was out of range; [None]: no number *)
Fixpoint digits (l : list Z) (acc : Z) : Z * list Z :=
  match l with
  | c :: l' => if is_digit c then digits l' (10 * acc + (c - 48)) else (acc, l)
  | [] => (acc, [])
  end.
Definition is_space (c : Z) : bool := (c =? 32) || ((9 <=? c) && (c <=? 13)).
Fixpoint skip_spaces (l : list Z) : list Z := match l with c :: l' => if is_space c then skip_spaces l' else l | [] => [] end.
Definition strtoll (l : list Z) : option (Z * list Z * bool) :=
  let l := skip_spaces l in
  let '(neg, l) := match l with c :: l' => if c =? 45 then (true, l') else if c =? 43 then (false, l') else (false, l) | [] => (false, l) end in
  match l with
  | c :: _ =>
    if is_digit c then
      let '(v, rest) := digits l 0 in
      let v := if neg : bool then - v else v in
      Some (Z.max INT64_MIN (Z.min INT64_MAX v), rest, (v <? INT64_MIN) || (INT64_MAX <? v))
    else None
  | [] => None
  end.
(** yptrafo.c:34-60, 206-244 *)
Definition unit_of (u : Z) (st : style) : option Z :=
  if s_size st then
    if u =? 66 then Some 1 else if u =? 75 then Some 1024 else if u =? 77 then Some (1024 * 1024) else if u =? 71 then Some (1024 * 1024 * 1024) else None
  else if s_time st then
    if u =? 115 then Some 1 else if u =? 109 then Some 60 else if u =? 104 then Some 3600 else if u =? 100 then Some 86400
    else if u =? 119 then Some (86400 * 7) else if u =? 77 then Some (86400 * 30) else if u =? 121 then Some (86400 * 365) else None
  else None.
(** yptrafo.c:197-254 *)
Definition remove_unit (n u : Z) (st : style) : res Z :=
  match unit_of u st with
  | None => Err KNOT_EINVAL
  | Some m =>
    if (n <? 0) && (n =? INT64_MIN) then UB else
    if INT64_MAX / m <? (if n >=? 0 then n else - n) then Err KNOT_ERANGE else Ok (n * m)
  end.
(** yptrafo.c:256-306 *)
Definition int_to_bin (i : list Z) (len : Z) (o : out) (min max : Z) (st : style) : res (list Z * out) :=
  let* (buf, i) := copy_in i len 32 in
  match strtoll buf with
  | None => Err KNOT_EINVAL
  | Some (n, rest, range) =>
    if range : bool then Err KNOT_ERANGE else
    let* n :=
      match rest with
      | [] => Ok n
      | [u] => remove_unit n u st
      | _ => Err KNOT_EINVAL
      end in
    if (n <? min) || (n >? max) then Err KNOT_ERANGE else
    let* o := write o (be 8 (u64 n)) in
    Ok (i, o)
  end.
(** yptrafo.c:308-367: the number and the unit to be printed; / and % are exact here *)
Definition add_unit (n : Z) (st : style) : Z * list Z :=
  let '(m, basic, u) :=
    if s_size st then
      if n <? 1024 then (1, [66], [66]) else if n <? 1024 * 1024 then (1024, [66], [75]) else if n <? 1024 * 1024 * 1024 then (1024 * 1024, [66], [77])
      else (1024 * 1024 * 1024, [66], [71])
    else if s_time st then
      if n <? 60 then (1, [115], [115]) else if n <? 3600 then (60, [115], [109]) else if n <? 86400 then (3600, [115], [104])
      else if n <? 86400 * 7 then (86400, [115], [100]) else if n <? 86400 * 30 then (86400 * 7, [115], [119])
      else if n <? 86400 * 365 then (86400 * 30, [115], [77]) else (86400 * 365, [115], [121])
    else (1, [], []) in
  if Z.rem n m =? 0 then (Z.quot n m, u) else (n, basic).
(** %d and %x of a nonnegative number, in a given base *)
Definition digit (d : Z) : Z := if d <? 10 then 48 + d else 87 + d.
Fixpoint print_loop (fuel : nat) (base n : Z) (acc : list Z) : list Z :=
  match fuel with
  | O => acc
  | S fuel => let acc := digit (n mod base) :: acc in if n <? base then acc else print_loop fuel base (n / base) acc
  end.
Definition print_num (base n : Z) : list Z := print_loop 64 base n [].
Definition print_dec (n : Z) : list Z := if n <? 0 then 45 :: print_num 10 (- n) else print_num 10 n.
Definition i64 (v : Z) : Z := if v <? 2 ^ 63 then v else v - 2 ^ 64.
(** yptrafo.c:369-389 *)
Definition int_to_txt (i : list Z) (o : out) (st : style) : res (list Z * out) :=
  let* (v, i) := read i 8 in
  let '(n, u) := add_unit (i64 (unbe v)) st in
  let* o := write_txt o (print_dec n ++ u) in
  Ok (i, o).

(** ** Addresses *)
(** yptrafo.c:62-68 *)
Definition ADDR_UNIX : Z := 0.
Definition ADDR_IPV4 : Z := 4.
Definition ADDR_IPV6 : Z := 6.
Definition ADDR_LINKLOCAL : Z := 7.
Definition is_ip_addr (t : Z) : bool := (t =? ADDR_IPV4) || (t =? ADDR_IPV6) || (t =? ADDR_LINKLOCAL).
Definition count (f : Z -> bool) (l : list Z) : Z := zlen (filter f l).
(** yptrafo.c:391-421: the type and the position of the percent sign *)
Definition sock_type_guess (i : list Z) (len : Z) : Z * option Z :=
  let s := zfirstn len i in
  let colons := count (Z.eqb 58) s in
  if colons >=? 1 then
    match strchr 37 i with None => (ADDR_IPV6, None) | Some p => (ADDR_LINKLOCAL, Some p) end
  else if (count (Z.eqb 46) s =? 3) && (count is_digit s >=? 3) then (ADDR_IPV4, None)
  else (ADDR_UNIX, None).
(** inet_pton() *)
Record pton := mkpton { p_inet : list Z -> option (list Z); p_inet6 : list Z -> option (list Z) }.
(** yptrafo.c:423-478 *)
Definition noport_to_bin (P : pton) (i : list Z) (len : Z) (o : out) (allow_unix : bool) : res (list Z * out) :=
  let '(type, if_name) := sock_type_guess i len in
  if is_ip_addr type then
    let* n := match if_name with None => Ok len | Some p => if p + 1 >=? len then Err KNOT_EINVAL else Ok p end in
    let* (buf, i) := copy_in i n 46 in
    let* o := write o [type] in
    match (if type =? ADDR_IPV4 then p_inet P buf else p_inet6 P buf) with
    | None => Err KNOT_EINVAL
    | Some a =>
      let* o := write o a in
      match if_name with
      | None => Ok (i, o)
      | Some _ => let* (_, i) := read i 1 in str_to_bin i (len - n - 1) o
      end
    end
  else if allow_unix then
    let* o := write o [type] in
    str_to_bin i len o
  else Err KNOT_EINVAL.
(** src/contrib/musl/inet_ntop.c:30-79. [spans]: the position of the longest span of zeros and colons *)
Fixpoint strspn (l : list Z) : Z := match l with c :: l => if (c =? 58) || (c =? 48) then 1 + strspn l else 0 | [] => 0 end.
Fixpoint spans (l : list Z) (i best max : Z) : Z * Z :=
  match l with
  | [] => (best, max)
  | c :: l' =>
    let j := strspn l in
    if negb (i =? 0) && negb (c =? 58) then spans l' (i + 1) best max
    else if j >? max then spans l' (i + 1) i j
    else spans l' (i + 1) best max
  end.
Definition compress (l : list Z) : list Z :=
  let '(best, max) := spans l 0 0 2 in
  if max >? 3 then zfirstn best l ++ [58; 58] ++ zskipn (best + max) l else l.
Fixpoint join (sep : Z) (l : list (list Z)) : list Z :=
  match l with [] => [] | [x] => x | x :: l => x ++ sep :: join sep l end.
Fixpoint pairs (l : list Z) : list Z := match l with a :: b :: l => 256 * a + b :: pairs l | _ => [] end.
Definition ntop4 (a : list Z) : list Z := join 46 (map (print_num 10) a).
Definition ntop6 (a : list Z) : list Z :=
  compress (if bytes_eqb (zfirstn 12 a) [0; 0; 0; 0; 0; 0; 0; 0; 0; 0; 255; 255]
            then join 58 (map (print_num 16) (pairs (zfirstn 12 a))) ++ 58 :: ntop4 (zskipn 12 a)
            else join 58 (map (print_num 16) (pairs a))).
(** yptrafo.c:480-532 *)
Definition noport_to_txt (i : list Z) (o : out) : res (list Z * out) :=
  let* (t, i) := read i 1 in
  let type := hd 0 t in
  if type =? ADDR_UNIX then str_to_txt i o
  else if type =? ADDR_IPV4 then
    let* (a, i) := read i 4 in
    let* o := write_txt o (ntop4 a) in
    Ok (i, o)
  else if (type =? ADDR_IPV6) || (type =? ADDR_LINKLOCAL) then
    let* (a, i) := read i 16 in
    let* o := write_txt o (ntop6 a) in
    if type =? ADDR_LINKLOCAL then
      match i with
      | [] => UB
      | c :: _ => if c =? 0 then Ok (i, o) else let* o := write o [37] in str_to_txt i o
      end
    else Ok (i, o)
  else Err KNOT_EINVAL.
(** yptrafo.c:534-577 *)
Definition addr_to_bin (P : pton) (i : list Z) (len : Z) (o : out) : res (list Z * out) :=
  let pos := match strrchr 64 i with Some p => if p >=? len then None else Some p | None => None end in
  let start := zlen (o_data o) in
  let* (i, o) := noport_to_bin P i (match pos with Some p => p | None => len end) o true in
  let type := nth (Z.to_nat start) (o_data o) 0 in
  match pos with
  | Some p =>
    if type =? ADDR_UNIX then
      str_to_bin i (len - p) (mkout (removelast (o_data o)) (o_room o + 1))
    else
      let* (_, i) := read i 1 in
      int_to_bin i (len - p - 1) o 0 65535 YP_SNONE
  | None =>
    if is_ip_addr type then let* o := write o (be 8 (u64 (-1))) in Ok (i, o) else Ok (i, o)
  end.
(** yptrafo.c:579-614 *)
Definition addr_to_txt (i : list Z) (o : out) : res (list Z * out) :=
  let type := hd 0 i in
  let* (i, o) := noport_to_txt i o in
  if is_ip_addr type then
    let* (v, i') := read i 8 in
    if i64 (unbe v) >=? 0 then
      let* o := write o [64] in
      int_to_txt i o YP_SNONE
    else Ok (i', o)
  else Ok (i, o).
(** yptrafo.c:616-699 *)
Definition range_to_bin (P : pton) (i : list Z) (len : Z) (o : out) : res (list Z * out) :=
  let unix_path := hd 0 i =? 47 in
  let before c := match strchr c i with Some p => if p >=? len then None else Some p | None => None end in
  let '(format, pos) :=
    if unix_path then (0, None)
    else match before 47 with
         | Some p => (1, Some p)
         | None => match before 45 with Some p => (2, Some p) | None => (0, None) end
         end in
  let start := zlen (o_data o) in
  let* (i, o) := noport_to_bin P i (match pos with Some p => p | None => len end) o unix_path in
  let type1 := nth (Z.to_nat start) (o_data o) 0 in
  let* o := write o [format] in
  match pos with
  | None => Ok (i, o)
  | Some p =>
    let* (_, i) := read i 1 in
    if format =? 1 then int_to_bin i (len - p - 1) o 0 (if type1 =? ADDR_IPV4 then 32 else 128) YP_SNONE
    else
      let start2 := zlen (o_data o) in
      let* (i, o) := noport_to_bin P i (len - p - 1) o false in
      if negb (type1 =? nth (Z.to_nat start2) (o_data o) 0) then Err KNOT_EINVAL else Ok (i, o)
  end.
(** yptrafo.c:701-741 *)
Definition range_to_txt (i : list Z) (o : out) : res (list Z * out) :=
  let* (i, o) := noport_to_txt i o in
  let* (f, i) := read i 1 in
  let format := hd 0 f in
  if format =? 1 then let* o := write o [47] in int_to_txt i o YP_SNONE
  else if format =? 2 then let* o := write o [45] in noport_to_txt i o
  else Ok (i, o).

(** ** Options: yptrafo.c:743-790 *)
Fixpoint option_to_bin (i : list Z) (len : Z) (o : out) (opts : list (Z * list Z)) : res (list Z * out) :=
  match opts with
  | [] => Err KNOT_EINVAL
  | (id, name) :: opts =>
    if (len =? zlen name) && ncase_equal (Z.to_nat len) i name then
      let* o := write o [u8 id] in Ok (zskipn len i, o)
    else option_to_bin i len o opts
  end.
Fixpoint option_find (id : Z) (opts : list (Z * list Z)) : option (list Z) :=
  match opts with [] => None | (id', name) :: opts => if id =? id' then Some name else option_find id opts end.
Definition option_to_txt (i : list Z) (o : out) (opts : list (Z * list Z)) : res (list Z * out) :=
  let* (v, i) := read i 1 in
  match option_find (hd 0 v) opts with
  | None => Err KNOT_EINVAL
  | Some name => if zlen name <=? 0 then Err KNOT_ESPACE else let* o := write_txt o name in Ok (i, o)
  end.

(** ** Names: yptrafo.c:792-845 *)
Definition dname_to_bin (i : list Z) (len : Z) (o : out) : res (list Z * out) :=
  let* (buf, i) := copy_in i len (KNOT_DNAME_TXT_MAXLEN + 1) in
  match dname_from_str (Some (o_room o)) buf with
  | Ok w =>
    match wire_check w false 0 with
    | Ok n =>
      let* low := dname_to_lower (zfirstn n w) in
      let* o := write o low in
      Ok (i, o)
    | Err _ => Err KNOT_EINVAL
    | UB => UB
    | OOF => OOF
    end
  | Err _ => Err KNOT_EINVAL
  | UB => UB
  | OOF => OOF
  end.
Definition dname_to_txt (i : list Z) (o : out) : res (list Z * out) :=
  match dname_to_str i (Some (o_room o)) with
  | Ok t => Ok (i, mkout (o_data o ++ t) (o_room o - zlen t))
  | Err _ => Err KNOT_EINVAL
  | UB => UB
  | OOF => OOF
  end.

(** ** Hexadecimal data *)
(** src/contrib/ctype.h:38-147, 165-183; yptrafo.c:847-852 *)
Definition is_print (c : Z) : bool := (32 <=? c) && (c <=? 126).
Definition hex_to_num (c : Z) : option Z :=
  if is_digit c then Some (c - 48)
  else if (97 <=? c) && (c <=? 102) then Some (c - 97 + 10)
  else if (65 <=? c) && (c <=? 70) then Some (c - 65 + 10)
  else None.
Fixpoint unhex (l : list Z) : option (list Z) :=
  match l with
  | [] => Some []
  | [_] => None
  | a :: b :: l =>
    match hex_to_num a, hex_to_num b, unhex l with
    | Some x, Some y, Some l => Some (16 * x + y :: l)
    | _, _, _ => None
    end
  end.
(** yptrafo.c:854-895; the digits are checked one pair after another in the source *)
Definition hex_to_bin (i : list Z) (len : Z) (o : out) : res (list Z * out) :=
  match i with
  | 48 :: 120 :: i' =>
    let len := len - 2 in
    if len <? 0 then UB else
    if negb (len mod 2 =? 0) then Err KNOT_EINVAL else
    let* o := write o (be 2 (u16 (len / 2))) in
    match unhex (zfirstn len i') with
    | None => Err KNOT_EINVAL
    | Some b => let* o := write o b in Ok (zskipn len i', o)
    end
  | _ =>
    let* o := write o (be 2 (u16 len)) in
    let* o := write o (zfirstn len i) in
    Ok (zskipn len i, o)
  end.
Definition hexdigit (d : Z) : Z := if d <? 10 then 48 + d else 55 + d.
(** yptrafo.c:897-939 *)
Definition hex_to_txt (i : list Z) (o : out) : res (list Z * out) :=
  let* (n, i) := read i 2 in
  let n := unbe n in
  let l := zfirstn n i in
  if negb (zlen l =? n) && forallb is_print l then UB else
  let* (l, i) := read i n in
  let* o :=
    if forallb is_print l then write_txt o l
    else
      let* o := write o [48; 120] in
      write_txt o (concat (map (fun b => [hexdigit (b / 16); hexdigit (b mod 16)]) l)) in
  Ok (i, o).

(** ** Base64: yptrafo.c:941-995 *)
Definition base64_to_bin (i : list Z) (len : Z) (o : out) : res (list Z * out) :=
  let* _ := write o [0; 0] in
  let* b := base64_decode (zfirstn len i) (o_room o - 2) in
  let* o := write o (be 2 (u16 (zlen b))) in
  let* o := write o b in
  Ok (zskipn len i, o).
Definition base64_to_txt (i : list Z) (o : out) : res (list Z * out) :=
  let* (n, i) := read i 2 in
  let n := unbe n in
  if zlen i <? n then UB else
  let* t := base64_encode (zfirstn n i) (o_room o) in
  let* o := write_txt o t in
  Ok (i, o).

(** ** Items *)
(** src/libknot/yparser/ypschema.h:44-58, 121-185; YP_TDATA has functions of its own and is not modelled *)
Inductive item : Type :=
| TInt (min max : Z) (unit : style)
| TBool
| TOpt (opts : list (Z * list Z))
| TStr
| TAddr
| TNet
| TDname
| THex
| TB64
| TRef (id : item)
| TGrp.
(** yptrafo.c:969-1048 *)
Fixpoint item_to_bin (P : pton) (it : item) (txt : list Z) (bin_len : Z) : res (list Z) :=
  let len := zlen txt in
  let o := mkout [] bin_len in
  match it with
  | TRef id =>
    let* b := item_to_bin P id txt bin_len in
    Ok b
  | TGrp => Ok []
  | _ =>
    let* (_, o) :=
      match it with
      | TInt min max unit => int_to_bin txt len o min max unit
      | TBool => bool_to_bin txt len o
      | TOpt opts => option_to_bin txt len o opts
      | TStr => str_to_bin txt len o
      | TAddr => addr_to_bin P txt len o
      | TNet => range_to_bin P txt len o
      | TDname => dname_to_bin txt len o
      | THex => hex_to_bin txt len o
      | _ => base64_to_bin txt len o
      end in
    Ok (o_data o)
  end.
(** yptrafo.c:1050-1141; [quote]: YP_SNOQUOTE is not set *)
Fixpoint item_to_txt (it : item) (bin : list Z) (txt_len : Z) (st : style) (quote : bool) : res (list Z) :=
  let o := mkout [] txt_len in
  let* o := if quote then write o [34] else Ok o in
  let* o :=
    match it with
    | TRef id =>
      let* t := item_to_txt id bin (o_room o) st false in
      Ok (mkout (o_data o ++ t) (o_room o - zlen t))
    | TGrp => Ok o
    | _ =>
      let* (_, o) :=
        match it with
        | TInt _ _ unit => int_to_txt bin o (mkstyle (s_size unit && s_size st) (s_time unit && s_time st))
        | TBool => bool_to_txt bin o
        | TOpt opts => option_to_txt bin o opts
        | TStr => str_to_txt bin o
        | TAddr => addr_to_txt bin o
        | TNet => range_to_txt bin o
        | TDname => dname_to_txt bin o
        | THex => hex_to_txt bin o
        | _ => base64_to_txt bin o
        end in
      Ok o
    end in
  let* o := if quote then write o [34] else Ok o in
  let* o := write o [0] in
  Ok (removelast (o_data o)).
