(** Base64, Base64url and Base32hex codecs: src/contrib/base64.c, base64url.c, base32hex.c.

    Input text or data is the list of its bytes; for the Base64url decoder, which may look one
    byte behind the input, the memory behind the input is an extra argument. Output goes to a
    buffer of [out_len] bytes: [put] checks that every byte stored is inside the buffer and
    returns the bytes stored so far; [extra] bytes are stored but not counted in the result.
    Running the loop until a position computed from the length is modelled by recursion on the
    remaining input. NULL arguments are not modelled. The *_alloc variants only allocate the
    minimal output size checked here and call these functions. *)
From Verif Require Import Base.
From Coq Require Import Ascii String.

Definition codes (s : string) : list Z := map (fun c => Z.of_nat (nat_of_ascii c)) (list_ascii_of_string s).

Definition put (out_len : Z) (done chunk : list Z) (extra : Z) : res (list Z) :=
  if zlen done + zlen chunk + extra >? out_len then UB else Ok (done ++ chunk).

(** array lookup *)
Definition tab (t : list Z) (i : Z) : res Z := match zget t i with Some x => Ok x | None => UB end.

Definition INT32_MAX : Z := 2 ^ 31 - 1.

(** ** Base64 *)
(** src/contrib/base64.c:23-38 *)
Definition B64_MAX_BIN : Z := (INT32_MAX / 4) * 3.
Definition b64_pad : Z := 61.
Definition base64_enc : list Z :=
  codes "ABCDEFGHIJKLMNOPQRSTUVWXYZabcdefghijklmnopqrstuvwxyz0123456789+/" ++ [0].
Definition B64_PD : Z := 64.

(** src/contrib/base64.c:40-84, generated from the source; 255 is KO, 64 is PD *)
Definition base64_dec : list Z :=
  [255; 255; 255; 255; 255; 255; 255; 255; 255; 255; 255; 255; 255; 255; 255; 255;
   255; 255; 255; 255; 255; 255; 255; 255; 255; 255; 255; 255; 255; 255; 255; 255;
   255; 255; 255; 255; 255; 255; 255; 255; 255; 255; 255; 62; 255; 255; 255; 63;
   52; 53; 54; 55; 56; 57; 58; 59; 60; 61; 255; 255; 255; 64; 255; 255;
   255; 0; 1; 2; 3; 4; 5; 6; 7; 8; 9; 10; 11; 12; 13; 14;
   15; 16; 17; 18; 19; 20; 21; 22; 23; 24; 25; 255; 255; 255; 255; 255;
   255; 26; 27; 28; 29; 30; 31; 32; 33; 34; 35; 36; 37; 38; 39; 40;
   41; 42; 43; 44; 45; 46; 47; 48; 49; 50; 51; 255; 255; 255; 255; 255;
   255; 255; 255; 255; 255; 255; 255; 255; 255; 255; 255; 255; 255; 255; 255; 255;
   255; 255; 255; 255; 255; 255; 255; 255; 255; 255; 255; 255; 255; 255; 255; 255;
   255; 255; 255; 255; 255; 255; 255; 255; 255; 255; 255; 255; 255; 255; 255; 255;
   255; 255; 255; 255; 255; 255; 255; 255; 255; 255; 255; 255; 255; 255; 255; 255;
   255; 255; 255; 255; 255; 255; 255; 255; 255; 255; 255; 255; 255; 255; 255; 255;
   255; 255; 255; 255; 255; 255; 255; 255; 255; 255; 255; 255; 255; 255; 255; 255;
   255; 255; 255; 255; 255; 255; 255; 255; 255; 255; 255; 255; 255; 255; 255; 255;
   255; 255; 255; 255; 255; 255; 255; 255; 255; 255; 255; 255; 255; 255; 255; 255].

(** src/contrib/base64.c:101-127; the loop and the switch, [e] is the alphabet, [p] the padding
    character, [x1 x2] how many of the last characters are not counted in the result (0 here,
    1 and 2 in base64url.c:102-128 which is otherwise the same code) *)
Fixpoint b64_encode_loop (e : list Z) (p x1 x2 : Z) (inp : list Z) (out_len : Z) (text : list Z) : res (list Z) :=
  match inp with
  | i0 :: i1 :: i2 :: inp' =>
    let* t0 := tab e (Z.shiftr i0 2) in
    let* t1 := tab e (Z.lor (Z.shiftl (Z.land i0 3) 4) (Z.shiftr i1 4)) in
    let* t2 := tab e (Z.lor (Z.shiftl (Z.land i1 15) 2) (Z.shiftr i2 6)) in
    let* t3 := tab e (Z.land i2 63) in
    let* text := put out_len text [t0; t1; t2; t3] 0 in
    b64_encode_loop e p x1 x2 inp' out_len text
  | [i0; i1] =>
    let* t0 := tab e (Z.shiftr i0 2) in
    let* t1 := tab e (Z.lor (Z.shiftl (Z.land i0 3) 4) (Z.shiftr i1 4)) in
    let* t2 := tab e (Z.shiftl (Z.land i1 15) 2) in
    put out_len text (zfirstn (4 - x1) [t0; t1; t2; p]) x1
  | [i0] =>
    let* t0 := tab e (Z.shiftr i0 2) in
    let* t1 := tab e (Z.shiftl (Z.land i0 3) 4) in
    put out_len text (zfirstn (4 - x2) [t0; t1; p; p]) x2
  | [] => Ok text
  end.

(** src/contrib/base64.c:84-130 *)
Definition base64_encode (inp : list Z) (out_len : Z) : res (list Z) :=
  if (zlen inp >? B64_MAX_BIN) || (out_len <? ((zlen inp + 2) / 3) * 4) then Err KNOT_ERANGE else
  b64_encode_loop base64_enc b64_pad 0 0 inp out_len [].

(** src/contrib/base64.c:215-239: what is stored for a group, by padding length *)
Definition b64_bin (pad_len c1 c2 c3 c4 : Z) : list Z :=
  let b0 := u8 (Z.shiftl c1 2 + Z.shiftr c2 4) in
  let b1 := u8 (Z.shiftl c2 4 + Z.shiftr c3 2) in
  let b2 := u8 (Z.shiftl c3 6 + c4) in
  if pad_len =? 0 then [b0; b1; b2] else if pad_len =? 1 then [b0; b1] else if pad_len =? 2 then [b0] else [].

(** src/contrib/base64.c:184-241 *)
Fixpoint b64_decode_loop (inp : list Z) (out_len : Z) (pad_len : Z) (bin : list Z) : res (list Z) :=
  match inp with
  | [] => Ok bin
  | i0 :: i1 :: i2 :: i3 :: inp' =>
    let* c1 := tab base64_dec i0 in
    let* c2 := tab base64_dec i1 in
    let* c3 := tab base64_dec i2 in
    let* c4 := tab base64_dec i3 in
    let* pad_len :=
      if c4 >=? B64_PD then (if (c4 =? B64_PD) && (pad_len =? 0) then Ok 1 else Err KNOT_BASE64_ECHAR) else Ok pad_len in
    let* pad_len :=
      if c3 >=? B64_PD then (if (c3 =? B64_PD) && (pad_len =? 1) then Ok 2 else Err KNOT_BASE64_ECHAR) else Ok pad_len in
    if (c2 >=? B64_PD) || (c1 >=? B64_PD) then Err KNOT_BASE64_ECHAR else
    let* bin := put out_len bin (b64_bin pad_len c1 c2 c3 c4) 0 in
    b64_decode_loop inp' out_len pad_len bin
  | _ => UB
  end.

(** src/contrib/base64.c:163-244 *)
Definition base64_decode (inp : list Z) (out_len : Z) : res (list Z) :=
  if (zlen inp >? INT32_MAX) || (out_len <? ((zlen inp + 3) / 4) * 3) then Err KNOT_ERANGE else
  if negb (zlen inp mod 4 =? 0) then Err KNOT_BASE64_ESIZE else
  b64_decode_loop inp out_len 0 [].

(** ** Base64url *)
(** src/contrib/base64url.c:24-36 *)
Definition b64u_pad : Z := 0.
Definition base64url_enc : list Z :=
  codes "ABCDEFGHIJKLMNOPQRSTUVWXYZabcdefghijklmnopqrstuvwxyz0123456789-_" ++ [0].

(** src/contrib/base64url.c:38-83, generated from the source *)
Definition base64url_dec : list Z :=
  [64; 255; 255; 255; 255; 255; 255; 255; 255; 255; 255; 255; 255; 255; 255; 255;
   255; 255; 255; 255; 255; 255; 255; 255; 255; 255; 255; 255; 255; 255; 255; 255;
   255; 255; 255; 255; 255; 255; 255; 255; 255; 255; 255; 255; 255; 62; 255; 255;
   52; 53; 54; 55; 56; 57; 58; 59; 60; 61; 255; 255; 255; 255; 255; 255;
   255; 0; 1; 2; 3; 4; 5; 6; 7; 8; 9; 10; 11; 12; 13; 14;
   15; 16; 17; 18; 19; 20; 21; 22; 23; 24; 25; 255; 255; 255; 255; 63;
   255; 26; 27; 28; 29; 30; 31; 32; 33; 34; 35; 36; 37; 38; 39; 40;
   41; 42; 43; 44; 45; 46; 47; 48; 49; 50; 51; 255; 255; 255; 255; 255;
   255; 255; 255; 255; 255; 255; 255; 255; 255; 255; 255; 255; 255; 255; 255; 255;
   255; 255; 255; 255; 255; 255; 255; 255; 255; 255; 255; 255; 255; 255; 255; 255;
   255; 255; 255; 255; 255; 255; 255; 255; 255; 255; 255; 255; 255; 255; 255; 255;
   255; 255; 255; 255; 255; 255; 255; 255; 255; 255; 255; 255; 255; 255; 255; 255;
   255; 255; 255; 255; 255; 255; 255; 255; 255; 255; 255; 255; 255; 255; 255; 255;
   255; 255; 255; 255; 255; 255; 255; 255; 255; 255; 255; 255; 255; 255; 255; 255;
   255; 255; 255; 255; 255; 255; 255; 255; 255; 255; 255; 255; 255; 255; 255; 255;
   255; 255; 255; 255; 255; 255; 255; 255; 255; 255; 255; 255; 255; 255; 255; 255].

(** src/contrib/base64url.c:85-130 *)
Definition base64url_encode (inp : list Z) (out_len : Z) : res (list Z) :=
  if (zlen inp >? B64_MAX_BIN) || (out_len <? ((zlen inp + 2) / 3) * 4) then Err KNOT_ERANGE else
  b64_encode_loop base64url_enc b64u_pad 1 2 inp out_len [].

(** src/contrib/base64url.c:173-182; [rev_inp] is the input read backwards, [pat] the rest of
    the pattern; returns how many "%3d" were cut; tolower is that of the C locale *)
Definition tolower_c (c : Z) : Z := if (65 <=? c) && (c <=? 90) then c + 32 else c.
Fixpoint cut_3d (rev_inp pat : list Z) (pad3d : Z) : Z :=
  match rev_inp, pat with
  | e :: rev_inp, p :: pat =>
    if tolower_c e =? p then cut_3d rev_inp pat (if p =? 37 then pad3d + 1 else pad3d) else pad3d
  | _, _ => pad3d
  end.
Definition pattern_3d : list Z := codes "d3%d3%".

(** src/contrib/base64url.c:193-254; [after] is the memory behind the (cut) input *)
Fixpoint b64u_decode_loop (inp after : list Z) (out_len : Z) (bin : list Z) : res (Z * list Z) :=
  match inp with
  | [] => Ok (0, bin)
  | i0 :: inp1 =>
    let* c1 := tab base64url_dec i0 in
    let* c2 := match inp1 with
               | i1 :: _ => tab base64url_dec i1
               | [] => match after with i1 :: _ => tab base64url_dec i1 | [] => UB end
               end in
    let* c3 := match inp1 with _ :: i2 :: _ => tab base64url_dec i2 | _ => Ok B64_PD end in
    let* c4 := match inp1 with _ :: _ :: i3 :: _ => tab base64url_dec i3 | _ => Ok B64_PD end in
    let* pad_len :=
      if (c1 >=? B64_PD) || (c2 >=? B64_PD) then Err KNOT_BASE64_ECHAR
      else if c3 >=? B64_PD then (if c3 =? B64_PD then Ok 2 else Err KNOT_BASE64_ECHAR)
      else if c4 >=? B64_PD then (if c4 =? B64_PD then Ok 1 else Err KNOT_BASE64_ECHAR)
      else Ok 0 in
    match inp1 with
    | _ :: _ :: _ :: inp' =>
      if pad_len >? 0 then Err KNOT_BASE64_ECHAR else
      let* bin := put out_len bin (b64_bin pad_len c1 c2 c3 c4) 0 in
      b64u_decode_loop inp' after out_len bin
    | _ =>
      let* bin := put out_len bin (b64_bin pad_len c1 c2 c3 c4) 0 in
      Ok (pad_len, bin)
    end
  end.

(** src/contrib/base64url.c:163-259; [after] is the memory behind the input of length in_len *)
Definition base64url_decode (inp after : list Z) (out_len : Z) : res (list Z) :=
  let pad3d := cut_3d (rev inp) pattern_3d 0 in
  let n := zlen inp - 3 * pad3d in
  if (n >? INT32_MAX) || (out_len <? ((n + 3) / 4) * 3) then Err KNOT_ERANGE else
  let* (pad_len, bin) := b64u_decode_loop (zfirstn n inp) (zskipn n inp ++ after) out_len [] in
  if pad3d >? pad_len then Err KNOT_BASE64_ECHAR else Ok bin.

(** ** Base32hex *)
(** src/contrib/base32hex.c:23-34 *)
Definition B32_MAX_BIN : Z := (INT32_MAX / 8) * 5.
Definition b32_pad : Z := 61.
Definition base32hex_enc : list Z := codes "0123456789abcdefghijklmnopqrstuv" ++ [0].
Definition B32_PD : Z := 32.

(** src/contrib/base32hex.c:36-81, generated from the source; 255 is KO, 32 is PD *)
Definition base32hex_dec : list Z :=
  [255; 255; 255; 255; 255; 255; 255; 255; 255; 255; 255; 255; 255; 255; 255; 255;
   255; 255; 255; 255; 255; 255; 255; 255; 255; 255; 255; 255; 255; 255; 255; 255;
   255; 255; 255; 255; 255; 255; 255; 255; 255; 255; 255; 255; 255; 255; 255; 255;
   0; 1; 2; 3; 4; 5; 6; 7; 8; 9; 255; 255; 255; 32; 255; 255;
   255; 10; 11; 12; 13; 14; 15; 16; 17; 18; 19; 20; 21; 22; 23; 24;
   25; 26; 27; 28; 29; 30; 31; 255; 255; 255; 255; 255; 255; 255; 255; 255;
   255; 10; 11; 12; 13; 14; 15; 16; 17; 18; 19; 20; 21; 22; 23; 24;
   25; 26; 27; 28; 29; 30; 31; 255; 255; 255; 255; 255; 255; 255; 255; 255;
   255; 255; 255; 255; 255; 255; 255; 255; 255; 255; 255; 255; 255; 255; 255; 255;
   255; 255; 255; 255; 255; 255; 255; 255; 255; 255; 255; 255; 255; 255; 255; 255;
   255; 255; 255; 255; 255; 255; 255; 255; 255; 255; 255; 255; 255; 255; 255; 255;
   255; 255; 255; 255; 255; 255; 255; 255; 255; 255; 255; 255; 255; 255; 255; 255;
   255; 255; 255; 255; 255; 255; 255; 255; 255; 255; 255; 255; 255; 255; 255; 255;
   255; 255; 255; 255; 255; 255; 255; 255; 255; 255; 255; 255; 255; 255; 255; 255;
   255; 255; 255; 255; 255; 255; 255; 255; 255; 255; 255; 255; 255; 255; 255; 255;
   255; 255; 255; 255; 255; 255; 255; 255; 255; 255; 255; 255; 255; 255; 255; 255].

(** src/contrib/base32hex.c:100-160 *)
Fixpoint b32_encode_loop (inp : list Z) (out_len : Z) (text : list Z) : res (list Z) :=
  match inp with
  | [] => Ok text
  | i0 :: inp1 =>
    let* t0 := tab base32hex_enc (Z.shiftr i0 3) in
    let t1' := Z.shiftl (Z.land i0 7) 2 in
    match inp1 with
    | [] =>
      let* t1 := tab base32hex_enc t1' in
      put out_len text [t0; t1; b32_pad; b32_pad; b32_pad; b32_pad; b32_pad; b32_pad] 0
    | i1 :: inp2 =>
      let* t1 := tab base32hex_enc (Z.lor t1' (Z.shiftr i1 6)) in
      let* t2 := tab base32hex_enc (Z.shiftr (Z.land i1 62) 1) in
      let t3' := Z.shiftl (Z.land i1 1) 4 in
      match inp2 with
      | [] =>
        let* t3 := tab base32hex_enc t3' in
        put out_len text [t0; t1; t2; t3; b32_pad; b32_pad; b32_pad; b32_pad] 0
      | i2 :: inp3 =>
        let* t3 := tab base32hex_enc (Z.lor t3' (Z.shiftr i2 4)) in
        let t4' := Z.shiftl (Z.land i2 15) 1 in
        match inp3 with
        | [] =>
          let* t4 := tab base32hex_enc t4' in
          put out_len text [t0; t1; t2; t3; t4; b32_pad; b32_pad; b32_pad] 0
        | i3 :: inp4 =>
          let* t4 := tab base32hex_enc (Z.lor t4' (Z.shiftr i3 7)) in
          let* t5 := tab base32hex_enc (Z.shiftr (Z.land i3 124) 2) in
          let t6' := Z.shiftl (Z.land i3 3) 3 in
          match inp4 with
          | [] =>
            let* t6 := tab base32hex_enc t6' in
            put out_len text [t0; t1; t2; t3; t4; t5; t6; b32_pad] 0
          | i4 :: inp5 =>
            let* t6 := tab base32hex_enc (Z.lor t6' (Z.shiftr i4 5)) in
            let* t7 := tab base32hex_enc (Z.land i4 31) in
            let* text := put out_len text [t0; t1; t2; t3; t4; t5; t6; t7] 0 in
            b32_encode_loop inp5 out_len text
          end
        end
      end
    end
  end.

(** src/contrib/base32hex.c:83-163 *)
Definition base32hex_encode (inp : list Z) (out_len : Z) : res (list Z) :=
  if (zlen inp >? B32_MAX_BIN) || (out_len <? ((zlen inp + 4) / 5) * 8) then Err KNOT_ERANGE else
  b32_encode_loop inp out_len [].

(** src/contrib/base32hex.c:229-282: the padding length of a group, starting from the padding
    length left by the groups before *)
Definition b32_pads (pad_len c1 c2 c3 c4 c5 c6 c7 c8 : Z) : res Z :=
  let bad := Err KNOT_BASE32HEX_ECHAR in
  let* pad_len := if c8 >=? B32_PD then (if (c8 =? B32_PD) && (pad_len =? 0) then Ok 1 else bad) else Ok pad_len in
  let* pad_len := if c7 >=? B32_PD then (if (c7 =? B32_PD) && (c6 =? B32_PD) && (pad_len =? 1) then Ok 3 else bad) else Ok pad_len in
  let* pad_len := if c6 >=? B32_PD then (if negb ((c6 =? B32_PD) && (pad_len =? 3)) then bad else Ok pad_len) else Ok pad_len in
  let* pad_len := if c5 >=? B32_PD then (if (c5 =? B32_PD) && (pad_len =? 3) then Ok 4 else bad) else Ok pad_len in
  let* pad_len := if c4 >=? B32_PD then (if (c4 =? B32_PD) && (c3 =? B32_PD) && (pad_len =? 4) then Ok 6 else bad) else Ok pad_len in
  let* pad_len := if c3 >=? B32_PD then (if negb ((c3 =? B32_PD) && (pad_len =? 6)) then bad else Ok pad_len) else Ok pad_len in
  if (c2 >=? B32_PD) || (c1 >=? B32_PD) then bad else Ok pad_len.

(** src/contrib/base32hex.c:284-320 *)
Definition b32_bin (pad_len c1 c2 c3 c4 c5 c6 c7 c8 : Z) : list Z :=
  let b0 := u8 (Z.shiftl c1 3 + Z.shiftr c2 2) in
  let b1 := u8 (Z.shiftl c2 6 + Z.shiftl c3 1 + Z.shiftr c4 4) in
  let b2 := u8 (Z.shiftl c4 4 + Z.shiftr c5 1) in
  let b3 := u8 (Z.shiftl c5 7 + Z.shiftl c6 2 + Z.shiftr c7 3) in
  let b4 := u8 (Z.shiftl c7 5 + c8) in
  if pad_len =? 0 then [b0; b1; b2; b3; b4] else
  if pad_len =? 1 then [b0; b1; b2; b3] else
  if pad_len =? 3 then [b0; b1; b2] else
  if pad_len =? 4 then [b0; b1] else
  if pad_len =? 6 then [b0] else [].

(** src/contrib/base32hex.c:217-322 *)
Fixpoint b32_decode_loop (inp : list Z) (out_len : Z) (pad_len : Z) (bin : list Z) : res (list Z) :=
  match inp with
  | [] => Ok bin
  | i0 :: i1 :: i2 :: i3 :: i4 :: i5 :: i6 :: i7 :: inp' =>
    let* c1 := tab base32hex_dec i0 in
    let* c2 := tab base32hex_dec i1 in
    let* c3 := tab base32hex_dec i2 in
    let* c4 := tab base32hex_dec i3 in
    let* c5 := tab base32hex_dec i4 in
    let* c6 := tab base32hex_dec i5 in
    let* c7 := tab base32hex_dec i6 in
    let* c8 := tab base32hex_dec i7 in
    let* pad_len := b32_pads pad_len c1 c2 c3 c4 c5 c6 c7 c8 in
    let* bin := put out_len bin (b32_bin pad_len c1 c2 c3 c4 c5 c6 c7 c8) 0 in
    b32_decode_loop inp' out_len pad_len bin
  | _ => UB
  end.

(** src/contrib/base32hex.c:196-325 *)
Definition base32hex_decode (inp : list Z) (out_len : Z) : res (list Z) :=
  if (zlen inp >? INT32_MAX) || (out_len <? ((zlen inp + 7) / 8) * 5) then Err KNOT_ERANGE else
  if negb (zlen inp mod 8 =? 0) then Err KNOT_BASE32HEX_ESIZE else
  b32_decode_loop inp out_len 0 [].
