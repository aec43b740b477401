(** Conversion of ECDSA signatures between the form of DNSSEC and of X.509: src/libdnssec/sign/der.c,
    src/libdnssec/shared/bignum.c and the conversions of src/libdnssec/sign/sign.c.

    Simplifications. A wire context is the list of octets not yet read, or the octets written so far with the size
    of the output; memory allocation succeeds. A failing assertion and a write out of the output are [UB]. *)
From Verif Require Import Base SerialModel.

(** src/libdnssec/error.h:39-42 and on; the codes *)
Definition DNSSEC_NOT_IMPLEMENTED_ERROR : Z := -1499.
Definition DNSSEC_MALFORMED_DATA : Z := -1498.
Definition DNSSEC_INVALID_SIGNATURE : Z := -1481.

(** der.c:34-37 *)
Definition ASN1_TYPE_SEQUENCE : Z := 48.
Definition ASN1_TYPE_INTEGER : Z := 2.
Definition ASN1_MAX_SIZE : Z := 127.
Definition blen (l : list Z) : Z := Z.of_nat (length l).

(** der.c:42-46 asn1_expect_type *)
Definition asn1_expect_type (w : list Z) (type : Z) : option (list Z) :=
  match w with
  | b :: w => if b =? type then Some w else None
  | [] => None
  end.
(** der.c:51-70 asn1_decode_size *)
Definition asn1_decode_size (w : list Z) : res (Z * list Z) :=
  match w with
  | [] => Err DNSSEC_MALFORMED_DATA
  | b :: w => if negb (Z.land b 128 =? 0) then Err DNSSEC_NOT_IMPLEMENTED_ERROR else Ok (b, w)
  end.
(** der.c:97-101 the loop: leading zeroes but the last octet *)
Fixpoint skip_zeroes (v : list Z) : list Z :=
  match v with
  | b :: (_ :: _) as t => if b =? 0 then skip_zeroes t else v
  | _ => v
  end.
(** der.c:75-106 asn1_decode_integer *)
Definition asn1_decode_integer (w : list Z) : res (list Z * list Z) :=
  match asn1_expect_type w ASN1_TYPE_INTEGER with
  | None => Err DNSSEC_MALFORMED_DATA
  | Some w =>
    let* (size, w) := asn1_decode_size w in
    if (size =? 0) || (size >? blen w) then Err DNSSEC_MALFORMED_DATA
    else Ok (skip_zeroes (firstn (Z.to_nat size) w), skipn (Z.to_nat size) w)
  end.
(** der.c:137-187 dss_sig_value_decode *)
Definition dss_sig_value_decode (der : list Z) : res (list Z * list Z) :=
  match asn1_expect_type der ASN1_TYPE_SEQUENCE with
  | None => Err DNSSEC_MALFORMED_DATA
  | Some w =>
    let* (size, w) := asn1_decode_size w in
    if negb (size =? blen w) then Err DNSSEC_MALFORMED_DATA
    else let* (r, w) := asn1_decode_integer w in
         let* (s, w) := asn1_decode_integer w in
         if negb (blen w =? 0) then Err DNSSEC_MALFORMED_DATA else Ok (r, s)
  end.

(** bignum.c:22-28 skip_leading_zeroes *)
Fixpoint skip_leading_zeroes (v : list Z) : list Z :=
  match v with
  | b :: t => if b =? 0 then skip_leading_zeroes t else v
  | [] => []
  end.
(** bignum.c:30-40 bignum_size_u *)
Definition bignum_size_u (v : list Z) : Z :=
  let v := skip_leading_zeroes v in
  if blen v =? 0 then blen v + 1 else blen v.
(** bignum.c:42-52 bignum_size_s *)
Definition bignum_size_s (v : list Z) : Z :=
  let v := skip_leading_zeroes v in
  match v with
  | [] => blen v + 1
  | b :: _ => if negb (Z.land b 128 =? 0) then blen v + 1 else blen v
  end.
(** Output: the octets written so far and the room left; writing more is an error of the context *)
Definition out : Type := list Z * Z.
Definition out_write (o : out) (l : list Z) : res out :=
  if blen l <=? snd o then Ok (fst o ++ l, snd o - blen l) else UB.
(** bignum.c:54-64 bignum_write; a width below the size would wrap around *)
Definition bignum_write (o : out) (width : Z) (v : list Z) : res out :=
  let v := skip_leading_zeroes v in
  let padding_len := width - blen v in
  if padding_len <? 0 then UB
  else let* o := (if padding_len >? 0 then out_write o (repeat 0 (Z.to_nat padding_len)) else Ok o) in
       out_write o v.
(** der.c:111-118 asn1_write_header *)
Definition asn1_write_header (o : out) (type length : Z) : res out :=
  if length <? ASN1_MAX_SIZE then let* o := out_write o [type] in out_write o [length] else UB.
(** der.c:123-132 asn1_write_integer *)
Definition asn1_write_integer (o : out) (integer_size : Z) (v : list Z) : res out :=
  let* o := asn1_write_header o ASN1_TYPE_INTEGER integer_size in
  bignum_write o integer_size v.
(** der.c:192-229 dss_sig_value_encode *)
Definition dss_sig_value_encode (r s : list Z) : res (list Z) :=
  let r_size := bignum_size_s r in
  let s_size := bignum_size_s s in
  if (r_size >? ASN1_MAX_SIZE) || (s_size >? ASN1_MAX_SIZE) then Err DNSSEC_NOT_IMPLEMENTED_ERROR
  else let seq_size := 2 + r_size + 2 + s_size in
       if seq_size >? ASN1_MAX_SIZE then Err DNSSEC_NOT_IMPLEMENTED_ERROR
       else let* o := asn1_write_header ([], 2 + seq_size) ASN1_TYPE_SEQUENCE seq_size in
            let* o := asn1_write_integer o r_size r in
            let* o := asn1_write_integer o s_size s in
            if snd o =? 0 then Ok (fst o) else UB.

(** sign.c:98-107 ecdsa_sign_integer_size, by the number of the DNSSEC algorithm *)
Definition ecdsa_sign_integer_size (alg : Z) : Z := if alg =? 13 then 32 else if alg =? 14 then 48 else 0.
(** sign.c:114-149 ecdsa_x509_to_dnssec *)
Definition ecdsa_x509_to_dnssec (alg : Z) (x509 : list Z) : res (list Z) :=
  let* (r, s) := dss_sig_value_decode x509 in
  let int_size := ecdsa_sign_integer_size alg in
  if (bignum_size_u r >? int_size) || (bignum_size_u s >? int_size) then Err DNSSEC_MALFORMED_DATA
  else let* o := bignum_write ([], 2 * int_size) int_size r in
       let* o := bignum_write o int_size s in
       if snd o =? 0 then Ok (fst o) else UB.
(** sign.c:151-169 ecdsa_dnssec_to_x509 *)
Definition ecdsa_dnssec_to_x509 (alg : Z) (dnssec : list Z) : res (list Z) :=
  let int_size := ecdsa_sign_integer_size alg in
  if negb (blen dnssec =? 2 * int_size) then Err DNSSEC_INVALID_SIGNATURE
  else dss_sig_value_encode (firstn (Z.to_nat int_size) dnssec) (skipn (Z.to_nat int_size) dnssec).
