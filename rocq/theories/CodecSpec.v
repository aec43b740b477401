(** Independent specification of the RFC 4648 encodings (sections 4, 5 and 7). *)
From Verif Require Import Base.

(** value of a digit string, most significant digit first *)
Definition value (base : Z) (ds : list Z) : Z := fold_left (fun acc d => acc * base + d) ds 0.

(** the digit a character stands for *)
Definition b64_digit (c : Z) : option Z :=
  if (65 <=? c) && (c <=? 90) then Some (c - 65)             (* A-Z *)
  else if (97 <=? c) && (c <=? 122) then Some (c - 97 + 26)  (* a-z *)
  else if (48 <=? c) && (c <=? 57) then Some (c - 48 + 52)   (* 0-9 *)
  else if c =? 43 then Some 62 else if c =? 47 then Some 63 else None. (* + / *)
Definition b64url_digit (c : Z) : option Z :=
  if (65 <=? c) && (c <=? 90) then Some (c - 65)
  else if (97 <=? c) && (c <=? 122) then Some (c - 97 + 26)
  else if (48 <=? c) && (c <=? 57) then Some (c - 48 + 52)
  else if c =? 45 then Some 62 else if c =? 95 then Some 63 else None. (* - _ *)
Definition b32hex_digit (c : Z) : option Z :=
  if (48 <=? c) && (c <=? 57) then Some (c - 48)             (* 0-9 *)
  else if (65 <=? c) && (c <=? 86) then Some (c - 65 + 10)   (* A-V *)
  else if (97 <=? c) && (c <=? 118) then Some (c - 97 + 10)  (* a-v *)
  else None.

Definition digits_of (dig : Z -> option Z) (cs ds : list Z) : Prop := Forall2 (fun c d => dig c = Some d) cs ds.

(** A group of characters cs (without padding) stands for the bytes bs: the bits of the digits
    are the bits of the bytes followed by unused low bits. *)
Definition group (dig : Z -> option Z) (base unused : Z) (cs bs : list Z) : Prop :=
  exists ds, digits_of dig cs ds /\ bytes bs /\ value base ds / 2 ^ unused = value 256 bs.
(** the same with all unused bits zero, as an encoder must produce *)
Definition strict_group (dig : Z -> option Z) (base unused : Z) (cs bs : list Z) : Prop :=
  exists ds, digits_of dig cs ds /\ bytes bs /\ value base ds = value 256 bs * 2 ^ unused.

(** [G] is group or strict_group; padding is '='. *)
Definition grouping : Type := (Z -> option Z) -> Z -> Z -> list Z -> list Z -> Prop.
(** Base64: 4 characters for 3 bytes *)
Inductive b64_text (G : grouping) (dig : Z -> option Z) : list Z -> list Z -> Prop :=
| b64_nil : b64_text G dig [] []
| b64_full : forall cs bs t r, length cs = 4%nat -> length bs = 3%nat -> G dig 64 0 cs bs ->
    b64_text G dig t r -> b64_text G dig (cs ++ t) (bs ++ r)
| b64_two : forall cs bs, length cs = 3%nat -> length bs = 2%nat -> G dig 64 2 cs bs ->
    b64_text G dig (cs ++ [61]) bs
| b64_one : forall cs bs, length cs = 2%nat -> length bs = 1%nat -> G dig 64 4 cs bs ->
    b64_text G dig (cs ++ [61; 61]) bs.
(** the same without padding; the last component is the number of omitted characters *)
Inductive b64_unpadded (G : grouping) (dig : Z -> option Z) : list Z -> list Z -> Z -> Prop :=
| b64u_nil : b64_unpadded G dig [] [] 0
| b64u_full : forall cs bs t r n, length cs = 4%nat -> length bs = 3%nat -> G dig 64 0 cs bs ->
    b64_unpadded G dig t r n -> b64_unpadded G dig (cs ++ t) (bs ++ r) n
| b64u_two : forall cs bs, length cs = 3%nat -> length bs = 2%nat -> G dig 64 2 cs bs ->
    b64_unpadded G dig cs bs 1
| b64u_one : forall cs bs, length cs = 2%nat -> length bs = 1%nat -> G dig 64 4 cs bs ->
    b64_unpadded G dig cs bs 2.
(** Base32: 8 characters for 5 bytes *)
Inductive b32_text (G : grouping) (dig : Z -> option Z) : list Z -> list Z -> Prop :=
| b32_nil : b32_text G dig [] []
| b32_full : forall cs bs t r, length cs = 8%nat -> length bs = 5%nat -> G dig 32 0 cs bs ->
    b32_text G dig t r -> b32_text G dig (cs ++ t) (bs ++ r)
| b32_four : forall cs bs, length cs = 7%nat -> length bs = 4%nat -> G dig 32 3 cs bs ->
    b32_text G dig (cs ++ [61]) bs
| b32_three : forall cs bs, length cs = 5%nat -> length bs = 3%nat -> G dig 32 1 cs bs ->
    b32_text G dig (cs ++ [61; 61; 61]) bs
| b32_two : forall cs bs, length cs = 4%nat -> length bs = 2%nat -> G dig 32 4 cs bs ->
    b32_text G dig (cs ++ [61; 61; 61; 61]) bs
| b32_one : forall cs bs, length cs = 2%nat -> length bs = 1%nat -> G dig 32 2 cs bs ->
    b32_text G dig (cs ++ [61; 61; 61; 61; 61; 61]) bs.
(** Base32hex digits in the lower case form the encoder has to produce *)
Definition b32hex_lower (c : Z) : option Z :=
  if (48 <=? c) && (c <=? 57) then Some (c - 48)
  else if (97 <=? c) && (c <=? 118) then Some (c - 97 + 10)
  else None.
