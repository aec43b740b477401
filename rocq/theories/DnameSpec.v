(** Independent specification of DNS names (RFC 1035 3.1, 4.1.4; RFC 4034 6.1). *)
From Verif Require Import Base.

Definition label := list Z.

Definition legal_label (l : label) : Prop := 1 <= zlen l <= 63 /\ bytes l.

(** uncompressed size including the root label *)
Fixpoint name_size (ls : list label) : Z :=
  match ls with [] => 1 | l :: ls => 1 + zlen l + name_size ls end.

Definition legal_name (ls : list label) : Prop :=
  Forall legal_label ls /\ name_size ls <= 255.

(** the uncompressed wire format of a name *)
Fixpoint wire (ls : list label) : list Z :=
  match ls with [] => [0] | l :: ls => zlen l :: l ++ wire ls end.

(** [encodes m ptrs pos ls n]: at offset [pos] of the memory [m] there is an encoding of
    the name [ls] which occupies [n] bytes at that place; compression pointers are only
    permitted if [ptrs] and must point strictly backwards. *)
Inductive encodes (m : list Z) (ptrs : bool) : Z -> list label -> Z -> Prop :=
| enc_root : forall pos, zget m pos = Some 0 -> encodes m ptrs pos [] 1
| enc_label : forall pos lab ls n,
    legal_label lab ->
    zget m pos = Some (zlen lab) ->
    (forall i, 0 <= i < zlen lab -> zget m (pos + 1 + i) = zget lab i) ->
    encodes m ptrs (pos + 1 + zlen lab) ls n ->
    encodes m ptrs pos (lab :: ls) (1 + zlen lab + n)
| enc_ptr : forall pos hi lo ls n,
    ptrs = true ->
    zget m pos = Some hi -> zget m (pos + 1) = Some lo -> 192 <= hi ->
    (hi - 192) * 256 + lo < pos ->
    encodes m ptrs ((hi - 192) * 256 + lo) ls n ->
    encodes m ptrs pos ls 2.

(** ** Orders. Octet strings: lexicographic, a proper prefix is smaller. *)
Fixpoint octets_cmp (a b : list Z) : comparison :=
  match a, b with
  | [], [] => Eq
  | [], _ => Lt
  | _, [] => Gt
  | x :: a, y :: b => match Z.compare x y with Eq => octets_cmp a b | c => c end
  end.

Fixpoint labels_cmp (a b : list label) : comparison :=
  match a, b with
  | [], [] => Eq
  | [], _ => Lt
  | _, [] => Gt
  | x :: a, y :: b => match octets_cmp x y with Eq => labels_cmp a b | c => c end
  end.

(** RFC 4034 6.1: compare the label sequences starting from the root. *)
Definition canonical_cmp (a b : list label) : comparison := labels_cmp (rev a) (rev b).

Definition null_free (ls : list label) : Prop := Forall (Forall (fun b => b <> 0)) ls.

Definition cmp_sign (c : comparison) : Z := match c with Eq => 0 | Lt => -1 | Gt => 1 end.

(** ASCII case folding *)
Definition ascii_lower (b : Z) : Z := if (Z.leb 65 b && Z.leb b 90)%bool then b + 32 else b.
Definition lower_name (ls : list label) : list label := map (map ascii_lower) ls.

(** number of labels in the longest common suffix *)
Fixpoint common_prefix_len (a b : list label) : Z :=
  match a, b with
  | x :: a, y :: b => if list_eq_dec Z.eq_dec x y then 1 + common_prefix_len a b else 0
  | _, _ => 0
  end.
Definition common_suffix_len (a b : list label) : Z := common_prefix_len (rev a) (rev b).

(** ** Presentation format *)
Definition esc_ddd (c : Z) : list Z := [92; 48 + c / 100; 48 + c / 10 mod 10; 48 + c mod 10].
(** every byte is either itself, or backslash + itself, or backslash + three digits *)
Inductive char_text (c : Z) : list Z -> Prop :=
| ct_plain : c <> 46 -> c <> 92 -> 32 < c < 127 -> char_text c [c]
| ct_quoted : ~ (48 <= c <= 57) -> 32 < c < 127 -> char_text c [92; c]
| ct_ddd : char_text c (esc_ddd c).
Inductive label_text : label -> list Z -> Prop :=
| lt_nil : label_text [] []
| lt_cons : forall c l t1 t2, char_text c t1 -> label_text l t2 -> label_text (c :: l) (t1 ++ t2).
Inductive labels_text : list label -> list Z -> Prop :=
| lst_nil : labels_text [] []
| lst_cons : forall l ls t1 t2, label_text l t1 -> labels_text ls t2 ->
    labels_text (l :: ls) (t1 ++ 46 :: t2).
(** fully qualified presentation format; the root is "." *)
Definition name_text (ls : list label) (t : list Z) : Prop :=
  match ls with [] => t = [46] | _ => labels_text ls t end.

(** What a text means: a character other than dot and backslash stands for itself, backslash +
    non-digit stands for that character, backslash + three digits for the octet with that value.
    The dot after the last label may be missing. *)
Inductive char_denotes (c : Z) : list Z -> Prop :=
| cd_plain : c <> 46 -> c <> 92 -> char_denotes c [c]
| cd_quoted : ~ (48 <= c <= 57) -> char_denotes c [92; c]
| cd_ddd : char_denotes c (esc_ddd c).
Inductive label_denotes : label -> list Z -> Prop :=
| ld_nil : label_denotes [] []
| ld_cons : forall c l t1 t2, char_denotes c t1 -> label_denotes l t2 -> label_denotes (c :: l) (t1 ++ t2).
Inductive labels_denote : list label -> list Z -> Prop :=
| lsd_nil : labels_denote [] []
| lsd_cons : forall l ls t1 t2, label_denotes l t1 -> labels_denote ls t2 ->
    labels_denote (l :: ls) (t1 ++ 46 :: t2).
Definition name_denoted (ls : list label) (t : list Z) : Prop :=
  match ls with [] => t = [46] | _ => labels_denote ls t \/ labels_denote ls (t ++ [46]) end.
