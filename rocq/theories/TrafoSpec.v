(** What the texts of configuration values mean: numerals, units and the texts of addresses (RFC 4291, 2.2). *)
From Verif Require Import Base DnameSpec WireModel TrafoModel.

(** a numeral without needless zeros; lower case letters are digits above nine *)
Inductive digit_value (base : Z) : Z -> Z -> Prop :=
| dec_digit c : 48 <= c <= 57 -> c - 48 < base -> digit_value base c (c - 48)
| low_digit c : 97 <= c <= 122 -> c - 87 < base -> digit_value base c (c - 87).
Fixpoint value (base : Z) (ds : list Z) : Z := match ds with [] => 0 | d :: ds => d * base ^ zlen ds + value base ds end.
Definition numeral (base n : Z) (t : list Z) : Prop :=
  exists ds, Forall2 (digit_value base) t ds /\ value base ds = n /\ t <> [] /\ (t = [48] \/ hd 0 t <> 48).

Fixpoint separated (sep : Z) (l : list (list Z)) : list Z :=
  match l with [] => [] | [x] => x | x :: l => x ++ sep :: separated sep l end.

(** 192.0.2.1 *)
Definition ip4_text (t a : list Z) : Prop :=
  zlen a = 4 /\ bytes a /\ exists fs, Forall2 (numeral 10) a fs /\ t = separated 46 fs.
(** groups of sixteen bits, the last ones may be an IPv4 address *)
Definition groups_text (gs : list Z) (fs : list (list Z)) : Prop := Forall2 (numeral 16) gs fs.
Definition tail_text (gs : list Z) (fs : list (list Z)) : Prop :=
  groups_text gs fs \/
  exists gs' fs' a t, gs = gs' ++ [unbe (firstn 2 a); unbe (skipn 2 a)] /\ fs = fs' ++ [t] /\ groups_text gs' fs' /\ ip4_text t a.
(** 2001:db8:0:0:0:0:0:1 or 2001:db8::1 *)
Definition ip6_text (t a : list Z) : Prop :=
  exists gs, length gs = 8%nat /\ Forall (fun g => 0 <= g < 65536) gs /\ a = concat (map (be 2) gs) /\
    ((exists fs, tail_text gs fs /\ t = separated 58 fs) \/
     (exists l k r fl fr, gs = l ++ repeat 0 (S k) ++ r /\ groups_text l fl /\ tail_text r fr /\ t = separated 58 fl ++ [58; 58] ++ separated 58 fr)).

(** inet_pton() reads these texts and gives addresses; what it reads are digits, colons and dots *)
Definition address_char (c : Z) : Prop := c = 46 \/ 48 <= c <= 58 \/ 65 <= c <= 70 \/ 97 <= c <= 102.
Definition reads_addresses (P : pton) : Prop :=
  (forall t a, ip4_text t a -> p_inet P t = Some a) /\
  (forall t a, ip6_text t a -> p_inet6 P t = Some a) /\
  (forall t a, p_inet P t = Some a -> bytes a /\ zlen a = 4 /\ Forall address_char t) /\
  (forall t a, p_inet6 P t = Some a -> bytes a /\ zlen a = 16 /\ Forall address_char t).

(** Units of sizes and times *)
Inductive size_unit : Z -> Z -> Prop :=
| unit_B : size_unit 66 1
| unit_K : size_unit 75 1024
| unit_M : size_unit 77 (1024 * 1024)
| unit_G : size_unit 71 (1024 * 1024 * 1024).
Inductive time_unit : Z -> Z -> Prop :=
| unit_second : time_unit 115 1
| unit_minute : time_unit 109 60
| unit_hour : time_unit 104 (60 * 60)
| unit_day : time_unit 100 (24 * 60 * 60)
| unit_week : time_unit 119 (7 * 24 * 60 * 60)
| unit_month : time_unit 77 (30 * 24 * 60 * 60)
| unit_year : time_unit 121 (365 * 24 * 60 * 60).

Definition unit_means (u : style) (c f : Z) : Prop := (s_size u = true /\ size_unit c f) \/ (s_time u = true /\ time_unit c f).

(** Numbers: blanks, a sign and decimal digits, perhaps a unit behind them. [k] is the number before the unit, [v] the value. *)
Definition blank (c : Z) : Prop := c = 32 \/ 9 <= c <= 13.
Definition number_text (t : list Z) (k : Z) : Prop :=
  exists ws sign t' ds, t = ws ++ sign ++ t' /\ Forall blank ws /\ Forall2 (digit_value 10) t' ds /\ t' <> [] /\
    (sign = [] /\ k = value 10 ds \/ sign = [43] /\ k = value 10 ds \/ sign = [45] /\ k = - value 10 ds).
Definition int_means (u : style) (t : list Z) (k v : Z) : Prop :=
  number_text t k /\ v = k \/ exists t' c f, t = t' ++ [c] /\ number_text t' k /\ unit_means u c f /\ v = k * f.

(** Items of a sensible schema: bounds of numbers are 64-bit, the least number is not among them, and units are of one kind; the names of the options are not empty and
    differ, also if the case of letters is ignored. *)
Fixpoint legal_item (it : item) : Prop :=
  match it with
  | TInt min max u => - 2 ^ 63 < min /\ max < 2 ^ 63 /\ (s_size u && s_time u = false)
  | TOpt opts => Forall (fun o => byte (fst o) /\ bytes (snd o) /\ snd o <> [] /\ ~ In 0 (snd o)) opts /\ NoDup (map (fun o => map ascii_lower (snd o)) opts)
  | TRef id => legal_item id
  | _ => True
  end.
(** the item behind references *)
Fixpoint target (it : item) : item := match it with TRef id => target id | _ => it end.
(** data which look like a hexadecimal number when they are printed *)
Definition looks_hex (b : list Z) : Prop := exists d, skipn 2 b = 48 :: 120 :: d /\ Forall (fun c => 32 <= c <= 126) d.
(** the text of an address without an interface, and its data: the family and the address *)
Inductive host_text : list Z -> list Z -> Prop :=
| host4 t a : ip4_text t a -> host_text t (4 :: a)
| host6 t a : ip6_text t a -> host_text t (6 :: a).
(** hexadecimal digits *)
Definition hex_digit (c d : Z) : Prop := 48 <= c <= 57 /\ d = c - 48 \/ 65 <= c <= 70 /\ d = c - 55 \/ 97 <= c <= 102 /\ d = c - 87.
Fixpoint hex_means (t b : list Z) : Prop :=
  match t, b with
  | [], [] => True
  | x :: y :: t, c :: b => (exists h l, hex_digit x h /\ hex_digit y l /\ c = 16 * h + l) /\ hex_means t b
  | _, _ => False
  end.
