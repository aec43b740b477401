(** What a DER encoded pair of numbers is (X.690, RFC 3279 2.2.3), and the form of RFC 6605. *)
From Verif Require Import Base.

(** The number written as big endian octets *)
Fixpoint number (acc : Z) (l : list Z) : Z := match l with [] => acc | b :: l => number (acc * 256 + b) l end.
Definition octet_list (l : list Z) : Prop := Forall (fun b => 0 <= b < 256) l.
(** One object: type, length below 128, contents *)
Definition der_object (type : Z) (contents : list Z) : list Z := type :: Z.of_nat (length contents) :: contents.
(** X.690 8.3: contents of an INTEGER; not negative, and with no needless octet *)
Definition der_natural (c : list Z) : Prop :=
  octet_list c /\
  match c with
  | [] => False
  | [b] => b < 128
  | b :: b2 :: _ => b < 128 /\ (b = 0 -> 128 <= b2)
  end.
(** SEQUENCE { r INTEGER, s INTEGER } *)
Definition dss_sig (cr cs : list Z) : list Z := der_object 48 (der_object 2 cr ++ der_object 2 cs).
(** RFC 6605 4: the two numbers in [n] octets each *)
Definition rfc6605 (n : nat) (l : list Z) (r s : Z) : Prop :=
  octet_list l /\ exists lr ls, l = lr ++ ls /\ length lr = n /\ length ls = n /\ number 0 lr = r /\ number 0 ls = s.
