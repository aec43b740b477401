(** RFC 1982, section 3.2 with SERIAL_BITS = 32. *)
From Verif Require Import Base.

Definition serial32 (s : Z) : Prop := 0 <= s < 2 ^ 32.

Definition rfc1982_lt (s1 s2 : Z) : Prop :=
  (s1 < s2 /\ s2 - s1 < 2 ^ 31) \/ (s1 > s2 /\ s1 - s2 > 2 ^ 31).

Definition rfc1982_gt (s1 s2 : Z) : Prop :=
  (s1 < s2 /\ s2 - s1 > 2 ^ 31) \/ (s1 > s2 /\ s1 - s2 < 2 ^ 31).

(** RFC 1982: the sum s' = (s + n) modulo 2^32, defined for 0 <= n <= 2^31 - 1. *)
Definition rfc1982_add (s n : Z) : Z := (s + n) mod 2 ^ 32.
