(** C16, C17: zone serial arithmetic. *)
From Verif Require Import Base SerialModel SerialSpec SerialProofs.

(** C16: for all 32-bit serials the comparison never leaves its result table and is
    exactly RFC 1982. *)
Theorem c16_compare_defined : forall s1 s2, serial32 s1 -> serial32 s2 ->
  exists r, serial_compare_raw s1 s2 = Ok r.
Proof. intros. eexists. apply serial_compare_raw_eq; auto. Qed.

Theorem c16_compare_rfc1982 : forall s1 s2, serial32 s1 -> serial32 s2 ->
  (serial_compare s1 s2 = SERIAL_EQUAL <-> s1 = s2) /\
  (serial_compare s1 s2 = SERIAL_LOWER <-> rfc1982_lt s1 s2) /\
  (serial_compare s1 s2 = SERIAL_GREATER <-> rfc1982_gt s1 s2) /\
  (serial_compare s1 s2 = SERIAL_INCOMPARABLE <-> Z.abs (s1 - s2) = 2 ^ 31).
Proof. exact serial_compare_spec_l. Qed.

Theorem c16_compare_antisym : forall s1 s2, serial32 s1 -> serial32 s2 ->
  (serial_compare s1 s2 = SERIAL_LOWER <-> serial_compare s2 s1 = SERIAL_GREATER) /\
  (serial_compare s1 s2 = SERIAL_INCOMPARABLE <-> serial_compare s2 s1 = SERIAL_INCOMPARABLE).
Proof.
  intros s1 s2 H1 H2.
  destruct (serial_compare_spec_l s1 s2 H1 H2) as (_ & HL & _ & HI).
  destruct (serial_compare_spec_l s2 s1 H2 H1) as (_ & _ & HG & HI').
  rewrite HL, HG, HI, HI'. unfold rfc1982_lt, rfc1982_gt. split; lia.
Qed.

(** The mask tests used all over the server mean "<=" and ">=". *)
Theorem c16_masks : forall s1 s2, serial32 s1 -> serial32 s2 ->
  (mask_leq (serial_compare s1 s2) = true <-> s1 = s2 \/ rfc1982_lt s1 s2) /\
  (mask_geq (serial_compare s1 s2) = true <-> s1 = s2 \/ rfc1982_gt s1 s2).
Proof.
  intros s1 s2 H1 H2.
  destruct (serial_compare_spec_l s1 s2 H1 H2) as (HE & HL & HG & HI).
  rewrite <- HE, <- HL, <- HG.
  destruct (serial_compare s1 s2); cbn; intuition discriminate.
Qed.

(** Serial addition moves forward, as RFC 1982 section 3.1 demands. *)
Theorem c16_add_greater : forall s n, serial32 s -> 1 <= n <= 2 ^ 31 - 1 ->
  serial_compare (rfc1982_add s n) s = SERIAL_GREATER.
Proof.
  intros s n Hs Hn.
  assert (Ha : serial32 (rfc1982_add s n)) by (apply Z.mod_pos_bound; lia).
  apply (serial_compare_spec_l _ _ Ha Hs). serial_unfold. lia.
Qed.

Example c16_ex1 : serial32 4294967295 /\ serial32 0 /\ serial_compare 0 4294967295 = SERIAL_GREATER.
Proof. repeat split; reflexivity || (cbv; congruence). Qed.
Example c16_ex2 : serial_compare 2147483648 0 = SERIAL_INCOMPARABLE. Proof. reflexivity. Qed.

(** C17, no congruence configured ("0/1"): the next serial is always greater. *)
Theorem c17_next_greater_no_modulo : forall clk cur pol inc rem,
  serial32 cur -> 1 <= inc < 2 ^ 31 ->
  exists r, serial_next_generic clk cur pol inc rem 1 = Ok r /\ serial32 r /\ rfc1982_gt r cur.
Proof.
  intros. eexists. split; [apply serial_next_plain_l; lia|].
  split; [apply serial_base_range | apply serial_base_greater]; auto.
Qed.

(** C17, congruence: whenever a serial is returned it satisfies the congruence, and it is the
    policy serial advanced by less than the modulus. *)
Theorem c17_next_congruent : forall clk cur pol inc rem md r,
  serial32 cur -> 2 <= md < 256 -> 0 <= rem < md ->
  serial_next_generic clk cur pol inc rem md = Ok r ->
  serial32 r /\ r mod md = rem /\
  exists k, 0 <= k < md /\ r = rfc1982_add (serial_base clk cur pol inc) k.
Proof. exact serial_next_modulo_l. Qed.

(** A serial is returned (no assertion fails) if the search does not wrap or the modulus
    divides 2^32. *)
Theorem c17_next_defined_partial : forall clk cur pol inc rem md,
  serial32 cur -> 2 <= md < 256 -> 0 <= rem < md ->
  (serial_base clk cur pol inc + md <= 2 ^ 32 \/ 2 ^ 32 mod md = 0) ->
  exists r, serial_next_generic clk cur pol inc rem md = Ok r.
Proof. exact serial_next_total_l. Qed.

(** With the increment policy the result is greater than the current serial. *)
Theorem c17_next_increment_greater : forall clk cur rem md r,
  serial32 cur -> 2 <= md < 256 -> 0 <= rem < md ->
  serial_next_generic clk cur POLICY_INCREMENT 1 rem md = Ok r -> rfc1982_gt r cur.
Proof. exact serial_next_increment_greater_l. Qed.

(** With the other policies this needs the date/time serial not to be almost 2^31 ahead. *)
Theorem c17_next_greater_partial : forall clk cur pol rem md r,
  serial32 cur -> 2 <= md < 256 -> 0 <= rem < md ->
  (serial_minimum clk cur pol - cur) mod 2 ^ 32 <= 2 ^ 31 - md ->
  serial_next_generic clk cur pol 1 rem md = Ok r -> rfc1982_gt r cur.
Proof. exact serial_next_greater_l. Qed.

Definition clk_2024 : clock := {| clk_time := 1704067200; clk_date := Some (2024, 1, 1) |}.

Example c17_ex : serial_next_generic clk_2024 2024010107 POLICY_DATESERIAL 1 3 5 = Ok 2024010108.
Proof. reflexivity. Qed.
Example c17_ex_unix : serial_next_generic clk_2024 5 POLICY_UNIXTIME 1 1 3 = Ok 1704067201.
Proof. reflexivity. Qed.

(** Refutation 1: with an accepted configuration "1/3" the wrap of the serial hits the
    assertion (or, without assertions, gives a serial violating the congruence). *)
Theorem c17_next_defined_refuted :
  exists cur rem md, serial32 cur /\ check_modulo rem md = true /\
    serial_next_generic clk_2024 cur POLICY_INCREMENT 1 rem md = UB /\
    (serial_next_generic_ndebug clk_2024 cur POLICY_INCREMENT 1 rem md) mod md <> rem.
Proof.
  exists 4294967294, 1, 3. repeat split; try (cbv; congruence).
Qed.

(** Refutation 2: modulus 256 is accepted by the configuration check but truncated to 0 in
    the call, so the congruence is silently ignored. *)
Theorem c17_modulus_256_refuted :
  exists cur rem md r, serial32 cur /\ check_modulo rem md = true /\
    serial_next_generic clk_2024 cur POLICY_INCREMENT 1 rem md = Ok r /\ r mod md <> rem.
Proof.
  exists 10, 7, 256, 11. repeat split; try (cbv; congruence).
Qed.

(** Refutation 3: an increment is required but the result is not greater: the Unix time is
    2^31-1 ahead of the current serial and the congruence pushes it over the edge. *)
Theorem c17_next_greater_refuted :
  exists clk cur r, serial32 cur /\ check_modulo 0 2 = true /\
    serial_next_generic clk cur POLICY_UNIXTIME 1 0 2 = Ok r /\
    serial_compare r cur = SERIAL_INCOMPARABLE.
Proof.
  exists {| clk_time := 2147483649; clk_date := None |}, 2, 2147483650.
  repeat split; try (cbv; congruence).
Qed.

Print Assumptions c16_compare_rfc1982.
Print Assumptions c17_next_congruent.
Print Assumptions c17_next_greater_partial.
