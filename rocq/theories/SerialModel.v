(** Zone serial arithmetic: src/knot/zone/serial.c, src/knot/zone/serial.h,
    src/knot/conf/tools.c:357-368. *)
From Verif Require Import Base.

(** src/knot/zone/serial.h:31-38 *)
Inductive serial_cmp_result : Type :=
| SERIAL_INCOMPARABLE
| SERIAL_LOWER
| SERIAL_GREATER
| SERIAL_EQUAL.

(** The numeric values of the enum, used with the LEQ/GEQ masks. serial.h:31-38 *)
Definition serial_code (r : serial_cmp_result) : Z :=
  match r with
  | SERIAL_INCOMPARABLE => 0
  | SERIAL_LOWER => 1
  | SERIAL_GREATER => 2
  | SERIAL_EQUAL => 3
  end.
(** serial.h:36-37: [serial_compare(a,b) & SERIAL_MASK_LEQ] etc. *)
Definition mask_leq (r : serial_cmp_result) : bool := negb (Z.land (serial_code r) 1 =? 0).
Definition mask_geq (r : serial_cmp_result) : bool := negb (Z.land (serial_code r) 2 =? 0).

(** src/knot/zone/serial.c:22-27 (table lookup; out of the table is UB) *)
Definition diffbrief2result (i : Z) : res serial_cmp_result :=
  match zget [SERIAL_EQUAL; SERIAL_GREATER; SERIAL_INCOMPARABLE; SERIAL_LOWER] i with
  | Some r => Ok r
  | None => UB
  end.

(** src/knot/zone/serial.c:29-35. uint64_t arithmetic is written out as mod 2^64. *)
Definition serial_compare_raw (s1 s2 : Z) : res serial_cmp_result :=
  let diff := Z.land (u64 (u64 (s1 + Z.shiftl 1 32) - s2)) 0xffffffff in
  let diffbrief := Z.lor (Z.shiftl (Z.shiftr diff 31) 1)
                         (if Z.land diff 0x7fffffff =? 0 then 0 else 1) in
  diffbrief2result diffbrief.

(** Total version used by the other models; [serial_compare_raw] is proved never to be UB
    for 32-bit arguments. *)
Definition serial_compare (s1 s2 : Z) : serial_cmp_result :=
  match serial_compare_raw s1 s2 with Ok r => r | _ => SERIAL_INCOMPARABLE end.

(** src/knot/zone/serial.h:45-48 *)
Definition serial_equal (a b : Z) : bool :=
  match serial_compare a b with SERIAL_EQUAL => true | _ => false end.

(** src/knot/zone/serial.h:83-86, serial.c:107-110 *)
Record kserial := { ks_serial : Z; ks_valid : bool }.
Definition kserial_cmp (a b : kserial) : serial_cmp_result :=
  if ks_valid a && ks_valid b then serial_compare (ks_serial a) (ks_serial b)
  else SERIAL_INCOMPARABLE.

(** src/knot/conf/schema.h:225-230 *)
Inductive serial_policy := POLICY_INCREMENT | POLICY_UNIXTIME | POLICY_DATESERIAL.

(** The environment of serial_next: the clock [time(NULL)] and its calendar date
    ([None] when gmtime_r fails). src/knot/zone/serial.c:39-44 *)
Record clock := { clk_time : Z; clk_date : option (Z * Z * Z) }.

(** src/knot/zone/serial.c:37-48; year is already 1900 + tm_year, month 1 + tm_mon. *)
Definition serial_dateserial (clk : clock) (current : Z) : Z :=
  match clk_date clk with
  | None => current
  | Some (y, m, d) => u32 (y * 1000000 + m * 10000 + d * 100)
  end.

(** src/knot/zone/serial.c:53-73: serial before the congruence is applied. *)
Definition serial_minimum (clk : clock) (current : Z) (policy : serial_policy) : Z :=
  match policy with
  | POLICY_INCREMENT => current
  | POLICY_UNIXTIME => u32 (clk_time clk)
  | POLICY_DATESERIAL => serial_dateserial clk current
  end.
Definition serial_base (clk : clock) (current : Z) (policy : serial_policy) (must_increment : Z) : Z :=
  let minimum := serial_minimum clk current policy in
  match serial_compare minimum current with
  | SERIAL_GREATER => minimum
  | _ => u32 (current + must_increment)
  end.

(** src/knot/zone/serial.c:50-84. [rem] and [mod] are uint8_t parameters, the caller's
    uint32_t values are truncated on the call. Assertions are [UB]. *)
Definition serial_next_generic (clk : clock) (current : Z) (policy : serial_policy)
                               (must_increment : Z) (rem md : Z) : res Z :=
  let rem := u8 rem in
  let md := u8 md in
  let result := serial_base clk current policy must_increment in
  if md >? 1 then
    if negb (rem <? md) then UB else
    let incr := u32 ((rem + md) - (result mod md)) mod md in
    if negb ((incr =? 0) || negb (result mod md =? rem)) then UB else
    let result := u32 (result + incr) in
    if negb (result mod md =? rem) then UB else Ok result
  else Ok result.

(** The same function when compiled with NDEBUG (assertions removed). *)
Definition serial_next_generic_ndebug (clk : clock) (current : Z) (policy : serial_policy)
                               (must_increment : Z) (rem md : Z) : Z :=
  let rem := u8 rem in
  let md := u8 md in
  let result := serial_base clk current policy must_increment in
  if md >? 1 then u32 (result + u32 ((rem + md) - (result mod md)) mod md) else result.

(** src/knot/conf/tools.c:357-368: which (rem, mod) pairs the configuration accepts. *)
Definition check_modulo (rem md : Z) : bool := negb ((md >? 256) || (rem >=? md)).
