From Verif Require Import Base SerialModel SerialSpec.

Lemma land_ones_mod : forall x k, 0 <= k -> Z.land x (Z.ones k) = x mod 2 ^ k.
Proof. intros; apply Z.land_ones; auto. Qed.

Lemma serial_diff : forall s1 s2, serial32 s1 -> serial32 s2 ->
  Z.land (u64 (u64 (s1 + Z.shiftl 1 32) - s2)) 0xffffffff = (s1 - s2) mod 2 ^ 32.
Proof.
  intros s1 s2 H1 H2. change 0xffffffff with (Z.ones 32).
  rewrite land_ones_mod by lia. change (Z.shiftl 1 32) with (2 ^ 32).
  unfold u64, serial32 in *. cbv [Z.pow Z.pow_pos Pos.iter Z.mul] in *. lia.
Qed.

Lemma serial_brief : forall d, 0 <= d < 2 ^ 32 ->
  Z.lor (Z.shiftl (Z.shiftr d 31) 1) (if Z.land d 0x7fffffff =? 0 then 0 else 1) =
  if d =? 0 then 0 else if d <? 2 ^ 31 then 1 else if d =? 2 ^ 31 then 2 else 3.
Proof.
  intros d H. change 0x7fffffff with (Z.ones 31). rewrite land_ones_mod by lia.
  rewrite Z.shiftr_div_pow2 by lia.
  assert (E : d / 2 ^ 31 = 0 \/ d / 2 ^ 31 = 1) by lia.
  assert (Hd : d = 2 ^ 31 * (d / 2 ^ 31) + d mod 2 ^ 31) by (apply Z.div_mod; lia).
  assert (Hm : 0 <= d mod 2 ^ 31 < 2 ^ 31) by (apply Z.mod_pos_bound; lia).
  destruct E as [E | E]; rewrite E in *; clear E.
  - destruct (d mod 2 ^ 31 =? 0) eqn:E0; cbn [Z.shiftl Z.lor Pos.iter];
    destruct (d =? 0) eqn:?; destruct (d <? 2 ^ 31) eqn:?; destruct (d =? 2 ^ 31) eqn:?; cbn; lia.
  - destruct (d mod 2 ^ 31 =? 0) eqn:E0; cbn [Z.shiftl Z.lor Pos.iter];
    destruct (d =? 0) eqn:?; destruct (d <? 2 ^ 31) eqn:?; destruct (d =? 2 ^ 31) eqn:?; cbn; lia.
Qed.

Definition serial_result (s1 s2 : Z) : serial_cmp_result :=
  let d := (s1 - s2) mod 2 ^ 32 in
  if d =? 0 then SERIAL_EQUAL else if d <? 2 ^ 31 then SERIAL_GREATER
  else if d =? 2 ^ 31 then SERIAL_INCOMPARABLE else SERIAL_LOWER.

Lemma serial_compare_raw_eq : forall s1 s2, serial32 s1 -> serial32 s2 ->
  serial_compare_raw s1 s2 = Ok (serial_result s1 s2).
Proof.
  intros s1 s2 H1 H2. unfold serial_compare_raw, serial_result.
  rewrite serial_diff by auto.
  assert (Hm : 0 <= (s1 - s2) mod 2 ^ 32 < 2 ^ 32) by (apply Z.mod_pos_bound; lia).
  rewrite serial_brief by auto.
  destruct (_ =? 0); [reflexivity|]. destruct (_ <? _); [reflexivity|].
  destruct (_ =? 2 ^ 31); reflexivity.
Qed.

Lemma serial_compare_eq : forall s1 s2, serial32 s1 -> serial32 s2 ->
  serial_compare s1 s2 = serial_result s1 s2.
Proof. intros; unfold serial_compare; rewrite serial_compare_raw_eq; auto. Qed.

Ltac serial_unfold :=
  unfold serial_result, serial32, rfc1982_lt, rfc1982_gt, rfc1982_add, u32, u8 in *;
  change (2 ^ 32) with 4294967296 in *; change (2 ^ 31) with 2147483648 in *; change (2 ^ 8) with 256 in *.

Lemma serial_compare_spec_l : forall s1 s2, serial32 s1 -> serial32 s2 ->
  (serial_compare s1 s2 = SERIAL_EQUAL <-> s1 = s2) /\
  (serial_compare s1 s2 = SERIAL_LOWER <-> rfc1982_lt s1 s2) /\
  (serial_compare s1 s2 = SERIAL_GREATER <-> rfc1982_gt s1 s2) /\
  (serial_compare s1 s2 = SERIAL_INCOMPARABLE <-> Z.abs (s1 - s2) = 2 ^ 31).
Proof.
  intros s1 s2 H1 H2. rewrite serial_compare_eq by auto. serial_unfold.
  destruct (_ =? 0) eqn:?; [|destruct (_ <? _) eqn:?; [|destruct (_ =? 2147483648) eqn:?]];
    repeat split; intros; try discriminate; try lia.
Qed.

Lemma serial_base_range : forall clk cur pol inc, serial32 cur ->
  serial32 (serial_base clk cur pol inc).
Proof.
  intros. unfold serial_base. destruct (serial_compare _ _); unfold serial_minimum, serial_dateserial;
  try (unfold u32, serial32; apply Z.mod_pos_bound; lia).
  destruct pol; auto; try (unfold u32, serial32; apply Z.mod_pos_bound; lia).
  destruct (clk_date clk) as [[[? ?] ?]|]; auto. unfold u32, serial32; apply Z.mod_pos_bound; lia.
Qed.

Lemma serial_minimum_range : forall clk cur pol, serial32 cur ->
  serial32 (serial_minimum clk cur pol).
Proof.
  intros. unfold serial_minimum, serial_dateserial.
  destruct pol; auto; try (unfold u32, serial32; apply Z.mod_pos_bound; lia).
  destruct (clk_date clk) as [[[? ?] ?]|]; auto. unfold u32, serial32; apply Z.mod_pos_bound; lia.
Qed.

Lemma serial_base_greater : forall clk cur pol inc, serial32 cur -> 1 <= inc < 2 ^ 31 ->
  rfc1982_gt (serial_base clk cur pol inc) cur.
Proof.
  intros clk cur pol inc H Hi. unfold serial_base.
  pose proof (serial_minimum_range clk cur pol H) as Hm.
  destruct (serial_compare_spec_l _ _ Hm H) as (_ & _ & HG & _).
  destruct (serial_compare _ _) eqn:E; try (apply HG; reflexivity); clear - H Hi; serial_unfold;
  lia.
Qed.

Lemma serial_next_modulo_l : forall clk cur pol inc rem md r,
  serial32 cur -> 2 <= md < 256 -> 0 <= rem < md ->
  serial_next_generic clk cur pol inc rem md = Ok r ->
  serial32 r /\ r mod md = rem /\
  exists k, 0 <= k < md /\ r = rfc1982_add (serial_base clk cur pol inc) k.
Proof.
  intros clk cur pol inc rem md r Hc Hm Hr. unfold serial_next_generic; cbv zeta.
  pose proof (serial_base_range clk cur pol inc Hc) as Hb.
  set (b := serial_base clk cur pol inc) in *. clearbody b.
  replace (u8 rem) with rem by (unfold u8; rewrite Z.mod_small; lia).
  replace (u8 md) with md by (unfold u8; rewrite Z.mod_small; lia).
  destruct (md >? 1) eqn:E1; [|lia].
  destruct (negb (rem <? md)) eqn:E2; [discriminate|].
  destruct (negb (_ || _)) eqn:E3; [discriminate|].
  destruct (negb (u32 _ mod md =? rem)) eqn:E4; [discriminate|].
  intros HH. injection HH as <-.
  assert (Hk : 0 <= u32 (rem + md - b mod md) mod md < md) by (apply Z.mod_pos_bound; lia).
  split; [unfold u32, serial32; apply Z.mod_pos_bound; lia|].
  split; [lia|].
  exists (u32 (rem + md - b mod md) mod md). split; auto.
Qed.

Lemma serial_incr_congruent : forall b rem md, 0 <= b -> 2 <= md < 256 -> 0 <= rem < md ->
  (b + u32 ((rem + md) - (b mod md)) mod md) mod md = rem.
Proof.
  intros b rem md Hb Hm Hr.
  assert (0 <= b mod md < md) by (apply Z.mod_pos_bound; lia).
  unfold u32. rewrite (Z.mod_small (rem + md - b mod md)) by lia.
  rewrite Z.add_mod_idemp_r by lia.
  replace (b + (rem + md - b mod md)) with ((rem + md) + (b - b mod md)) by lia.
  replace (b - b mod md) with (b / md * md) by (pose proof (Z.div_mod b md); lia).
  rewrite Z.mod_add by lia.
  replace (rem + md) with (rem + 1 * md) by lia. rewrite Z.mod_add by lia.
  apply Z.mod_small; lia.
Qed.

Lemma serial_assert2 : forall b rem md, 0 <= b -> 2 <= md < 256 -> 0 <= rem < md ->
  (u32 ((rem + md) - (b mod md)) mod md =? 0) || negb (b mod md =? rem) = true.
Proof.
  intros b rem md Hb Hm Hr.
  destruct (b mod md =? rem) eqn:E; [|rewrite orb_true_r; auto].
  apply Z.eqb_eq in E. rewrite E. replace (rem + md - rem) with md by lia.
  unfold u32. rewrite (Z.mod_small md) by lia. rewrite Z.mod_same by lia. reflexivity.
Qed.

Lemma serial_next_total_l : forall clk cur pol inc rem md,
  serial32 cur -> 2 <= md < 256 -> 0 <= rem < md ->
  (serial_base clk cur pol inc + md <= 2 ^ 32 \/ 2 ^ 32 mod md = 0) ->
  exists r, serial_next_generic clk cur pol inc rem md = Ok r.
Proof.
  intros clk cur pol inc rem md Hc Hm Hr Hw. unfold serial_next_generic; cbv zeta.
  pose proof (serial_base_range clk cur pol inc Hc) as Hb.
  set (b := serial_base clk cur pol inc) in *. clearbody b.
  replace (u8 rem) with rem by (unfold u8; rewrite Z.mod_small; lia).
  replace (u8 md) with md by (unfold u8; rewrite Z.mod_small; lia).
  destruct (md >? 1) eqn:E1; [|lia].
  replace (rem <? md) with true by lia. cbn [negb].
  unfold serial32 in *.
  rewrite serial_assert2 by lia. cbn [negb].
  pose proof (serial_incr_congruent b rem md ltac:(lia) Hm Hr) as HC.
  set (k := u32 (rem + md - b mod md) mod md) in *.
  assert (Hk : 0 <= k < md) by (apply Z.mod_pos_bound; lia).
  clearbody k.
  replace (u32 (b + k) mod md =? rem) with true; [eexists; reflexivity|].
  symmetry. apply Z.eqb_eq. destruct Hw as [Hw | Hw].
  - unfold u32. rewrite (Z.mod_small (b + k)) by lia. auto.
  - unfold u32. rewrite <- HC.
    assert (E : 2 ^ 32 = md * (2 ^ 32 / md)) by (pose proof (Z.div_mod (2 ^ 32) md); lia).
    rewrite (Z.mod_eq (b + k) (2 ^ 32)) by lia. rewrite E at 1.
    rewrite <- (Z.mod_add (b + k - _) ((2 ^ 32 / md) * ((b + k) / 2 ^ 32)) md) by lia.
    f_equal. ring.
Qed.

Lemma serial_next_plain_l : forall clk cur pol inc rem md,
  0 <= md <= 1 ->
  serial_next_generic clk cur pol inc rem md = Ok (serial_base clk cur pol inc).
Proof.
  intros. unfold serial_next_generic; cbv zeta.
  replace (u8 md) with md by (unfold u8; rewrite Z.mod_small; lia).
  destruct (md >? 1) eqn:E; [lia|reflexivity].
Qed.

Lemma serial_next_increment_greater_l : forall clk cur rem md r,
  serial32 cur -> 2 <= md < 256 -> 0 <= rem < md ->
  serial_next_generic clk cur POLICY_INCREMENT 1 rem md = Ok r -> rfc1982_gt r cur.
Proof.
  intros clk cur rem md r Hc Hm Hr H.
  apply serial_next_modulo_l in H; auto. destruct H as (_ & _ & k & Hk & ->).
  unfold serial_base, serial_minimum. rewrite serial_compare_eq by auto.
  unfold serial_result at 1. replace (cur - cur) with 0 by lia. cbn [Z.modulo Z.eqb].
  change (0 mod 2 ^ 32 =? 0) with true. cbv iota. serial_unfold. lia.
Qed.

Lemma serial_next_greater_l : forall clk cur pol rem md r,
  serial32 cur -> 2 <= md < 256 -> 0 <= rem < md ->
  (serial_minimum clk cur pol - cur) mod 2 ^ 32 <= 2 ^ 31 - md ->
  serial_next_generic clk cur pol 1 rem md = Ok r -> rfc1982_gt r cur.
Proof.
  intros clk cur pol rem md r Hc Hm Hr Hd H.
  apply serial_next_modulo_l in H; auto. destruct H as (_ & _ & k & Hk & ->).
  unfold serial_base.
  pose proof (serial_minimum_range clk cur pol Hc) as Hmin.
  set (m := serial_minimum clk cur pol) in *. clearbody m.
  rewrite serial_compare_eq by auto.
  unfold serial_result.
  destruct (_ =? 0) eqn:?; [|destruct (_ <? _) eqn:?; [|destruct (_ =? 2 ^ 31) eqn:?]]; serial_unfold; try lia.
Qed.
