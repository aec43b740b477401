(** Parsing of records. *)
From Verif Require Import Base DnameModel DnameSpec DnameProofs DnameProofs2 WireModel WireProofs RrwireModel RrwireSpec.

Notation dwire := DnameSpec.wire.

Definition is_name_block (b : block) : Prop :=
  b = BCompr \/ b = BDecompr \/ b = BName.

(** The pieces have the layout given by the blocks. The remainder is whatever is left. *)
Inductive fits : list block -> list piece -> Prop :=
| fits_nil : fits [] []
| fits_fixed : forall n bl l ps, zlen l = n -> bytes l -> fits bl ps ->
    fits (BFixed n :: bl) (PData l :: ps)
| fits_name : forall b bl ls ps, is_name_block b -> legal_name ls -> fits bl ps ->
    fits (b :: bl) (PName ls :: ps)
| fits_naptr : forall bl f s1 s2 s3 l1 l2 l3 ps, zlen f = 4 -> bytes (f ++ l1 ++ l2 ++ l3) ->
    char_string s1 l1 -> char_string s2 l2 -> char_string s3 l3 -> fits bl ps ->
    fits (BNaptr :: bl) (PData (f ++ l1 ++ l2 ++ l3) :: ps)
| fits_rem : forall l, bytes l -> fits [BRem] [PData l].

Lemma rdn_ok : forall m off n, 0 <= off -> 0 <= n -> off + n <= zlen m -> rdn m off n = Ok (zfirstn n (zskipn off m)).
Proof. intros. unfold rdn. replace (_ || _) with false by lia. reflexivity. Qed.

(** the read-only context *)
Notation cw d p := (mkwire d p KNOT_EOK true).
Lemma skip_c : forall d p n, 0 <= p <= zlen d -> zlen d < 2 ^ 63 -> 0 <= n ->
  wire_skip (cw d p) n = Ok (if n >? zlen d - p then mkwire d p KNOT_ERANGE true else cw d (p + n)).
Proof.
  intros d p n Hp Hd Hn. assert (Ho : u64 p = p) by (unfold u64; apply Z.mod_small; lia).
  assert (Ha : u64 (zlen d - p) = zlen d - p) by (unfold u64; apply Z.mod_small; lia).
  unfold wire_skip, wire_available, w_size, wire_offset, set_err, set_pos; cbn [w_err w_buf w_pos w_ro].
  change (KNOT_EOK =? KNOT_EOK) with true. cbn [negb]. replace (n >=? 0) with true by lia.
  rewrite Ho, Ha. destruct (n >? zlen d - p); reflexivity.
Qed.
Lemma skip_e : forall w n, w_err w <> KNOT_EOK -> wire_skip w n = Ok w.
Proof. intros. unfold wire_skip. replace (w_err w =? KNOT_EOK) with false by lia. reflexivity. Qed.
Lemma read_c : forall d p k, 0 <= p <= zlen d -> zlen d < 2 ^ 63 -> 0 <= k ->
  wire_read (cw d p) k = if zlen d - p <? k then Ok (zeros k, mkwire d p KNOT_EFEWDATA true) else Ok (zfirstn k (zskipn p d), cw d (p + k)).
Proof.
  intros d p n Hp Hd Hn. assert (Ho : u64 p = p) by (unfold u64; apply Z.mod_small; lia).
  assert (Ha : u64 (zlen d - p) = zlen d - p) by (unfold u64; apply Z.mod_small; lia).
  unfold wire_read, wire_can_read, wire_available, w_size, wire_offset, set_err, set_pos; cbn [w_err w_buf w_pos w_ro].
  change (KNOT_EOK =? KNOT_EOK) with true. cbn [negb]. rewrite Ho, Ha. destruct (zlen d - p <? n) eqn:E.
  - reflexivity.
  - change (KNOT_EOK =? KNOT_EOK) with true. cbn [negb]. rewrite mem_read_ok by lia. reflexivity.
Qed.
Lemma read_e : forall w k, w_err w <> KNOT_EOK -> wire_read w k = Ok (zeros k, w).
Proof. intros. unfold wire_read. replace (w_err w =? KNOT_EOK) with false by lia. reflexivity. Qed.
Lemma sub1 : forall (d : list Z) p, 0 <= p < zlen d -> exists b, zget d p = Some b /\ zfirstn 1 (zskipn p d) = [b].
Proof.
  intros d p H. destruct (zget_in_range d p H) as (b & E). exists b. split; auto. apply zget_ext.
  - rewrite zlen_zfirstn; [reflexivity|]. rewrite zlen_zskipn by lia. lia.
  - rewrite zlen_zfirstn by (rewrite zlen_zskipn by lia; lia). intros i Hi. rewrite zfirstn_zskipn_get by lia.
    assert (i = 0) by lia. subst i. rewrite Z.add_0_r, E. reflexivity.
Qed.
Lemma sub_split : forall (d : list Z) p a b, 0 <= p -> 0 <= a -> 0 <= b -> p + a + b <= zlen d ->
  zfirstn (a + b) (zskipn p d) = zfirstn a (zskipn p d) ++ zfirstn b (zskipn (p + a) d).
Proof.
  intros d p a b Hp Ha Hb H.
  assert (L : zlen (zskipn p d) = zlen d - p) by (apply zlen_zskipn; lia).
  assert (L2 : zlen (zskipn (p + a) d) = zlen d - (p + a)) by (apply zlen_zskipn; lia).
  apply zget_ext.
  - rewrite zlen_app, !zlen_zfirstn by lia. reflexivity.
  - rewrite zlen_zfirstn by lia. intros i Hi. rewrite zfirstn_zskipn_get by lia. destruct (Z_lt_dec i a).
    + rewrite zget_app_l by (rewrite zlen_zfirstn by lia; lia). rewrite zfirstn_zskipn_get by lia. reflexivity.
    + rewrite zget_app_r by (rewrite zlen_zfirstn by lia; lia). rewrite zlen_zfirstn by lia. rewrite zfirstn_zskipn_get by lia. f_equal. lia.
Qed.

(** ** NAPTR *)
(** The header of NAPTR at the start of [d] has [n] octets. *)
Definition naptr_at (d : list Z) (n : Z) : Prop :=
  exists a b c, zget d 4 = Some a /\ zget d (5 + a) = Some b /\ zget d (6 + a + b) = Some c /\
    n = 7 + a + b + c /\ n <= zlen d.
Lemma naptr_spec : forall d, bytes d -> zlen d < 2 ^ 63 ->
  (exists n, naptr_header_size d = Ok n /\ naptr_at d n) \/
  ((exists e, naptr_header_size d = Err e /\ e < 0) /\ forall n, ~ naptr_at d n).
Proof.
  intros d HB Hd. enough (H : forall r, naptr_header_size d = r -> (exists n, r = Ok n /\ naptr_at d n) \/ ((exists e, r = Err e /\ e < 0) /\ forall n, ~ naptr_at d n)) by (apply H; reflexivity).
  intros r Hr. unfold naptr_header_size in Hr. destruct (zlen d =? 0) eqn:E0.
  { subst r. right. split; [exists KNOT_EINVAL; split; [reflexivity|unfold KNOT_EINVAL; lia]|]. intros n (a & b & c & Ha & _). apply zget_some in Ha. lia. }
  cbv zeta in Hr. unfold wire_init_const in Hr.
  assert (ERR : forall e, e <> KNOT_EOK -> forall p,
    (let* (n, w) := wire_read_u8 (mkwire d p e true) in
     let* w := wire_skip w n in
     let* (n, w) := wire_read_u8 w in
     let* w := wire_skip w n in
     let* (n, w) := wire_read_u8 w in
     let* w := wire_skip w n in
     if negb (w_err w =? KNOT_EOK) then Err KNOT_EMALF else Ok (wire_offset w)) = Err KNOT_EMALF).
  { intros e He p. unfold wire_read_u8. repeat (rewrite read_e by exact He; cbn [rbind]; rewrite skip_e by exact He; cbn [rbind]).
    cbn [w_err]. replace (e =? KNOT_EOK) with false by lia. reflexivity. }
  assert (ERR2 : forall e, e <> KNOT_EOK -> forall p,
    (let* (n, w) := wire_read_u8 (mkwire d p e true) in
     let* w := wire_skip w n in
     let* (n, w) := wire_read_u8 w in
     let* w := wire_skip w n in
     if negb (w_err w =? KNOT_EOK) then Err KNOT_EMALF else Ok (wire_offset w)) = Err KNOT_EMALF).
  { intros e He p. unfold wire_read_u8. repeat (rewrite read_e by exact He; cbn [rbind]; rewrite skip_e by exact He; cbn [rbind]).
    cbn [w_err]. replace (e =? KNOT_EOK) with false by lia. reflexivity. }
  assert (ERR3 : forall e, e <> KNOT_EOK -> forall p,
    (let* (n, w) := wire_read_u8 (mkwire d p e true) in
     let* w := wire_skip w n in
     if negb (w_err w =? KNOT_EOK) then Err KNOT_EMALF else Ok (wire_offset w)) = Err KNOT_EMALF).
  { intros e He p. unfold wire_read_u8. repeat (rewrite read_e by exact He; cbn [rbind]; rewrite skip_e by exact He; cbn [rbind]).
    cbn [w_err]. replace (e =? KNOT_EOK) with false by lia. reflexivity. }
  assert (NR : KNOT_ERANGE <> KNOT_EOK) by (unfold KNOT_ERANGE, KNOT_EOK; lia).
  assert (NF : KNOT_EFEWDATA <> KNOT_EOK) by (unfold KNOT_EFEWDATA, KNOT_EOK; lia).
  assert (NEG : exists e, Err KNOT_EMALF = @Err Z e /\ e < 0) by (exists KNOT_EMALF; split; [reflexivity|unfold KNOT_EMALF; lia]).
  pose proof (zlen_nonneg d) as Hd0.
  rewrite skip_c in Hr by lia. cbn [rbind] in Hr. destruct (4 >? zlen d - 0) eqn:E1.
  { rewrite ERR in Hr by exact NR. right. subst r. split; [exact NEG|]. intros n (a & b & c & Ha & _). apply zget_some in Ha. lia. }
  unfold wire_read_u8 at 1 in Hr. rewrite read_c in Hr by lia. destruct (zlen d - (0 + 4) <? 1) eqn:E2.
  { cbn [rbind] in Hr. rewrite skip_e in Hr by exact NF. cbn [rbind] in Hr. rewrite ERR2 in Hr by exact NF. right. subst r. split; [exact NEG|]. intros n (a & b & c & Ha & _). apply zget_some in Ha. lia. }
  destruct (sub1 d (0 + 4) ltac:(lia)) as (a & Ga & Sa). rewrite Sa in Hr. assert (Ba : byte a) by (eapply zget_byte; eauto). unfold byte in Ba.
  cbn [rbind unbe fold_left] in Hr. rewrite skip_c in Hr by lia. cbn [rbind] in Hr. destruct (0 * 256 + a >? zlen d - (0 + 4 + 1)) eqn:E3.
  { rewrite ERR2 in Hr by exact NR. right. subst r. split; [exact NEG|]. intros n (a' & b & c & Ha & Hb & _). apply zget_some in Hb. assert (a' = a) by (change (0 + 4) with 4 in Ga; congruence). lia. }
  unfold wire_read_u8 at 1 in Hr. rewrite read_c in Hr by lia. destruct (zlen d - (0 + 4 + 1 + (0 * 256 + a)) <? 1) eqn:E4.
  { cbn [rbind] in Hr. rewrite skip_e in Hr by exact NF. cbn [rbind] in Hr. rewrite ERR3 in Hr by exact NF. right. subst r. split; [exact NEG|]. intros n (a' & b & c & Ha & Hb & _). apply zget_some in Hb. assert (a' = a) by (change (0 + 4) with 4 in Ga; congruence). lia. }
  destruct (sub1 d (0 + 4 + 1 + (0 * 256 + a)) ltac:(lia)) as (b & Gb & Sb). rewrite Sb in Hr. assert (Bb : byte b) by (eapply zget_byte; eauto). unfold byte in Bb.
  cbn [rbind unbe fold_left] in Hr. rewrite skip_c in Hr by lia. cbn [rbind] in Hr. destruct (0 * 256 + b >? zlen d - (0 + 4 + 1 + (0 * 256 + a) + 1)) eqn:E5.
  { rewrite ERR3 in Hr by exact NR. right. subst r. split; [exact NEG|]. intros n (a' & b' & c & Ha & Hb & Hc & _). apply zget_some in Hc. assert (a' = a) by (change (0 + 4) with 4 in Ga; congruence). subst a'.
    replace (0 + 4 + 1 + (0 * 256 + a)) with (5 + a) in Gb by lia. assert (b' = b) by congruence. lia. }
  unfold wire_read_u8 in Hr. rewrite read_c in Hr by lia. destruct (zlen d - (0 + 4 + 1 + (0 * 256 + a) + 1 + (0 * 256 + b)) <? 1) eqn:E6.
  { cbn [rbind] in Hr. rewrite skip_e in Hr by exact NF. cbn [rbind w_err] in Hr. change (KNOT_EFEWDATA =? KNOT_EOK) with false in Hr. cbn [negb] in Hr. right. subst r. split; [exact NEG|]. intros n (a' & b' & c & Ha & Hb & Hc & _). apply zget_some in Hc. assert (a' = a) by (change (0 + 4) with 4 in Ga; congruence). subst a'.
    replace (0 + 4 + 1 + (0 * 256 + a)) with (5 + a) in Gb by lia. assert (b' = b) by congruence. lia. }
  destruct (sub1 d (0 + 4 + 1 + (0 * 256 + a) + 1 + (0 * 256 + b)) ltac:(lia)) as (c & Gc & Sc). rewrite Sc in Hr. assert (Bc : byte c) by (eapply zget_byte; eauto). unfold byte in Bc.
  cbn [rbind unbe fold_left] in Hr. rewrite skip_c in Hr by lia. cbn [rbind] in Hr. destruct (0 * 256 + c >? zlen d - (0 + 4 + 1 + (0 * 256 + a) + 1 + (0 * 256 + b) + 1)) eqn:E7; cbn [w_err] in Hr.
  { change (KNOT_ERANGE =? KNOT_EOK) with false in Hr. cbn [negb] in Hr. right. subst r. split; [exact NEG|]. intros n (a' & b' & c' & Ha & Hb & Hc & Hn & Hle). assert (a' = a) by (change (0 + 4) with 4 in Ga; congruence). subst a'.
    replace (0 + 4 + 1 + (0 * 256 + a)) with (5 + a) in * by lia. assert (b' = b) by congruence. subst b'.
    replace (5 + a + 1 + (0 * 256 + b)) with (6 + a + b) in * by lia. assert (c' = c) by congruence. lia. }
  change (KNOT_EOK =? KNOT_EOK) with true in Hr. cbn [negb] in Hr. subst r. left. eexists. split; [reflexivity|]. unfold wire_offset; cbn [w_pos].
  exists a, b, c. change (0 + 4) with 4 in *. replace (4 + 1 + (0 * 256 + a)) with (5 + a) in * by lia. replace (5 + a + 1 + (0 * 256 + b)) with (6 + a + b) in * by lia.
  split; [exact Ga|]. split; [exact Gb|]. split; [exact Gc|]. unfold u64. rewrite Z.mod_small by lia. lia.
Qed.
Lemma naptr_at_det : forall d n n', naptr_at d n -> naptr_at d n' -> n = n'.
Proof. intros d n n' (a & b & c & Ha & Hb & Hc & Hn & _) (a' & b' & c' & Ha' & Hb' & Hc' & Hn' & _). assert (a = a') by congruence. subst a'. assert (b = b') by congruence. subst b'. assert (c = c') by congruence. lia. Qed.
(** as strings *)
Lemma skip_cons : forall (d : list Z) p b, zget d p = Some b -> zskipn p d = b :: zskipn (p + 1) d.
Proof.
  intros d p b H. pose proof (zget_some _ _ _ H) as Hr. rewrite <- (zfirstn_skipn _ (zskipn p d) 1). destruct (sub1 d p Hr) as (b' & E1 & E2). rewrite E2.
  rewrite zskipn_zskipn by lia. cbn [app]. congruence.
Qed.
Lemma naptr_strings : forall d n, bytes d -> naptr_at d n ->
  exists f s1 s2 s3 rest, zlen f = 4 /\ zlen s1 <= 255 /\ zlen s2 <= 255 /\ zlen s3 <= 255 /\
    zfirstn n d = f ++ (zlen s1 :: s1) ++ (zlen s2 :: s2) ++ (zlen s3 :: s3) /\ d = zfirstn n d ++ rest.
Proof.
  intros d n HB (a & b & c & Ga & Gb & Gc & Hn & Hle).
  assert (Ba : byte a) by (eapply zget_byte; eauto). assert (Bb : byte b) by (eapply zget_byte; eauto). assert (Bc : byte c) by (eapply zget_byte; eauto). unfold byte in *.
  exists (zfirstn 4 (zskipn 0 d)), (zfirstn a (zskipn 5 d)), (zfirstn b (zskipn (6 + a) d)), (zfirstn c (zskipn (7 + a + b) d)), (zskipn n d).
  assert (L4 : zlen (zfirstn 4 (zskipn 0 d)) = 4) by (rewrite zlen_zfirstn; [reflexivity|rewrite zlen_zskipn by lia; lia]).
  assert (L1 : zlen (zfirstn a (zskipn 5 d)) = a) by (rewrite zlen_zfirstn; [reflexivity|rewrite zlen_zskipn by lia; lia]).
  assert (L2 : zlen (zfirstn b (zskipn (6 + a) d)) = b) by (rewrite zlen_zfirstn; [reflexivity|rewrite zlen_zskipn by lia; lia]).
  assert (L3 : zlen (zfirstn c (zskipn (7 + a + b) d)) = c) by (rewrite zlen_zfirstn; [reflexivity|rewrite zlen_zskipn by lia; lia]).
  split; [exact L4|]. split; [lia|]. split; [lia|]. split; [lia|]. split; [|symmetry; apply zfirstn_skipn].
  rewrite L1, L2, L3. change d with (zskipn 0 d) at 1. rewrite Hn.
  replace (7 + a + b + c) with (4 + (1 + (a + (1 + (b + (1 + c)))))) by lia.
  rewrite sub_split by lia. f_equal. change (0 + 4) with 4.
  rewrite sub_split by lia. destruct (sub1 d 4 ltac:(lia)) as (x & X1 & X2). rewrite X2. assert (x = a) by congruence. subst x. cbn [app]. f_equal.
  change (4 + 1) with 5. rewrite sub_split by lia. f_equal.
  rewrite sub_split by lia. destruct (sub1 d (5 + a) ltac:(lia)) as (x & X5 & X3). rewrite X3. assert (x = b) by congruence. subst x. cbn [app]. f_equal.
  replace (5 + a + 1) with (6 + a) by lia. rewrite sub_split by lia. f_equal.
  rewrite sub_split by lia. destruct (sub1 d (6 + a + b) ltac:(lia)) as (x & X6 & X4). rewrite X4. assert (x = c) by congruence. subst x. cbn [app]. f_equal.
  replace (6 + a + b + 1) with (7 + a + b) by lia. reflexivity.
Qed.
Lemma naptr_of_strings : forall f s1 s2 s3 rest, zlen f = 4 ->
  naptr_at (f ++ (zlen s1 :: s1) ++ (zlen s2 :: s2) ++ (zlen s3 :: s3) ++ rest) (7 + zlen s1 + zlen s2 + zlen s3).
Proof.
  intros f s1 s2 s3 rest Hf. pose proof (zlen_nonneg s1). pose proof (zlen_nonneg s2). pose proof (zlen_nonneg s3). pose proof (zlen_nonneg rest).
  exists (zlen s1), (zlen s2), (zlen s3).
  split. { rewrite zget_app_r by lia. rewrite Hf. reflexivity. }
  split. { rewrite zget_app_r by lia. rewrite Hf. cbn [app]. rewrite zget_cons by lia. rewrite zget_app_r by lia. replace (5 + zlen s1 - 4 - 1 - zlen s1) with 0 by lia. reflexivity. }
  split. { rewrite zget_app_r by lia. rewrite Hf. cbn [app]. rewrite zget_cons by lia. rewrite zget_app_r by lia. rewrite zget_cons by lia. rewrite zget_app_r by lia. replace (6 + zlen s1 + zlen s2 - 4 - 1 - zlen s1 - 1 - zlen s2) with 0 by lia. reflexivity. }
  split; [reflexivity|]. repeat (rewrite zlen_app || rewrite zlen_cons). lia.
Qed.
