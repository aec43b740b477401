(** C49: client subnet, keepalive and cookie options. *)
From Verif Require Import Base WireModel WireProofs WireProps EdnsModel EdnsProps.

(** ** Specification: RFC 7871. Bit [k] of an address, from the left. *)
Definition abit (a : list Z) (k : Z) : bool := match zget a (k / 8) with Some b => Z.testbit b (7 - k mod 8) | None => false end.
(** [t] has the first [s] bits of [a] and zeros behind them *)
Definition prefix_of (s : Z) (t a : list Z) : Prop := forall k, 0 <= k < 8 * zlen t -> abit t k = (k <? s) && abit a k.
Definition ecs_len (s : Z) : Z := (s + 7) / 8.
Definition ecs_ok (family source scope : Z) : Prop :=
  0 <= source /\ 0 <= scope /\ (family = 1 /\ source <= 32 /\ scope <= 32 \/ family = 2 /\ source <= 128 /\ scope <= 128).

Lemma mask_bits : forall s j, 0 <= s -> 0 <= j < 8 -> Z.testbit (ecs_lsb_mask s) (7 - j) = if s mod 8 =? 0 then true else j <? s mod 8.
Proof.
  intros s j Hs Hj. unfold ecs_lsb_mask. pose proof (Z.mod_pos_bound s 8 ltac:(lia)) as B. remember (s mod 8) as m eqn:E. clear E Hs s.
  assert (m = 0 \/ m = 1 \/ m = 2 \/ m = 3 \/ m = 4 \/ m = 5 \/ m = 6 \/ m = 7) as M by lia. assert (j = 0 \/ j = 1 \/ j = 2 \/ j = 3 \/ j = 4 \/ j = 5 \/ j = 6 \/ j = 7) as J by lia.
  repeat (destruct M as [->|M]); try subst m; repeat (destruct J as [->|J]); try subst j; reflexivity.
Qed.
Lemma copy_ro : forall dst src n dst' src', wire_copy dst src n = Ok (dst', src') -> w_ro dst' = w_ro dst.
Proof.
  intros dst src n dst' src' H. unfold wire_copy in H. destruct ((n =? 0) || _); [injection H as <- <-; auto|]. destruct (negb (wire_can_read src n =? KNOT_EOK)); [injection H as <- <-; auto|]. cbv zeta in H. destruct (negb (wire_can_write dst n =? KNOT_EOK)); [injection H as <- <-; auto|].
  destruct (mem_read _ _ _) as [d| | |]; cbn [rbind] in H; try discriminate. destruct (mem_write _ _ _) as [b| | |]; cbn [rbind] in H; try discriminate. injection H as <- <-. auto.
Qed.
Lemma land_byte : forall a b, byte a -> 0 <= b -> byte (Z.land a b).
Proof.
  unfold byte. intros a b Ha Hb. split; [apply Z.land_nonneg; lia|]. destruct (Z.eq_dec (Z.land a b) 0) as [Z0|N]; [lia|]. assert (P : 0 <= Z.land a b) by (apply Z.land_nonneg; lia). apply (Z.log2_lt_pow2 _ 8); [lia|].
  pose proof (Z.log2_land a b ltac:(lia) ltac:(lia)). assert (Z.log2 a < 8 \/ a = 0) by (destruct (Z.eq_dec a 0); [auto|left; apply Z.log2_lt_pow2; lia]). destruct H0 as [H0|H0]; [lia|]. subst a. rewrite Z.land_0_l in N. congruence.
Qed.
Lemma write_addr : forall dst src pre post spre t rest s, at_ dst pre post -> w_ro dst = false -> at_ src spre (t ++ rest) -> bytes t -> 0 <= s -> zlen t = ecs_len s -> zlen t <= zlen post ->
  exists dst' src' m, ecs_write_address dst src s = Ok (dst', src') /\ at_ dst' (pre ++ m ++ zeros (zlen post - zlen t)) [] /\ w_ro dst' = false /\ at_ src' (spre ++ t) rest /\ zlen m = zlen t /\ bytes m /\ prefix_of s m t.
Proof.
  intros dst src pre post spre t rest s HD RO HS HB Hs HL HP. unfold ecs_write_address, ecs_prefix_size. fold (ecs_len s). rewrite <- HL. cbv zeta. pose proof (zlen_nonneg t) as T0. destruct (zlen t >? 0) eqn:EZ; cbn [andb].
  - destruct (c48_copy dst src pre post spre t rest HD RO HS HP) as (d1 & s1 & EC & A1 & AS). rewrite EC. cbn [rbind]. pose proof (copy_ro _ _ _ _ _ EC) as R1. rewrite RO in R1. pose proof A1 as (B1 & P1 & E1 & L1). rewrite E1. change (KNOT_EOK =? KNOT_EOK) with true. cbn [negb].
    destruct (exists_last (l := t)) as (t0 & x & ET); [intros ->; rewrite zlen_nil in EZ; lia|]. rewrite P1, zlen_app. assert (LT : zlen t = zlen t0 + 1) by (rewrite ET, zlen_app, zlen_cons, zlen_nil; lia). pose proof (zlen_nonneg t0). pose proof (zlen_nonneg pre).
    set (post' := zskipn (zlen t) post) in *. assert (LP : zlen post' = zlen post - zlen t) by (unfold post'; apply zlen_zskipn; lia). assert (BF : w_buf d1 = (pre ++ t0) ++ [x] ++ post') by (rewrite B1, ET, <- !app_assoc; auto).
    rewrite BF. replace (zlen pre + zlen t - 1) with (zlen (pre ++ t0)) by (rewrite zlen_app; lia). rewrite mem_read_ok; [|apply zlen_nonneg|lia|rewrite !zlen_app; change (zlen [x]) with 1; pose proof (zlen_nonneg post'); lia]. cbn [rbind]. rewrite zskipn_app_exact. change 1 with (zlen [x]) at 1. rewrite zfirstn_app_exact. change (unbe [x]) with x.
    set (y := Z.land x (ecs_lsb_mask s)). rewrite mem_write_ok; [|apply zlen_nonneg|rewrite !zlen_app; change (zlen [y]) with 1; change (zlen [x]) with 1; pose proof (zlen_nonneg post'); lia]. cbn [rbind w_buf w_pos w_err w_ro].
    rewrite zfirstn_app_exact. replace (zskipn _ _) with post'. 2:{ rewrite (app_assoc (pre ++ t0) [x] post'). change (zlen [y]) with (zlen [x]). rewrite <- (zlen_app (pre ++ t0) [x]). rewrite zskipn_app_exact. reflexivity. }
    set (d2 := mkwire ((pre ++ t0) ++ [y] ++ post') (zlen pre + zlen t) KNOT_EOK (w_ro d1)).
    assert (A2 : at_ d2 (pre ++ t0 ++ [y]) post'). { unfold at_, d2. cbn [w_buf w_pos w_err]. split; [rewrite <- !app_assoc; auto|]. split; [rewrite !zlen_app; change (zlen [y]) with 1; lia|]. split; auto. rewrite !zlen_app in *. change (zlen [y]) with 1. lia. }
    destruct (clear_at d2 _ _ A2) as (d3 & E3 & A3 & R3); [exact R1|]. rewrite (at_avail _ _ _ A2), E3. cbn [rbind].
    exists d3, s1, (t0 ++ [y]). split; auto. rewrite LP in A3. split; [replace (pre ++ (t0 ++ [y]) ++ zeros (zlen post - zlen t)) with ((pre ++ t0 ++ [y]) ++ zeros (zlen post - zlen t)) by (rewrite <- !app_assoc; reflexivity); exact A3|]. split; auto. split; auto.
    assert (LM : zlen (t0 ++ [y]) = zlen t) by (rewrite zlen_app; change (zlen [y]) with 1; lia). split; auto. rewrite ET in HB. apply bytes_app in HB. destruct HB as [HB1 HB2]. apply bytes_cons in HB2. destruct HB2 as [HB2 _].
    assert (MK : 0 <= ecs_lsb_mask s). { unfold ecs_lsb_mask, u8. destruct (s mod 8 =? 0); [lia|]. apply Z.mod_pos_bound. lia. }
    split; [apply bytes_app; split; [auto|apply bytes_cons; split; [apply land_byte; auto|constructor]]|].
    intros k Hk. rewrite LM in Hk. unfold abit. rewrite ET. destruct (Z_lt_le_dec (k / 8) (zlen t0)) as [L|L].
    + rewrite !zget_app_l by auto. replace (k <? s) with true; [reflexivity|]. unfold ecs_len in HL. lia.
    + assert (k / 8 = zlen t0) by lia. rewrite !zget_app_r by lia. replace (k / 8 - zlen t0) with 0 by lia. rewrite !zget_0. unfold y. rewrite Z.land_spec, mask_bits by lia. rewrite andb_comm. f_equal. unfold ecs_len in HL. destruct (s mod 8 =? 0) eqn:E8; lia.
  - cbn [rbind andb]. assert (zlen t = 0) by lia. assert (t = []) by (destruct t; [auto|rewrite zlen_cons in H; pose proof (zlen_nonneg t); lia]). subst t. destruct (clear_at dst pre post HD RO) as (d3 & E3 & A3 & R3). rewrite (at_avail _ _ _ HD), E3. cbn [rbind]. exists d3, src, []. split; auto. rewrite zlen_nil, Z.sub_0_r. cbn [app]. split; auto. split; auto. rewrite app_nil_r. split; auto. split; auto. split; [constructor|]. intros k Hk. rewrite zlen_nil in Hk. lia.
Qed.
Lemma write_addr_short : forall dst src pre post spre rest s, at_ dst pre post -> at_ src spre rest -> 0 <= s < 256 -> zlen rest < ecs_len s \/ zlen post < ecs_len s -> exists dst' src', ecs_write_address dst src s = Ok (dst', src') /\ w_err dst' <> KNOT_EOK /\ w_buf dst' = w_buf dst.
Proof.
  intros dst src pre post spre rest s HD HS Hs HF. pose proof (zlen_nonneg rest). pose proof (zlen_nonneg post). unfold ecs_write_address, ecs_prefix_size. fold (ecs_len s). cbv zeta. assert (ecs_len s > 0) by lia. assert (ecs_len s < 2 ^ 64) by (unfold ecs_len; lia). replace (ecs_len s >? 0) with true by lia.
  destruct (c48_copy_fails dst src pre post spre rest (ecs_len s) HD HS) as (e & -> & He); [lia|tauto|]. cbn [rbind andb set_err w_err]. replace (e =? KNOT_EOK) with false by (symmetry; apply Z.eqb_neq; auto). cbn [negb]. eexists _, _. split; [reflexivity|]. auto.
Qed.
Lemma write_addr_err : forall dst src pre post s, at_ dst pre post -> w_ro dst = false -> w_err src <> KNOT_EOK -> 0 <= s -> exists dst' src', ecs_write_address dst src s = Ok (dst', src') /\ w_err src' <> KNOT_EOK.
Proof.
  intros dst src pre post s HD RO HS Hs. unfold ecs_write_address, ecs_prefix_size. fold (ecs_len s). cbv zeta. destruct (ecs_len s >? 0) eqn:E; cbn [andb].
  - unfold wire_copy. pose proof HD as (_ & _ & E1 & _). rewrite E1. change (KNOT_EOK =? KNOT_EOK) with true. replace (ecs_len s =? 0) with false by lia. cbn [negb orb]. unfold wire_can_read. replace (w_err src =? KNOT_EOK) with false by (symmetry; apply Z.eqb_neq; auto). cbn [negb]. replace (w_err src =? KNOT_EOK) with false by (symmetry; apply Z.eqb_neq; auto). cbn [negb rbind set_err w_err]. change (KNOT_EFEWDATA =? KNOT_EOK) with false. cbn [negb]. eexists _, _. split; [reflexivity|]. auto.
  - cbn [rbind]. destruct (clear_at dst pre post HD RO) as (d3 & E3 & _). rewrite (at_avail _ _ _ HD), E3. cbn [rbind]. eexists _, _. split; [reflexivity|]. auto.
Qed.
Lemma valid_iff : forall e, 0 <= e_source e -> 0 <= e_scope e -> (ecs_is_valid e = true <-> ecs_ok (e_family e) (e_source e) (e_scope e)).
Proof.
  intros e H1 H2. unfold ecs_is_valid, ecs_size_by_iana, ecs_ok. destruct (e_family e =? 1) eqn:E1; [|destruct (e_family e =? 2) eqn:E2]; split; intros H; try discriminate; lia.
Qed.
Lemma ecs_len_bound : forall f s c, ecs_ok f s c -> 0 <= ecs_len s <= 16 /\ (f = 1 -> ecs_len s <= 4).
Proof. unfold ecs_ok, ecs_len. intros. lia. Qed.
Lemma be1 : forall v, byte v -> be 1 v = [v].
Proof. unfold byte. intros. cbn [be]. change (256 ^ Z.of_nat 0) with 1. rewrite Z.div_1_r, Z.mod_small by lia. reflexivity. Qed.
Lemma prefix_zfirstn : forall s m n a, prefix_of s m (zfirstn n a) -> zlen m = n -> 0 <= n <= zlen a -> prefix_of s m a.
Proof. intros s m n a H L Hn k Hk. rewrite H by auto. f_equal. unfold abit. rewrite zget_zfirstn by lia. auto. Qed.
(** Writing an option into a buffer with room: the family, the lengths, and the address cut to its prefix. *)
Theorem c49_ecs_write : forall e buf, bytes (e_addr e) -> zlen (e_addr e) = 16 -> ecs_ok (e_family e) (e_source e) (e_scope e) -> zlen buf < 65536 ->
  client_subnet_size e = 4 + ecs_len (e_source e) /\
  (client_subnet_size e <= zlen buf -> exists m, client_subnet_write buf e = Ok (KNOT_EOK, be 2 (e_family e) ++ [e_source e; e_scope e] ++ m ++ zeros (zlen buf - client_subnet_size e)) /\ zlen m = ecs_len (e_source e) /\ bytes m /\ prefix_of (e_source e) m (e_addr e)) /\
  (zlen buf < client_subnet_size e -> exists r b, client_subnet_write buf e = Ok (r, b) /\ r <> KNOT_EOK /\ zlen b = zlen buf).
Proof.
  intros e buf HB HA HV HL. assert (V : ecs_is_valid e = true) by (apply valid_iff; auto; apply HV). assert (SZ : client_subnet_size e = 4 + ecs_len (e_source e)) by (unfold client_subnet_size; rewrite V; cbn [negb]; unfold ecs_prefix_size, ecs_len; lia). split; auto. rewrite SZ.
  pose proof (ecs_len_bound _ _ _ HV) as [LB _]. set (n := ecs_len (e_source e)) in *. assert (S1 : byte (e_source e)) by (unfold byte, ecs_ok in *; lia). assert (S2 : byte (e_scope e)) by (unfold byte, ecs_ok in *; lia).
  assert (SRC : at_ (wire_init_const (e_addr e)) [] (zfirstn n (e_addr e) ++ zskipn n (e_addr e))) by (rewrite zfirstn_skipn; apply at_init_const; lia).
  assert (HB1 : bytes (zfirstn n (e_addr e))) by (rewrite <- (zfirstn_skipn _ (e_addr e) n) in HB; apply bytes_app in HB; tauto).
  assert (LN : zlen (zfirstn n (e_addr e)) = n) by (apply zlen_zfirstn; lia).
  unfold client_subnet_write. rewrite V. cbn [negb]. split; intros HR.
  - unfold wire_write_u16, wire_write_u8. rewrite !be1 by auto. destruct (wr (wire_init buf) [] buf (be 2 (e_family e))) as (w1 & -> & A1 & R1); [apply at_init; lia|reflexivity|rewrite zlen_be2; lia|]. cbn [rbind app] in *. rewrite zlen_be2 in A1. assert (L1 : zlen (zskipn 2 buf) = zlen buf - 2) by (apply zlen_zskipn; lia).
    destruct (wr w1 _ _ [e_source e] A1 R1) as (w2 & -> & A2 & R2); [change (zlen [e_source e]) with 1; lia|]. cbn [rbind]. change (zlen [e_source e]) with 1 in A2. assert (L2 : zlen (zskipn 1 (zskipn 2 buf)) = zlen buf - 3) by (rewrite zlen_zskipn; lia).
    destruct (wr w2 _ _ [e_scope e] A2 R2) as (w3 & -> & A3 & R3); [change (zlen [e_scope e]) with 1; lia|]. cbn [rbind]. change (zlen [e_scope e]) with 1 in A3. assert (L3 : zlen (zskipn 1 (zskipn 1 (zskipn 2 buf))) = zlen buf - 4) by (rewrite zlen_zskipn; lia).
    destruct (write_addr w3 _ _ _ _ _ _ (e_source e) A3 R3 SRC HB1) as (w4 & s4 & m & -> & A4 & R4 & _ & LM & BM & PM); [apply HV|exact LN|lia|]. cbn [rbind]. destruct A4 as (B4 & _ & E4 & _). rewrite E4, B4, L3, LN. exists m. split; [|split; [lia|split; [auto|apply (prefix_zfirstn _ _ n); auto; lia]]].
    f_equal. f_equal. rewrite app_nil_r, <- !app_assoc. replace (zlen buf - 4 - n) with (zlen buf - (4 + n)) by lia. reflexivity.
  - assert (RW : forall w pre post d, at_ w pre post -> w_ro w = false -> exists w', wire_write w d = Ok w' /\ w_ro w' = false /\ zlen (w_buf w') = zlen (w_buf w) /\ (if zlen d <=? zlen post then at_ w' (pre ++ d) (zskipn (zlen d) post) else w_err w' = KNOT_ESPACE)).
    { intros w pre post d A R. destruct (c48_write w pre post d A R) as [W1 W2]. destruct (zlen d <=? zlen post) eqn:E.
      - destruct (W1 ltac:(lia)) as (w' & E' & A' & R'). exists w'. split; auto. split; auto. split; auto. destruct A as (-> & _). destruct A' as (-> & _). pose proof (zlen_nonneg d). rewrite !zlen_app, zlen_zskipn by lia. lia.
      - rewrite W2 by lia. eexists. split; [reflexivity|]. auto. }
    assert (ERRW : forall w d, w_err w = KNOT_ESPACE -> wire_write w d = Ok w) by (intros w d X; unfold wire_write; rewrite X; reflexivity).
    assert (ERRA : forall w, w_err w = KNOT_ESPACE -> exists w' s', ecs_write_address w (wire_init_const (e_addr e)) (e_source e) = Ok (w', s') /\ w_err w' = KNOT_ESPACE /\ w_buf w' = w_buf w).
    { intros w X. unfold ecs_write_address. cbv zeta. destruct (ecs_prefix_size (e_source e) >? 0); cbn [andb].
      - unfold wire_copy. rewrite X. replace ((_ =? 0) || negb (KNOT_ESPACE =? KNOT_EOK)) with true by (cbn; rewrite orb_true_r; auto). cbn [rbind]. rewrite X. change (KNOT_ESPACE =? KNOT_EOK) with false. cbn [negb]. eexists _, _. split; [reflexivity|auto].
      - cbn [rbind]. unfold wire_clear. rewrite X. change (KNOT_ESPACE =? KNOT_EOK) with false. cbn [negb rbind]. eexists _, _. split; [reflexivity|auto]. }
    unfold wire_write_u16, wire_write_u8. rewrite !be1 by auto. destruct (RW (wire_init buf) [] buf (be 2 (e_family e))) as (w1 & -> & R1 & Z1 & A1); [apply at_init; lia|reflexivity|]. cbn [rbind w_buf wire_init app] in *. rewrite zlen_be2 in A1.
    assert (FIN : forall w, w_err w = KNOT_ESPACE -> zlen (w_buf w) = zlen buf -> exists r b, (let* (w0, _) := ecs_write_address w (wire_init_const (e_addr e)) (e_source e) in Ok (w_err w0, w_buf w0)) = Ok (r, b) /\ r <> KNOT_EOK /\ zlen b = zlen buf).
    { intros w X1 X2. destruct (ERRA w X1) as (w' & s' & -> & X3 & X4). cbn [rbind]. rewrite X3, X4. eexists _, _. split; [reflexivity|]. split; [discriminate|auto]. }
    destruct (2 <=? zlen buf) eqn:G1; [|rewrite (ERRW w1) by auto; cbn [rbind]; rewrite (ERRW w1) by auto; cbn [rbind]; apply FIN; auto].
    destruct (RW w1 _ _ [e_source e] A1 R1) as (w2 & -> & R2 & Z2 & A2). cbn [rbind]. change (zlen [e_source e]) with 1 in A2. assert (L1 : zlen (zskipn 2 buf) = zlen buf - 2) by (apply zlen_zskipn; lia).
    destruct (1 <=? zlen (zskipn 2 buf)) eqn:G2; [|rewrite (ERRW w2) by auto; cbn [rbind]; apply FIN; auto; lia].
    destruct (RW w2 _ _ [e_scope e] A2 R2) as (w3 & -> & R3 & Z3 & A3). cbn [rbind]. change (zlen [e_scope e]) with 1 in A3. assert (L2 : zlen (zskipn 1 (zskipn 2 buf)) = zlen buf - 3) by (rewrite zlen_zskipn; lia).
    destruct (1 <=? zlen (zskipn 1 (zskipn 2 buf))) eqn:G3; [|apply FIN; auto; lia].
    destruct (write_addr_short w3 _ _ _ _ _ (e_source e) A3 SRC) as (w4 & s4 & -> & E4 & B4); [exact S1|right; fold n; rewrite zlen_zskipn; lia|]. cbn [rbind]. eexists _, _. split; [reflexivity|]. rewrite B4. split; auto. lia.
Qed.
(** An invalid structure is refused. *)
Theorem c49_ecs_write_invalid : forall e buf, 0 <= e_source e -> 0 <= e_scope e -> ~ ecs_ok (e_family e) (e_source e) (e_scope e) ->
  client_subnet_size e = 0 /\ client_subnet_write buf e = Ok (KNOT_EINVAL, buf).
Proof.
  intros e buf H1 H2 H. assert (V : ecs_is_valid e = false) by (apply not_true_iff_false; rewrite valid_iff; auto). unfold client_subnet_size, client_subnet_write. rewrite V. auto.
Qed.
(** Reading: exactly the options with a known family, lengths within the address and all bytes of the prefix are
    accepted; bits behind the prefix are cleared. Bytes behind the address are ignored. *)
Definition ecs_wire (opt : list Z) (family source scope : Z) (t : list Z) : Prop :=
  exists rest, opt = be 2 family ++ [source; scope] ++ t ++ rest /\ 0 <= family < 65536 /\ zlen t = ecs_len source /\ ecs_ok family source scope.
Theorem c49_ecs_parse : forall opt, bytes opt -> zlen opt < 65536 ->
  (forall family source scope t, ecs_wire opt family source scope t -> exists a, client_subnet_parse opt = Ok (KNOT_EOK, mkecs family source scope a) /\ zlen a = 16 /\ bytes a /\ prefix_of source a t) /\
  ((~ exists family source scope t, ecs_wire opt family source scope t) -> exists e, client_subnet_parse opt = Ok (KNOT_EMALF, e)).
Proof.
  intros opt HB HL. unfold client_subnet_parse. cbv zeta. pose proof (at_init_const opt ltac:(lia)) as A0.
  assert (AD : at_ (wire_init (zeros 16)) [] (zeros 16)) by (apply at_init; reflexivity).
  assert (BAD : forall w s f c, w_err w <> KNOT_EOK -> 0 <= s -> exists e, (let* (addr, w) := ecs_write_address (wire_init (zeros 16)) w s in if negb (w_err addr =? KNOT_EOK) || negb (w_err w =? KNOT_EOK) then Ok (KNOT_EMALF, mkecs 0 0 0 []) else if negb (ecs_is_valid (mkecs f s c (w_buf addr))) then Ok (KNOT_EMALF, mkecs 0 0 0 []) else Ok (KNOT_EOK, mkecs f s c (w_buf addr))) = Ok (KNOT_EMALF, e)).
  { intros w s f c He Hs. destruct (write_addr_err (wire_init (zeros 16)) w [] (zeros 16) s AD eq_refl He Hs) as (d' & s' & -> & E'). cbn [rbind]. replace (w_err s' =? KNOT_EOK) with false by (symmetry; apply Z.eqb_neq; auto). cbn [negb]. rewrite orb_true_r. eexists. reflexivity. }
  assert (R8 : forall w pre post, at_ w pre post -> wire_read_u8 w = match post with x :: _ => Ok (x, set_pos w (w_pos w + 1)) | [] => Ok (0, set_err w KNOT_EFEWDATA) end).
  { intros w pre [|x post] A.
    - unfold wire_read_u8. rewrite (c48_read_past_end w pre [] 1 A) by (rewrite zlen_nil; lia). reflexivity.
    - destruct (at_wf _ _ _ A) as [W SZ]. destruct A as (A1 & A2 & A3 & A4). unfold wire_read_u8, wire_read, wire_can_read. rewrite A3. change (KNOT_EOK =? KNOT_EOK) with true. cbn [negb]. rewrite wf_avail, SZ, A2 by auto. rewrite zlen_cons. pose proof (zlen_nonneg post). pose proof (zlen_nonneg pre). replace (zlen pre + (1 + zlen post) - zlen pre <? 1) with false by lia. change (KNOT_EOK =? KNOT_EOK) with true. cbn [negb]. rewrite mem_read_ok by (rewrite ?A1, ?zlen_app, ?zlen_cons; lia). cbn [rbind]. rewrite A1, zskipn_app_exact. reflexivity. }
  destruct (Z_lt_le_dec (zlen opt) 2) as [S2|S2].
  { split; [intros f s c t (rest & -> & _); exfalso; rewrite zlen_app, zlen_be2 in S2; pose proof (zlen_nonneg ([s; c] ++ t ++ rest)); lia|]. intros _. rewrite (rd_short _ _ _ A0 S2). cbn [rbind]. rewrite rd8_err by (try discriminate; apply (at_wf _ _ _ A0)). cbn [rbind]. rewrite rd8_err by (try discriminate; apply (at_wf _ _ _ A0)). cbn [rbind]. apply BAD; [discriminate|lia]. }
  destruct (head2 opt HB S2) as (f & r & -> & Hf & HR). destruct (rd16 _ _ _ _ A0 (zlen_be2 f)) as (w1 & -> & A1). cbn [rbind app]. rewrite (unbe_be2 f) by auto. rewrite (R8 _ _ _ A1).
  assert (INV : forall f' s c t, ecs_wire (be 2 f ++ r) f' s c t -> f' = f /\ exists rest, r = [s; c] ++ t ++ rest /\ zlen t = ecs_len s /\ ecs_ok f s c).
  { intros f' s c t (rest & E & F & L & O). destruct (app_inj_len _ _ _ _ ltac:(rewrite !zlen_be2; auto) E) as [E1 E2]. assert (f' = f) by (rewrite <- (unbe_be2 f), <- (unbe_be2 f') by auto; congruence). subst f'. split; auto. exists rest. auto. }
  destruct r as [|s r]. { split; [intros f' s c t H; destruct (INV _ _ _ _ H) as (_ & rest & E & _); discriminate|]. intros _. cbn [rbind]. rewrite rd8_err by (try discriminate; apply (at_wf _ _ _ A1)). cbn [rbind]. apply BAD; [discriminate|lia]. }
  cbn [rbind]. apply bytes_cons in HR. destruct HR as [Hs HR]. set (w2 := set_pos w1 (w_pos w1 + 1)). assert (A2 : at_ w2 (be 2 f ++ [s]) r). { destruct A1 as (B1 & B2 & B3 & B4). unfold at_, w2. cbn [set_pos w_buf w_pos w_err]. cbn [app] in *. rewrite B1, B2, <- app_assoc, zlen_app, zlen_cons, zlen_nil. split; auto. }
  rewrite (R8 _ _ _ A2). destruct r as [|c r]. { split; [intros f' s' c t H; destruct (INV _ _ _ _ H) as (_ & rest & E & _); discriminate|]. intros _. cbn [rbind]. apply BAD; [discriminate|apply Hs]. }
  cbn [rbind]. apply bytes_cons in HR. destruct HR as [Hc HR]. set (w3 := set_pos w2 (w_pos w2 + 1)). assert (A3 : at_ w3 (be 2 f ++ [s; c]) r). { destruct A2 as (B1 & B2 & B3 & B4). unfold at_, w3. cbn [set_pos w_buf w_pos w_err]. rewrite B1, B2, <- !app_assoc, !zlen_app, !zlen_cons, zlen_nil. split; auto. split; [lia|]. split; auto. rewrite ?zlen_app, ?zlen_cons, ?zlen_nil in *. lia. }
  unfold byte in Hs, Hc. destruct (Z_lt_le_dec (zlen r) (ecs_len s)) as [LR|LR].
  { split; [intros f' s' c' t H; destruct (INV _ _ _ _ H) as (_ & rest & E & L & _); injection E as <- <- ->; rewrite zlen_app in LR; pose proof (zlen_nonneg rest); lia|]. intros _. destruct (write_addr_short _ _ _ _ _ _ s AD A3 ltac:(lia) (or_introl LR)) as (d' & s' & -> & E' & _). cbn [rbind]. replace (w_err d' =? KNOT_EOK) with false by (symmetry; apply Z.eqb_neq; auto). cbn [negb orb]. eexists. reflexivity. }
  destruct (Z_lt_le_dec 16 (ecs_len s)) as [L16|L16].
  { assert (NO : ~ ecs_ok f s c) by (intros X; apply ecs_len_bound in X; lia). split; [intros f' s' c' t H; destruct (INV _ _ _ _ H) as (_ & rest & E & L & O); injection E as <- <- ->; contradiction|]. intros _. destruct (write_addr_short _ _ _ _ _ _ s AD A3 ltac:(lia)) as (d' & s' & -> & E' & _); [right; change (zlen (zeros 16)) with 16; lia|]. cbn [rbind]. replace (w_err d' =? KNOT_EOK) with false by (symmetry; apply Z.eqb_neq; auto). cbn [negb orb]. eexists. reflexivity. }
  assert (L0 : 0 <= ecs_len s) by (unfold ecs_len; lia). set (t := zfirstn (ecs_len s) r). assert (LT : zlen t = ecs_len s) by (apply zlen_zfirstn; lia). assert (BT : bytes t) by (rewrite <- (zfirstn_skipn _ r (ecs_len s)) in HR; apply bytes_app in HR; tauto).
  rewrite <- (zfirstn_skipn _ r (ecs_len s)) in A3. fold t in A3. destruct (write_addr _ _ _ _ _ _ _ s AD eq_refl A3 BT) as (d' & s' & m & -> & A4 & _ & A5 & LM & BM & PM); [lia|auto|change (zlen (zeros 16)) with 16; lia|]. cbn [rbind]. destruct A4 as (B4 & _ & E4 & _). destruct A5 as (_ & _ & E5 & _). rewrite E4, E5. change (KNOT_EOK =? KNOT_EOK) with true. cbn [negb orb]. rewrite B4, app_nil_r. cbn [app]. change (zlen (zeros 16)) with 16.
  set (a := m ++ zeros (16 - zlen t)). assert (PA : prefix_of s a t). { intros k Hk. destruct (Z_lt_le_dec (k / 8) (zlen m)) as [L|L].
    - rewrite <- PM by lia. unfold abit, a. rewrite zget_app_l by auto. auto.
    - unfold abit, a. rewrite zget_app_r by auto. replace (zget t (k / 8)) with (@None Z) by (symmetry; apply zget_none; lia). rewrite andb_false_r. destruct (zget (zeros (16 - zlen t)) (k / 8 - zlen m)) eqn:EZ; auto. apply zget_In in EZ. unfold zeros in EZ. apply repeat_spec in EZ. subst. apply Z.bits_0. }
  assert (LA : zlen a = 16) by (unfold a; rewrite zlen_app, zlen_zeros; lia).
  assert (BA : bytes a). { apply bytes_app. split; auto. apply Forall_forall. intros x Hx. unfold zeros in Hx. apply repeat_spec in Hx. subst. unfold byte. lia. }
  destruct (ecs_is_valid (mkecs f s c a)) eqn:V; cbn [negb].
  - apply valid_iff in V; cbn [e_source e_scope e_family] in *; try lia. split; [|intros X; exfalso; apply X; exists f, s, c, t, (zskipn (ecs_len s) r); split; [unfold t; rewrite zfirstn_skipn; auto|split; auto]].
    intros f' s'' c' t' H; destruct (INV _ _ _ _ H) as (-> & rest & E & L & O); injection E as <- <- E. assert (t' = t) as -> by (unfold t; rewrite E, <- L, zfirstn_app_exact; auto). exists a. auto.
  - split; [|intros _; eexists; reflexivity]. intros f' s'' c' t' H; destruct (INV _ _ _ _ H) as (-> & rest & E & L & O); injection E as <- <- E. exfalso. assert (X : ecs_is_valid (mkecs f s c a) = true) by (apply valid_iff; cbn [e_source e_scope e_family]; auto; lia). congruence.
Qed.
(** What was written is read back: the address up to the prefix. *)
Theorem c49_ecs_round_trip : forall e, bytes (e_addr e) -> zlen (e_addr e) = 16 -> ecs_ok (e_family e) (e_source e) (e_scope e) ->
  exists b a, client_subnet_write (zeros (client_subnet_size e)) e = Ok (KNOT_EOK, b) /\ client_subnet_parse b = Ok (KNOT_EOK, mkecs (e_family e) (e_source e) (e_scope e) a) /\ zlen a = 16 /\ prefix_of (e_source e) a (e_addr e).
Proof.
  intros e HB HA HV. pose proof (ecs_len_bound _ _ _ HV) as [LB _]. assert (SZ : client_subnet_size e = 4 + ecs_len (e_source e)) by (apply (c49_ecs_write e []); auto; rewrite zlen_nil; lia). rewrite SZ. set (n := ecs_len (e_source e)) in *. assert (LZ : zlen (zeros (4 + n)) = 4 + n) by (apply zlen_zeros; lia).
  destruct (c49_ecs_write e (zeros (4 + n)) HB HA HV) as (_ & W & _); [lia|]. destruct W as (m & EW & LM & BM & PM); [fold n in SZ; lia|]. rewrite EW. rewrite LZ, SZ, Z.sub_diag. change (zeros 0) with (@nil Z).
  set (o := be 2 (e_family e) ++ [e_source e; e_scope e] ++ m ++ []). assert (BO : bytes o). { unfold ecs_ok in HV. apply bytes_app. split; [apply be_bytes|]. apply bytes_cons. split; [unfold byte; lia|]. apply bytes_cons. split; [unfold byte; lia|]. apply bytes_app. split; [auto|constructor]. }
  destruct (c49_ecs_parse o BO) as [P _]. { unfold o. rewrite !zlen_app, zlen_be2, !zlen_cons, !zlen_nil. lia. }
  destruct (P (e_family e) (e_source e) (e_scope e) m) as (a & EP & LA & _ & PA). { exists []. split; auto. split; [unfold ecs_ok in HV; lia|]. split; auto. }
  exists o, a. split; [reflexivity|]. split; [exact EP|]. split; auto. intros k Hk. rewrite PA by auto. destruct (k <? e_source e) eqn:EK; auto. cbn [andb]. rewrite PM by (rewrite LM; unfold n, ecs_len; lia). rewrite EK. auto.
Qed.
(** The address as the program sees it, and the structure made from an address. *)
Theorem c49_ecs_get_addr : forall e size, bytes (e_addr e) -> zlen (e_addr e) = 16 -> ecs_ok (e_family e) (e_source e) (e_scope e) -> size = (if e_family e =? 1 then 4 else 16) ->
  exists a, client_subnet_get_addr e = Ok (KNOT_EOK, a) /\ zlen a = size /\ prefix_of (e_source e) a (e_addr e).
Proof.
  intros e size HB HA HV HS. pose proof (ecs_len_bound _ _ _ HV) as [LB L4]. assert (SB : 0 <= size <= 16 /\ ecs_len (e_source e) <= size) by (subst size; destruct (e_family e =? 1) eqn:E; [|unfold ecs_ok in HV]; lia).
  unfold client_subnet_get_addr. replace (ecs_size_by_iana (e_family e)) with (Some size). 2:{ subst size. unfold ecs_size_by_iana, ecs_ok in *. destruct (e_family e =? 1) eqn:E; auto. replace (e_family e =? 2) with true by lia. auto. }
  set (n := ecs_len (e_source e)) in *. assert (SRC : at_ (wire_init_const (e_addr e)) [] (zfirstn n (e_addr e) ++ zskipn n (e_addr e))) by (rewrite zfirstn_skipn; apply at_init_const; lia). assert (HB1 : bytes (zfirstn n (e_addr e))) by (rewrite <- (zfirstn_skipn _ (e_addr e) n) in HB; apply bytes_app in HB; tauto). assert (LN : zlen (zfirstn n (e_addr e)) = n) by (apply zlen_zfirstn; lia).
  assert (LZ : zlen (zeros size) = size) by (apply zlen_zeros; lia). assert (AD : at_ (wire_init (zeros size)) [] (zeros size)) by (apply at_init; lia).
  destruct (write_addr _ _ _ _ _ _ _ (e_source e) AD eq_refl SRC HB1) as (d' & s' & m & -> & A4 & _ & A5 & LM & BM & PM); [apply HV|auto|lia|]. cbn [rbind]. destruct A4 as (B4 & _ & E4 & _). rewrite E4. change (KNOT_EOK =? KNOT_EOK) with true. cbn [negb]. eexists. split; [reflexivity|]. rewrite B4, app_nil_r. cbn [app]. split; [rewrite zlen_app, zlen_zeros; lia|].
  intros k Hk. destruct (Z_lt_le_dec (k / 8) (zlen m)) as [L|L].
  - transitivity (abit m k); [unfold abit; rewrite zget_app_l by auto; auto|]. apply (prefix_zfirstn _ _ n) in PM; [|lia|lia]. apply PM. lia.
  - replace (k <? e_source e) with false by (unfold n, ecs_len in *; lia). unfold abit. rewrite zget_app_r by auto. destruct (zget (zeros _) (k / 8 - zlen m)) eqn:EZ; auto. apply zget_In in EZ. unfold zeros in EZ. apply repeat_spec in EZ. subst. apply Z.bits_0.
Qed.
Lemma prefix_full : forall s t a, prefix_of s t a -> bytes t -> bytes a -> zlen t = zlen a -> s = 8 * zlen a -> t = a.
Proof.
  intros s t a HP HT HA HL HS. apply zget_ext; auto. intros i Hi. destruct (zget_in_range t i) as [x Hx]; [auto|]. destruct (zget_in_range a i) as [y Hy]; [lia|]. rewrite Hx, Hy. f_equal. apply (zget_byte _ _ _ HT) in Hx as Bx. apply (zget_byte _ _ _ HA) in Hy as By. unfold byte in *.
  apply Z.bits_inj'. intros n Hn. destruct (Z_lt_le_dec n 8) as [L|L].
  - specialize (HP (8 * i + (7 - n)) ltac:(lia)). unfold abit in HP. replace ((8 * i + (7 - n)) / 8) with i in HP by lia. replace (7 - (8 * i + (7 - n)) mod 8) with n in HP by lia. rewrite Hx, Hy in HP. rewrite HP. replace (_ <? s) with true by lia. auto.
  - assert (G : forall z, 0 <= z < 256 -> Z.testbit z n = false) by (intros z Hz; destruct (Z.eq_dec z 0) as [->|]; [apply Z.bits_0|apply Z.bits_above_log2; [lia|]; assert (Z.log2 z < 8) by (apply Z.log2_lt_pow2; lia); lia]). rewrite !G by auto. auto.
Qed.
Theorem c49_ecs_set_addr : forall family size raw, family = 1 /\ size = 4 \/ family = 2 /\ size = 16 -> bytes raw -> zlen raw = size ->
  exists a, client_subnet_set_addr family raw = Ok (KNOT_EOK, mkecs family (8 * size) 0 a) /\ zlen a = 16 /\ bytes a /\ client_subnet_get_addr (mkecs family (8 * size) 0 a) = Ok (KNOT_EOK, raw).
Proof.
  intros family size raw HF HB HL. unfold client_subnet_set_addr. replace (ecs_size_by_iana family) with (Some size) by (destruct HF as [[-> ->]|[-> ->]]; reflexivity). rewrite zfirstn_all by lia.
  assert (SRC : at_ (wire_init_const raw) [] (raw ++ [])) by (rewrite app_nil_r; apply at_init_const; lia). assert (AD : at_ (wire_init (zeros 16)) [] (zeros 16)) by (apply at_init; reflexivity).
  destruct (write_addr _ _ _ _ _ _ _ (size * 8) AD eq_refl SRC HB) as (d' & s' & m & -> & A4 & _ & A5 & LM & BM & PM); [lia|unfold ecs_len; lia|change (zlen (zeros 16)) with 16; lia|]. cbn [rbind]. destruct A4 as (B4 & _ & E4 & _). rewrite E4. change (KNOT_EOK =? KNOT_EOK) with true. cbn [negb]. rewrite (Z.mul_comm size 8).
  assert (m = raw) as -> by (apply (prefix_full (size * 8)); auto; lia). rewrite B4, app_nil_r. cbn [app]. change (zlen (zeros 16)) with 16. set (a := raw ++ zeros (16 - zlen raw)). exists a. split; auto. assert (LA : zlen a = 16) by (unfold a; rewrite zlen_app, zlen_zeros; lia). split; auto.
  assert (BA : bytes a). { apply bytes_app. split; auto. apply Forall_forall. intros x Hx. unfold zeros in Hx. apply repeat_spec in Hx. subst. unfold byte. lia. } split; auto.
  assert (HV : ecs_ok family (8 * size) 0) by (unfold ecs_ok; lia). destruct (c49_ecs_get_addr (mkecs family (8 * size) 0 a) size BA LA HV) as (b & EB & LB & PB); [cbn [e_family]; destruct HF as [[-> ->]|[-> ->]]; reflexivity|]. rewrite EB. cbn [e_addr e_source] in PB. do 2 f_equal.
  assert (BB : bytes b). { unfold client_subnet_get_addr in EB. cbn [e_family e_addr e_source] in EB. replace (ecs_size_by_iana family) with (Some size) in EB by (destruct HF as [[-> ->]|[-> ->]]; reflexivity).
    assert (SRC2 : at_ (wire_init_const a) [] (raw ++ zeros (16 - zlen raw))) by (fold a; apply at_init_const; lia). assert (LZ : zlen (zeros size) = size) by (apply zlen_zeros; lia). assert (AD2 : at_ (wire_init (zeros size)) [] (zeros size)) by (apply at_init; lia).
    destruct (write_addr _ _ _ _ _ _ _ (8 * size) AD2 eq_refl SRC2 HB) as (d2 & s2 & m2 & E2 & A2 & _ & _ & L2 & B2 & _); [lia|unfold ecs_len; lia|lia|]. rewrite E2 in EB. cbn [rbind] in EB. destruct A2 as (B3 & _ & E3 & _). rewrite E3 in EB. change (KNOT_EOK =? KNOT_EOK) with true in EB. cbn [negb] in EB. injection EB as <-. rewrite B3. apply bytes_app. split; [|constructor]. cbn [app]. apply bytes_app. split; auto. apply Forall_forall. intros x Hx. unfold zeros in Hx. apply repeat_spec in Hx. subst. unfold byte. lia. }
  apply (prefix_full (8 * size)); auto; try lia. intros k Hk. rewrite PB by auto. f_equal. unfold abit, a. rewrite zget_app_l by lia. auto.
Qed.

(** ** Keepalive *)
Theorem c49_keepalive : forall t, 0 <= t < 65536 ->
  exists b, keepalive_write (zeros (keepalive_size t)) t = Ok (KNOT_EOK, b) /\ keepalive_parse b = Ok (KNOT_EOK, t) /\ (t = 0 -> b = []) /\ (t > 0 -> b = be 2 t).
Proof.
  intros t Ht. unfold keepalive_size, keepalive_write. destruct (t >? 0) eqn:E.
  - replace (t =? 0) with false by lia. exists (be 2 t). split; [reflexivity|]. split; [|split; [lia|auto]]. unfold keepalive_parse. rewrite zlen_be2. change (2 >? 0) with true. cbv iota. destruct (rd16 (wire_init_const (be 2 t)) [] (be 2 t) []) as (w & -> & A); [rewrite app_nil_r; apply at_init_const; rewrite zlen_be2; lia|apply zlen_be2|]. cbn [rbind]. destruct A as (_ & _ & -> & _). rewrite unbe_be2 by auto. reflexivity.
  - assert (t = 0) as -> by lia. exists []. split; [reflexivity|]. split; [reflexivity|]. split; [auto|lia].
Qed.
Theorem c49_keepalive_parse : forall o, bytes o -> zlen o < 65536 ->
  keepalive_parse o = Ok (match o with [] => (KNOT_EOK, 0) | [_] => (KNOT_EMALF, 0) | a :: b :: _ => (KNOT_EOK, 256 * a + b) end).
Proof.
  intros o HB HL. unfold keepalive_parse. destruct o as [|a [|b r]]; [reflexivity|reflexivity|]. rewrite !zlen_cons in *. pose proof (zlen_nonneg r). replace (1 + (1 + zlen r) >? 0) with true by lia. destruct (rd16 (wire_init_const (a :: b :: r)) [] [a; b] r) as (w & -> & A); [change ([a; b] ++ r) with (a :: b :: r); apply at_init_const; rewrite !zlen_cons; lia|reflexivity|]. cbn [rbind]. destruct A as (_ & _ & -> & _). unfold unbe. cbn [fold_left]. change (KNOT_EOK =? KNOT_EOK) with true. cbn [negb]. do 2 f_equal. lia.
Qed.

(** ** Cookies: RFC 7873, section 4. A client cookie has 8 bytes, a server cookie none or 8 to 32. *)
Definition cookie_ok (cc sc : list Z) : Prop := zlen cc = 8 /\ (sc = [] \/ 8 <= zlen sc <= 32).
Lemma cookie_b : forall sc : list Z, sc = [] \/ 8 <= zlen sc <= 32 -> ((zlen sc =? 0) = true /\ sc = []) \/ ((zlen sc =? 0) = false /\ 8 <= zlen sc <= 32).
Proof. intros sc [->|H]; [left|right]; split; auto. lia. Qed.
Theorem c49_cookie_round_trip : forall cc sc, cookie_ok cc sc ->
  cookie_size cc sc = zlen cc + zlen sc /\ cookie_write (zeros (cookie_size cc sc)) cc sc = Ok (KNOT_EOK, cc ++ sc) /\ cookie_parse (cc ++ sc) = Ok (KNOT_EOK, cc, sc).
Proof.
  intros cc sc [HC HS]. assert (SZ : cookie_size cc sc = zlen cc + zlen sc). { unfold cookie_size. rewrite HC. change (8 =? 8) with true. cbn [negb]. destruct (cookie_b sc HS) as [[E ->]|[E L]]; [reflexivity|]. rewrite E. replace ((zlen sc <? 8) || (zlen sc >? 32)) with false by lia. auto. }
  split; auto. rewrite SZ. pose proof (zlen_nonneg sc). assert (LZ : zlen (zeros (zlen cc + zlen sc)) = zlen cc + zlen sc) by (apply zlen_zeros; lia). assert (SB : zlen sc <= 32) by (destruct HS as [->|HS]; [rewrite zlen_nil|]; lia). split.
  - unfold cookie_write. replace (zlen cc =? 8) with true by lia. cbn [negb]. set (n := zlen cc + zlen sc) in *. destruct (wr (wire_init (zeros n)) [] (zeros n) cc) as (w1 & -> & A1 & R1); [apply at_init; lia|reflexivity|lia|]. cbn [rbind app] in *. rewrite zskipn_zeros in A1 by lia. replace (n - zlen cc) with (zlen sc) in A1 by lia. assert (LZ2 : zlen (zeros (zlen sc)) = zlen sc) by (apply zlen_zeros; lia).
    destruct (cookie_b sc HS) as [[E ->]|[E L]].
    + change (zlen (@nil Z) >? 0) with false. cbv iota. destruct A1 as (B & _ & -> & _). rewrite B. reflexivity.
    + replace (zlen sc >? 0) with true by lia. replace ((zlen sc <? 8) || (zlen sc >? 32)) with false by lia. destruct (wr w1 _ _ sc A1 R1) as (w2 & -> & A2 & _); [lia|]. cbn [rbind]. destruct A2 as (B & _ & -> & _). rewrite B, zskipn_zeros, Z.sub_diag by lia. rewrite app_nil_r. reflexivity.
  - unfold cookie_parse. cbv zeta. rewrite zlen_app, HC. replace (negb (8 + zlen sc =? 8) && ((8 + zlen sc <? 8 + 8) || (8 + zlen sc >? 8 + 32))) with false by (destruct (cookie_b sc HS) as [[E ->]|[E L]]; [reflexivity|lia]). replace (8 + zlen sc <? 8) with false by lia. rewrite !mem_read_ok by (rewrite ?zlen_app; lia). cbn [rbind]. change (zskipn 0 (cc ++ sc)) with (cc ++ sc). rewrite <- HC. rewrite zfirstn_app_exact, zskipn_app_exact. rewrite zfirstn_all by lia. reflexivity.
Qed.
(** The reader accepts exactly the cookies of the permitted lengths, and splits them. *)
Theorem c49_cookie_parse : forall o,
  (forall cc sc, cookie_ok cc sc -> o = cc ++ sc -> cookie_parse o = Ok (KNOT_EOK, cc, sc)) /\
  ((~ exists cc sc, cookie_ok cc sc /\ o = cc ++ sc) -> cookie_parse o = Ok (KNOT_EMALF, [], [])).
Proof.
  intros o. split; [intros cc sc H ->; apply (c49_cookie_round_trip cc sc H)|]. intros H. unfold cookie_parse. cbv zeta. destruct (negb (zlen o =? 8) && _) eqn:E; auto. exfalso. apply H. exists (zfirstn 8 o), (zskipn 8 o). rewrite zfirstn_skipn. split; auto. split; [apply zlen_zfirstn; lia|]. destruct (zlen o =? 8) eqn:E8.
  - left. unfold zskipn. apply skipn_all2. unfold zlen in E8. lia.
  - right. rewrite zlen_zskipn; lia.
Qed.
Theorem c49_cookie_invalid : forall cc sc buf, ~ cookie_ok cc sc -> zlen buf < 2 ^ 63 -> cookie_size cc sc = 0 /\ exists b, cookie_write buf cc sc = Ok (KNOT_EINVAL, b).
Proof.
  intros cc sc buf H L. unfold cookie_size, cookie_write. destruct (zlen cc =? 8) eqn:E8; cbn [negb]; [|split; auto; exists buf; auto]. destruct (zlen sc =? 0) eqn:E0.
  - exfalso. apply H. split; [lia|]. left. destruct sc; auto. rewrite zlen_cons in E0. pose proof (zlen_nonneg sc). lia.
  - destruct ((zlen sc <? 8) || (zlen sc >? 32)) eqn:EL; [|exfalso; apply H; split; [lia|right; lia]]. split; auto. pose proof (zlen_nonneg sc). replace (zlen sc >? 0) with true by lia.
    destruct (c48_write (wire_init buf) [] buf cc (at_init buf L) eq_refl) as [W1 W2]. destruct (Z_le_gt_dec (zlen cc) (zlen buf)) as [G|G]; [destruct (W1 G) as (w & -> & _)|rewrite (W2 G)]; cbn [rbind]; eexists; reflexivity.
Qed.

(** ** Concrete cases *)
Example c49_case : exists o, edns_init 1232 0 0 = Ok o /\
  edns_add_option true o 8 [0; 1; 20; 0; 10; 1; 16] = Ok (KNOT_EOK, mkopt 1232 0 (Some (options [(8, [0; 1; 20; 0; 10; 1; 16])]))) /\
  client_subnet_parse [0; 1; 20; 0; 10; 1; 31] = Ok (KNOT_EOK, mkecs 1 20 0 [10; 1; 16; 0; 0; 0; 0; 0; 0; 0; 0; 0; 0; 0; 0; 0]) /\
  edns_alignment_size 100 11 128 = 13 /\ cookie_ok [1; 2; 3; 4; 5; 6; 7; 8] [].
Proof. eexists. split; [reflexivity|]. split; [reflexivity|]. split; [reflexivity|]. split; [reflexivity|]. split; [reflexivity|auto]. Qed.
Example c49_case_splits : splits [0; 3; 0; 1; 7; 0; 3; 0; 0; 9] [(3, [7]); (3, [])] [9].
Proof.
  split; [reflexivity|]. split.
  - constructor; [split; [cbn; lia|split; [apply bytes_cons; split; [unfold byte; lia|constructor]|reflexivity]]|]. constructor; [split; [cbn; lia|split; [constructor|reflexivity]]|constructor].
  - right. split; [discriminate|]. intros o rest Ho E. apply (f_equal zlen) in E. rewrite zlen_app, zlen_opt in E. change (zlen [9]) with 1 in E. pose proof (zlen_nonneg (snd o)). pose proof (zlen_nonneg rest). lia.
Qed.
Print Assumptions c49_get. Print Assumptions c49_options. Print Assumptions c49_add_get. Print Assumptions c49_padding.
Print Assumptions c49_ecs_parse. Print Assumptions c49_ecs_round_trip. Print Assumptions c49_cookie_parse.
