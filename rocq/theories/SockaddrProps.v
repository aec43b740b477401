(** C54: matching of addresses. *)
From Verif Require Import Base WireModel WireProofs DnameModel DnameProofs2 SockaddrModel.

(** ** Specification: an address is a number of 32 or 128 bits *)
Definition addr_ok (s : sockaddr) : Prop :=
  match s with
  | SIn4 a p => bytes a /\ zlen a = 4 /\ bytes p /\ zlen p = 2
  | SIn6 a p => bytes a /\ zlen a = 16 /\ bytes p /\ zlen p = 2
  | SUnix p => bytes p /\ ~ In 0 p
  | SUnspec => True
  | SOther f => ~ In f [0; 1; 2; 10]
  end.
Definition ipnum (s : sockaddr) : Z := match s with SIn4 a _ | SIn6 a _ => unbe a | _ => 0 end.
Definition ipbits (s : sockaddr) : Z := match s with SIn4 _ _ => 32 | SIn6 _ _ => 128 | _ => 0 end.
Definition port_of (s : sockaddr) : Z := match s with SIn4 _ p | SIn6 _ p => unbe p | _ => 0 end.
Definition is_ip (s : sockaddr) : Prop := match s with SIn4 _ _ | SIn6 _ _ => True | _ => False end.
(** the same endpoint, or the same host if ports are ignored *)
Definition same_addr (a b : sockaddr) (ignore_port : bool) : Prop :=
  match a, b with
  | SUnspec, SUnspec => True
  | SUnix p, SUnix q => p = q
  | SIn4 _ _, SIn4 _ _ | SIn6 _ _, SIn6 _ _ => ipnum a = ipnum b /\ (ignore_port = false -> port_of a = port_of b)
  | _, _ => False
  end.

Lemma unbe_inj : forall a b, bytes a -> bytes b -> zlen a = zlen b -> unbe a = unbe b -> a = b.
Proof.
  intros a b HA HB HL HU. rewrite <- (be_unbe a), <- (be_unbe b), HU by auto. f_equal. unfold zlen in HL. lia.
Qed.
Lemma bytes_rev : forall l, bytes l -> bytes (rev l).
Proof. intros l H. unfold bytes in *. apply Forall_forall. intros x Hx. rewrite Forall_forall in H. apply H. apply in_rev. auto. Qed.
Lemma zlen_rev : forall (l : list Z), zlen (rev l) = zlen l.
Proof. intros. unfold zlen. rewrite rev_length. auto. Qed.
Lemma host_int_inj : forall a b, bytes a -> bytes b -> zlen a = zlen b -> host_int a = host_int b -> a = b.
Proof.
  intros a b HA HB HL HU. unfold host_int in HU. apply unbe_inj in HU; auto using bytes_rev; [|rewrite !zlen_rev; auto]. rewrite <- (rev_involutive a), HU. apply rev_involutive.
Qed.
Lemma memcmp_0 : forall a b, zlen a = zlen b -> (memcmp a b = 0 <-> a = b).
Proof.
  induction a as [|x a IH]; intros [|y b] H; rewrite ?zlen_cons, ?zlen_nil in H; cbn [memcmp]; try (pose proof (zlen_nonneg a)); try (pose proof (zlen_nonneg b)); try lia; try tauto.
  destruct (x =? y) eqn:E.
  - rewrite IH by lia. assert (x = y) by lia. subst. split; [congruence|]. intros [= ->]. auto.
  - split; [lia|]. intros [= -> ->]. lia.
Qed.
Lemma memcmp_num : forall a b, bytes a -> bytes b -> zlen a = zlen b -> (memcmp a b <= 0 <-> unbe a <= unbe b) /\ (memcmp a b >= 0 <-> unbe a >= unbe b).
Proof.
  induction a as [|x a IH]; intros [|y b] HA HB H; rewrite ?zlen_cons, ?zlen_nil in H; cbn [memcmp]; try (pose proof (zlen_nonneg a)); try (pose proof (zlen_nonneg b)); try lia.
  apply bytes_cons in HA, HB. destruct HA as [HX HA], HB as [HY HB]. rewrite !unbe_cons. replace (zlen b) with (zlen a) by lia. destruct (x =? y) eqn:E.
  - assert (x = y) by lia. subst. destruct (IH b HA HB); lia.
  - pose proof (unbe_bound _ HA) as UA. pose proof (unbe_bound _ HB) as UB. replace (zlen b) with (zlen a) in UB by lia. assert (0 < 256 ^ zlen a) by lia. set (K := 256 ^ zlen a) in *. unfold byte in *. nia.
Qed.
Theorem c54_same : forall a b ip, addr_ok a -> addr_ok b -> (sockaddr_cmp a b ip = 0 <-> same_addr a b ip).
Proof.
  intros a b ip HA HB. unfold sockaddr_cmp.
  destruct a as [|a p|a p|a|f], b as [|b q|b q|b|g]; cbn [ss_family addr_ok same_addr ipnum port_of] in *;
    repeat match goal with |- context [negb (?x =? ?y)] => first [change (negb (x =? y)) with true|change (negb (x =? y)) with false|destruct (x =? y) eqn:?; cbn [negb]] end; cbn iota; try tauto; try (split; [discriminate|tauto]); try (split; [lia|tauto]); try (cbn [In] in *; split; [lia|tauto]).
  - destruct HA as (A1 & A2 & A3 & A4), HB as (B1 & B2 & B3 & B4). unfold cmp_ipv4. destruct (host_int a <? host_int b) eqn:E1.
    + split; [lia|]. intros [H _]. apply unbe_inj in H; try lia; auto. subst. lia.
    + destruct (host_int a >? host_int b) eqn:E2.
      * split; [lia|]. intros [H _]. apply unbe_inj in H; try lia; auto. subst. lia.
      * assert (a = b) by (apply host_int_inj; auto; lia). subst. destruct ip; [split; auto; split; congruence|].
        split; [intros H; split; auto; intros _; f_equal; apply host_int_inj; auto; lia|]. intros [_ H]. specialize (H eq_refl). apply unbe_inj in H; auto; try lia. subst. lia.
  - destruct HA as (A1 & A2 & A3 & A4), HB as (B1 & B2 & B3 & B4). unfold cmp_ipv6. cbv zeta. destruct (memcmp a b =? 0) eqn:E.
    + assert (a = b) by (apply memcmp_0; lia). subst. destruct ip; [split; auto; split; congruence|].
      split; [intros H; split; auto; intros _; f_equal; apply host_int_inj; auto; lia|]. intros [_ H]. specialize (H eq_refl). apply unbe_inj in H; auto; try lia. subst. lia.
    + split; [lia|]. intros [H _]. apply unbe_inj in H; auto; try lia. subst. exfalso. assert (memcmp b b = 0) by (apply memcmp_0; auto). lia.
  - unfold cmp_unix. cbv zeta. pose proof (zlen_nonneg a). pose proof (zlen_nonneg b). set (m := if zlen a <=? zlen b then zlen a else zlen b). assert (Hm : 0 <= m <= zlen a /\ m <= zlen b) by (unfold m; destruct (zlen a <=? zlen b) eqn:E; lia).
    destruct (memcmp (zfirstn m a) (zfirstn m b) =? 0) eqn:E.
    + split.
      * intros HL. assert (zfirstn m a = zfirstn m b) by (apply memcmp_0; [rewrite !zlen_zfirstn; lia|lia]). assert (m = zlen a) by (unfold m; destruct (zlen a <=? zlen b) eqn:?; lia).
        replace (zfirstn m a) with a in H1 by (unfold zfirstn, zlen in *; rewrite firstn_all2; auto; lia). replace (zfirstn m b) with b in H1 by (unfold zfirstn, zlen in *; rewrite firstn_all2; auto; lia). auto.
      * intros ->. lia.
    + split; [lia|]. intros ->. exfalso. assert (memcmp (zfirstn m b) (zfirstn m b) = 0) by (apply memcmp_0; auto). lia.
Qed.
Example c54_same_case : addr_ok (SIn4 [10; 0; 0; 1] [0; 53]) /\ sockaddr_cmp (SIn4 [10; 0; 0; 1] [0; 53]) (SIn4 [10; 0; 0; 1] [1; 53]) true = 0 /\ sockaddr_cmp (SIn4 [10; 0; 0; 1] [0; 53]) (SIn4 [10; 0; 0; 1] [1; 53]) false <> 0.
Proof. split; [repeat split; try reflexivity; repeat constructor; vm_compute; congruence|]. split; [reflexivity|vm_compute; congruence]. Qed.

(** ** Networks *)
Lemma div_prefix : forall X Y A B K M, 0 < K -> 0 < M -> 0 <= A < K * M -> 0 <= B < K * M -> (((X * (K * M) + A) / M = (Y * (K * M) + B) / M) <-> X = Y /\ A / M = B / M).
Proof.
  intros. replace (X * (K * M)) with (X * K * M) by ring. replace (Y * (K * M)) with (Y * K * M) by ring. rewrite !Z.div_add_l by lia.
  assert (0 <= A / M < K) by (split; [apply Z.div_pos; lia|apply Z.div_lt_upper_bound; lia]). assert (0 <= B / M < K) by (split; [apply Z.div_pos; lia|apply Z.div_lt_upper_bound; lia]). set (x := A / M) in *. set (y := B / M) in *. clearbody x y. split; [|intros [-> ->]; auto]. intros E. destruct (Z.lt_trichotomy X Y) as [L|[->|L]]; [exfalso; assert (X * K + K <= Y * K) by nia; lia| |exfalso; assert (Y * K + K <= X * K) by nia; lia]. split; lia.
Qed.
Lemma raw_match : forall a b w p, bytes a -> bytes b -> zlen a = w -> zlen b = w -> 0 <= p ->
  exists r, (let* m1 := mem_read a 0 (Z.min p (w * 8) / 8) in let* m2 := mem_read b 0 (Z.min p (w * 8) / 8) in
    if negb (memcmp m1 m2 =? 0) then Ok false else if Z.min p (w * 8) mod 8 =? 0 then Ok true else
    let* x := mem_read a (Z.min p (w * 8) / 8) 1 in let* y := mem_read b (Z.min p (w * 8) / 8) 1 in
    Ok (Z.shiftr (unbe x) (8 - Z.min p (w * 8) mod 8) =? Z.shiftr (unbe y) (8 - Z.min p (w * 8) mod 8))) = Ok r /\
  (r = true <-> unbe a / 2 ^ (w * 8 - Z.min p (w * 8)) = unbe b / 2 ^ (w * 8 - Z.min p (w * 8))).
Proof.
  intros a b w p HA HB LA LB Hp. set (q := Z.min p (w * 8)). pose proof (zlen_nonneg a). assert (Q : 0 <= q <= w * 8) by (unfold q; lia). clearbody q. clear p Hp.
  set (n := q / 8). set (r := q mod 8). assert (q = 8 * n + r /\ 0 <= r < 8) as [Eq Hr] by (unfold n, r; lia). clearbody n r. subst q. assert (Hn : 0 <= n <= w) by lia.
  assert (MR : forall l, zlen l = w -> mem_read l 0 n = Ok (zfirstn n l)). { intros l Hl. unfold mem_read. replace ((0 <=? 0) && (0 <=? n) && (0 + n <=? zlen l)) with true by lia. reflexivity. }
  rewrite (MR a), (MR b) by auto. cbn [rbind].
  rewrite <- (zfirstn_skipn _ a n) in HA. rewrite <- (zfirstn_skipn _ b n) in HB. apply bytes_app in HA, HB. destruct HA as [A1 A2], HB as [B1 B2].
  assert (LA1 : zlen (zfirstn n a) = n) by (apply zlen_zfirstn; lia). assert (LB1 : zlen (zfirstn n b) = n) by (apply zlen_zfirstn; lia).
  assert (LA2 : zlen (zskipn n a) = w - n) by (rewrite zlen_zskipn; lia). assert (LB2 : zlen (zskipn n b) = w - n) by (rewrite zlen_zskipn; lia).
  assert (UA : unbe a = unbe (zfirstn n a) * 256 ^ (w - n) + unbe (zskipn n a)) by (rewrite <- LA2, <- unbe_app, zfirstn_skipn; auto).
  assert (UB' : unbe b = unbe (zfirstn n b) * 256 ^ (w - n) + unbe (zskipn n b)) by (rewrite <- LB2, <- unbe_app, zfirstn_skipn; auto).
  rewrite UA, UB'. pose proof (unbe_bound _ A2) as RA. pose proof (unbe_bound _ B2) as RB. rewrite LA2 in RA. rewrite LB2 in RB.
  assert (K256 : 256 ^ (w - n) = 2 ^ r * 2 ^ (w * 8 - (8 * n + r))). { rewrite <- Z.pow_add_r by lia. replace (r + (w * 8 - (8 * n + r))) with (8 * (w - n)) by lia. rewrite Z.pow_mul_r by lia. reflexivity. }
  set (M := 2 ^ (w * 8 - (8 * n + r))) in *. assert (0 < M) by (apply Z.pow_pos_nonneg; lia). assert (0 < 2 ^ r) by (apply Z.pow_pos_nonneg; lia).
  rewrite K256 in *. pose proof (div_prefix (unbe (zfirstn n a)) (unbe (zfirstn n b)) _ _ (2 ^ r) M ltac:(auto) ltac:(auto) RA RB) as DP.
  assert (M0 : memcmp (zfirstn n a) (zfirstn n b) =? 0 = true <-> unbe (zfirstn n a) = unbe (zfirstn n b)).
  { rewrite Z.eqb_eq, memcmp_0 by lia. split; [congruence|]. intros. apply unbe_inj; auto. lia. }
  destruct (memcmp (zfirstn n a) (zfirstn n b) =? 0); cbn [negb].
  2:{ exists false. split; auto. rewrite DP. split; [discriminate|]. intros [X _]. apply M0 in X. discriminate. }
  assert (E1 : unbe (zfirstn n a) = unbe (zfirstn n b)) by tauto. destruct (r =? 0) eqn:E0.
  - exists true. split; auto. rewrite DP. split; auto. intros _. split; auto. assert (r = 0) by lia. subst r. change (2 ^ 0) with 1 in *. rewrite !Z.div_small by lia. auto.
  - assert (Hw : n < w) by lia. destruct (zskipn n a) as [|x a'] eqn:EA; [rewrite zlen_nil in LA2; lia|]. destruct (zskipn n b) as [|y b'] eqn:EB; [rewrite zlen_nil in LB2; lia|].
    assert (R1 : forall l c l', zlen l = w -> zskipn n l = c :: l' -> mem_read l n 1 = Ok [c]). { intros l c l' Hl E. unfold mem_read. replace ((0 <=? n) && (0 <=? 1) && (n + 1 <=? zlen l)) with true by lia. rewrite E. reflexivity. }
    rewrite (R1 a x a'), (R1 b y b') by auto. cbn [rbind]. eexists. split; [reflexivity|]. rewrite DP. clear DP. change (unbe [x]) with x. change (unbe [y]) with y. rewrite !Z.shiftr_div_pow2 by lia.
    rewrite Z.eqb_eq. rewrite !unbe_cons. rewrite zlen_cons in LA2, LB2. apply bytes_cons in A2, B2. destruct A2 as [HX A2], B2 as [HY B2].
    pose proof (unbe_bound _ A2) as VA. pose proof (unbe_bound _ B2) as VB. assert (zlen b' = zlen a') by lia. rewrite H2 in *.
    assert (EM : M = 2 ^ (8 - r) * 256 ^ zlen a'). { unfold M. replace (256 ^ zlen a') with (2 ^ (8 * zlen a')) by (rewrite Z.pow_mul_r by (pose proof (zlen_nonneg a'); lia); reflexivity). rewrite <- Z.pow_add_r by (pose proof (zlen_nonneg a'); lia). f_equal. lia. }
    rewrite EM. rewrite !(Z.mul_comm (2 ^ (8 - r))). assert (0 < 256 ^ zlen a') by (apply Z.pow_pos_nonneg; [lia|apply zlen_nonneg]). assert (0 < 2 ^ (8 - r)) by (apply Z.pow_pos_nonneg; lia).
    rewrite <- !Z.div_div by lia. rewrite !Z.div_add_l, !(Z.div_small (unbe _)) by lia. rewrite !Z.add_0_r. tauto.
Qed.
(** An address matches a network iff the family is the same and so are the first [prefix] bits (all bits if
    [prefix] is larger than the address). *)
Theorem c54_net_match : forall a b p, addr_ok a -> addr_ok b -> is_ip a -> 0 <= p ->
  exists r, sockaddr_net_match a b p = Ok r /\
  (r = true <-> ss_family a = ss_family b /\ let n := ipbits a - Z.min p (ipbits a) in ipnum a / 2 ^ n = ipnum b / 2 ^ n).
Proof.
  intros a b p HA HB HI Hp. unfold sockaddr_net_match. destruct (ss_family a =? ss_family b) eqn:EF; cbn [negb].
  2:{ exists false. split; auto. split; [discriminate|]. intros [H _]. lia. }
  destruct a as [|a pa|a pa|a|f]; cbn [is_ip] in HI; try contradiction; destruct b as [|b pb|b pb|b|g]; cbn [ss_family addr_ok] in *; try discriminate; try (cbn [In] in *; exfalso; apply HB; lia);
    destruct HA as (A1 & A2 & _), HB as (B1 & B2 & _); cbn [sockaddr_raw ipbits ipnum]; cbv zeta.
  - destruct (raw_match a b 4 p A1 B1 A2 B2 Hp) as (r & E & H). exists r. rewrite B2. split; [exact E|]. change (4 * 8) with 32 in H. tauto.
  - destruct (raw_match a b 16 p A1 B1 A2 B2 Hp) as (r & E & H). exists r. rewrite B2. split; [exact E|]. change (16 * 8) with 128 in H. tauto.
Qed.
Example c54_net_match_case : sockaddr_net_match (SIn4 [192; 0; 2; 77] [0; 0]) (SIn4 [192; 0; 0; 0] [0; 0]) 22 = Ok true /\ sockaddr_net_match (SIn4 [192; 0; 2; 77] [0; 0]) (SIn4 [192; 0; 0; 0] [0; 0]) 23 = Ok false.
Proof. split; reflexivity. Qed.
(** Paths match exactly. *)
Theorem c54_net_match_unix : forall p q n, sockaddr_net_match (SUnix p) (SUnix q) n = Ok true <-> p = q.
Proof. intros. unfold sockaddr_net_match. cbn [ss_family]. change (negb (1 =? 1)) with false. cbn iota. rewrite <- bytes_eqb_spec. split; congruence. Qed.

(** ** Ranges *)
(** IPv6: exactly the addresses between the bounds; for IPv4 the full claim is refuted below. *)
Theorem c54_range_partial : forall a mn mx, addr_ok a -> addr_ok mn -> addr_ok mx -> ss_family a = 10 ->
  (sockaddr_range_match a mn mx = true <-> ss_family mn = 10 /\ ss_family mx = 10 /\ ipnum mn <= ipnum a <= ipnum mx).
Proof.
  intros a mn mx HA HN HX HF. unfold sockaddr_range_match. rewrite HF. change (10 =? 1) with false. rewrite orb_false_r.
  destruct (ss_family mn =? ss_family mx) eqn:E1; cbn [negb orb]; [|split; [discriminate|lia]]. destruct (ss_family mn =? 10) eqn:E2; cbn [negb]; [|split; [discriminate|lia]].
  destruct a as [|a pa|a pa|a|f]; cbn [ss_family addr_ok] in *; try discriminate. 2:{ exfalso. apply HA. subst f. cbn [In]. lia. }
  destruct mn as [|n pn|n pn|n|g]; cbn [ss_family addr_ok] in *; try discriminate. 2:{ exfalso. apply HN. cbn [In]. lia. }
  destruct mx as [|x px|x px|x|h]; cbn [ss_family addr_ok] in *; try discriminate. 2:{ exfalso. apply HX. cbn [In]. lia. }
  destruct HA as (A1 & A2 & _), HN as (N1 & N2 & _), HX as (X1 & X2 & _). unfold sockaddr_cmp. cbn [ss_family]. change (negb (10 =? 10)) with false. cbn iota. unfold cmp_ipv6. cbv zeta. cbn [ipnum].
  destruct (memcmp_num a n A1 N1) as [P1 P2]; [lia|]. destruct (memcmp_num a x A1 X1) as [P3 P4]; [lia|].
  destruct (memcmp a n =? 0) eqn:E3; destruct (memcmp a x =? 0) eqn:E4; rewrite andb_true_iff; lia.
Qed.
Example c54_range_case : let z := repeat 0 14 in sockaddr_range_match (SIn6 ([32; 1] ++ z) [0; 0]) (SIn6 ([32; 0] ++ z) [0; 0]) (SIn6 ([33; 0] ++ z) [0; 0]) = true.
Proof. reflexivity. Qed.
(** IPv4 bounds are compared as little-endian numbers: 10.0.0.1-10.0.0.5 contains 10.77.88.3, and
    10.0.0.200-10.0.1.100 does not contain 10.0.0.201. *)
Theorem c54_range_v4_refuted :
  (exists a mn mx, addr_ok a /\ addr_ok mn /\ addr_ok mx /\ ss_family a = 2 /\ ss_family mn = 2 /\ ss_family mx = 2 /\ ~ ipnum mn <= ipnum a <= ipnum mx /\ sockaddr_range_match a mn mx = true) /\
  (exists a mn mx, addr_ok a /\ addr_ok mn /\ addr_ok mx /\ ss_family a = 2 /\ ss_family mn = 2 /\ ss_family mx = 2 /\ ipnum mn <= ipnum a <= ipnum mx /\ sockaddr_range_match a mn mx = false).
Proof.
  assert (OK : forall a b c d, byte a -> byte b -> byte c -> byte d -> addr_ok (SIn4 [a; b; c; d] [0; 0])).
  { intros. cbn [addr_ok]. split; [unfold bytes; auto|]. split; [reflexivity|]. split; [|reflexivity]. repeat constructor; unfold byte; lia. }
  split.
  - exists (SIn4 [10; 77; 88; 3] [0; 0]), (SIn4 [10; 0; 0; 1] [0; 0]), (SIn4 [10; 0; 0; 5] [0; 0]). repeat (split; [first [apply OK; unfold byte; lia|reflexivity]|]). split; [vm_compute; intuition congruence|reflexivity].
  - exists (SIn4 [10; 0; 0; 201] [0; 0]), (SIn4 [10; 0; 0; 200] [0; 0]), (SIn4 [10; 0; 1; 100] [0; 0]). repeat (split; [first [apply OK; unfold byte; lia|reflexivity]|]). split; [vm_compute; intuition congruence|reflexivity].
Qed.
(** What the IPv4 range does decide: the order of the addresses with their bytes reversed. *)
Theorem c54_range_v4_partial : forall a n x pa pn px, sockaddr_range_match (SIn4 a pa) (SIn4 n pn) (SIn4 x px) = true <-> unbe (rev n) <= unbe (rev a) <= unbe (rev x).
Proof.
  intros. unfold sockaddr_range_match, sockaddr_cmp, cmp_ipv4, host_int. cbn [ss_family]. change (2 =? 2) with true. change (2 =? 1) with false. cbn [negb orb].
  destruct (unbe (rev a) <? unbe (rev n)) eqn:E1; [split; [discriminate|lia]|]. destruct (unbe (rev a) >? unbe (rev n)) eqn:E2; (destruct (unbe (rev a) <? unbe (rev x)) eqn:E3; [split; [lia|reflexivity]|]); destruct (unbe (rev a) >? unbe (rev x)) eqn:E4; (split; [try discriminate; lia|]); try reflexivity; try lia.
Qed.
(** Families without order never match a range. *)
Theorem c54_range_unix : forall p a b, sockaddr_range_match (SUnix p) a b = false.
Proof. intros. unfold sockaddr_range_match. cbn [ss_family]. change (1 =? 1) with true. rewrite orb_true_r. reflexivity. Qed.
Theorem c54_is_any : forall a, addr_ok a -> (sockaddr_is_any a = true <-> is_ip a /\ ipnum a = 0).
Proof.
  intros [|a p|a p|a|f] H; cbn [sockaddr_is_any is_ip ipnum addr_ok] in *; try (split; [discriminate|tauto]); destruct H as (A & B & _).
  - assert (Z4 : bytes [0; 0; 0; 0]) by (repeat constructor; unfold byte; lia). split; intros H.
    + split; auto. rewrite (host_int_inj a [0; 0; 0; 0]); auto. change (host_int [0; 0; 0; 0]) with 0. lia.
    + destruct H as [_ H]. rewrite (unbe_inj a [0; 0; 0; 0]); auto.
  - assert (Z16 : bytes (repeat 0 16)) by (apply Forall_forall; intros x Hx; apply repeat_spec in Hx; subst; unfold byte; lia). rewrite Z.eqb_eq, memcmp_0 by auto. split; intros H.
    + subst. auto.
    + destruct H as [_ H]. apply unbe_inj; auto.
Qed.
Print Assumptions c54_same.
Print Assumptions c54_net_match.
Print Assumptions c54_range_partial.
