From Verif Require Import Base DnameModel DnameSpec DnameProofs DnameProofs2 WireModel WireProofs RrwireModel RrwireProofs RrwireProofs2 ComprModel ComprProofs ComprProofs2 PutModel PutProofs PktparseModel PktparseProofs AclModel TsigModel TsigSpec TsigProofs TsigProofs2 TsigProofs3 TsigProofs4 TsigProofs5.

(** ** Answers of several messages *)
Lemma same_size : forall i n s i' n', algorithm i n s -> algorithm i' n' s -> i = i'.
Proof. intros i n s i' n' A B. destruct A; inversion B; auto. Qed.
Definition to_rr (s : signer) : rr := let '(owner, class, ttl, t) := s in mkrr (dwire owner) 250 class ttl (tsig_bytes t).
Definition well_formed (e : arrived) : Prop :=
  let '(msg, s, now) := e in 12 <= zlen msg <= 65535 /\ match s with None => True | Some (owner, class, ttl, t) => legal_name owner /\ legal_tsig t end.
Definition as_received (e : arrived * (bool * bool * memory)) : received :=
  let '(msg, s, now, (b, c, m)) := e in mkrecv msg (option_map to_rr s) now b c m.

Lemma firstn_whole : forall (l : list Z) s, zlen l = s -> firstn (Z.to_nat s) l = l.
Proof. intros. apply firstn_all2. unfold zlen in H. lia. Qed.
Lemma concat_snoc : forall (l : list (list Z)) x, concat (l ++ [x]) = concat l ++ x.
Proof. intros. rewrite concat_app. cbn. rewrite app_nil_r. reflexivity. Qed.
Definition pend (l : list (list Z)) : Prop := Forall (fun m => 12 <= zlen m <= 65535) l.
Lemma pend_len : forall l, pend l -> 12 * zlen l <= zlen (concat l) <= 65535 * zlen l.
Proof. induction 1; [cbn; lia|]. cbn [concat]. rewrite zlen_app, zlen_cons. lia. Qed.
Lemma pend_snoc : forall l m, pend l -> 12 <= zlen m <= 65535 -> pend (l ++ [m]).
Proof. intros. apply Forall_app. split; auto. Qed.
Lemma zlen_snoc : forall {A} (l : list A) x, zlen (l ++ [x]) = zlen l + 1.
Proof. intros. rewrite zlen_app. reflexivity. Qed.

Lemma stream_sound : forall H k kn alg size, is_hmac H -> legal_name kn -> k_name k = dwire kn -> algorithm (k_alg k) alg size ->
  forall evs prev mac pending, zlen mac = size -> pend pending -> zlen pending < 100 -> Forall (fun e => well_formed (fst e)) evs ->
  receive_all H (mkctx prev mac (zlen pending) (concat pending)) k (map as_received evs) = Ok KNOT_EOK ->
  authentic H kn (k_alg k) size (k_secret k) prev mac pending (map fst evs).
Proof.
  intros H k kn alg size HH HK KN HA evs. induction evs as [|[[[msg s] now] [[b c] m]] evs IH]; intros prev mac pending HM HP HL HW R.
  - cbn [map receive_all x_unsigned] in R. destruct pending as [|p l]; [constructor|]. exfalso. rewrite zlen_cons in R. pose proof (zlen_nonneg l). replace (1 + zlen l =? 0) with false in R by lia. discriminate.
  - inversion HW as [|? ? HW1 HW2]; subst. cbn [fst well_formed] in HW1. destruct HW1 as [HZ HS]. cbn [map as_received receive_all v_wire v_tsig v_now v_buf v_copy v_mem] in R.
    pose proof (pend_len _ HP) as PL. pose proof (pend_snoc _ _ HP HZ) as HP2.
    unfold verify_packet in R. cbn [x_buffer x_prev x_digest x_unsigned] in R. destruct (_ >? BUFFER_MAX) eqn:EB; [discriminate|]. destruct b; cbn [negb] in R; [|discriminate].
    destruct s as [[[[owner class] ttl] t]|]; cbn [option_map to_rr] in R.
    + destruct HS as [HO HT]. cbn [map fst]. unfold client_check, client_check_next in R.
      assert (CK : exists ret, (if prev =? 0 then check_digest H (Some (mkrr (dwire owner) 250 class ttl (tsig_bytes t))) (concat pending ++ msg) mac k 0 false now c m
          else check_digest H (Some (mkrr (dwire owner) 250 class ttl (tsig_bytes t))) (concat pending ++ msg) mac k prev true now c m) = Ok ret /\
          (ret = KNOT_EOK -> outcome H kn (k_alg k) (k_secret k) owner (data_of (negb (prev =? 0)) mac (concat pending ++ msg) owner class ttl t) t prev now ret)).
      { assert (L2 : 2 <= zlen (concat pending ++ msg)) by (rewrite zlen_app; lia).
        destruct (prev =? 0) eqn:E0.
        - assert (prev = 0) by lia. subst prev. destruct (check_spec H owner 250 class ttl t (concat pending ++ msg) mac k kn 0 false now c m HH HO HK KN HT L2) as [[E _]|(r & E & O)]; [rewrite E in R; discriminate|]. exists r. split; [exact E|]. intros. apply O; auto.
        - destruct (check_spec H owner 250 class ttl t (concat pending ++ msg) mac k kn prev true now c m HH HO HK KN HT L2) as [[E _]|(r & E & O)]; [rewrite E in R; discriminate|]. exists r. split; [exact E|]. intros. apply O; auto. }
      destruct CK as (ret & CK & O). rewrite CK in R. cbn [rbind] in R. destruct (ret =? KNOT_EOK) eqn:ER; cbn [negb] in R; [|cbn [rbind] in R; rewrite ER in R; cbn [negb] in R; injection R as ->; discriminate].
      assert (ret = KNOT_EOK) by lia. subst ret. specialize (O eq_refl). inversion O as [| | | | |i s' n s'' O1 O2 O3 O4 O5]; subst. clear O.
      unfold after_verify in R. cbn [rr_rdata x_digest x_prev x_unsigned x_buffer] in R. rewrite get_maclen in R by auto. cbn [rbind] in R.
      destruct (zlen mac =? zlen (t_mac t)) eqn:EM; cbn [negb rbind] in R; [|discriminate]. destruct (get_mac t HT) as [G1 G2]. rewrite G1 in R. cbn [rbind] in R. rewrite G2 in R. cbn [rbind] in R. rewrite get_time in R by auto. cbn [rbind] in R.
      change (negb (KNOT_EOK =? KNOT_EOK)) with false in R. cbn iota in R. cbn [x_unsigned] in R. change (0 >=? 100) with false in R. cbn iota in R.
      destruct O4 as [O41 O42]. assert (SS : s' = zlen mac) by lia. rewrite SS in O1, O42. clear O41 SS.
      assert (i = k_alg k). { destruct O1 as (nn & O1 & _). eapply same_size; [exact O1|exact HA]. } subst i.
      destruct (HH _ _ _ (k_secret k) (data_of (negb (prev =? 0)) mac (concat pending ++ msg) kn class ttl t) HA) as [HD _]. rewrite firstn_whole in O42 by (rewrite HD; lia).
      apply answer_signed; auto.
      * cbv zeta. rewrite concat_snoc. rewrite O42. unfold data_of. destruct (prev =? 0); reflexivity.
      * apply (IH (t_time t) (t_mac t) []); auto; try lia; try constructor.
    + cbn [map fst]. cbn [rbind] in R. change (negb (KNOT_EOK =? KNOT_EOK)) with false in R. cbn iota in R. cbn [x_unsigned] in R.
      assert (EU : (zlen pending + 1) mod 2 ^ 32 = zlen (pending ++ [msg])) by (rewrite zlen_snoc; apply Z.mod_small; pose proof (zlen_nonneg pending); lia). rewrite EU in R.
      destruct (zlen (pending ++ [msg]) >=? 100) eqn:E100; [discriminate|]. rewrite <- concat_snoc in R. rewrite zlen_snoc in E100. apply answer_unsigned; [lia|]. apply IH; auto. rewrite zlen_snoc; lia.
Qed.
Definition memory_ok (x : bool * bool * memory) : Prop := let '(b, c, m) := x in b = true /\ c = true /\ a_wire m = true /\ a_ctx m = true.
Lemma stream_complete : forall H k kn alg size, is_hmac H -> legal_name kn -> k_name k = dwire kn -> algorithm (k_alg k) alg size ->
  forall evs prev mac pending, zlen mac = size -> pend pending -> zlen pending < 100 -> Forall (fun e => well_formed (fst e)) evs -> Forall (fun e => memory_ok (snd e)) evs ->
  authentic H kn (k_alg k) size (k_secret k) prev mac pending (map fst evs) ->
  receive_all H (mkctx prev mac (zlen pending) (concat pending)) k (map as_received evs) = Ok KNOT_EOK.
Proof.
  intros H k kn alg size HH HK KN HA evs. induction evs as [|[[[msg s] now] [[b c] m]] evs IH]; intros prev mac pending HM HP HL HW HMm R.
  - cbn [map] in R. inversion R. reflexivity.
  - inversion HW as [|? ? HW1 HW2]; subst. cbn [fst well_formed] in HW1. destruct HW1 as [HZ HS]. inversion HMm as [|? ? HM1 HM2]; subst. cbn [snd memory_ok] in HM1. destruct HM1 as (-> & -> & EW & EC).
    cbn [map as_received receive_all v_wire v_tsig v_now v_buf v_copy v_mem].
    pose proof (pend_len _ HP) as PL. pose proof (pend_snoc _ _ HP HZ) as HP2. pose proof (zlen_nonneg pending) as GP.
    unfold verify_packet. cbn [x_buffer x_prev x_digest x_unsigned]. replace (_ >? BUFFER_MAX) with false by (unfold BUFFER_MAX; lia). cbn [negb].
    cbn [map fst] in R. inversion R as [|? ? ? ? ? ? P99 RR|? ? ? ? class ttl t ? ? ALG MACS TIME RR]; subst; clear R.
    + cbn [option_map]. cbn [rbind]. change (negb (KNOT_EOK =? KNOT_EOK)) with false. cbn iota. cbn [x_unsigned].
      assert (EU : (zlen pending + 1) mod 2 ^ 32 = zlen (pending ++ [msg])) by (rewrite zlen_snoc; apply Z.mod_small; lia). rewrite EU.
      replace (zlen (pending ++ [msg]) >=? 100) with false by (rewrite zlen_snoc; lia). rewrite <- concat_snoc. apply IH; auto. rewrite zlen_snoc; lia.
    + cbn [option_map to_rr]. destruct HS as [_ HT]. unfold client_check, client_check_next.
      assert (L2 : 2 <= zlen (concat pending ++ msg)) by (rewrite zlen_app; lia).
      set (data := data_of (negb (prev =? 0)) mac (concat pending ++ msg) kn class ttl t).
      assert (MD : t_mac t = H (k_alg k) (k_secret k) data) by (cbv zeta in MACS; rewrite concat_snoc in MACS; rewrite MACS; unfold data, data_of; destruct (prev =? 0); reflexivity).
      destruct (HH _ _ _ (k_secret k) data HA) as [HD _].
      assert (GOOD : outcome H kn (k_alg k) (k_secret k) kn data t prev now KNOT_EOK) by (eapply good; eauto; split; [rewrite MD; auto|rewrite firstn_whole; auto]).
      assert (NS : forall i s n s', names_algorithm (t_alg t) i s -> algorithm (k_alg k) n s' -> s' < s -> False).
      { intros i s n s' N A. destruct (names_unique _ _ _ _ _ N ALG) as [-> ->]. destruct HA; inversion A; lia. }
      assert (CK : (if prev =? 0 then check_digest H (Some (mkrr (dwire kn) 250 class ttl (tsig_bytes t))) (concat pending ++ msg) mac k 0 false now true m
          else check_digest H (Some (mkrr (dwire kn) 250 class ttl (tsig_bytes t))) (concat pending ++ msg) mac k prev true now true m) = Ok KNOT_EOK).
      { destruct (prev =? 0) eqn:E0.
        - assert (prev = 0) by lia. subst prev. destruct (check_spec H kn 250 class ttl t (concat pending ++ msg) mac k kn 0 false now true m HH HK HK KN HT L2) as [[E (i & s & n & s' & X1 & X2 & X3)]|(r & E & O)]; [exfalso; eauto|]. rewrite E. f_equal. specialize (O (or_introl (conj eq_refl (conj EW EC)))). eapply outcome_det; eauto.
        - destruct (check_spec H kn 250 class ttl t (concat pending ++ msg) mac k kn prev true now true m HH HK HK KN HT L2) as [[E (i & s & n & s' & X1 & X2 & X3)]|(r & E & O)]; [exfalso; eauto|]. rewrite E. f_equal. specialize (O (or_introl (conj eq_refl (conj EW EC)))). eapply outcome_det; eauto. }
      rewrite CK. cbn [rbind]. change (negb (KNOT_EOK =? KNOT_EOK)) with false. cbn iota.
      unfold after_verify. cbn [rr_rdata x_digest x_prev x_unsigned x_buffer]. rewrite get_maclen by auto. cbn [rbind].
      replace (zlen mac =? zlen (t_mac t)) with true by (rewrite MD; lia). cbn [negb]. destruct (get_mac t HT) as [G1 G2]. rewrite G1. cbn [rbind]. rewrite G2. cbn [rbind]. rewrite get_time by auto. cbn [rbind].
      change (negb (KNOT_EOK =? KNOT_EOK)) with false. cbn iota. cbn [x_unsigned]. change (0 >=? 100) with false. cbn iota.
      apply (IH (t_time t) (t_mac t) []); auto; try (cbn; lia); try constructor. rewrite MD. lia.
Qed.
