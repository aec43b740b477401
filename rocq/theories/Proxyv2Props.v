(** C51: the PROXY protocol header. *)
From Verif Require Import Base WireModel WireProofs SockaddrModel EdnsProps Proxyv2Model.

(** ** Specification: the PROXY protocol, section 2.2: signature, version 2 and command PROXY, family and protocol, the
    length of the rest of the header, that rest, then the message. *)
Definition framed (base : list Z) (fam : Z) (rest payload : list Z) : Prop :=
  base = PROXYV2_SIG ++ [33; fam] ++ be 2 (zlen rest) ++ rest ++ payload /\ zlen rest < 65536 /\ payload <> [].
(** the address block *)
Definition block4 (rest src sport : list Z) : Prop := exists dst dport tlv, rest = src ++ dst ++ sport ++ dport ++ tlv /\ zlen src = 4 /\ zlen dst = 4 /\ zlen sport = 2 /\ zlen dport = 2.
Definition block6 (rest src sport : list Z) : Prop := exists dst dport tlv, rest = src ++ dst ++ sport ++ dport ++ tlv /\ zlen src = 16 /\ zlen dst = 16 /\ zlen sport = 2 /\ zlen dport = 2.

Lemma memcmp_eq : forall a b, zlen a = zlen b -> memcmp a b = 0 -> a = b.
Proof.
  induction a as [|x a IH]; intros [|y b] HL H; rewrite ?zlen_cons, ?zlen_nil in HL; auto.
  - pose proof (zlen_nonneg b). lia.
  - pose proof (zlen_nonneg a). lia.
  - cbn [memcmp] in H. destruct (x =? y) eqn:E; [|lia]. f_equal; [lia|]. apply IH; [lia|auto].
Qed.
Lemma memcmp_refl : forall a, memcmp a a = 0.
Proof. induction a as [|x a IH]; auto. cbn [memcmp]. rewrite Z.eqb_refl. auto. Qed.
Lemma mr_app : forall a b c n, n = zlen b -> mem_read (a ++ b ++ c) (zlen a) n = Ok b.
Proof. intros a b c n ->. pose proof (zlen_nonneg a). pose proof (zlen_nonneg b). pose proof (zlen_nonneg c). rewrite mem_read_ok by (rewrite ?zlen_app; lia). rewrite zskipn_app_exact, zfirstn_app_exact. auto. Qed.
Lemma mr_at : forall l a b c p n, l = a ++ b ++ c -> p = zlen a -> n = zlen b -> mem_read l p n = Ok b.
Proof. intros l a b c p n -> -> Hn. apply mr_app. auto. Qed.
Lemma cut : forall (l : list Z) n, 0 <= n <= zlen l -> exists a b, l = a ++ b /\ zlen a = n.
Proof. intros l n H. exists (zfirstn n l), (zskipn n l). rewrite zfirstn_skipn. split; auto. apply zlen_zfirstn. auto. Qed.
(** A message that follows the header is found at its offset, and nothing else is accepted. *)
Theorem c51_offset : forall base, bytes base ->
  (forall fam rest payload, framed base fam rest payload -> header_offset base = Ok (16 + zlen rest)) /\
  ((~ exists fam rest payload, framed base fam rest payload) -> header_offset base = Err KNOT_EMALF).
Proof.
  intros base HB. split.
  - intros fam rest payload (-> & HL & HP). pose proof (zlen_nonneg rest). assert (PP : zlen payload > 0) by (destruct payload; [congruence|rewrite zlen_cons; pose proof (zlen_nonneg payload); lia]). set (base := PROXYV2_SIG ++ [33; fam] ++ be 2 (zlen rest) ++ rest ++ payload) in *. assert (LB : zlen base = 16 + zlen rest + zlen payload) by (unfold base; rewrite !zlen_app, zlen_be2; change (zlen PROXYV2_SIG) with 12; change (zlen [33; fam]) with 2; lia).
    unfold header_offset. replace (zlen base <? 12 + 4) with false by lia. rewrite (mr_at base [] PROXYV2_SIG _ 0 12 eq_refl eq_refl eq_refl). cbn [rbind]. rewrite memcmp_refl. change (0 =? 0) with true. cbn [negb]. rewrite (mr_at base PROXYV2_SIG [33] ([fam] ++ be 2 (zlen rest) ++ rest ++ payload) 12 1 eq_refl eq_refl eq_refl). cbn [rbind]. change (unbe [33] =? 33) with true. cbn [negb].
    rewrite (mr_at base (PROXYV2_SIG ++ [33; fam]) (be 2 (zlen rest)) (rest ++ payload) 14 2); [|unfold base; rewrite <- app_assoc; auto|reflexivity|rewrite zlen_be2; auto]. cbn [rbind]. rewrite unbe_be2 by lia. cbv zeta. replace (12 + 4 + zlen rest <? zlen base) with true by lia. f_equal; lia.
  - intros HN. unfold header_offset. destruct (zlen base <? 12 + 4) eqn:EL; auto. destruct (cut base 12) as (sig & b1 & -> & L1); [pose proof (zlen_nonneg base); lia|]. rewrite zlen_app in EL. destruct (cut b1 2) as (vf & b2 & -> & L2); [pose proof (zlen_nonneg b1); lia|]. rewrite zlen_app in EL. destruct (cut b2 2) as (ln & b3 & -> & L3); [pose proof (zlen_nonneg b2); lia|]. destruct vf as [|v [|fam [|w vf]]]; rewrite ?zlen_cons, ?zlen_nil in L2; try lia; try (pose proof (zlen_nonneg vf); lia).
    set (base := sig ++ [v; fam] ++ ln ++ b3) in *. rewrite (mr_at base [] sig _ 0 12 eq_refl eq_refl (eq_sym L1)). cbn [rbind]. destruct (memcmp sig PROXYV2_SIG =? 0) eqn:ES; cbn [negb]; auto. rewrite (mr_at base sig [v] ([fam] ++ ln ++ b3) 12 1 eq_refl (eq_sym L1) eq_refl). cbn [rbind]. change (unbe [v]) with v. destruct (v =? 33) eqn:EV; cbn [negb]; auto.
    rewrite (mr_at base (sig ++ [v; fam]) ln b3 14 2); [|unfold base; rewrite <- app_assoc; auto|rewrite zlen_app; change (zlen [v; fam]) with 2; lia|auto]. cbn [rbind]. cbv zeta. destruct (12 + 4 + unbe ln <? zlen base) eqn:EO; auto. exfalso. apply HN. assert (BL : bytes ln) by (unfold base in HB; rewrite !bytes_app in HB; tauto). pose proof (unbe_bound ln BL) as UB. rewrite L3 in UB. change (256 ^ 2) with 65536 in UB.
    assert (LB : zlen base = 16 + zlen b3) by (unfold base; rewrite !zlen_app, L1, L3; change (zlen [v; fam]) with 2; lia). destruct (cut b3 (unbe ln)) as (rest & payload & -> & LR); [lia|]. exists fam, rest, payload. assert (v = 33) by lia. subst v. assert (sig = PROXYV2_SIG) as -> by (apply memcmp_eq; [rewrite L1; reflexivity|lia]). split; [|split; [lia|intros ->; rewrite app_nil_r in LB; lia]].
    unfold base. do 3 f_equal. rewrite LR. pose proof (be_unbe ln BL) as BU. replace (length ln) with 2%nat in BU by (unfold zlen in L3; lia). rewrite BU. auto.
Qed.
(** Decapsulation never reads outside the datagram. *)
Theorem c51_safe : forall enabled allowed base, bytes base -> (exists q a, header_strip enabled allowed base = Ok (q, a)) \/ (exists e, header_strip enabled allowed base = Err e).
Proof.
  intros enabled allowed base HB. unfold header_strip. destruct enabled; cbn [negb]; [|eauto]. destruct (c51_offset base HB) as [H1 H2].
  assert (D : (exists fam rest payload, framed base fam rest payload) \/ header_offset base = Err KNOT_EMALF \/ exists o, header_offset base = Ok o /\ 16 <= o < zlen base).
  { unfold header_offset. destruct (zlen base <? 12 + 4) eqn:EL; [auto|]. rewrite !mem_read_ok by lia. cbn [rbind]. destruct (negb _); [auto|]. destruct (negb _); [auto|]. cbv zeta. destruct (_ <? zlen base) eqn:EO; [|auto]. right. right. eexists. split; [reflexivity|]. assert (BL : bytes (zfirstn 2 (zskipn 14 base))). { unfold zfirstn, zskipn. rewrite <- (firstn_skipn (Z.to_nat 14) base) in HB. apply bytes_app in HB. destruct HB as [_ HB]. rewrite <- (firstn_skipn (Z.to_nat 2) (skipn (Z.to_nat 14) base)) in HB. apply bytes_app in HB. tauto. } pose proof (unbe_bound _ BL). lia. }
  assert (ADDR : 17 <= zlen base -> (exists a, addr_store base = Ok a) \/ (exists e, addr_store base = Err e)).
  { intros HL. unfold addr_store. rewrite (mem_read_ok base 13 1) by lia. cbn [rbind]. destruct (_ =? 18); [|destruct (_ =? 34); [|eauto]].
    - destruct (16 + 12 <? zlen base) eqn:E; [|eauto]. rewrite !mem_read_ok by lia. cbn [rbind]. eauto.
    - destruct (16 + 36 <? zlen base) eqn:E; [|eauto]. rewrite !mem_read_ok by lia. cbn [rbind]. eauto. }
  assert (FIN : forall o, header_offset base = Ok o -> 16 <= o < zlen base -> (exists q a, match header_offset base with Ok offset => if offset <=? 0 then Err KNOT_EMALF else if negb allowed then Err KNOT_EDENIED else let* a := addr_store base in let* q := mem_read base offset (zlen base - offset) in Ok (q, a) | Err _ => Err KNOT_EMALF | UB => UB | OOF => OOF end = Ok (q, a)) \/ (exists e, match header_offset base with Ok offset => if offset <=? 0 then Err KNOT_EMALF else if negb allowed then Err KNOT_EDENIED else let* a := addr_store base in let* q := mem_read base offset (zlen base - offset) in Ok (q, a) | Err _ => Err KNOT_EMALF | UB => UB | OOF => OOF end = Err e)).
  { intros o -> Ho. replace (o <=? 0) with false by lia. destruct allowed; cbn [negb]; [|eauto]. destruct ADDR as [[a ->]|[e ->]]; cbn [rbind]; [lia| |eauto]. rewrite mem_read_ok by lia. cbn [rbind]. eauto. }
  destruct D as [(fam & rest & payload & HF)|[->|(o & Eo & Ho)]]; [|eauto|eapply FIN; eauto].
  apply (FIN (16 + zlen rest)); [eapply H1; eauto|]. destruct HF as (-> & HL & HP). pose proof (zlen_nonneg rest). assert (PP : zlen payload > 0) by (destruct payload; [congruence|rewrite zlen_cons; pose proof (zlen_nonneg payload); lia]). rewrite !zlen_app, zlen_be2. change (zlen PROXYV2_SIG) with 12. change (zlen [33; fam]) with 2. lia.
Qed.
(** The client's address and the message come out as they were put in. *)
Theorem c51_strip4 : forall base rest payload src sport, bytes base -> framed base 18 rest payload -> block4 rest src sport -> header_strip true true base = Ok (payload, SIn4 src sport).
Proof.
  intros base rest payload src sport HB HF (dst & dport & tlv & ER & L1 & L2 & L3 & L4). unfold header_strip. cbn [negb]. destruct (c51_offset base HB) as [H1 _]. rewrite (H1 _ _ _ HF). destruct HF as (-> & HL & HP). pose proof (zlen_nonneg rest). replace (16 + zlen rest <=? 0) with false by lia. assert (PP : zlen payload > 0) by (destruct payload; [congruence|rewrite zlen_cons; pose proof (zlen_nonneg payload); lia]).
  pose proof (zlen_nonneg tlv). assert (LR : zlen rest = 12 + zlen tlv) by (rewrite ER, !zlen_app; lia). assert (LH : zlen (PROXYV2_SIG ++ [33; 18] ++ be 2 (zlen rest)) = 16) by (rewrite !zlen_app, zlen_be2; reflexivity). set (base := PROXYV2_SIG ++ [33; 18] ++ be 2 (zlen rest) ++ rest ++ payload) in *. assert (LB : zlen base = 16 + zlen rest + zlen payload) by (unfold base; rewrite !zlen_app, zlen_be2; change (zlen PROXYV2_SIG) with 12; change (zlen [33; 18]) with 2; lia).
  assert (EH : base = (PROXYV2_SIG ++ [33; 18] ++ be 2 (zlen rest)) ++ rest ++ payload) by (unfold base; rewrite <- !app_assoc; auto). set (HD0 := PROXYV2_SIG ++ [33; 18] ++ be 2 (zlen rest)) in *.
  unfold addr_store. rewrite (mr_at base (PROXYV2_SIG ++ [33]) [18] (be 2 (zlen rest) ++ rest ++ payload) 13 1); [|unfold base; rewrite <- app_assoc; auto|reflexivity|reflexivity]. cbn [rbind]. change (unbe [18] =? 18) with true. cbv iota. replace (16 + 12 <? zlen base) with true by lia.
  rewrite (mr_at base HD0 src (dst ++ sport ++ dport ++ tlv ++ payload) 16 4); [|rewrite EH, ER, <- !app_assoc; auto|auto|auto]. cbn [rbind]. rewrite (mr_at base (HD0 ++ src ++ dst) sport (dport ++ tlv ++ payload) (16 + 8) 2); [|rewrite EH, ER, <- !app_assoc; auto|rewrite !zlen_app; lia|auto]. cbn [rbind].
  rewrite (mr_at base (HD0 ++ rest) payload [] (16 + zlen rest) (zlen base - (16 + zlen rest))); [reflexivity|rewrite EH, app_nil_r, <- !app_assoc; auto|rewrite zlen_app; lia|lia].
Qed.
Theorem c51_strip6 : forall base rest payload src sport, bytes base -> framed base 34 rest payload -> block6 rest src sport -> header_strip true true base = Ok (payload, SIn6 src sport).
Proof.
  intros base rest payload src sport HB HF (dst & dport & tlv & ER & L1 & L2 & L3 & L4). unfold header_strip. cbn [negb]. destruct (c51_offset base HB) as [H1 _]. rewrite (H1 _ _ _ HF). destruct HF as (-> & HL & HP). pose proof (zlen_nonneg rest). replace (16 + zlen rest <=? 0) with false by lia. assert (PP : zlen payload > 0) by (destruct payload; [congruence|rewrite zlen_cons; pose proof (zlen_nonneg payload); lia]).
  pose proof (zlen_nonneg tlv). assert (LR : zlen rest = 36 + zlen tlv) by (rewrite ER, !zlen_app; lia). assert (LH : zlen (PROXYV2_SIG ++ [33; 34] ++ be 2 (zlen rest)) = 16) by (rewrite !zlen_app, zlen_be2; reflexivity). set (base := PROXYV2_SIG ++ [33; 34] ++ be 2 (zlen rest) ++ rest ++ payload) in *. assert (LB : zlen base = 16 + zlen rest + zlen payload) by (unfold base; rewrite !zlen_app, zlen_be2; change (zlen PROXYV2_SIG) with 12; change (zlen [33; 34]) with 2; lia).
  assert (EH : base = (PROXYV2_SIG ++ [33; 34] ++ be 2 (zlen rest)) ++ rest ++ payload) by (unfold base; rewrite <- !app_assoc; auto). set (HD0 := PROXYV2_SIG ++ [33; 34] ++ be 2 (zlen rest)) in *.
  unfold addr_store. rewrite (mr_at base (PROXYV2_SIG ++ [33]) [34] (be 2 (zlen rest) ++ rest ++ payload) 13 1); [|unfold base; rewrite <- app_assoc; auto|reflexivity|reflexivity]. cbn [rbind]. change (unbe [34] =? 18) with false. change (unbe [34] =? 34) with true. cbv iota. replace (16 + 36 <? zlen base) with true by lia.
  rewrite (mr_at base HD0 src (dst ++ sport ++ dport ++ tlv ++ payload) 16 16); [|rewrite EH, ER, <- !app_assoc; auto|auto|auto]. cbn [rbind]. rewrite (mr_at base (HD0 ++ src ++ dst) sport (dport ++ tlv ++ payload) (16 + 32) 2); [|rewrite EH, ER, <- !app_assoc; auto|rewrite !zlen_app; lia|auto]. cbn [rbind].
  rewrite (mr_at base (HD0 ++ rest) payload [] (16 + zlen rest) (zlen base - (16 + zlen rest))); [reflexivity|rewrite EH, app_nil_r, <- !app_assoc; auto|rewrite zlen_app; lia|lia].
Qed.
(** Nothing happens unless the protocol is enabled and the sender permitted. *)
Theorem c51_denied : forall enabled allowed base, bytes base -> enabled && allowed = false -> forall r, header_strip enabled allowed base <> Ok r.
Proof.
  intros enabled allowed base HB H r. unfold header_strip. destruct enabled; cbn [negb]; [|discriminate]. cbn [andb] in H. subst allowed. cbn [negb]. destruct (header_offset base); try discriminate. destruct (_ <=? 0); discriminate.
Qed.
(** What the tools write is read back. *)
Theorem c51_write4 : forall buf a p a2 p2 payload, bytes (a ++ p ++ a2 ++ p2) -> bytes payload -> payload <> [] -> zlen a = 4 -> zlen p = 2 -> zlen a2 = 4 -> zlen p2 = 2 -> 52 <= zlen buf ->
  exists n b, write_header buf true (SIn4 a p) (SIn4 a2 p2) = Ok (n, b) /\ header_strip true true (zfirstn n b ++ payload) = Ok (payload, SIn4 a p).
Proof.
  intros buf a p a2 p2 payload HB HY HP L1 L2 L3 L4 HL. unfold write_header. replace (zlen buf <? 52) with false by lia. cbv zeta. rewrite mem_write_ok by (change (zlen PROXYV2_SIG) with 12; lia). cbn [rbind]. change (zfirstn 0 buf) with (@nil Z). cbn [app]. change (zlen PROXYV2_SIG) with 12. change (0 + 12) with 12.
  set (r1 := zskipn 12 buf). assert (Lr1 : zlen r1 = zlen buf - 12) by (apply zlen_zskipn; lia). change (33 :: 16 + 2 :: be 2 12) with [33; 18; 0; 12].
  rewrite mem_write_ok by (rewrite ?zlen_app, ?Lr1; change (zlen [33; 18; 0; 12]) with 4; change (zlen PROXYV2_SIG) with 12; lia). cbn [rbind]. change (zfirstn 12 (PROXYV2_SIG ++ r1)) with PROXYV2_SIG. change (zlen [33; 18; 0; 12]) with 4. change (12 + 4) with 16.
  set (r2 := zskipn 16 (PROXYV2_SIG ++ r1)). assert (Lr2 : zlen r2 = zlen buf - 16) by (unfold r2; rewrite zlen_zskipn; rewrite zlen_app; change (zlen PROXYV2_SIG) with 12; lia). set (blk := a ++ a2 ++ p ++ p2). assert (Lblk : zlen blk = 12) by (unfold blk; rewrite !zlen_app; lia).
  rewrite mem_write_ok by (rewrite ?zlen_app; change (zlen [33; 18; 0; 12]) with 4; change (zlen PROXYV2_SIG) with 12; lia). cbn [rbind]. eexists _, _. split; [reflexivity|].
  replace (zfirstn (16 + 12) _) with ((PROXYV2_SIG ++ [33; 18; 0; 12]) ++ blk). 2:{ symmetry. rewrite app_assoc. set (X := zfirstn 16 _). assert (EX : X = PROXYV2_SIG ++ [33; 18; 0; 12]). { unfold X. rewrite app_assoc. change 16 with (zlen (PROXYV2_SIG ++ [33; 18; 0; 12])). apply zfirstn_app_exact. } rewrite EX. replace (16 + 12) with (zlen ((PROXYV2_SIG ++ [33; 18; 0; 12]) ++ blk)) by (rewrite zlen_app, Lblk; reflexivity). apply zfirstn_app_exact. }
  apply (c51_strip4 _ blk payload a p).
  - rewrite !bytes_app in *. unfold blk. rewrite !bytes_app. split; [split; [|tauto]|auto]. rewrite <- bytes_app. cbn [PROXYV2_SIG app]. rewrite !bytes_cons. unfold byte. repeat (split; [lia|]). constructor.
  - split; [|split; [lia|auto]]. rewrite Lblk. rewrite <- !app_assoc. reflexivity.
  - exists a2, p2, []. rewrite app_nil_r. auto.
Qed.
Theorem c51_write6 : forall buf a p a2 p2 payload, bytes (a ++ p ++ a2 ++ p2) -> bytes payload -> payload <> [] -> zlen a = 16 -> zlen p = 2 -> zlen a2 = 16 -> zlen p2 = 2 -> 52 <= zlen buf ->
  exists n b, write_header buf true (SIn6 a p) (SIn6 a2 p2) = Ok (n, b) /\ header_strip true true (zfirstn n b ++ payload) = Ok (payload, SIn6 a p).
Proof.
  intros buf a p a2 p2 payload HB HY HP L1 L2 L3 L4 HL. unfold write_header. replace (zlen buf <? 52) with false by lia. cbv zeta. rewrite mem_write_ok by (change (zlen PROXYV2_SIG) with 12; lia). cbn [rbind]. change (zfirstn 0 buf) with (@nil Z). cbn [app]. change (zlen PROXYV2_SIG) with 12. change (0 + 12) with 12.
  set (r1 := zskipn 12 buf). assert (Lr1 : zlen r1 = zlen buf - 12) by (apply zlen_zskipn; lia). change (33 :: 32 + 2 :: be 2 36) with [33; 34; 0; 36].
  rewrite mem_write_ok by (rewrite ?zlen_app, ?Lr1; change (zlen [33; 34; 0; 36]) with 4; change (zlen PROXYV2_SIG) with 12; lia). cbn [rbind]. change (zfirstn 12 (PROXYV2_SIG ++ r1)) with PROXYV2_SIG. change (zlen [33; 34; 0; 36]) with 4. change (12 + 4) with 16.
  set (r2 := zskipn 16 (PROXYV2_SIG ++ r1)). assert (Lr2 : zlen r2 = zlen buf - 16) by (unfold r2; rewrite zlen_zskipn; rewrite zlen_app; change (zlen PROXYV2_SIG) with 12; lia). set (blk := a ++ a2 ++ p ++ p2). assert (Lblk : zlen blk = 36) by (unfold blk; rewrite !zlen_app; lia).
  rewrite mem_write_ok by (rewrite ?zlen_app; change (zlen [33; 34; 0; 36]) with 4; change (zlen PROXYV2_SIG) with 12; lia). cbn [rbind]. eexists _, _. split; [reflexivity|].
  replace (zfirstn (16 + 36) _) with ((PROXYV2_SIG ++ [33; 34; 0; 36]) ++ blk). 2:{ symmetry. rewrite app_assoc. set (X := zfirstn 16 _). assert (EX : X = PROXYV2_SIG ++ [33; 34; 0; 36]). { unfold X. rewrite app_assoc. change 16 with (zlen (PROXYV2_SIG ++ [33; 34; 0; 36])). apply zfirstn_app_exact. } rewrite EX. replace (16 + 36) with (zlen ((PROXYV2_SIG ++ [33; 34; 0; 36]) ++ blk)) by (rewrite zlen_app, Lblk; reflexivity). apply zfirstn_app_exact. }
  apply (c51_strip6 _ blk payload a p).
  - rewrite !bytes_app in *. unfold blk. rewrite !bytes_app. split; [split; [|tauto]|auto]. rewrite <- bytes_app. cbn [PROXYV2_SIG app]. rewrite !bytes_cons. unfold byte. repeat (split; [lia|]). constructor.
  - split; [|split; [lia|auto]]. rewrite Lblk. rewrite <- !app_assoc. reflexivity.
  - exists a2, p2, []. rewrite app_nil_r. auto.
Qed.
(** The reader does not handle the header that announces a stream, and takes the address from the message if the
    header has none. *)
Theorem c51_tcp_refuted : exists buf a p a2 p2 n b payload, write_header buf false (SIn4 a p) (SIn4 a2 p2) = Ok (n, b) /\ payload <> [] /\ header_strip true true (zfirstn n b ++ payload) = Err KNOT_EMALF.
Proof. exists (zeros 52), [1; 2; 3; 4], [0; 53], [5; 6; 7; 8], [0; 53]. eexists _, _. exists [1]. split; [reflexivity|]. split; [discriminate|reflexivity]. Qed.
Theorem c51_address_from_message_refuted : exists base payload a, framed base 18 [] payload /\ header_strip true true base = Ok (payload, SIn4 a [9; 9]) /\ zfirstn 4 payload = a.
Proof. exists (PROXYV2_SIG ++ [33; 18; 0; 0; 1; 2; 3; 4; 5; 6; 7; 8; 9; 9; 10; 11; 12]), [1; 2; 3; 4; 5; 6; 7; 8; 9; 9; 10; 11; 12], [1; 2; 3; 4]. split; [split; [reflexivity|split; [reflexivity|discriminate]]|]. split; reflexivity. Qed.
Example c51_case : framed (PROXYV2_SIG ++ [33; 18; 0; 12; 1; 2; 3; 4; 5; 6; 7; 8; 9; 9; 10; 11; 77]) 18 [1; 2; 3; 4; 5; 6; 7; 8; 9; 9; 10; 11] [77] /\ block4 [1; 2; 3; 4; 5; 6; 7; 8; 9; 9; 10; 11] [1; 2; 3; 4] [9; 9].
Proof. split; [split; [reflexivity|split; [reflexivity|discriminate]]|]. exists [5; 6; 7; 8], [10; 11], []. repeat split; reflexivity. Qed.
Print Assumptions c51_offset. Print Assumptions c51_safe. Print Assumptions c51_strip4. Print Assumptions c51_write4.
