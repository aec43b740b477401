(** C09, C10, C12: compression of names, writing of RRsets, filling of messages. *)
From Verif Require Import Base DnameModel DnameSpec DnameProofs DnameProofs2 DnameProps WireModel WireProofs RrwireModel RrwireSpec RrwireProofs RrwireProofs2 RrwireProofs3 ComprModel ComprSpec ComprProofs ComprProofs2 ComprProofs3 ComprProofs4 ComprProofs5 ComprProofs6 PutModel PutSpec PutProofs PutProofs2 PutProofs3 PutProofs4 PutProofs5.

(** ** C09 *)
(** Names written one after another behind a question, starting with QNAME as the suffix: the writing ends
    well or there is too little space for them; each of the names is at its position, is found by the
    check and unpacked, up to the case of letters; what was before is unchanged. Pointers go strictly
    backwards: [encodes] asks for it, and a pointer has 14 bits. *)
Theorem c09_names_round_trip : forall m q dst avail hints names, bytes m -> zlen m <= 65535 -> legal_name q -> encodes m false 12 q (name_size q) ->
  12 + name_size q <= dst -> 0 <= avail -> dst + avail <= zlen m -> Forall legal_name names ->
  match put_names (map dwire names) (mkst m dst avail (Some (mkcompr hints 12 (zlen q)))) with
  | Done ps s' =>
    (forall i, i < dst \/ dst + avail <= i -> zget (s_mem s') i = zget m i) /\
    Forall2 (fun ls pos => exists ls' n, encodes (s_mem s') true pos ls' n /\ n <= name_size ls /\ lower_name ls' = lower_name ls /\
      wire_check (s_mem s') true pos = Ok n /\ unpack (s_mem s') pos 255 = Ok (dwire ls')) names ps
  | Fail e s' => e = KNOT_ESPACE /\ avail < fold_right (fun ls n => name_size ls + n) 0 names /\ (forall i, i < dst \/ dst + avail <= i -> zget (s_mem s') i = zget m i)
  | _ => False
  end.
Proof.
  intros m q dst avail hints names HB H64 HL HE Hd Ha Hle HN. pose proof (name_size_ge1 q). pose proof (names_spec 12 names (mkst m dst avail (Some (mkcompr hints 12 (zlen q)))) HB) as S. cbn [s_mem s_dst s_avail s_compr] in S.
  specialize (S ltac:(unfold free; cbn [w_lo w_hole]; lia) Ha Hle H64 HN). assert (HC : ctx_suffix (mkwin 12 (-2)) m dst (Some (mkcompr hints 12 (zlen q)))).
  { exists q. split; [|reflexivity]. apply plain_flat; auto; try lia. eapply enc_holds; eauto. }
  specialize (S HC). destruct (put_names _ _) as [ps s'|e s'| |]; auto.
  - destruct S as ((DL & DB & DD) & _ & _ & _ & HF). split; [exact DD|]. eapply Forall2_impl; [|exact HF]. intros ls pos (ls' & n & HE' & HL' & Hlow & Hn & Hp). pose proof (DB HB) as HB'. exists ls', n.
    pose proof (encodes_window _ _ _ _ _ HE') as [W1 W2]. assert (W0 : 0 <= pos) by (inversion HE'; subst; match goal with H : zget _ pos = Some _ |- _ => apply zget_some in H; lia end). pose proof (c01_check_complete _ _ _ _ _ HB' HE' HL') as CK. do 4 (split; [auto|]).
    destruct (c02_unpack_after_check (s_mem s') true pos n 255 HB' ltac:(lia) ltac:(lia) CK) as (ls2 & HE2 & HL2 & _ & HU & _). destruct (c01_encoding_unique _ _ _ _ _ _ _ HB' HE' HE2) as [<- _]. apply HU. apply HL'.
  - destruct S as (-> & (_ & _ & DD) & Hlt). auto.
Qed.
(** The question [Ab.c.], then [x.ab.c.], [c.], [.] and [y.x.ab.c.]: the first one ends with the
    pointer to QNAME, the second name is a pointer to the last label of QNAME. *)
Definition ex_question : list Z := [0;0;0;0;0;1;0;0;0;0;0;0; 2;65;98;1;99;0; 0;1;0;1].
Definition ex_names : list (list label) := [[[120]; [97;98]; [99]]; [[99]]; []; [[121]; [120]; [97;98]; [99]]].
Example c09_case :
  (bytes ex_question /\ legal_name [[65;98];[99]] /\ encodes (ex_question ++ repeat 0 40) false 12 [[65;98];[99]] 6 /\ Forall legal_name ex_names) /\
  exists m c, put_names (map dwire ex_names) (mkst (ex_question ++ repeat 7 40) 22 40 (Some (mkcompr (repeat 0 16) 12 2))) = Done [22; 26; 28; 29] (mkst m 33 29 c) /\
    zfirstn 11 (zskipn 22 m) = [1; 120; 192; 12; 192; 15; 0; 1; 121; 192; 22].
Proof.
  split.
  - split; [repeat constructor; unfold byte; lia|]. split; [split; [repeat constructor; unfold byte; cbn; lia|cbn; lia]|]. split.
    + apply holds_enc; [repeat constructor; unfold byte; cbn; lia|]. intros i Hi. change (zlen (dwire [[65;98];[99]])) with 6 in Hi. assert (HC : i = 0 \/ i = 1 \/ i = 2 \/ i = 3 \/ i = 4 \/ i = 5) by lia. destruct HC as [->|[->|[->|[->|[->| ->]]]]]; reflexivity.
    + repeat constructor; unfold byte; cbn; lia.
  - eexists. eexists. split; vm_compute; reflexivity.
Qed.

(** ** C10 *)
(** An RRset written without compression: it is written iff there is space for it, and reading gives back
    the owner, type, class, TTL and RDATA of each record, in the order of the rotation. *)
Theorem c10_plain_round_trip : forall m dst avail owner t c ttl pss rotate, bytes m -> zlen m <= 65535 -> 0 <= dst -> 0 <= avail -> dst + avail <= zlen m ->
  legal_name owner -> 0 <= t < 65536 -> 0 <= c < 65536 -> 0 <= ttl < 2 ^ 32 -> 0 <= rotate ->
  Forall (fun ps => lay_out (rfc_layout t) ps \/ ps = []) pss -> Forall (readable c t) pss ->
  match to_wire_extra (mkrrset (dwire owner) t c ttl (map flat pss)) rotate false false (mkst m dst avail None) with
  | Done k s' => k = records_size owner (in_order rotate pss) /\ k <= avail /\ (forall i, i < dst \/ dst + k <= i -> zget (s_mem s') i = zget m i) /\
      reads (s_mem s') false dst (map (fun ps => mkrr (dwire owner) t c ttl (flat ps)) (in_order rotate pss)) (dst + k)
  | Fail e s' => e = KNOT_ESPACE /\ avail < records_size owner (in_order rotate pss) /\ (forall i, i < dst \/ dst + avail <= i -> zget (s_mem s') i = zget m i)
  | _ => False
  end.
Proof.
  intros m dst avail owner t c ttl pss rotate HB H64 Hd Ha Hle HL Ht Hc Httl Hrot HLay HR.
  assert (HOK : Forall (rdata_ok false false t) pss). { rewrite Forall_forall in *. intros ps Hi. split; [destruct (HR ps Hi) as [H|[-> _]]; [lia|cbn; lia]|]. destruct (HLay ps Hi) as [H|H]; [auto|right; split; [auto|split; discriminate]]. }
  pose proof (to_wire_spec 0 owner t c ttl pss rotate false false (mkst m dst avail None) HL HOK Ht Hc Httl Hrot) as TW. cbn [s_mem s_dst s_avail s_compr] in TW.
  assert (HG : good (allowed owner pss) (nonroot owner) (mkwin 0 (-2)) (mkst m dst avail None)). { split; [|exact I]. split; [auto|]. cbn [s_mem s_dst s_avail]. split; [unfold free; cbn [w_lo w_hole]; lia|lia]. }
  specialize (TW HG). change (rotated rotate pss) with (in_order rotate pss) in TW. destruct (to_wire_extra _ _ _ _ _) as [k s'|e s'| |]; auto.
  - destruct TW as (rs & (D & Sd & Sa & Hk & _) & _ & _ & HRs & HF & HSm & HX). cbn [s_mem s_dst s_avail] in *. destruct (HX eq_refl) as (HO & HDt & HK). pose proof D as (DL & DB & DD). split; [auto|]. split; [lia|]. split; [exact DD|].
    eapply reads_exact; [|apply DB; auto|lia|auto|exact HF| |exact HO|exact HDt].
    + eapply recs_real; [exact HRs|apply DB; auto|exact HSm|unfold free; cbn [w_lo w_hole]; lia|lia|auto].
    + unfold in_order. apply Forall_app. split.
      all: clear - HR; rewrite Forall_forall in *; intros x Hx; apply HR; rewrite <- (firstn_skipn (Z.to_nat (if zlen pss =? 0 then 0 else rotate mod zlen pss)) pss); apply in_or_app; auto.
  - destruct TW as (-> & Hlt & (_ & _ & DD)). auto.
Qed.
(** Reading of a message that was filled by any history of calls (see C12 below): all records are read,
    one after another up to the end, each in its canonical form, in the order in which they were put. *)
Theorem c10_message_round_trip : forall p0 m0 cs rets p m, Inv p0 m0 -> history p0 m0 cs rets p m ->
  Forall (fun i => Forall (readable (x_class (i_rrs i)) (x_type (i_rrs i))) (x_data (i_rrs i))) (m_items m) ->
  exists xs, reads (p_wire p) true (12 + question_size (m_question m)) xs (p_size p) /\ Forall2 canonical_of (records_of (m_items m)) xs.
Proof.
  intros p0 m0 cs rets p m HI HH HR. destruct (history_inv _ _ _ _ _ _ HH HI) as [HI' _]. destruct (inv_message _ _ HI') as ((HZ & (qe & rs & HQ & HRs & HF) & _) & _).
  pose proof HI' as (HB & H64 & _ & _ & _ & _ & _ & _ & _ & _ & (_ & _ & _ & _ & HS & _) & _). rewrite HS in HF.
  assert (HQe : qe = 12 + question_size (m_question m)) by (unfold question_size; destruct (m_question m) as [[[q cl] t]|]; [destruct HQ as (_ & -> & _); lia|lia]). subst qe.
  assert (0 <= question_size (m_question m)) by (unfold question_size; destruct (m_question m) as [[[q cl] t]|]; [pose proof (name_size_ge1 q)|]; lia).
  eapply reads_message; [exact HRs|exact HB|exact H64|lia|exact HF|]. clear - HR. unfold records_of. rewrite Forall_forall in *. intros [i ps] Hx. apply in_concat in Hx. destruct Hx as (l & Hl & Hx). apply in_map_iff in Hl. destruct Hl as (i' & <- & Hi). apply in_map_iff in Hx. destruct Hx as (ps' & E & Hx). inversion E; subst. cbn [fst snd].
  specialize (HR i Hi). rewrite Forall_forall in HR. apply HR. unfold in_order in Hx. apply in_app_iff in Hx. rewrite <- (firstn_skipn (Z.to_nat (if zlen (x_data (i_rrs i)) =? 0 then 0 else i_rotate i mod zlen (x_data (i_rrs i)))) (x_data (i_rrs i))). apply in_or_app. tauto.
Qed.

(** ** C12 *)
(** A new packet, and a response to a query, are valid packets: the invariant [Inv] holds. *)
Theorem c12_new : forall buf, bytes buf -> 12 <= zlen buf <= 65535 ->
  exists p, pkt_new buf = Some p /\ Inv p (empty_msg None) /\ p_max p = zlen buf /\ p_size p = 12.
Proof. intros buf HB HZ. destruct (new_inv buf HB HZ) as (p & E & HI & HM). exists p. do 3 (split; [auto|]). unfold pkt_new in E. destruct (_ <? 12); inversion E; reflexivity. Qed.
(** The response: the identifier, the opcode, RD, CD and RCODE are copied with the question, QR is set, AA, TC,
    RA, Z and AD are cleared; no records. *)
Theorem c12_init_response : forall p qwire q qsize, bytes (p_wire p) -> zlen (p_wire p) <= 65535 -> p_max p <= zlen (p_wire p) -> bytes qwire -> query_holds qwire q qsize ->
  exists ret p', pkt_init_response p qwire qsize = Ok (ret, p') /\
  ((ret = KNOT_ESPACE /\ p' = p /\ p_max p < 12 + question_size q) \/
   (ret = KNOT_EOK /\ Inv p' (empty_msg q) /\ p_max p' = p_max p /\ p_size p' = 12 + question_size q /\ p_size p' <= p_max p /\ p_reserved p' = 0 /\
    (forall i, 0 <= i < 2 -> zget (p_wire p') i = zget qwire i) /\
    exists a b a' b', zget qwire 2 = Some a /\ zget qwire 3 = Some b /\ zget (p_wire p') 2 = Some a' /\ zget (p_wire p') 3 = Some b' /\
      (forall n, 0 <= n <= 7 -> Z.testbit a' n = if n =? 7 then true else if (n =? 1) || (n =? 2) then false else Z.testbit a n) /\
      (forall n, 0 <= n <= 7 -> Z.testbit b' n = if (5 <=? n) then false else Z.testbit b n))).
Proof.
  intros p qwire q qsize HB H64 HM HQB HQ. destruct (init_inv p qwire q qsize HB H64 HM HQB HQ) as (ret & p' & E & H). exists ret, p'. split; [exact E|]. destruct H as [H|H]; [left; exact H|right].
  destruct H as (H1 & H2 & H3 & H4 & H5 & H6 & H7 & a & b & A1 & A2 & A3 & A4). do 7 (split; [auto|]). exists a, b. eexists. eexists. do 4 (split; [eassumption|]).
  split; intros n Hn; (assert (HC : n = 0 \/ n = 1 \/ n = 2 \/ n = 3 \/ n = 4 \/ n = 5 \/ n = 6 \/ n = 7) by lia; destruct HC as [->|[->|[->|[->|[->|[->|[->| ->]]]]]]]); rewrite ?Z.land_spec, ?Z.lor_spec; cbn -[Z.testbit]; rewrite ?andb_true_r, ?andb_false_r, ?orb_false_r, ?orb_true_r; reflexivity.
Qed.

(** After any history of allowed calls: the message is in the packet with the question and all records
    which were put, the counts in the header are the numbers of records in the sections, and
    the size is within the limit minus the reserved space, which is within the buffer. Missing: calls
    which are not allowed (see [allowed_call]); the theorem is false for some of them, see below. *)
Theorem c12_message_partial : forall p0 m0 cs rets p m, Inv p0 m0 -> history p0 m0 cs rets p m ->
  message_at (p_wire p) m (p_size p) /\ 12 <= p_size p /\ 0 <= p_reserved p /\ p_size p <= p_max p - p_reserved p /\ p_max p = p_max p0 /\ p_max p <= zlen (p_wire p).
Proof.
  intros p0 m0 cs rets p m HI HH. destruct (history_inv _ _ _ _ _ _ HH HI) as [HI' HM]. destruct (inv_message _ _ HI') as (H1 & H2 & H3 & H4). pose proof HI' as (_ & _ & _ & HR & _). split; [auto|]. do 2 (split; [lia|]). split; [lia|]. auto.
Qed.

(** Every allowed call in such a history ends (no undefined behaviour, no failed assertion). A call with
    an error leaves the size, the records, the counts and all octets of the message but for the flag TC, and
    writes nothing outside of the free space. There is an error only if memory or space is short. *)
Theorem c12_put_partial : forall p0 m0 cs rets p m al1 al2 h x ptr rot f, Inv p0 m0 -> history p0 m0 cs rets p m -> allowed_call p m (CPut al1 al2 h x ptr rot f) ->
  exists ret p', do_op (to_op (CPut al1 al2 h x ptr rot f)) p = Ok (ret, p') /\
  let need := records_size (x_owner x) (in_order rot (x_data x)) in
  let free := p_max p - p_reserved p - p_size p in
  (al1 = true -> al2 = true -> need <= free -> ret = KNOT_EOK) /\
  (ret = KNOT_EOK -> p_size p <= p_size p' <= p_size p + need /\ (forall i, 12 <= i < p_size p -> zget (p_wire p') i = zget (p_wire p) i)) /\
  (ret <> KNOT_EOK -> (ret = KNOT_ENOMEM \/ ret = KNOT_ESPACE) /\
    p_size p' = p_size p /\ p_reserved p' = p_reserved p /\ p_rr p' = p_rr p /\ p_info p' = p_info p /\ p_current p' = p_current p /\ p_sections p' = p_sections p /\
    (forall i, i <> 2 -> (i < p_size p \/ p_max p - p_reserved p <= i) -> zget (p_wire p') i = zget (p_wire p) i) /\
    exists b, zget (p_wire p) 2 = Some b /\ zget (p_wire p') 2 = Some (if (ret =? KNOT_ESPACE) && negb (f_notrunc f) then Z.lor b 2 else b)).
Proof.
  intros p0 m0 cs rets p m al1 al2 h x ptr rot f HI HH HA. destruct (history_inv _ _ _ _ _ _ HH HI) as [HI' _]. destruct (step_inv p m _ HI' HA) as (ret & p' & E & HI2 & HM & (HM' & HR' & HP)). exists ret, p'. split; [exact E|]. cbv zeta.
  pose proof HI' as (_ & _ & H12 & H0r & H13 & H14 & _). destruct HP as [(-> & H1 & H2)|[(-> & H1 & ->)|(-> & HS & H1 & H2 & H3 & b & H4 & H5)]].
  - split; [auto|]. split; [auto|]. congruence.
  - split; [intros -> ->; discriminate|]. split; [discriminate|]. intros _. do 7 (split; [auto|]). split; [auto|]. destruct (zget_in_range (p_wire p) 2 ltac:(lia)) as (b & Hb). exists b. change (KNOT_ENOMEM =? KNOT_ESPACE) with false. auto.
  - split; [lia|]. split; [discriminate|]. intros _. destruct HS as (S1 & S2 & S3 & S4 & S5 & S6 & S7 & S8). do 7 (split; [auto|]). split; [exact H3|]. exists b. split; [auto|]. rewrite H5. change (KNOT_ESPACE =? KNOT_ESPACE) with true. destruct (f_notrunc f); reflexivity.
Qed.
Theorem c12_other_calls_partial : forall p0 m0 cs rets p m c, Inv p0 m0 -> history p0 m0 cs rets p m -> allowed_call p m c ->
  exists ret p', do_op (to_op c) p = Ok (ret, p') /\
  match c with
  | CPut _ _ _ _ _ _ _ => True
  | CQuestion q _ _ => (ret = KNOT_EOK <-> 12 + name_size q + 4 <= p_max p) /\
      (ret <> KNOT_EOK -> ret = KNOT_ESPACE /\ p_size p' = p_size p /\ forall i, i < p_size p \/ p_max p <= i -> zget (p_wire p') i = zget (p_wire p) i)
  | CBegin s => p_wire p' = p_wire p /\ p_size p' = p_size p /\ (ret = KNOT_EOK <-> m_section m <= s)
  | CReserve n => p_wire p' = p_wire p /\ p_size p' = p_size p /\ p_reserved p' = (if ret =? KNOT_EOK then p_reserved p + n else p_reserved p) /\ (ret = KNOT_EOK <-> p_size p + p_reserved p + n <= p_max p)
  | CReclaim n => p_wire p' = p_wire p /\ p_size p' = p_size p /\ p_reserved p' = (if ret =? KNOT_EOK then p_reserved p - n else p_reserved p) /\ (ret = KNOT_EOK <-> n <= p_reserved p)
  end.
Proof.
  intros p0 m0 cs rets p m c HI HH HA. destruct (history_inv _ _ _ _ _ _ HH HI) as [HI' _]. destruct (step_inv p m c HI' HA) as (ret & p' & E & HI2 & HM & HP). exists ret, p'. split; [exact E|].
  pose proof HI' as (_ & H64 & H12 & HR0 & H13 & H14 & _ & _ & _ & _ & (HCur & _) & _). destruct (remaining_ok _ _ HI') as [Rem Rem0].
  destruct c as [q cl t|s|n|n|al1 al2 h x ptr rot f]; auto; cbn [do_op to_op] in E.
  - destruct HP as [H1 H2]. split; [exact H1|]. intros Hr. destruct (H2 Hr) as (-> & H3 & (_ & _ & H4)). auto.
  - destruct HP as [H1 H2]. do 2 (split; [auto|]). unfold pkt_begin in E. rewrite HCur in E. destruct (s <? m_section m) eqn:ES; inversion E; subst; split; try lia; try discriminate.
  - destruct HP as [H1 H2]. do 2 (split; [auto|]). cbn [allowed_call] in HA. unfold pkt_reserve in E. destruct (pkt_remaining p >=? n) eqn:ES; inversion E; subst; cbn [with_reserved p_reserved]; split; try reflexivity; try (split; [lia|try discriminate; auto]); try lia; try (split; [discriminate|lia]).
    change (KNOT_EOK =? KNOT_EOK) with true. cbn iota. unfold u16. apply Z.mod_small. lia.
  - destruct HP as [H1 H2]. do 2 (split; [auto|]). cbn [allowed_call] in HA. unfold pkt_reclaim in E. destruct (p_reserved p >=? n) eqn:ES; inversion E; subst; cbn [with_reserved p_reserved]; split; try reflexivity; split; try lia; try discriminate.
Qed.

(** The property is false for other calls. First, a call that fails leaves the compression context with
    the position of what it wrote: the next call for the same owner fails an assertion (or, without it, writes
    a pointer to itself). *)
Definition q_a : list label := [[97]].
Definition o_ba : list label := [[98; 98]; [97]].
Definition txt (n : nat) : rrs := mkrrs o_ba 16 1 3600 [[PData (9 :: repeat 88 n)]].
Definition addr : rrs := mkrrs o_ba 1 1 3600 [[PData [192; 0; 2; 1]]].
Definition no_flags : pflags := mkflags false false false false.
Definition start (n : nat) : res (Z * pkt) := match pkt_new (repeat 0 n) with Some p => Ok (KNOT_EOK, p) | None => UB end.
Definition run (r : res (Z * pkt)) (c : call) : res (Z * pkt) := let* x := r in do_op (to_op c) (snd x).
Definition code (r : res (Z * pkt)) : option (Z * Z) := match r with Ok (c, p) => Some (c, p_size p) | _ => None end.
Theorem c12_failed_put_refuted :
  let q := run (start 50) (CQuestion q_a 1 1) in
  let failed := run q (CPut true true 0 (txt 30) 1000 0 no_flags) in
  let next := CPut true true 0 addr 2000 0 no_flags in
  code failed = Some (KNOT_ESPACE, 19) /\ code (run q next) = Some (KNOT_EOK, 38) /\ run failed next = UB.
Proof. vm_compute. auto. Qed.

(** Second, the question takes the space that was reserved before; then the remaining space wraps around and the next
    call writes outside of the buffer. *)
Theorem c12_reserve_question_refuted :
  let reserved := run (start 30) (CReserve 15) in
  let q := run reserved (CQuestion q_a 1 1) in
  code reserved = Some (KNOT_EOK, 12) /\ code q = Some (KNOT_EOK, 19) /\
  match q with Ok (_, p) => p_max p = 30 /\ p_size p + p_reserved p = 34 /\ pkt_remaining p = 65532 | _ => False end /\
  run q (CPut true true 0 addr 2000 0 no_flags) = UB.
Proof. vm_compute. auto 10. Qed.

(** A history for which the theorems hold: the question, an answer with the hint to QNAME and an MX record, space
    for OPT reserved and reclaimed, one RRset that does not fit, and OPT. *)
Definition q_mx : list label := [[97; 98]; [99]].
Definition mx : rrs := mkrrs q_mx 15 1 300 [[PData [0; 5]; PName [[109]; [97; 98]; [99]]]; [PData [0; 6]; PName [[110]; [97; 98]; [99]]]].
Definition glue : rrs := mkrrs [[109]; [97; 98]; [99]] 1 1 300 [[PData [192; 0; 2; 1]]].
Definition big : rrs := mkrrs [[110]; [97; 98]; [99]] 16 1 300 [[PData (60 :: repeat 88 60)]].
Definition opt : rrs := mkrrs [] 41 1232 0 [[]].
Definition calls : list call :=
  [CQuestion q_mx 1 15; CReserve 11; CPut true true 12 mx 1000 1 no_flags; CBegin 2;
   CPut true true 54 glue 2000 0 no_flags; CPut true true 0 big 3000 0 no_flags; CReclaim 11; CPut true true 0 opt 4000 0 no_flags].
Definition final : res (Z * pkt) := fold_left run calls (start 120).
Lemma calls_rrs_ok : rrs_ok no_flags mx /\ rrs_ok no_flags glue /\ rrs_ok no_flags big /\ rrs_ok no_flags opt.
Proof.
  assert (B : forall n, bytes (repeat 88 n)) by (intros n; apply Forall_forall; intros x Hx; apply repeat_spec in Hx; unfold byte; lia).
  assert (L1 : legal_name [[109]; [97; 98]; [99]]) by (split; [repeat constructor; unfold byte; cbn; lia|cbn; lia]).
  assert (L2 : legal_name [[110]; [97; 98]; [99]]) by (split; [repeat constructor; unfold byte; cbn; lia|cbn; lia]).
  assert (L3 : legal_name q_mx) by (split; [repeat constructor; unfold byte; cbn; lia|cbn; lia]).
  assert (L4 : legal_name []) by (split; [constructor|cbn; lia]).
  split; [|split; [|split]]; (split; [assumption|]; do 3 (split; [cbn; lia|]); split; [cbn; lia|]); cbn [mx glue big opt x_type x_data].
  - repeat constructor; try (cbn; lia); left; change (rfc_layout 15) with [Octets 2; Name]; repeat (constructor; auto); unfold byte; lia.
  - repeat constructor; try (cbn; lia); left; change (rfc_layout 1) with [Octets 4]; repeat (constructor; auto); unfold byte; lia.
  - constructor; [|constructor]. split; [cbn; lia|]. left. change (rfc_layout 16) with [Rest]. constructor. constructor; [unfold byte; lia|apply B].
  - constructor; [|constructor]. split; [cbn; lia|]. right. repeat split; discriminate.
Qed.
Definition state (n : nat) : Z * pkt := match fold_left run (firstn n calls) (start 120) with Ok x => x | _ => (0, mkpkt [] 0 0 0 0 [] [] 0 0 [] (0, 0)) end.
Definition asked (n : nat) : msg := fold_left (fun m k => effect (nth k calls (CReserve 0)) (fst (state (S k))) m) (seq 0 n) (empty_msg None).
Example c12_case :
  pkt_new (repeat 0 120) = Some (snd (state 0)) /\ Inv (snd (state 0)) (empty_msg None) /\
  history (snd (state 0)) (empty_msg None) calls (map (fun k => fst (state k)) (seq 1 8)) (snd (state 8)) (asked 8) /\
  map (fun k => fst (state k)) (seq 1 8) = [KNOT_EOK; KNOT_EOK; KNOT_EOK; KNOT_EOK; KNOT_EOK; KNOT_ESPACE; KNOT_EOK; KNOT_EOK] /\ p_size (snd (state 8)) = 85 /\
  map (fun i => (i_section i, i_rrs i)) (m_items (asked 8)) = [(0, mx); (2, glue); (2, opt)] /\
  Forall (fun i => Forall (readable (x_class (i_rrs i)) (x_type (i_rrs i))) (x_data (i_rrs i))) (m_items (asked 8)) /\
  zfirstn 12 (p_wire (snd (state 8))) = [0; 0; 2; 0; 0; 1; 0; 2; 0; 0; 0; 2].
Proof.
  destruct (c12_new (repeat 0 120)) as (p0 & E & HI & _); [apply Forall_forall; intros x Hx; apply repeat_spec in Hx; unfold byte; lia|cbn; lia|].
  destruct calls_rrs_ok as (O1 & O2 & O3 & O4).
  assert (E0 : p0 = snd (state 0)) by (vm_compute in E |- *; congruence). subst p0. split; [exact E|]. split; [exact HI|]. clear HI E. split; [|split; [vm_compute; reflexivity|split; [vm_compute; reflexivity|split; [vm_compute; reflexivity|split]]]].
  - change (map (fun k => fst (state k)) (seq 1 8)) with [fst (state 1); fst (state 2); fst (state 3); fst (state 4); fst (state 5); fst (state 6); fst (state 7); fst (state 8)]. unfold calls at 1. change (empty_msg None) with (asked 0).
    assert (ST : forall k c cs rets p m, nth_error calls k = Some c -> do_op (to_op c) (snd (state k)) = Ok (state (S k)) -> asked (S k) = effect c (fst (state (S k))) (asked k) ->
      allowed_call (snd (state k)) (asked k) c -> history (snd (state (S k))) (asked (S k)) cs rets p m -> history (snd (state k)) (asked k) (c :: cs) (fst (state (S k)) :: rets) p m).
    { intros k c cs rets p m H1 H2 H3 H4 H5. destruct (state (S k)) as [ret p2]. cbn [fst snd] in *. eapply h_cons; eauto. rewrite <- H3. exact H5. }
    assert (LQ : legal_name q_mx) by (apply O1).
    apply (ST 0%nat); [reflexivity|vm_compute; reflexivity|vm_compute; reflexivity| |].
    { cbn [allowed_call]. do 3 (split; [auto; try lia|]). vm_compute. auto. }
    apply (ST 1%nat); [reflexivity|vm_compute; reflexivity|vm_compute; reflexivity| |].
    { cbn; lia. }
    apply (ST 2%nat); [reflexivity|vm_compute; reflexivity|vm_compute; reflexivity| |].
    { split; [exact O1|]. split; [lia|]. split; [lia|]. split; [|vm_compute; discriminate]. right; right; right; left. split; [reflexivity|]. exists q_mx, 1, 15. split; reflexivity. }
    apply (ST 3%nat); [reflexivity|vm_compute; reflexivity|vm_compute; reflexivity| |].
    { cbn; lia. }
    apply (ST 4%nat); [reflexivity|vm_compute; reflexivity|vm_compute; reflexivity| |].
    { split; [exact O2|]. split; [lia|]. split; [lia|]. split; [|vm_compute; discriminate]. right; right; right; right. exists 0%nat. do 2 eexists. exists 1. split; [vm_compute; reflexivity|]. split; [vm_compute; reflexivity|]. split; [reflexivity|]. right. split; [lia|]. intros d l Hd Hl. vm_compute in Hd. inversion Hd; subst. destruct Hl as [Hl|[Hl|[]]]; inversion Hl. reflexivity. }
    apply (ST 5%nat); [reflexivity|vm_compute; reflexivity|vm_compute; reflexivity| |].
    { split; [exact O3|]. split; [lia|]. split; [lia|]. split; [left; reflexivity|vm_compute; discriminate]. }
    apply (ST 6%nat); [reflexivity|vm_compute; reflexivity|vm_compute; reflexivity| |].
    { cbn; lia. }
    apply (ST 7%nat); [reflexivity|vm_compute; reflexivity|vm_compute; reflexivity| |].
    { split; [exact O4|]. split; [lia|]. split; [lia|]. split; [left; reflexivity|]. intros _. left. reflexivity. }
    constructor.
  - change (m_items (asked 8)) with [mkitem 0 mx 1000 1 no_flags; mkitem 2 glue 2000 0 no_flags; mkitem 2 opt 4000 0 no_flags].
    repeat match goal with |- Forall _ (_ :: _) => apply Forall_cons | |- Forall _ [] => apply Forall_nil | |- Forall _ _ => progress cbn [i_rrs mx glue opt x_data] end; try (left; cbn; lia). right. split; [reflexivity|]. left. discriminate.
  - vm_compute. reflexivity.
Qed.
Print Assumptions c09_names_round_trip.
Print Assumptions c10_plain_round_trip.
Print Assumptions c10_message_round_trip.
Print Assumptions c12_new.
Print Assumptions c12_init_response.
Print Assumptions c12_message_partial.
Print Assumptions c12_put_partial.
Print Assumptions c12_other_calls_partial.
Print Assumptions c12_failed_put_refuted.
Print Assumptions c12_reserve_question_refuted.
