(** C59: a message that was filled by calls of the interface is parsed, and gives what was put. *)
From Verif Require Import Base DnameModel DnameSpec DnameProofs DnameProofs2 DnameProps WireModel WireProofs RrwireModel RrwireSpec RrwireProofs RrwireProofs2 RrwireProofs3 ComprModel ComprSpec ComprProofs ComprProofs2 ComprProofs3 ComprProofs4 ComprProofs5 ComprProofs6 PutModel PutSpec PutProofs PutProofs2 PutProofs3 PutProofs4 PutProofs5 PutProps EdnsModel EdnsProps PktparseModel PktparseSpec PktparseProofs PktparseProofs2 PktparseProofs3 PktparseProps MsgSpec.

Lemma compact_in : forall m pos r e o sm owner t c ttl ps, compact_at m pos r e -> sent o sm owner t c ttl ps r -> readable c t ps ->
  record_in true m true pos (to_rr (canonical_record r)) e.
Proof.
  intros m pos r e o sm owner t c ttl ps (d & HFd & HP & HZ) (HL & HLow & HT & HC & HTtl & HMap & HLay & HNC) HR. pose proof (flat_len_eq _ _ HMap) as HFL.
  exists r, d, e. split; [exact HFd|]. split; [exact HL|]. split; [|split; [exact HP|split; [lia|split; [|split; [auto|reflexivity]]]]].
  - rewrite HT, HC. destruct HR as [HR|[-> HE]].
    + left. split; [intros _; apply (proj2 (pieces_longer _ _ _ _ _ HP)); lia|]. apply HLay. intros ->. cbn in HR. lia.
    + right. assert (E : r_data r = []) by (destruct (r_data r); [auto|discriminate]). rewrite E in HP. inversion HP; subst. auto.
  - destruct HR as [HR|[-> _]]; [lia|cbn in HFL; lia].
Qed.
Lemma records_written : forall m pos rs e l, records_at m pos rs e -> Forall2 is_record l rs ->
  Forall (fun x => readable (x_class (i_rrs (fst x))) (x_type (i_rrs (fst x))) (snd x)) l ->
  exists xs, records_in true m true pos xs e /\ Forall2 (fun x y => canonical_of x (fst y)) l xs.
Proof.
  intros m pos rs e l H. revert l. induction H as [pos|pos r mid rs e H1 H2 IH]; intros l HF HR.
  - inversion HF; subst. exists []. split; constructor.
  - inversion HF as [|x ? l' ? Hx HF']; subst. inversion HR as [|? ? R1 R2]; subst. destruct x as [i ps]. unfold is_record in Hx. cbn [fst snd] in *.
    destruct (IH l' HF' R2) as (xs & HX & HXF). exists ((to_rr (canonical_record r), pos) :: xs). split; [econstructor; [eapply compact_in; eauto|exact HX]|]. constructor; [|auto].
    exists (r_ttl r). cbn [fst snd]. split; [apply Hx|]. rewrite <- (canonical_sent _ _ _ _ _ _ _ _ Hx). reflexivity.
Qed.
Lemma special_written : forall (m : msg) l (xs : list (rr * Z)), in_section 0 (m_items m) ++ in_section 1 (m_items m) ++ in_section 2 (m_items m) = m_items m ->
  l = records_of (m_items m) -> Forall2 (fun x y => canonical_of x (fst y)) l xs -> specials_placed l ->
  special_ok (zlen (records_of (in_section 0 (m_items m))) + zlen (records_of (in_section 1 (m_items m)))) xs.
Proof.
  intros m l xs HS EL HF SP.
  assert (AT : forall i x pos, zget xs i = Some (x, pos) -> exists a it d b, l = a ++ (it, d) :: b /\ zlen a = i /\ zlen b = zlen xs - 1 - i /\ canonical_of (it, d) x).
  { clear EL SP. intros i x pos G. pose proof (zget_some _ _ _ G) as R. assert (N : nth_error xs (Z.to_nat i) = Some (x, pos)) by (rewrite <- G; unfold zget; destruct (i <? 0) eqn:E; [lia|reflexivity]). apply nth_error_split in N. destruct N as (u & v & -> & LU).
    apply Forall2_app_inv_r in HF. destruct HF as (a & b' & HA & HB & ->). inversion HB as [|[it d] ? b ? HC HB']; subst. exists a, it, d, b. split; [reflexivity|]. pose proof (Forall2_zlen _ _ _ _ _ HA). pose proof (Forall2_zlen _ _ _ _ _ HB'). rewrite zlen_app, zlen_cons in *. assert (zlen u = i) by (unfold zlen; rewrite LU; lia). split; [lia|]. split; [lia|exact HC]. }
  assert (TY : forall it d x, canonical_of (it, d) x -> rr_type x = x_type (i_rrs it) /\ (rr_type x = 250 \/ rr_type x = 41 -> rr_rdata x = flat d)).
  { intros it d x (ttl & _ & ->). cbn [fst snd canonical_record r_type r_data rr_type rr_rdata]. split; [reflexivity|]. intros [E|E]; rewrite E; reflexivity. }
  assert (SEC : forall a it d b, l = a ++ (it, d) :: b -> i_section it = 2 -> zlen (records_of (in_section 0 (m_items m))) + zlen (records_of (in_section 1 (m_items m))) <= zlen a).
  { intros a it d b E E2. rewrite <- zlen_app, <- records_of_app. rewrite EL, <- HS, app_assoc, records_of_app in E. set (u := records_of (in_section 0 (m_items m) ++ in_section 1 (m_items m))) in *.
    destruct (Z_le_dec (zlen u) (zlen a)) as [L|L]; [exact L|exfalso]. assert (I : In (it, d) u).
    { assert (G : nth_error (u ++ records_of (in_section 2 (m_items m))) (length a) = Some (it, d)) by (rewrite E, nth_error_app2, Nat.sub_diag by lia; reflexivity). rewrite nth_error_app1 in G by (unfold zlen in L; lia). eapply nth_error_In; eauto. }
    unfold u, records_of in I. apply in_concat in I. destruct I as (y & Y & I). apply in_map_iff in Y. destruct Y as (i' & <- & Y). apply in_map_iff in I. destruct I as (d' & Q & _). injection Q as -> _. apply in_app_iff in Y. unfold in_section in Y. rewrite !filter_In in Y. lia. }
  split.
  - intros i x pos G T. destruct (AT i x pos G) as (a & it & d & b & E & LA & LB & C). destruct (TY _ _ _ C) as [T1 T2]. destruct (proj1 (SP _ _ _ _ E) ltac:(congruence)) as (S2 & -> & RD). split; [rewrite <- LA; eapply SEC; eauto|]. cbn in LB. split; [lia|]. rewrite T2 by auto. exact RD.
  - intros i x pos G T. destruct (AT i x pos G) as (a & it & d & b & E & LA & LB & C). destruct (TY _ _ _ C) as [T1 T2]. destruct (proj2 (SP _ _ _ _ E) ltac:(congruence)) as (S2 & RD & ONE). split; [rewrite <- LA; eapply SEC; eauto|]. split; [rewrite T2 by auto; exact RD|].
    intros j y pos' G' T'. destruct (AT j y pos' G') as (a' & it' & d' & b' & E' & LA' & LB' & C'). destruct (TY _ _ _ C') as [T1' _]. destruct (Z.eq_dec j i) as [->|NE]; [reflexivity|exfalso].
    apply (ONE it' d'); [|congruence]. rewrite E in E'. assert (N : nth_error (a ++ (it, d) :: b) (length a') = Some (it', d')) by (rewrite E', nth_error_app2, Nat.sub_diag by lia; reflexivity).
    destruct (Nat.lt_ge_cases (length a') (length a)) as [L|L]; [rewrite nth_error_app1 in N by lia; apply in_or_app; left; eapply nth_error_In; eauto|]. rewrite nth_error_app2 in N by lia.
    destruct (length a' - length a)%nat as [|k] eqn:EK; [unfold zlen in *; lia|]. cbn [nth_error] in N. apply in_or_app; right; eapply nth_error_In; eauto.
Qed.

(** For any history of calls, if the RDATA can be read back, and OPT and TSIG are where they may be: the first octets of the packet are a
    message; parsing them succeeds and gives the question and exactly the records put, section by section, in the order in
    which they were put, in canonical form. *)
Theorem c59_message_round_trip_partial : forall p0 m0 cs rets p m keepwire, Inv p0 m0 -> history p0 m0 cs rets p m ->
  Forall (fun i => Forall (readable (x_class (i_rrs i)) (x_type (i_rrs i))) (x_data (i_rrs i))) (m_items m) -> specials_placed (records_of (m_items m)) ->
  exists d, pkt_parse (p_wire p) (p_size p) keepwire false true (fun _ => (true, true)) = Ok (KNOT_EOK, d) /\
    Forall2 (fun x y => canonical_of x (fst y)) (records_of (m_items m)) (d_rr d) /\
    (let n k := zlen (records_of (in_section k (m_items m))) in d_sections d = [(0, n 0); (n 0, n 1); (n 0 + n 1, n 2)]) /\
    match m_question m with
    | None => d_qname_size d = 0
    | Some (q, _, _) => d_qname_size d = name_size q /\ d_lower d = dwire (lower_name q)
    end.
Proof.
  intros p0 m0 cs rets p m kw HI HH HR SP. destruct (history_inv _ _ _ _ _ _ HH HI) as [HI' _]. pose proof (qend_size _ _ HI') as HQ. pose proof HI' as (HB & H64 & Hs & Hr & Hm & Hw & HQs & HRR & (HD1 & HD2) & ((rs & HRs & HSm & HF) & HQn) & (_ & _ & _ & _ & HSec & _) & _).
  assert (LM : zlen (zfirstn (p_size p) (p_wire p)) = p_size p) by (apply zlen_zfirstn; lia).
  assert (QE : 12 <= qend m) by (unfold qend; destruct (m_question m) as [[[q ?] ?]|]; [pose proof (name_size_ge1 q)|]; lia).
  assert (RA : records_at (zfirstn (p_size p) (p_wire p)) (qend m) rs (p_size p)).
  { eapply recs_real; [exact HRs|auto|auto| |lia|intros i Hi _; apply zget_zfirstn; lia]. unfold free. cbn [WN w_lo w_hole]. lia. }
  assert (RD : Forall (fun x => readable (x_class (i_rrs (fst x))) (x_type (i_rrs (fst x))) (snd x)) (records_of (m_items m))).
  { clear - HR. unfold records_of. rewrite Forall_forall in *. intros [i ps] Hx. apply in_concat in Hx. destruct Hx as (l & Hl & Hx). apply in_map_iff in Hl. destruct Hl as (i' & <- & Hi). apply in_map_iff in Hx. destruct Hx as (ps' & E & Hx). inversion E; subst. cbn [fst snd].
    specialize (HR i Hi). rewrite Forall_forall in HR. apply HR. unfold in_order in Hx. apply in_app_iff in Hx. rewrite <- (firstn_skipn (Z.to_nat (if zlen (x_data (i_rrs i)) =? 0 then 0 else i_rotate i mod zlen (x_data (i_rrs i)))) (x_data (i_rrs i))). apply in_or_app. tauto. }
  destruct (records_written _ _ _ _ _ RA HF RD) as (xs & XS & XF).
  set (q := match m_question m with None => None | Some (q, _, _) => Some q end). set (n := fun k => zlen (records_of (in_section k (m_items m)))).
  assert (MI : message_in true (zfirstn (p_size p) (p_wire p)) (negb false) q (n 0) (n 1) (n 2) xs).
  { unfold message_in. rewrite LM. split; [lia|]. split; [apply u16_m; try lia; apply (HD2 0); lia|]. split; [apply u16_m; try lia; apply (HD2 1); lia|]. split; [apply u16_m; try lia; apply (HD2 2); lia|].
    split. { rewrite <- (Forall2_zlen _ _ _ _ _ XF). rewrite <- HSec at 1. rewrite !records_of_app, !zlen_app. unfold n. lia. }
    exists (qend m). split; [|split; [exact HQ|split; [exact XS|eapply special_written; eauto]]].
    unfold q, qend in *. destruct (m_question m) as [[[qn cl] t]|]; cbn [question_in].
    - destruct HQn as (HL & Hc & Ht & HHo & _). split; [apply u16_m; try lia; exact HD1|]. split; [exact HL|]. split; [|reflexivity]. pose proof (name_size_ge1 qn). apply holds_enc; [apply HL|]. apply holds_app_inv in HHo. destruct HHo as [H1 _]. intros i Hi. rewrite zlen_wire in Hi. rewrite zget_zfirstn by lia. apply H1. rewrite zlen_wire. lia.
    - split; [apply u16_m; try lia; exact HD1|reflexivity]. }
  destruct (c13_parse_complete (p_wire p) (p_size p) kw false q (n 0) (n 1) (n 2) xs HB ltac:(lia) ltac:(lia) MI) as (d & E & ED). exists d. split; [exact E|]. rewrite ED. split; [exact XF|].
  destruct (c13_parse_sound (p_wire p) (p_size p) kw false true (fun _ => (true, true)) HB ltac:(lia) ltac:(lia)) as (ret & d' & E' & _ & _ & OK). rewrite E in E'. injection E' as <- <-. destruct (OK eq_refl) as (q' & an & ns & ar & MI' & QQ & DS & _).
  destruct MI as (_ & U1 & U2 & U3 & _ & qe & Q1 & _). destruct MI' as (_ & V1 & V2 & V3 & _ & qe' & Q2 & _). pose proof (u16_det _ _ _ _ U1 V1). pose proof (u16_det _ _ _ _ U2 V2). pose proof (u16_det _ _ _ _ U3 V3). subst an ns ar. cbv zeta. split; [exact DS|].
  subst q. destruct (m_question m) as [[[qn cl] t]|]; destruct q' as [q'|]; cbn [question_in] in Q1, Q2.
  - destruct Q1 as (_ & _ & E1 & _). destruct Q2 as (_ & _ & E2 & _). assert (HBm : bytes (zfirstn (p_size p) (p_wire p))) by (apply bytes_zfirstn; auto). destruct (DnameProofs.encodes_det _ _ _ _ _ HBm E1 _ _ E2) as [<- _]. split; apply QQ.
  - destruct Q1 as (A & _). destruct Q2 as (B & _). pose proof (u16_det _ _ _ _ A B). lia.
  - destruct Q1 as (A & _). destruct Q2 as (B & _). pose proof (u16_det _ _ _ _ A B). lia.
  - exact QQ.
Qed.
(** The message of PutProps, with a question, two MX records, an address, an RRset that did not fit and OPT. *)
Example c59_case : exists d,
  pkt_parse (p_wire (snd (state 8))) (p_size (snd (state 8))) false false true (fun _ => (true, true)) = Ok (KNOT_EOK, d) /\
  map (fun x => (rr_type (fst x), rr_rdata (fst x))) (d_rr d) = [(15, [0; 6; 1; 110; 2; 97; 98; 1; 99; 0]); (15, [0; 5; 1; 109; 2; 97; 98; 1; 99; 0]); (1, [192; 0; 2; 1]); (41, [])] /\
  d_sections d = [(0, 2); (2, 0); (2, 2)] /\ d_opt d = Some 3 /\
  specials_placed (records_of (m_items (asked 8))).
Proof.
  eexists. split; [vm_compute; reflexivity|]. split; [vm_compute; reflexivity|]. split; [vm_compute; reflexivity|]. split; [vm_compute; reflexivity|].
  change (m_items (asked 8)) with [mkitem 0 mx 1000 1 no_flags; mkitem 2 glue 2000 0 no_flags; mkitem 2 opt 4000 0 no_flags].
  intros a i d b E. cbn [records_of map concat app in_order i_rotate i_rrs x_data mx glue opt] in E.
  do 3 (destruct a as [|? a]; [cbn in E; injection E as <- <- <-; split; discriminate|cbn [app] in E; injection E as <- E]).
  destruct a as [|? a]; [|destruct a; discriminate]. cbn in E. injection E as <- <- <-. split; [discriminate|]. intros _. split; [reflexivity|]. split; [exists []; split; [reflexivity|split; [constructor|auto]]|].
  intros j e Hj. cbn in Hj. repeat (destruct Hj as [Hj|Hj]; [injection Hj as <- _; discriminate|]). destruct Hj.
Qed.
Print Assumptions c59_message_round_trip_partial.
