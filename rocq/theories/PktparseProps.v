(** C13: parsing of messages. *)
From Verif Require Import Base DnameModel DnameSpec DnameProofs DnameProofs2 DnameProps WireModel WireProofs EdnsModel EdnsProps RrwireModel RrwireSpec RrwireProofs RrwireProofs2 RrwireProofs3 ComprModel ComprProofs ComprProofs2 ComprProofs3 ComprProofs4 PutModel PutProofs PutProofs4 PktparseModel PktparseSpec PktparseProofs PktparseProofs2 PktparseProofs3 RrwireProps.

Lemma u16_m : forall w n i v, n <= zlen w -> 0 <= i -> i + 2 <= n -> (u16_at (zfirstn n w) i v <-> u16_at w i v).
Proof. intros w n i v Hn Hi Hl. unfold u16_at. rewrite !zget_zfirstn by lia. reflexivity. Qed.
Lemma holds_split : forall (m : list Z) off l, 0 <= off -> off + zlen l <= zlen m -> ComprProofs.holds m off l -> zskipn off m = l ++ zskipn (off + zlen l) m /\ zfirstn (zlen l) (zskipn off m) = l.
Proof.
  intros m off l H0 H1 HH. pose proof (zlen_nonneg l) as L0.
  assert (E : zskipn off m = l ++ zskipn (off + zlen l) m).
  { apply zget_ext; [rewrite zlen_app, !zlen_zskipn by lia; lia|]. rewrite zlen_zskipn by lia. intros i Hi. rewrite zget_zskipn by lia. destruct (Z_lt_dec i (zlen l)); [rewrite zget_app_l by lia; apply HH; lia|]. rewrite zget_app_r by lia. rewrite zget_zskipn by lia. f_equal. lia. }
  split; [exact E|]. rewrite E. unfold zfirstn, zlen. rewrite Nat2Z.id. rewrite firstn_app, Nat.sub_diag, firstn_all. apply app_nil_r.
Qed.
Lemma removelast_wire : forall ls, legal_labels ls -> existsb (Z.eqb 0) (removelast (dwire ls)) = true <-> exists lab, In lab ls /\ In 0 lab.
Proof.
  intros ls HL. rewrite dwire_prefix. rewrite removelast_last. rewrite existsb_exists. induction HL as [|l ls H1 H2 IH]; [split; [intros (x & [] & _)|intros (x & [] & _)]|].
  change (prefix_wire (l :: ls)) with (zlen l :: l ++ prefix_wire ls). split.
  - intros (x & [Hx|Hx] & E0); [destruct H1; lia|]. apply in_app_or in Hx. destruct Hx as [Hx|Hx]; [exists l; split; [left; auto|]; replace 0 with x by lia; auto|]. destruct IH as [IH _]. destruct IH as (lab & HI & H0); [eauto|]. exists lab. split; [right; auto|auto].
  - intros (lab & [<-|HI] & H0); [exists 0; split; [right; apply in_or_app; auto|reflexivity]|]. destruct IH as [_ IH]. destruct IH as (x & Hx & E0); [eauto|]. exists x. split; [right; apply in_or_app; auto|auto].
Qed.

(** the question *)
Lemma parse_question_spec : forall w n, bytes w -> 0 <= n <= zlen w -> n <= 65535 ->
  let p := dpkt_new w n in
  exists ret p', parse_question p = Ok (ret, p') /\ d_wire p' = w /\ d_size p' = n /\ d_rr p' = [] /\ d_allocd p' = 0 /\ d_current p' = 0 /\ d_sections p' = [(0, 0); (0, 0); (0, 0)] /\ d_opt p' = None /\ d_tsig p' = None /\ d_tsig_wire p' = None /\
    (ret = KNOT_EOK -> 12 <= n /\ exists q, question_in (zfirstn n w) q (d_parsed p') /\ 12 <= d_parsed p' <= n /\ u16_at w 4 (match q with None => 0 | Some _ => 1 end) /\
      match q with
      | None => d_qname_size p' = 0
      | Some ls => d_qname_size p' = name_size ls /\ d_lower p' = dwire (lower_name ls) /\ (d_nullbyte p' = true <-> exists lab, In lab ls /\ In 0 lab)
      end) /\
    (forall q qend, 12 <= n -> question_in (zfirstn n w) q qend -> qend <= n -> ret = KNOT_EOK /\ d_parsed p' = qend).
Proof.
  intros w n HB Hn H64 p. unfold parse_question, p, dpkt_new. cbn [d_wire d_size d_parsed d_qname_size d_lower d_nullbyte d_rr d_allocd d_current d_sections d_opt d_tsig d_tsig_wire].
  destruct (n <? 12) eqn:E12; [eexists _, _; split; [reflexivity|]; do 9 (split; [reflexivity|]); split; [discriminate|intros; lia]|].
  destruct (u16_exists w 4 HB ltac:(lia) ltac:(lia)) as (qd & Uq & Rq & _). rewrite (get16_ok _ _ _ HB Uq). cbn [rbind]. assert (Uq' : u16_at (zfirstn n w) 4 qd) by (apply u16_m; auto; lia).
  assert (QD : forall q qend, question_in (zfirstn n w) q qend -> qd = match q with None => 0 | Some _ => 1 end). { intros q qend H. destruct q as [ls|]; cbn [question_in] in H; destruct H as [H _]; eapply u16_det; eauto. }
  destruct (qd >? 1) eqn:E1; [eexists _, _; split; [reflexivity|]; do 9 (split; [reflexivity|]); split; [discriminate|]; intros q qend _ H; specialize (QD _ _ H); destruct q; lia|].
  assert (HBm : bytes (zfirstn n w)) by (apply bytes_zfirstn; auto). assert (LM : zlen (zfirstn n w) = n) by (apply zlen_zfirstn; lia).
  destruct (qd =? 0) eqn:E0.
  - assert (qd = 0) as -> by lia. eexists _, _; split; [reflexivity|]; do 9 (split; [reflexivity|]). cbn [d_parsed d_qname_size]. split.
    + intros _. split; [lia|]. exists None. split; [split; [auto|reflexivity]|]. split; [lia|]. auto.
    + intros q qend _ H _. specialize (QD _ _ H) as Q. destruct q as [ls|]; [discriminate|]. destruct H as [_ ->]. auto.
  - assert (qd = 1) as -> by lia. destruct (c01_check_safe_sound (zfirstn n w) false 12 HBm ltac:(lia)) as [(len & ls & EW & HE & HL & Hlen & Hle)|(e & EW)]; rewrite EW.
    2: { eexists _, _; split; [reflexivity|]; do 9 (split; [reflexivity|]). split; [discriminate|]. intros q qend _ H _. specialize (QD _ _ H) as Q. destruct q as [ls|]; [|discriminate]. destruct H as (_ & HL & HE & _). rewrite (c01_check_complete _ _ _ _ _ HBm HE HL) in EW. discriminate. }
    pose proof (encodes_size _ _ _ _ HE) as ->. pose proof HL as [HLL HLS]. replace (name_size ls <=? 0) with false by lia. assert (UQ : u16 (name_size ls + 4) = name_size ls + 4) by (unfold u16; apply Z.mod_small; lia). rewrite UQ.
    assert (UN : forall q qend, question_in (zfirstn n w) q qend -> qend = 12 + (name_size ls + 4)). { intros q qend H. specialize (QD _ _ H) as Q. destruct q as [ls'|]; [|discriminate]. destruct H as (_ & _ & HE' & ->). destruct (c01_encoding_unique _ _ _ _ _ _ _ HBm HE HE') as [<- _]. lia. }
    destruct (12 + (name_size ls + 4) >? n) eqn:ES; [eexists _, _; split; [reflexivity|]; do 9 (split; [reflexivity|]); split; [discriminate|]; intros q qend _ H Hq; specialize (UN _ _ H); lia|].
    assert (HH : ComprProofs.holds w 12 (dwire ls)). { pose proof (enc_holds _ _ _ _ _ HE eq_refl) as H. intros i Hi. rewrite <- H by auto. rewrite zget_zfirstn; [reflexivity|]. rewrite zlen_wire in Hi. lia. }
    destruct (holds_split w 12 (dwire ls) ltac:(lia) ltac:(rewrite zlen_wire; lia) HH) as [HS1 HS2]. rewrite HS1. rewrite dname_to_lower_spec by auto. cbn [rbind]. rewrite rdn_ok by lia. cbn [rbind]. rewrite zlen_wire in HS2. rewrite HS2.
    eexists _, _; split; [reflexivity|]; do 9 (split; [reflexivity|]). cbn [d_parsed d_qname_size d_lower d_nullbyte]. split.
    + intros _. split; [lia|]. exists (Some ls). split; [split; [auto|split; [auto|split; [auto|lia]]]|]. split; [lia|]. split; [auto|]. split; [auto|]. split; [auto|]. cbn [orb]. apply removelast_wire. auto.
    + intros q qend _ H _. split; [auto|]. symmetry. eapply UN; eauto.
Qed.

(** ** C13 *)
(** What is left in the packet: the whole message; or, if a TSIG was removed, the message without it, ARCOUNT being
    lowered, and where the TSIG is. *)
Definition wire_left (w : list Z) (n ar : Z) (keepwire : bool) (p : dpkt) : Prop :=
  (d_wire p = w /\ d_size p = n /\ d_parsed p = n /\ d_tsig_wire p = None /\ (d_tsig p = None \/ keepwire = true)) \/
  (keepwire = false /\ exists l x pos, d_rr p = l ++ [(x, pos)] /\ rr_type x = 250 /\ d_parsed p = pos /\ d_size p = pos /\
     zlen (d_wire p) = zlen w /\ (forall i, i < 10 \/ 12 <= i -> zget (d_wire p) i = zget w i) /\ u16_at (d_wire p) 10 (ar - 1) /\ d_tsig_wire p = Some (pos, n - pos)).
(** For every content of the memory of the packet, every size of the message up to 64 KiB - 1 octet, both flags and every failure of allocations:
    parsing ends without reading or writing outside of its memory; the memory for records is bounded by the size
    of the message; and if it succeeds, the octets are a message with the returned question, sections and records,
    the OPT and the TSIG are those returned. *)
Theorem c13_parse_sound : forall w n keepwire nocanon ala al, bytes w -> 0 <= n <= zlen w -> n <= 65535 ->
  exists ret p, pkt_parse w n keepwire nocanon ala al = Ok (ret, p) /\ d_allocd p <= n / 11 + 16 /\ zlen (d_rr p) <= n / 11 /\
    (ret = KNOT_EOK -> exists q an ns ar, message_in false (zfirstn n w) (negb nocanon) q an ns ar (d_rr p) /\
       match q with
       | None => d_qname_size p = 0
       | Some ls => d_qname_size p = name_size ls /\ d_lower p = dwire (lower_name ls) /\ (d_nullbyte p = true <-> exists lab, In lab ls /\ In 0 lab)
       end /\
       d_sections p = [(0, an); (an, ns); (an + ns, ar)] /\ index_of 41 (d_rr p) (d_opt p) /\ index_of 250 (d_rr p) (d_tsig p) /\ wire_left w n ar keepwire p).
Proof.
  intros w n keepwire nocanon ala al HB Hn H64. unfold pkt_parse. change (snd (d_begin (dpkt_new w n) 0)) with (dpkt_new w n).
  destruct (parse_question_spec w n HB Hn H64) as (ret & p & E & Hw & Hs & Hr & Ha & Hc & Hse & Ho & Ht & Htw & OK & _). rewrite E. cbn [rbind]. assert (D0 : 0 <= n / 11) by (apply Z.div_pos; lia).
  destruct (ret =? KNOT_EOK) eqn:ER; [|exists ret, p; split; [reflexivity|]; rewrite Hr, Ha; split; [lia|]; split; [cbn; lia|lia]].
  apply Z.eqb_eq in ER. destruct (OK ER) as (H12 & q & HQ & Hp & Uq & HQ2).
  destruct (u16_exists w 6 HB ltac:(lia) ltac:(lia)) as (an & Ua & _). destruct (u16_exists w 8 HB ltac:(lia) ltac:(lia)) as (ns & Un & _). destruct (u16_exists w 10 HB ltac:(lia) ltac:(lia)) as (ar & Ur & _).
  destruct (parse_payload_spec w n keepwire nocanon (d_parsed p) p an ns ar ala al) as (ret2 & p2 & E2 & F & HA & HZ & OK2 & _); auto; try lia.
  exists ret2, p2. split; [exact E2|]. split; [auto|]. split; [auto|]. intros Hret. destruct (OK2 Hret) as (Z2 & HCh & HSp & HSe & I1 & I2 & HW). exists q, an, ns, ar.
  assert (HBm : bytes (zfirstn n w)) by (apply bytes_zfirstn; auto). assert (LM : zlen (zfirstn n w) = n) by (apply zlen_zfirstn; lia).
  destruct (chain_in _ _ (d_parsed p) _ _ HBm ltac:(lia) ltac:(lia) HCh) as (HRI & _).
  split.
  { unfold message_in. rewrite LM. split; [lia|]. do 3 (split; [apply u16_m; auto; lia|]). split; [auto|]. exists (d_parsed p). split; [auto|]. split; [lia|]. split; [exact HRI|exact HSp]. }
  destruct F as (F1 & F2 & F3). rewrite F1, F2, F3. split; [auto|]. split; [auto|]. split; [auto|]. split; [auto|]. destruct HW as [HW|(HK & l & x & pos & W1 & W2 & W3 & W4 & (D1 & _ & D3) & W6 & W7)]; [left; auto|right]. split; [auto|]. exists l, x, pos. do 4 (split; [auto|]). auto.
Qed.
(** And every message is parsed, if memory is available. *)
Theorem c13_parse_complete : forall w n keepwire nocanon q an ns ar l, bytes w -> 0 <= n <= zlen w -> n <= 65535 ->
  message_in true (zfirstn n w) (negb nocanon) q an ns ar l ->
  exists p, pkt_parse w n keepwire nocanon true (fun _ => (true, true)) = Ok (KNOT_EOK, p) /\ d_rr p = l.
Proof.
  intros w n keepwire nocanon q an ns ar l HB Hn H64 (H12 & Ua & Un & Ur & HZ & qend & HQ & Hqe & HRI & HSp). rewrite zlen_zfirstn in * by lia. unfold pkt_parse. change (snd (d_begin (dpkt_new w n) 0)) with (dpkt_new w n).
  destruct (parse_question_spec w n HB Hn H64) as (ret & p & E & Hw & Hs & Hr & Ha & Hc & Hse & Ho & Ht & Htw & OK & CO). rewrite E. cbn [rbind]. destruct (CO q qend H12 HQ Hqe) as [-> HP]. rewrite Z.eqb_refl. destruct (OK eq_refl) as (_ & _ & _ & HP2 & _). rewrite u16_m in Ua, Un, Ur by lia.
  assert (HBm : bytes (zfirstn n w)) by (apply bytes_zfirstn; auto). assert (LM : zlen (zfirstn n w) = n) by (apply zlen_zfirstn; lia).
  destruct (parse_payload_spec w n keepwire nocanon (d_parsed p) p an ns ar true (fun _ => (true, true))) as (ret2 & p2 & E2 & F & HA & HZ2 & _ & CO2); auto; try lia.
  destruct (CO2 l eq_refl ltac:(auto) HZ) as [-> HL]; [|auto|exists p2; auto]. rewrite HP. change (c_m _) with (zfirstn n w). apply in_chain; [exact HBm|lia|lia|exact HRI].
Qed.
(** The records of a message are determined: two readings of the same octets agree. *)
Theorem c13_message_unique : forall m canonical q an ns ar l q' an' ns' ar' l', bytes m -> zlen m <= 65535 ->
  message_in true m canonical q an ns ar l -> message_in true m canonical q' an' ns' ar' l' -> l = l' /\ an = an' /\ ns = ns' /\ ar = ar'.
Proof.
  intros m canonical q an ns ar l q' an' ns' ar' l' HB H64 H H'. pose proof (zlen_nonneg m) as L0.
  assert (EM : zfirstn (zlen m) m = m) by (unfold zfirstn, zlen; rewrite Nat2Z.id; apply firstn_all).
  destruct (c13_parse_complete m (zlen m) false (negb canonical) q an ns ar l HB ltac:(lia) H64) as (p & E & HP); [rewrite EM, negb_involutive; auto|].
  destruct (c13_parse_complete m (zlen m) false (negb canonical) q' an' ns' ar' l' HB ltac:(lia) H64) as (p' & E' & HP'); [rewrite EM, negb_involutive; auto|].
  rewrite E in E'. inversion E'; subst p'. destruct H as (_ & A1 & A2 & A3 & _). destruct H' as (_ & B1 & B2 & B3 & _). split; [congruence|]. split; [eapply u16_det; eauto|split; eapply u16_det; eauto].
Qed.

(** The message with an MX record of RrwireProps is a message; three octets of the memory are behind it. *)
Definition mx46 : list Z := firstn 46 mx_msg.
Example c13_complete_case :
  bytes (mx46 ++ [1; 2; 3]) /\ 46 <= zlen (mx46 ++ [1; 2; 3]) /\ message_in true (zfirstn 46 (mx46 ++ [1; 2; 3])) true (Some [[65]; [69; 120; 97; 109; 112; 108; 101]]) 1 0 0 [(to_rr (canonical_record mx_record), 27)].
Proof.
  split; [repeat constructor; unfold byte; lia|]. split; [cbn; lia|]. change (zfirstn 46 (mx46 ++ [1; 2; 3])) with mx46.
  split; [cbn; lia|]. split; [eexists; eexists; repeat split; reflexivity|]. split; [eexists; eexists; repeat split; reflexivity|]. split; [eexists; eexists; repeat split; reflexivity|]. split; [reflexivity|].
  exists 27. split.
  { split; [eexists; eexists; repeat split; reflexivity|]. split; [split; [repeat constructor; unfold byte; cbn; lia|cbn; lia]|]. split; [|reflexivity]. change (name_size [[65]; [69; 120; 97; 109; 112; 108; 101]]) with (2 + (8 + 1)).
    apply enc_label with (n := 8 + 1); [split; [cbn; lia|repeat constructor; unfold byte; lia]|reflexivity|intros i Hi; cbn in Hi; replace i with 0 by lia; reflexivity|].
    apply enc_label with (n := 1); [split; [cbn; lia|repeat constructor; unfold byte; lia]|reflexivity|intros i Hi; cbn in Hi; assert (i = 0 \/ i = 1 \/ i = 2 \/ i = 3 \/ i = 4 \/ i = 5 \/ i = 6) as [->|[->|[->|[->|[->|[->| ->]]]]]] by lia; reflexivity|]. apply enc_root. reflexivity. }
  split; [cbn; lia|]. split.
  { eapply ri_cons; [|change (zlen mx46) with 46; apply ri_nil]. exists mx_record, 39, 46.
    split. { exists 2, 7. split; [apply enc_ptr with (hi := 192) (lo := 12) (n := 11); try reflexivity; try lia; change ((192 - 192) * 256 + 12) with 12; cbv delta [mx_record]; cbn [r_owner]; enc_solve|].
      repeat split; try (cbn; lia); try (eexists; eexists; repeat split; reflexivity). exists 0, 3600. repeat split; eexists; eexists; repeat split; reflexivity. }
    split; [split; [repeat constructor; unfold byte; cbn; lia|cbn; lia]|]. split.
    { left. split; [lia|]. apply lo_fixed; [reflexivity|repeat constructor; unfold byte; lia|]. apply lo_name; [|constructor]. split; [repeat constructor; unfold byte; cbn; lia|cbn; lia]. }
    split. { apply pa_data; [lia|cbn; lia|cbn; lia|intros i Hi; cbn in Hi; assert (i = 0 \/ i = 1) as [->| ->] by lia; reflexivity|].
      apply pa_name with (n := 5); [|apply pa_nil].
      eapply enc_by; [apply enc_label with (n := 2); [split; [cbn; lia|repeat constructor; unfold byte; lia]|reflexivity|intros i Hi; cbn in Hi; assert (i = 0 \/ i = 1) as [->| ->] by lia; reflexivity|]|reflexivity].
      apply enc_ptr with (hi := 192) (lo := 14) (n := 9); try reflexivity; try lia. change ((192 - 192) * 256 + 14) with 14. enc_solve. }
    split; [lia|]. split; [cbn; lia|]. split; [lia|]. reflexivity. }
  split; intros i x pos Hg Hx; pose proof (zget_some _ _ _ Hg) as R; cbn in R; assert (i = 0) as -> by lia; cbn in Hg; inversion Hg; subst; discriminate.
Qed.
(** A message without question, with an OPT with one option and a TSIG with a MAC of two octets; [b] is behind it. *)
Definition tsig_record : list Z := [1; 75; 0; 0; 250; 0; 255; 0; 0; 0; 0; 0; 21; 1; 104; 0; 0; 0; 0; 0; 0; 9; 1; 44; 0; 2; 5; 6; 0; 7; 0; 0; 0; 0].
Definition opt_record : list Z := [0; 0; 41; 16; 0; 0; 0; 0; 0; 0; 5; 0; 3; 0; 1; 88].
Definition hdr (an ns ar : Z) : list Z := [0; 7; 0; 0; 0; 0; 0; an; 0; ns; 0; ar].
Definition parse_all (w : list Z) (keepwire : bool) := pkt_parse w (zlen w) keepwire false true (fun _ => (true, true)).
Definition verdict (r : res (Z * dpkt)) : res (Z * Z * Z * option Z * option Z * option (Z * Z)) :=
  let* (ret, p) := r in Ok (ret, zlen (d_rr p), d_size p, d_opt p, d_tsig p, d_tsig_wire p).
Example c13_parse_cases :
  verdict (parse_all (hdr 0 0 2 ++ opt_record ++ tsig_record) false) = Ok (KNOT_EOK, 2, 28, Some 0, Some 1, Some (28, 34)) /\
  (let* (_, p) := parse_all (hdr 0 0 2 ++ opt_record ++ tsig_record) false in Ok (d_wire p)) = Ok (hdr 0 0 1 ++ opt_record ++ tsig_record) /\
  verdict (parse_all (hdr 0 0 2 ++ opt_record ++ tsig_record) true) = Ok (KNOT_EOK, 2, 62, Some 0, Some 1, None) /\
  (* octets behind the message *)
  verdict (parse_all (hdr 0 0 1 ++ opt_record ++ [9]) false) = Ok (KNOT_ETRAIL, 1, 29, Some 0, None, None) /\
  (* TSIG in front of OPT *)
  verdict (parse_all (hdr 0 0 2 ++ tsig_record ++ opt_record) true) = Ok (KNOT_EMALF, 2, 62, Some 1, Some 0, None) /\
  verdict (parse_all (hdr 0 0 2 ++ tsig_record ++ opt_record) false) = Ok (KNOT_EMALF, 1, 28, None, Some 0, Some (12, 34)) /\
  (* two OPT, OPT in AUTHORITY *)
  verdict (parse_all (hdr 0 0 2 ++ opt_record ++ opt_record) false) = Ok (KNOT_EMALF, 2, 44, Some 0, None, None) /\
  verdict (parse_all (hdr 0 1 0 ++ opt_record) false) = Ok (KNOT_EMALF, 1, 28, None, None, None) /\
  (* too many records announced *)
  verdict (parse_all (hdr 0 0 9 ++ opt_record) false) = Ok (KNOT_EMALF, 0, 28, None, None, None) /\
  verdict (parse_all (hdr 0 0 2 ++ opt_record) false) = Ok (KNOT_EFEWDATA, 1, 28, Some 0, None, None).
Proof. vm_compute. repeat split; reflexivity. Qed.

Print Assumptions c13_parse_sound.
Print Assumptions c13_parse_complete.
Print Assumptions c13_message_unique.
