(** Parsing of messages: the invariant and the sections. *)
From Verif Require Import Base DnameModel DnameSpec DnameProofs DnameProofs2 DnameProps WireModel WireProofs EdnsModel EdnsProps RrwireModel RrwireSpec RrwireProofs RrwireProofs2 RrwireProofs3 ComprModel ComprProofs ComprProofs2 ComprProofs3 ComprProofs4 PutModel PutProofs PktparseModel PktparseSpec PktparseProofs.

(** What does not change: the wire and its size, the flags, the end of the question, the number of the first record
    of ADDITIONAL, ARCOUNT, the number of all records, the size of the arrays *)
Record ctx := mkctx { c_w : list Z; c_n : Z; c_keep : bool; c_nocan : bool; c_qend : Z; c_first : Z; c_ar : Z; c_total : Z; c_alloc : Z }.
Definition c_m (c : ctx) : list Z := zfirstn (c_n c) (c_w c).
Definition c_can (c : ctx) : bool := negb (c_nocan c).
Definition ctx_ok (c : ctx) : Prop :=
  bytes (c_w c) /\ 12 <= c_n c <= zlen (c_w c) /\ c_n c <= 65535 /\ 12 <= c_qend c /\ u16_at (c_w c) 10 (c_ar c) /\
  0 <= c_first c /\ c_total c <= c_alloc c /\ c_total c <= c_n c / 11.

Definition untouched (c : ctx) (p : dpkt) (l : list (rr * Z)) : Prop :=
  d_wire p = c_w c /\ d_size p = c_n c /\ d_tsig_wire p = None /\ chain (c_m c) (c_can c) (c_qend c) l (d_parsed p).
Definition stripped (c : ctx) (p : dpkt) (l : list (rr * Z)) : Prop :=
  exists l' t pos e, l = l' ++ [(t, pos)] /\ chain (c_m c) (c_can c) (c_qend c) l' pos /\ reads1 (c_m c) (c_can c) pos t e /\ rr_type t = 250 /\
    d_parsed p = pos /\ d_size p = c_n c - (e - pos) /\ differ (c_w c) (d_wire p) 10 12 /\ u16_at (d_wire p) 10 (c_ar c - 1) /\ d_tsig_wire p = Some (pos, e - pos) /\ d_tsig p = Some (zlen l').
(** the one record of the given type *)
Definition only (type first : Z) (ok : list Z -> Prop) (i : option Z) (l : list (rr * Z)) : Prop :=
  match i with
  | None => forall j y pos, zget l j = Some (y, pos) -> rr_type y <> type
  | Some i => exists x pos, zget l i = Some (x, pos) /\ rr_type x = type /\ first <= i /\ ok (rr_rdata x) /\
      forall j y pos, zget l j = Some (y, pos) -> rr_type y = type -> j = i
  end.
Definition St (c : ctx) (p : dpkt) (l : list (rr * Z)) : Prop :=
  d_rr p = l /\ d_allocd p = c_alloc c /\ only 250 (c_first c) tsig_rdata (d_tsig p) l /\ only 41 (c_first c) opt_rdata (d_opt p) l /\
  ((untouched c p l /\ (d_tsig p = None \/ c_keep c = true)) \/ (c_keep c = false /\ stripped c p l)).
Definition frame (p p' : dpkt) : Prop := d_qname_size p' = d_qname_size p /\ d_lower p' = d_lower p /\ d_nullbyte p' = d_nullbyte p.

Lemma zget_snoc : forall A (l : list A) x j y, zget (l ++ [x]) j = Some y -> (zget l j = Some y /\ j < zlen l) \/ (j = zlen l /\ y = x).
Proof.
  intros A l x j y H. destruct (Z_lt_dec j (zlen l)).
  - left. split; [|auto]. destruct (Z_lt_dec j 0); [unfold zget in H; replace (j <? 0) with true in H by lia; discriminate|]. rewrite zget_app_l in H by lia. auto.
  - right. rewrite zget_app_r in H by lia. unfold zget in H. destruct (j - zlen l <? 0) eqn:E; [discriminate|]. destruct (Z.to_nat (j - zlen l)) as [|k] eqn:EK; cbn in H; [inversion H; split; [lia|auto]|destruct k; discriminate].
Qed.
Lemma zget_last : forall A (l : list A) x, zget (l ++ [x]) (zlen l) = Some x.
Proof. intros. rewrite zget_app_r by lia. rewrite Z.sub_diag. reflexivity. Qed.
Lemma zget_keep : forall A (l : list A) x j y, zget l j = Some y -> zget (l ++ [x]) j = Some y.
Proof. intros A l x j y H. pose proof (zget_some _ _ _ H). rewrite zget_app_l by lia. auto. Qed.
Lemma only_other : forall type first ok i l x pos, only type first ok i l -> rr_type x <> type -> only type first ok i (l ++ [(x, pos)]).
Proof.
  intros type first ok i l x pos H HN. destruct i as [i|]; cbn [only] in *.
  - destruct H as (y & py & H1 & H2 & H3 & H4 & H5). exists y, py. do 4 (split; [auto using zget_keep|]). intros j z pz Hz Hty. apply zget_snoc in Hz. destruct Hz as [[Hz _]|[_ Hz]]; [eauto|inversion Hz; subst; congruence].
  - intros j y py Hy. apply zget_snoc in Hy. destruct Hy as [[Hy _]|[_ Hy]]; [eauto|inversion Hy; subst; auto].
Qed.
Lemma only_new : forall type first ok l x pos, only type first ok None l -> rr_type x = type -> first <= zlen l -> ok (rr_rdata x) -> only type first ok (Some (zlen l)) (l ++ [(x, pos)]).
Proof.
  intros type first ok l x pos H HT HF HO. cbn [only] in *. exists x, pos. split; [apply zget_last|]. do 3 (split; [auto|]). intros j y py Hy Hty. apply zget_snoc in Hy. destruct Hy as [[Hy _]|[Hj _]]; [exfalso; eapply H; eauto|auto].
Qed.

Lemma bytes_m : forall c, ctx_ok c -> bytes (c_m c).
Proof. intros c (HB & _). apply bytes_zfirstn. auto. Qed.
Lemma zlen_m : forall c, ctx_ok c -> zlen (c_m c) = c_n c.
Proof. intros c (_ & H & _). apply zlen_zfirstn. lia. Qed.

(** after TSIG was removed, any other record is an error *)
Lemma stripped_read : forall c p l x e, ctx_ok c -> stripped c p l -> reads1 (zfirstn (d_size p) (d_wire p)) (c_can c) (d_parsed p) x e -> bytes (d_wire p) -> d_size p <= zlen (d_wire p) -> 12 <= d_parsed p -> rr_type x = 250.
Proof.
  intros c p l x e HC (l' & t & pos & e0 & _ & HCh & HR & HT & Hp & Hs & Hw & _) HX HBw Hsz Hpos. pose proof HC as (HB & Hn & H64 & Hq & U & _). pose proof (bytes_m c HC) as HBm. pose proof (zlen_m c HC) as LM. rewrite Hp in *.
  destruct (reads1_in _ _ pos _ _ HBm ltac:(lia) ltac:(lia) HR) as [_ He]. destruct (reads1_parts _ _ pos _ _ HBm ltac:(lia) ltac:(lia) HR) as (_ & _ & _ & n & ls & HE & Ut).
  assert (HB1 : bytes (zfirstn (d_size p) (d_wire p))) by (apply bytes_zfirstn; auto).
  assert (L1 : zlen (zfirstn (d_size p) (d_wire p)) = d_size p) by (apply zlen_zfirstn; lia).
  destruct (reads1_parts _ _ pos _ _ HB1 ltac:(lia) ltac:(lia) HX) as (_ & _ & _ & n1 & ls1 & HE1 & Ut1).
  destruct Hw as (DL & _ & DD). assert (n = n1) as <-.
  { eapply enc_same_size; [exact HE|exact HE1|]. intros i v v' Hi Hv Hv'. apply zget_firstn_some in Hv. apply zget_firstn_some in Hv'. rewrite DD in Hv' by lia. congruence. }
  pose proof (encodes_window _ _ _ _ _ HE) as [W _]. rewrite <- HT. eapply u16_det; [exact Ut1|]. destruct Ut as (a & b & Ha & Hb & ->). destruct Ut1 as (a1 & b1 & Ha1 & Hb1 & _). apply zget_firstn_some in Ha, Hb. pose proof Ha1 as Ha2. pose proof Hb1 as Hb2. apply zget_firstn_some in Ha2, Hb2. rewrite DD in Ha2, Hb2 by lia. exists a1, b1. split; [auto|]. split; [auto|]. congruence.
Qed.

(** ** One record *)
Lemma parse_rr_step : forall c p l ala al, ctx_ok c -> St c p l -> zlen l < c_total c -> 0 <= d_current p <= 2 ->
  (d_current p = 2 <-> c_first c <= zlen l) -> (d_current p = 2 -> 1 <= c_ar c < 65536) -> snd (d_section p (d_current p)) <= zlen l ->
  exists ret p', parse_rr p (c_keep c) (c_nocan c) ala al = Ok (ret, p') /\ frame p p' /\ d_allocd p' = c_alloc c /\ zlen (d_rr p') <= zlen l + 1 /\
    (ret = KNOT_EOK -> exists x, St c p' (l ++ [(x, d_parsed p)]) /\ d_current p' = d_current p /\
      d_sections p' = set_nth (Z.to_nat (d_current p)) (fst (d_section p (d_current p)), u16 (snd (d_section p (d_current p)) + 1)) (d_sections p)) /\
    (forall x e, untouched c p l -> al (zlen l) = (true, true) -> reads1 (c_m c) (c_can c) (d_parsed p) x e ->
      (rr_type x = 250 -> d_current p = 2 /\ d_tsig p = None /\ tsig_rdata (rr_rdata x)) -> (rr_type x = 41 -> d_current p = 2 /\ d_opt p = None /\ opt_rdata (rr_rdata x)) ->
      ret = KNOT_EOK /\ d_rr p' = l ++ [(x, d_parsed p)]).
Proof.
  intros c p l ala al HC HS Hl Hcur Hfirst Har Hcnt. pose proof HC as (HB & Hn & H64 & Hq & U & Hf & HA & HT). pose proof (bytes_m c HC) as HBm. pose proof (zlen_m c HC) as LM. pose proof HS as (HRR & HAl & HOt & HOo & HST). pose proof (zlen_nonneg l) as L0.
  assert (TB : c_total c < 65535) by (assert (c_n c / 11 <= 65535 / 11) by (apply Z.div_le_mono; lia); change (65535 / 11) with 5957 in *; lia).
  assert (HP : 12 <= d_parsed p). { destruct HST as [[(_ & _ & _ & HCh) _]|(_ & l' & t & pos & e & _ & HCh & _ & _ & Hp & _)]; [|rewrite Hp]; destruct (chain_in _ _ (c_qend c) _ _ HBm ltac:(lia) ltac:(lia) HCh) as (_ & H & _); [|pose proof (zlen_nonneg l')]; lia. }
  unfold parse_rr. destruct (d_parsed p >=? d_size p) eqn:EF.
  { exists KNOT_EFEWDATA, p. split; [reflexivity|]. split; [repeat split|]. split; [auto|]. split; [rewrite HRR; lia|]. split; [discriminate|]. intros x e (_ & Hs & _) _ HR. destruct (reads1_in _ _ (d_parsed p) _ _ HBm ltac:(lia) ltac:(lia) HR). lia. }
  unfold d_alloc. rewrite HRR. assert (U1 : u16 (zlen l) = zlen l) by (unfold u16; apply Z.mod_small; lia). rewrite U1. assert (U2 : u16 (zlen l + 1) = zlen l + 1) by (unfold u16; apply Z.mod_small; lia). rewrite U2. replace (d_allocd p >=? zlen l + 1) with true by lia. change (negb (KNOT_EOK =? KNOT_EOK)) with false. cbn iota. rewrite HRR. replace (zlen l >=? d_allocd p) with false by lia.
  assert (WB : bytes (d_wire p) /\ d_size p <= zlen (d_wire p) /\ d_size p <= 65535).
  { destruct HST as [[(Hw & Hs & _) _]|(_ & l' & t & pos & e & _ & HCh & HR & _ & _ & Hs & (DL & DB & _) & _)]; [rewrite Hw, Hs; repeat split; auto; lia|]. split; [auto|]. rewrite DL, Hs. destruct (chain_in _ _ (c_qend c) _ _ HBm ltac:(lia) ltac:(lia) HCh) as (_ & H & _). pose proof (zlen_nonneg l'). destruct (reads1_in _ _ pos _ _ HBm ltac:(lia) ltac:(lia) HR). lia. }
  destruct WB as (WB & WS & W64). assert (HB1 : bytes (zfirstn (d_size p) (d_wire p))) by (apply bytes_zfirstn; auto). assert (L1 : zlen (zfirstn (d_size p) (d_wire p)) = d_size p) by (apply zlen_zfirstn; lia).
  destruct (al (zlen l)) as [al1 al2] eqn:EAL. destruct (read_result (zfirstn (d_size p) (d_wire p)) (d_parsed p) (c_can c) al1 al2 HB1 ltac:(lia) ltac:(lia)) as (ret & e & st & ER & HOK). fold (c_can c). rewrite ER. cbn [rbind].
  assert (SAME : forall x e', untouched c p l -> (al1, al2) = (true, true) -> reads1 (c_m c) (c_can c) (d_parsed p) x e' -> ret = KNOT_EOK /\ e' = e /\ st = SFilled x).
  { intros x e' (Hw & Hs & _) Hal HR. inversion Hal; subst al1 al2. unfold reads1 in HR. rewrite Hw, Hs in ER. unfold c_m in HR. rewrite HR in ER. inversion ER. auto. }
  destruct (ret =? KNOT_EOK) eqn:EE; cbn [negb].
  2: { exists ret. eexists. split; [reflexivity|]. split; [repeat split|]. split; [auto|]. cbn [d_rr]. split; [lia|]. split; [lia|]. intros x e' Hu Hal HR. destruct (SAME x e' Hu Hal HR). lia. }
  apply Z.eqb_eq in EE. destruct (HOK EE) as (x & -> & HR1). destruct (reads1_in _ _ (d_parsed p) _ _ HB1 ltac:(lia) ltac:(lia) HR1) as [_ Hsz]. destruct (reads1_parts _ _ (d_parsed p) _ _ HB1 ltac:(lia) ltac:(lia) HR1) as (HZ & HBo & HBt & _).
  destruct (d_section p (d_current p)) as [spos count] eqn:ES. unfold d_section at 1. cbn [d_sections d_current d_wire d_size d_parsed d_qname_size d_lower d_nullbyte d_allocd d_opt d_tsig d_tsig_wire]. fold (d_section p (d_current p)). rewrite ES. cbn [fst snd] in *.
  set (secs := set_nth _ _ _). set (l2 := l ++ [(x, d_parsed p)]). assert (LL : zlen l2 = zlen l + 1) by (unfold l2; rewrite zlen_app; reflexivity).
  (* the state behind the record if it is neither TSIG nor removed *)
  assert (NEXT : untouched c p l -> reads1 (c_m c) (c_can c) (d_parsed p) x e /\ chain (c_m c) (c_can c) (c_qend c) l2 e).
  { intros (Hw & Hs & _ & HCh). assert (HR0 : reads1 (c_m c) (c_can c) (d_parsed p) x e) by (unfold c_m; rewrite <- Hw, <- Hs; exact HR1). split; [auto|]. apply chain_app. exists (d_parsed p). split; [auto|]. econstructor; [eauto|constructor]. }
  unfold check_rr_constraints. cbn [d_rr d_current d_tsig d_opt d_wire d_size d_parsed d_qname_size d_lower d_nullbyte d_allocd d_sections d_tsig_wire]. fold l2. rewrite LL. replace (zlen l + 1 - 1) with (zlen l) by lia.
  assert (ERR : forall p', frame p p' -> d_allocd p' = c_alloc c -> d_rr p' = l2 ->
    (untouched c p l -> (rr_type x = 250 -> d_current p = 2 /\ d_tsig p = None /\ tsig_rdata (rr_rdata x)) -> (rr_type x = 41 -> d_current p = 2 /\ d_opt p = None /\ opt_rdata (rr_rdata x)) -> False) ->
    exists ret0 p'0, Ok (KNOT_EMALF, p') = Ok (ret0, p'0) /\ frame p p'0 /\ d_allocd p'0 = c_alloc c /\ zlen (d_rr p'0) <= zlen l + 1 /\
    (ret0 = KNOT_EOK -> exists x0, St c p'0 (l ++ [(x0, d_parsed p)]) /\ d_current p'0 = d_current p /\ d_sections p'0 = secs) /\
    (forall x0 e0, untouched c p l -> (al1, al2) = (true, true) -> reads1 (c_m c) (c_can c) (d_parsed p) x0 e0 ->
      (rr_type x0 = 250 -> d_current p = 2 /\ d_tsig p = None /\ tsig_rdata (rr_rdata x0)) -> (rr_type x0 = 41 -> d_current p = 2 /\ d_opt p = None /\ opt_rdata (rr_rdata x0)) ->
      ret0 = KNOT_EOK /\ d_rr p'0 = l ++ [(x0, d_parsed p)])).
  { intros p' F1 F2 F3 F4. exists KNOT_EMALF, p'. split; [reflexivity|]. split; [auto|]. split; [auto|]. split; [rewrite F3; lia|]. split; [discriminate|]. intros x0 e0 Hu Hal HR0 H1 H2. destruct (SAME _ _ Hu Hal HR0) as (_ & _ & HX). inversion HX; subst x0. exfalso; eauto. }
  assert (GOOD : forall p', frame p p' -> d_allocd p' = c_alloc c -> d_rr p' = l2 -> St c p' l2 -> d_current p' = d_current p -> d_sections p' = secs ->
    exists ret0 p'0, Ok (KNOT_EOK, p') = Ok (ret0, p'0) /\ frame p p'0 /\ d_allocd p'0 = c_alloc c /\ zlen (d_rr p'0) <= zlen l + 1 /\
    (ret0 = KNOT_EOK -> exists x0, St c p'0 (l ++ [(x0, d_parsed p)]) /\ d_current p'0 = d_current p /\ d_sections p'0 = secs) /\
    (forall x0 e0, untouched c p l -> (al1, al2) = (true, true) -> reads1 (c_m c) (c_can c) (d_parsed p) x0 e0 ->
      (rr_type x0 = 250 -> d_current p = 2 /\ d_tsig p = None /\ tsig_rdata (rr_rdata x0)) -> (rr_type x0 = 41 -> d_current p = 2 /\ d_opt p = None /\ opt_rdata (rr_rdata x0)) ->
      ret0 = KNOT_EOK /\ d_rr p'0 = l ++ [(x0, d_parsed p)])).
  { intros p' F1 F2 F3 F4 F5 F6. exists KNOT_EOK, p'. split; [reflexivity|]. split; [auto|]. split; [auto|]. split; [rewrite F3; lia|]. split; [intros _; exists x; auto|]. intros x0 e0 Hu Hal HR0 H1 H2. destruct (SAME _ _ Hu Hal HR0) as (_ & _ & HX). inversion HX; subst x0. auto. }
  destruct (rr_type x =? 250) eqn:E250.
  - assert (HTy : rr_type x = 250) by lia. destruct (negb (d_current p =? 2) || _) eqn:EC.
    { apply ERR; auto; [repeat split|]. intros _ H1 _. destruct (H1 HTy) as (H2 & H3 & _). rewrite H2, H3 in EC. discriminate. }
    apply orb_false_iff in EC. destruct EC as [EC1 EC2]. destruct (d_tsig p) as [ti|] eqn:ETI; [discriminate|]. assert (HC2 : d_current p = 2) by (destruct (d_current p =? 2) eqn:E; [lia|discriminate]).
    assert (HU : untouched c p l). { destruct HST as [[HU _]|(_ & HX)]; [auto|]. destruct HX as (l' & t & pos & e0 & _ & _ & _ & _ & _ & _ & _ & _ & _ & HX). congruence. }
    destruct (NEXT HU) as [HR0 HCh]. pose proof HU as (Hw & Hs & Htw & _).
    assert (TSK : exists b, tsig_rdata_is_ok (rr_rdata x) = Ok b /\ (b = true <-> tsig_rdata (rr_rdata x))).
    { destruct (HBt HTy) as [->|(alg & j & HL & HBj & Erd)].
      - exists false. split; [reflexivity|]. split; [discriminate|]. intros (alg & j & ml & ol & HL & E & _). destruct alg; discriminate.
      - rewrite Erd. apply tsig_ok_spec; auto. rewrite <- Erd. lia. }
    destruct TSK as (b & Eb & Hb). rewrite Eb. cbn [rbind]. destruct b; cbn [negb].
    2: { apply ERR; auto; [repeat split|]. intros _ H1 _. destruct (H1 HTy) as (_ & _ & H3). apply Hb in H3. discriminate. }
    assert (ON : only 250 (c_first c) tsig_rdata (Some (zlen l)) l2) by (apply only_new; auto; [lia|tauto]). assert (OO : only 41 (c_first c) opt_rdata (d_opt p) l2) by (apply only_other; auto; lia).
    destruct (c_keep c) eqn:EK; cbn [rbind d_wire d_size d_parsed d_qname_size d_lower d_nullbyte d_rr d_allocd d_current d_sections d_opt d_tsig d_tsig_wire].
    + apply GOOD; cbn [d_wire d_size d_parsed d_qname_size d_lower d_nullbyte d_rr d_allocd d_current d_sections d_opt d_tsig d_tsig_wire]; auto; [repeat split|]. split; [reflexivity|]. split; [auto|]. split; [auto|]. split; [auto|]. left. split; [|auto]. split; [auto|]. split; [auto|]. split; [auto|]. exact HCh.
    + rewrite Hw. rewrite (get16_ok _ _ _ HB U). cbn [rbind]. destruct (set16_ok (c_w c) 10 (c_ar c - 1) HB ltac:(lia) ltac:(lia) ltac:(specialize (Har HC2); lia)) as (w' & Ew & D & U'). rewrite Ew. cbn [rbind d_wire d_size d_parsed d_qname_size d_lower d_nullbyte d_rr d_allocd d_current d_sections d_opt d_tsig d_tsig_wire].
      apply GOOD; cbn [d_wire d_size d_parsed d_qname_size d_lower d_nullbyte d_rr d_allocd d_current d_sections d_opt d_tsig d_tsig_wire]; auto; [repeat split|]. split; [reflexivity|]. split; [auto|]. split; [auto|]. split; [auto|]. right. split; [auto|].
      exists l, x, (d_parsed p), e. cbn [d_wire d_size d_parsed d_tsig d_tsig_wire]. split; [reflexivity|]. split; [apply HU|]. split; [auto|]. split; [auto|]. split; [lia|]. split; [lia|]. split; [exact D|]. split; [exact U'|]. split; [f_equal; f_equal; lia|reflexivity].
  - assert (HTy : rr_type x <> 250) by lia. assert (HU : untouched c p l /\ (d_tsig p = None \/ c_keep c = true)).
    { destruct HST as [HU|(_ & HX)]; [auto|]. exfalso. apply HTy. eapply stripped_read; eauto. }
    destruct HU as [HU HK]. destruct (NEXT HU) as [HR0 HCh]. pose proof HU as (Hw & Hs & Htw & _). assert (OT : only 250 (c_first c) tsig_rdata (d_tsig p) l2) by (apply only_other; auto).
    destruct (rr_type x =? 41) eqn:E41.
    + assert (HTo : rr_type x = 41) by lia. destruct (negb (d_current p =? 2) || _) eqn:EC.
      { apply ERR; auto; [repeat split|]. intros _ _ H1. destruct (H1 HTo) as (H2 & H3 & _). rewrite H2, H3 in EC. discriminate. }
      apply orb_false_iff in EC. destruct EC as [EC1 EC2]. destruct (d_opt p) as [oi|] eqn:EOI; [discriminate|]. assert (HC2 : d_current p = 2) by (destruct (d_current p =? 2) eqn:E; [lia|discriminate]).
      destruct (opt_ok_spec (rr_class x) (rr_ttl x) (rr_rdata x) (HBo HTo) ltac:(lia)) as (ro & t & Ero & Hro). rewrite Ero. cbn [rbind]. destruct (ro =? KNOT_EOK) eqn:EO; cbn [negb].
      * apply GOOD; cbn [d_wire d_size d_parsed d_qname_size d_lower d_nullbyte d_rr d_allocd d_current d_sections d_opt d_tsig d_tsig_wire]; auto; [repeat split|]. split; [reflexivity|]. split; [auto|]. split; [auto|]. split; [apply only_new; auto; [lia|apply Hro; lia]|]. left. split; [|auto]. repeat split; auto.
      * apply ERR; auto; [repeat split|]. intros _ _ H1. destruct (H1 HTo) as (_ & _ & H3). apply Hro in H3. lia.
    + apply GOOD; cbn [d_wire d_size d_parsed d_qname_size d_lower d_nullbyte d_rr d_allocd d_current d_sections d_opt d_tsig d_tsig_wire]; auto; [repeat split|]. split; [reflexivity|]. split; [auto|]. split; [auto|]. split; [apply only_other; auto; lia|]. left. split; [|auto]. repeat split; auto.
Qed.
