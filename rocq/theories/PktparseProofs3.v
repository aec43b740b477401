(** Parsing of messages: sections and the whole message. *)
From Verif Require Import Base DnameModel DnameSpec DnameProofs DnameProofs2 DnameProps WireModel WireProofs EdnsModel EdnsProps RrwireModel RrwireSpec RrwireProofs RrwireProofs2 RrwireProofs3 ComprModel ComprProofs ComprProofs2 ComprProofs3 ComprProofs4 PutModel PutProofs PktparseModel PktparseSpec PktparseProofs PktparseProofs2.

Lemma chain_det : forall m can pos l e e', chain m can pos l e -> chain m can pos l e' -> e = e'.
Proof.
  intros m can pos l e e' H. revert e'. induction H; intros e' H'; inversion H' as [|q y mid' l' f HR HC]; subst; auto.
  apply IHchain. unfold reads1 in *. rewrite H in HR. inversion HR; subst. auto.
Qed.

(** if a record follows, TSIG was not read yet *)
Lemma St_more : forall c p l x q rest, St c p l -> special_ok (c_first c) (l ++ (x, q) :: rest) -> untouched c p l /\ d_tsig p = None.
Proof.
  intros c p l x q rest (_ & _ & HO & _ & HST) [HT _].
  assert (E : d_tsig p = None).
  { destruct (d_tsig p) as [i|] eqn:E; [|auto]. cbn [only] in HO. destruct HO as (t & pos & Hg & Ht & _). pose proof (zget_some _ _ _ Hg) as R. destruct (HT i t pos) as (_ & HI & _); [rewrite zget_app_l by lia; auto|auto|]. rewrite zlen_app, zlen_cons in HI. pose proof (zlen_nonneg rest). lia. }
  split; [|auto]. destruct HST as [[HU _]|(_ & l' & t & pos & e & _ & _ & _ & _ & _ & _ & _ & _ & _ & HX)]; [auto|congruence].
Qed.

Definition sec (p : dpkt) (i : Z) := d_section p i.
Lemma sections3 : forall (s : list (Z * Z)) i v, length s = 3%nat -> 0 <= i <= 2 ->
  length (set_nth (Z.to_nat i) v s) = 3%nat /\ nth (Z.to_nat i) (set_nth (Z.to_nat i) v s) (0, 0) = v /\
  forall j, 0 <= j <= 2 -> j <> i -> nth (Z.to_nat j) (set_nth (Z.to_nat i) v s) (0, 0) = nth (Z.to_nat j) s (0, 0).
Proof.
  intros s i v HL Hi. destruct s as [|a [|b [|d [|]]]]; try discriminate.
  assert (i = 0 \/ i = 1 \/ i = 2) as [->|[->| ->]] by lia; (split; [reflexivity|split; [reflexivity|]]); intros j Hj Hn; assert (j = 0 \/ j = 1 \/ j = 2) as [->|[->| ->]] by lia; try reflexivity; lia.
Qed.

(** ** The records of a section *)
Lemma parse_section_spec : forall n c p l ala al, ctx_ok c -> St c p l -> zlen l + Z.of_nat n <= c_total c -> 0 <= d_current p <= 2 -> length (d_sections p) = 3%nat ->
  (n <> O -> (d_current p = 2 /\ c_first c <= zlen l) \/ (d_current p < 2 /\ zlen l + Z.of_nat n <= c_first c)) -> (d_current p = 2 -> n <> O -> 1 <= c_ar c < 65536) ->
  0 <= snd (d_section p (d_current p)) <= zlen l ->
  exists ret p', parse_section n p (c_keep c) (c_nocan c) ala al = Ok (ret, p') /\ frame p p' /\ d_allocd p' = c_alloc c /\ zlen (d_rr p') <= zlen l + Z.of_nat n /\
    (ret = KNOT_EOK -> exists l', zlen l' = Z.of_nat n /\ St c p' (l ++ l') /\ d_current p' = d_current p /\ length (d_sections p') = 3%nat /\
      d_section p' (d_current p) = (fst (d_section p (d_current p)), snd (d_section p (d_current p)) + Z.of_nat n) /\
      (forall j, 0 <= j <= 2 -> j <> d_current p -> d_section p' j = d_section p j)) /\
    (forall l2 rest e, zlen l2 = Z.of_nat n -> (forall i, al i = (true, true)) -> chain (c_m c) (c_can c) (c_qend c) (l ++ l2 ++ rest) e -> special_ok (c_first c) (l ++ l2 ++ rest) ->
      ret = KNOT_EOK /\ d_rr p' = l ++ l2).
Proof.
  induction n as [|n IH]; intros c p l ala al HC HS Hl Hcur HL Hfirst Har Hcnt; cbn [parse_section].
  - pose proof HS as (HRR & HAl & _). exists KNOT_EOK, p. split; [reflexivity|]. split; [repeat split|]. split; [auto|]. split; [rewrite HRR; lia|]. split.
    + intros _. exists []. rewrite app_nil_r. split; [reflexivity|]. split; [auto|]. split; [reflexivity|]. split; [auto|]. split; [|auto]. rewrite Z.add_0_r. destruct (d_section p (d_current p)); reflexivity.
    + intros l2 rest e H2 _ _ _. destruct l2; [rewrite app_nil_r; auto|rewrite zlen_cons in H2; pose proof (zlen_nonneg l2); lia].
  - pose proof HC as (HB & Hn & H64 & Hq & U & Hf & HA & HT). assert (TB : c_total c < 65535) by (assert (c_n c / 11 <= 65535 / 11) by (apply Z.div_le_mono; lia); change (65535 / 11) with 5957 in *; lia).
    specialize (Hfirst ltac:(discriminate)).
    destruct (parse_rr_step c p l ala al HC HS ltac:(lia) Hcur ltac:(lia) ltac:(intros; apply Har; auto) ltac:(lia)) as (ret & p1 & E1 & F1 & A1 & Z1 & OK1 & CO1). rewrite E1. cbn [rbind].
    destruct (ret =? KNOT_EOK) eqn:ER; cbn [negb].
    2: { exists ret, p1. split; [reflexivity|]. split; [auto|]. split; [auto|]. split; [lia|]. split; [lia|]. intros l2 rest e H2 Hal HCh HSp. exfalso.
         destruct l2 as [|[x q] l2]; [cbn in H2; lia|]. cbn [app] in HCh, HSp. destruct (St_more _ _ _ _ _ _ HS HSp) as [HU HTn]. pose proof HU as (_ & _ & _ & HCl). apply chain_app in HCh. destruct HCh as (mid & H3 & H4). pose proof (chain_det _ _ _ _ _ _ HCl H3) as <-. inversion H4 as [|q' x' mid' l' f HR HCr]; subst.
         destruct HSp as [ST SO]. destruct (CO1 x mid' HU (Hal _) HR) as [HX _]; [| |lia].
         - intros Ht. destruct (ST (zlen l) x (d_parsed p)) as (S1 & S2 & S3); [rewrite zget_app_r by lia; rewrite Z.sub_diag; reflexivity|auto|]. split; [lia|auto].
         - intros Ht. destruct (SO (zlen l) x (d_parsed p)) as (S1 & S2 & S3); [rewrite zget_app_r by lia; rewrite Z.sub_diag; reflexivity|auto|]. split; [lia|]. split; [|auto].
           destruct HS as (_ & _ & _ & HO & _). destruct (d_opt p) as [i|]; [|auto]. cbn [only] in HO. destruct HO as (y & py & Hg & Hy & _). pose proof (zget_some _ _ _ Hg). specialize (S3 i y py). rewrite zget_app_l in S3 by lia. specialize (S3 Hg Hy). lia. }
    apply Z.eqb_eq in ER. destruct (OK1 ER) as (x & HS1 & C1 & SE1). pose proof (sections3 (d_sections p) (d_current p) (fst (d_section p (d_current p)), u16 (snd (d_section p (d_current p)) + 1)) HL Hcur) as (SL & SI & SJ).
    assert (UC : u16 (snd (d_section p (d_current p)) + 1) = snd (d_section p (d_current p)) + 1) by (unfold u16; apply Z.mod_small; lia). rewrite UC in *.
    assert (DS : d_section p1 (d_current p) = (fst (d_section p (d_current p)), snd (d_section p (d_current p)) + 1)) by (unfold d_section at 1; rewrite SE1; exact SI).
    assert (LL : zlen (l ++ [(x, d_parsed p)]) = zlen l + 1) by (rewrite zlen_app; reflexivity).
    destruct (IH c p1 (l ++ [(x, d_parsed p)]) ala al HC HS1 ltac:(lia) ltac:(lia) ltac:(rewrite SE1; auto) ltac:(lia) ltac:(intros; apply Har; [lia|discriminate]) ltac:(rewrite C1, DS; cbn [snd]; lia)) as (ret2 & p2 & E2 & F2 & A2 & Z2 & OK2 & CO2).
    exists ret2, p2. split; [exact E2|]. split; [destruct F1 as (?&?&?), F2 as (?&?&?); repeat split; congruence|]. split; [auto|]. split; [lia|]. split.
    + intros Hret. destruct (OK2 Hret) as (l' & Zl' & HS2 & C2 & L2 & D2 & J2). exists ((x, d_parsed p) :: l'). split; [rewrite zlen_cons; lia|]. rewrite <- app_assoc in HS2. split; [exact HS2|]. split; [congruence|]. split; [auto|]. rewrite C1, DS in D2. cbn [fst snd] in D2. split; [rewrite D2; f_equal; lia|]. intros j Hj Hne. rewrite J2 by (auto; congruence). unfold d_section. rewrite SE1. apply SJ; auto.
    + intros l2 rest e H2 Hal HCh HSp. destruct l2 as [|[y q] l2]; [cbn in H2; lia|]. rewrite zlen_cons in H2. cbn [app] in HCh, HSp. destruct (St_more _ _ _ _ _ _ HS HSp) as [HU HTn]. pose proof HU as (_ & _ & _ & HCl). pose proof HCh as HCh'. apply chain_app in HCh. destruct HCh as (mid & H3 & H4). pose proof (chain_det _ _ _ _ _ _ HCl H3) as <-. inversion H4 as [|q' x' mid' l' f HR HCr]; subst q q' x' l' f. 
      assert (EX : l ++ [(x, d_parsed p)] = l ++ [(y, d_parsed p)]).
      { pose proof HSp as [ST SO]. destruct (CO1 y mid' HU (Hal _) HR) as [_ HX].
        - intros Ht. destruct (ST (zlen l) y (d_parsed p)) as (S1 & S2 & S3); [rewrite zget_app_r by lia; rewrite Z.sub_diag; reflexivity|auto|]. split; [lia|auto].
        - intros Ht. destruct (SO (zlen l) y (d_parsed p)) as (S1 & S2 & S3); [rewrite zget_app_r by lia; rewrite Z.sub_diag; reflexivity|auto|]. split; [lia|]. split; [|auto].
          destruct HS as (_ & _ & _ & HO & _). destruct (d_opt p) as [i|]; [|auto]. cbn [only] in HO. destruct HO as (z & pz & Hg & Hz & _). pose proof (zget_some _ _ _ Hg). specialize (S3 i z pz). rewrite zget_app_l in S3 by lia. specialize (S3 Hg Hz). lia.
        - destruct HS1 as (HRR1 & _). congruence. }
      rewrite EX in CO2. specialize (CO2 l2 rest e ltac:(lia) Hal). rewrite <- !app_assoc in CO2. cbn [app] in CO2. destruct (CO2 HCh' HSp). auto.
Qed.

Lemma St_early : forall c p l, St c p l -> zlen l <= c_first c -> untouched c p l /\ d_tsig p = None.
Proof.
  intros c p l (_ & _ & HO & _ & HST) Hl.
  assert (E : d_tsig p = None). { destruct (d_tsig p) as [i|] eqn:E; [|auto]. cbn [only] in HO. destruct HO as (t & pos & Hg & _ & H & _). pose proof (zget_some _ _ _ Hg). lia. }
  split; [|auto]. destruct HST as [[HU _]|(_ & l' & t & pos & e & _ & _ & _ & _ & _ & _ & _ & _ & _ & HX)]; [auto|congruence].
Qed.

(** ** One section; [before]: the records in front of it *)
Lemma parse_one_spec : forall i c p l count ala al, ctx_ok c -> St c p l -> 0 <= i <= 2 -> u16_at (c_w c) (count_offset i) count -> zlen l + count <= c_total c -> zlen l <= c_first c ->
  d_current p = (if i =? 0 then 0 else i - 1) -> length (d_sections p) = 3%nat -> (i = 2 -> zlen l = c_first c /\ count = c_ar c) -> (i < 2 -> zlen l + count <= c_first c) ->
  snd (d_section p i) = 0 -> (i = 0 -> d_section p 0 = (zlen l, 0)) ->
  exists ret p', parse_one i p (c_keep c) (c_nocan c) ala al = Ok (ret, p') /\ frame p p' /\ d_allocd p' = c_alloc c /\ zlen (d_rr p') <= zlen l + count /\
    (ret = KNOT_EOK -> exists l', zlen l' = count /\ St c p' (l ++ l') /\ d_current p' = i /\ length (d_sections p') = 3%nat /\ d_section p' i = (zlen l, count) /\
      (forall j, 0 <= j <= 2 -> j <> i -> d_section p' j = d_section p j)) /\
    (forall l2 rest e, zlen l2 = count -> (forall i, al i = (true, true)) -> chain (c_m c) (c_can c) (c_qend c) (l ++ l2 ++ rest) e -> special_ok (c_first c) (l ++ l2 ++ rest) ->
      ret = KNOT_EOK /\ d_rr p' = l ++ l2).
Proof.
  intros i c p l count ala al HC HS Hi Uc Ht Hl Hcur HL H2 H1 Hs Hs0. pose proof HC as (HB & Hn & H64 & Hq & U & Hf & HA & HT). pose proof (u16_range _ _ _ HB Uc) as RC. pose proof (u16_range _ _ _ HB U) as RA.
  assert (TB : c_total c < 65535) by (assert (c_n c / 11 <= 65535 / 11) by (apply Z.div_le_mono; lia); change (65535 / 11) with 5957 in *; lia). pose proof (zlen_nonneg l) as L0.
  unfold parse_one, d_begin. replace (i <? d_current p) with false by (rewrite Hcur; destruct (i =? 0) eqn:E; lia). change (negb (KNOT_EOK =? KNOT_EOK)) with false. cbn iota. cbn [d_wire].
  destruct (St_early _ _ _ HS Hl) as [HU HN]. pose proof HU as (Hw & Hsz & Htw & HCh). rewrite Hw. rewrite (get16_ok _ _ _ HB Uc). cbn [rbind]. pose proof HS as (HRR & HAl & HOt & HOo & HST).
  set (secs := if i >? d_current p then _ else _).
  assert (SS : length secs = 3%nat /\ nth (Z.to_nat i) secs (0, 0) = (zlen l, 0) /\ forall j, 0 <= j <= 2 -> j <> i -> nth (Z.to_nat j) secs (0, 0) = d_section p j).
  { unfold secs. destruct (i >? d_current p) eqn:E.
    - rewrite HRR, Hs. assert (UL : u16 (zlen l) = zlen l) by (unfold u16; apply Z.mod_small; lia). rewrite UL. apply sections3; auto.
    - assert (i = 0) as -> by (destruct (i =? 0) eqn:E0; lia). split; [auto|]. split; [exact (Hs0 eq_refl)|]. reflexivity. }
  destruct SS as (SL & SI & SJ).
  set (p1 := mkdpkt (c_w c) (d_size p) (d_parsed p) (d_qname_size p) (d_lower p) (d_nullbyte p) (d_rr p) (d_allocd p) i secs (d_opt p) (d_tsig p) (d_tsig_wire p)).
  assert (HS1 : St c p1 l). { split; [auto|]. split; [auto|]. split; [auto|]. split; [auto|]. left. split; [|left; exact HN]. split; [reflexivity|]. split; [auto|]. split; [auto|exact HCh]. }
  assert (DI : d_section p1 i = (zlen l, 0)) by exact SI.
  destruct (parse_section_spec (Z.to_nat count) c p1 l ala al HC HS1 ltac:(lia) Hi SL ltac:(cbn [d_current p1]; intros _; destruct (Z.eq_dec i 2); [left|right]; lia) ltac:(cbn [d_current p1]; lia) ltac:(cbn [d_current p1]; rewrite DI; cbn [snd]; lia)) as (ret & p2 & E & F & A & Z2 & OK & CO).
  exists ret, p2. split; [exact E|]. split; [exact F|]. split; [auto|]. split; [lia|]. split.
  - intros Hr. destruct (OK Hr) as (l' & Zl & HS2 & C2 & L2 & D2 & J2). change (d_current p1) with i in *. rewrite DI in D2. cbn [fst snd] in D2. exists l'. split; [lia|]. split; [auto|]. split; [auto|]. split; [auto|]. split; [rewrite D2; f_equal; lia|]. intros j Hj Hne. rewrite J2 by auto. apply SJ; auto.
  - intros l2 rest e Hz. apply CO. lia.
Qed.

(** ** All the sections *)
Lemma parse_payload_spec : forall w n keep nocan qend p an ns ar ala al,
  bytes w -> 12 <= n <= zlen w -> n <= 65535 -> 12 <= qend <= n -> u16_at w 6 an -> u16_at w 8 ns -> u16_at w 10 ar ->
  d_wire p = w -> d_size p = n -> d_parsed p = qend -> d_rr p = [] -> d_allocd p = 0 -> d_current p = 0 -> d_sections p = [(0, 0); (0, 0); (0, 0)] -> d_opt p = None -> d_tsig p = None -> d_tsig_wire p = None ->
  let c := mkctx w n keep nocan qend (an + ns) ar (an + ns + ar) (if an + ns + ar =? 0 then 0 else ((an + ns + ar) / 16 + 1) * 16) in
  exists ret p', parse_payload p keep nocan ala al = Ok (ret, p') /\ frame p p' /\ d_allocd p' <= n / 11 + 16 /\ zlen (d_rr p') <= n / 11 /\
    (ret = KNOT_EOK -> zlen (d_rr p') = an + ns + ar /\ chain (c_m c) (c_can c) qend (d_rr p') n /\ special_ok (an + ns) (d_rr p') /\
      d_sections p' = [(0, an); (an, ns); (an + ns, ar)] /\ index_of 41 (d_rr p') (d_opt p') /\ index_of 250 (d_rr p') (d_tsig p') /\
      ((d_wire p' = w /\ d_size p' = n /\ d_parsed p' = n /\ d_tsig_wire p' = None /\ (d_tsig p' = None \/ keep = true)) \/
       (keep = false /\ exists l x pos, d_rr p' = l ++ [(x, pos)] /\ rr_type x = 250 /\ d_parsed p' = pos /\ d_size p' = pos /\ differ w (d_wire p') 10 12 /\ u16_at (d_wire p') 10 (ar - 1) /\ d_tsig_wire p' = Some (pos, n - pos)))) /\
    (forall l, ala = true -> (forall i, al i = (true, true)) -> zlen l = an + ns + ar -> chain (c_m c) (c_can c) qend l n -> special_ok (an + ns) l -> ret = KNOT_EOK /\ d_rr p' = l).
Proof.
  intros w n keep nocan qend p an ns ar ala al HB Hn H64 Hq Ua Un Ur Ew Es Ep Er Ea Ec Ese Eo Et Etw c.
  pose proof (u16_range _ _ _ HB Ua) as Ra. pose proof (u16_range _ _ _ HB Un) as Rn. pose proof (u16_range _ _ _ HB Ur) as Rr.
  assert (HBm : bytes (c_m c)) by (apply bytes_zfirstn; auto). assert (LM : zlen (c_m c) = n) by (unfold c_m; apply zlen_zfirstn; cbn; lia).
  assert (DM : (n / 11) <= 65535 / 11) by (apply Z.div_le_mono; lia). change (65535 / 11) with 5957 in DM. assert (D0 : 0 <= n / 11) by (apply Z.div_pos; lia).
  unfold parse_payload. rewrite Es, Ew. replace (n >? 0) with true by lia. cbn [negb]. rewrite (get16_ok _ _ _ HB Ua), (get16_ok _ _ _ HB Un), (get16_ok _ _ _ HB Ur). cbn [rbind].
  destruct (an + ns + ar >? n / 11) eqn:EG.
  { exists KNOT_EMALF, p. split; [reflexivity|]. split; [repeat split|]. split; [lia|]. rewrite Er. split; [cbn; lia|]. split; [discriminate|]. intros l _ _ Hz HCh. exfalso. destruct (chain_in _ _ qend _ _ HBm ltac:(lia) ltac:(lia) HCh) as (_ & H & _). assert (zlen l <= n / 11) by (apply Z.div_le_lower_bound; lia). lia. }
  unfold d_alloc. assert (UT : u16 (an + ns + ar) = an + ns + ar) by (unfold u16; apply Z.mod_small; lia). rewrite UT, Ea.
  assert (DV : (an + ns + ar) / 16 * 16 <= an + ns + ar < (an + ns + ar) / 16 * 16 + 16) by (pose proof (Z.div_mod (an + ns + ar) 16 ltac:(lia)); pose proof (Z.mod_pos_bound (an + ns + ar) 16 ltac:(lia)); lia).
  assert (HC : ctx_ok c). { unfold ctx_ok, c; cbn [c_w c_n c_keep c_nocan c_qend c_first c_ar c_total c_alloc]. do 6 (split; [auto; lia|]). destruct (an + ns + ar =? 0) eqn:E0; lia. }
  assert (AL : c_alloc c <= n / 11 + 16). { unfold c; cbn [c_alloc]. destruct (an + ns + ar =? 0) eqn:E0; lia. }
  assert (ST0 : exists r0 p0, (if 0 >=? an + ns + ar then (KNOT_EOK, p) else if negb ala then (KNOT_ENOMEM, p) else
     (KNOT_EOK, mkdpkt w n (d_parsed p) (d_qname_size p) (d_lower p) (d_nullbyte p) (d_rr p) (((an + ns + ar) / 16 + 1) * 16) (d_current p) (d_sections p) (d_opt p) (d_tsig p) (d_tsig_wire p))) = (r0, p0) /\ frame p p0 /\
     d_rr p0 = [] /\ d_allocd p0 <= n / 11 + 16 /\
     (r0 = KNOT_EOK -> St c p0 [] /\ d_current p0 = 0 /\ d_sections p0 = [(0, 0); (0, 0); (0, 0)]) /\ (ala = true -> r0 = KNOT_EOK)).
  { destruct (0 >=? an + ns + ar) eqn:E0; [|destruct ala; cbn [negb]]; eexists _, _; (split; [reflexivity|]); (split; [repeat split|]); cbn [d_rr d_allocd d_current d_sections]; (split; [auto|]); (split; [try lia; revert AL; unfold c; cbn [c_alloc]; destruct (an + ns + ar =? 0) eqn:E1; lia|]); (split; [|auto; discriminate]); try discriminate; intros _; (split; [|auto]);
    (split; [auto|]); (split; [unfold c; cbn [c_alloc d_allocd]; destruct (an + ns + ar =? 0) eqn:E1; lia|]); cbn [d_tsig d_opt]; rewrite Et, Eo; (split; [intros j y pos Hg; apply zget_some in Hg; cbn in Hg; lia|]); (split; [intros j y pos Hg; apply zget_some in Hg; cbn in Hg; lia|]); left; (split; [|left; auto]); (split; [auto|]); (split; [auto|]); (split; [auto|]); cbn [d_parsed]; rewrite Ep; constructor. }
  rewrite Ew, Es. destruct ST0 as (r0 & p0 & E0 & F0 & R0 & A0 & OK0 & CO0). rewrite E0. destruct (r0 =? KNOT_EOK) eqn:EE; cbn [negb].
  2: { exists r0, p0. split; [reflexivity|]. split; [auto|]. split; [auto|]. split; [rewrite R0; cbn; lia|]. split; [lia|]. intros l Hala. specialize (CO0 Hala). lia. }
  apply Z.eqb_eq in EE. destruct (OK0 EE) as (S0 & C0 & SE0). clear OK0 CO0 E0.
  destruct (parse_one_spec 0 c p0 [] an ala al HC S0 ltac:(lia) Ua ltac:(cbn; lia) ltac:(cbn; lia) C0 ltac:(rewrite SE0; reflexivity) ltac:(lia) ltac:(cbn; lia) ltac:(unfold d_section; rewrite SE0; reflexivity) ltac:(intros; unfold d_section; rewrite SE0; reflexivity)) as (r1 & p1 & E1 & F1 & A1 & Z1 & OK1 & CO1).
  change (c_keep c) with keep in *. change (c_nocan c) with nocan in *. rewrite E1. cbn [rbind]. change (zlen (@nil (rr * Z))) with 0 in *. cbn [app] in *.
  destruct (r1 =? KNOT_EOK) eqn:EE1; cbn [negb].
  2: { exists r1, p1. split; [reflexivity|]. split; [destruct F0 as (?&?&?), F1 as (?&?&?); repeat split; congruence|]. split; [lia|]. split; [lia|]. split; [lia|]. intros l _ Hal Hz HCh HSp. destruct (CO1 (zfirstn an l) (zskipn an l) n) as [HX _]; [apply zlen_zfirstn; lia|auto|..|lia]; unfold zfirstn, zskipn; rewrite firstn_skipn; auto. }
  apply Z.eqb_eq in EE1. destruct (OK1 EE1) as (l1 & ZL1 & S1 & C1 & L1 & D1 & J1).
  destruct (parse_one_spec 1 c p1 l1 ns ala al HC S1 ltac:(lia) Un ltac:(cbn; lia) ltac:(cbn; lia) C1 L1 ltac:(lia) ltac:(cbn; lia) ltac:(rewrite J1 by lia; unfold d_section; rewrite SE0; reflexivity) ltac:(lia)) as (r2 & p2 & E2 & F2 & A2 & Z2 & OK2 & CO2).
  change (c_keep c) with keep in *. change (c_nocan c) with nocan in *. rewrite E2. cbn [rbind].
  assert (SPL1 : forall l e, (forall i, al i = (true, true)) -> zlen l = an + ns + ar -> chain (c_m c) (c_can c) qend l e -> special_ok (an + ns) l -> exists l', l = l1 ++ l').
  { intros l e Hal Hz HCh HSp. exists (zskipn an l). destruct (CO1 (zfirstn an l) (zskipn an l) e) as [_ HX]; [apply zlen_zfirstn; lia|auto|..]; try (unfold zfirstn, zskipn; rewrite firstn_skipn; auto). destruct S1 as (S1 & _). rewrite S1 in HX. rewrite HX. unfold zfirstn, zskipn. rewrite firstn_skipn. auto. }
  destruct (r2 =? KNOT_EOK) eqn:EE2; cbn [negb].
  2: { exists r2, p2. split; [reflexivity|]. split; [destruct F0 as (?&?&?), F1 as (?&?&?), F2 as (?&?&?); repeat split; congruence|]. split; [lia|]. split; [lia|]. split; [lia|]. intros l _ Hal Hz HCh HSp. destruct (SPL1 l n Hal Hz HCh HSp) as (l' & ->). rewrite zlen_app in Hz. destruct (CO2 (zfirstn ns l') (zskipn ns l') n) as [HX _]; [apply zlen_zfirstn; lia|auto|..|lia]; unfold zfirstn, zskipn; rewrite firstn_skipn; auto. }
  apply Z.eqb_eq in EE2. destruct (OK2 EE2) as (l2 & ZL2 & S2 & C2 & L2 & D2 & J2). assert (ZL12 : zlen (l1 ++ l2) = an + ns) by (rewrite zlen_app; lia).
  destruct (parse_one_spec 2 c p2 (l1 ++ l2) ar ala al HC S2 ltac:(lia) Ur ltac:(cbn; lia) ltac:(cbn; lia) C2 L2 ltac:(cbn; lia) ltac:(lia) ltac:(rewrite J2, J1 by lia; unfold d_section; rewrite SE0; reflexivity) ltac:(lia)) as (r3 & p3 & E3 & F3 & A3 & Z3 & OK3 & CO3).
  change (c_keep c) with keep in *. change (c_nocan c) with nocan in *. rewrite E3. cbn [rbind].
  assert (SPL2 : forall l e, (forall i, al i = (true, true)) -> zlen l = an + ns + ar -> chain (c_m c) (c_can c) qend l e -> special_ok (an + ns) l -> exists l', l = (l1 ++ l2) ++ l' ++ [] /\ zlen l' = ar).
  { intros l e Hal Hz HCh HSp. destruct (SPL1 l e Hal Hz HCh HSp) as (l' & ->). rewrite zlen_app in Hz. exists (zskipn ns l'). destruct (CO2 (zfirstn ns l') (zskipn ns l') e) as [_ HX]; [apply zlen_zfirstn; lia|auto|..]; try (unfold zfirstn, zskipn; rewrite firstn_skipn; auto). destruct S2 as (S2 & _). rewrite S2 in HX. apply app_inv_head in HX. assert (EL : l2 ++ zskipn ns l' = l') by (rewrite HX; unfold zfirstn, zskipn; apply firstn_skipn). rewrite app_nil_r, <- app_assoc, EL. split; [auto|]. apply (f_equal zlen) in EL. rewrite zlen_app in EL. lia. }
  assert (FF : frame p p3) by (destruct F0 as (?&?&?), F1 as (?&?&?), F2 as (?&?&?), F3 as (?&?&?); repeat split; congruence).
  destruct (r3 =? KNOT_EOK) eqn:EE3; cbn [negb].
  2: { exists r3, p3. split; [reflexivity|]. split; [auto|]. split; [lia|]. split; [lia|]. split; [lia|]. intros l _ Hal Hz HCh HSp. destruct (SPL2 l n Hal Hz HCh HSp) as (l' & -> & Hz'). destruct (CO3 l' [] n Hz' Hal HCh HSp). lia. }
  apply Z.eqb_eq in EE3. destruct (OK3 EE3) as (l3 & ZL3 & S3 & C3 & L3 & D3 & J3). rewrite D3. set (l := (l1 ++ l2) ++ l3) in *. assert (ZL : zlen l = an + ns + ar) by (unfold l; rewrite zlen_app; lia).
  pose proof S3 as (R3 & _ & HOt & HOo & HST).
  assert (SAME : forall l', (forall i, al i = (true, true)) -> zlen l' = an + ns + ar -> chain (c_m c) (c_can c) qend l' n -> special_ok (an + ns) l' -> l' = l).
  { intros l' Hal Hz HCh HSp. destruct (SPL2 l' n Hal Hz HCh HSp) as (l'' & -> & Hz'). destruct (CO3 l'' [] n Hz' Hal HCh HSp) as [_ HX]. rewrite R3 in HX. rewrite app_nil_r. auto. }
  assert (SEC : d_sections p3 = [(0, an); (an, ns); (an + ns, ar)]).
  { rewrite ZL12 in D3. pose proof (J3 1 ltac:(lia) ltac:(lia)) as K1. rewrite D2, ZL1 in K1. pose proof (J3 0 ltac:(lia) ltac:(lia)) as K0. rewrite (J2 0) in K0 by lia. rewrite D1 in K0. unfold d_section in *. destruct (d_sections p3) as [|a [|b [|d [|]]]]; try discriminate. (cbn [nth Z.to_nat] in K0, K1, D3; change (a = (0, an)) in K0; change (b = (an, ns)) in K1; change (d = (an + ns, ar)) in D3; congruence). }
  rewrite ZL12. destruct (match d_tsig p3 with Some i => (ar >? 0) && negb (i =? an + ns + ar - 1) | None => false end) eqn:ETS.
  { exists KNOT_EMALF, p3. split; [reflexivity|]. split; [auto|]. split; [lia|]. split; [lia|]. split; [discriminate|]. intros l' _ Hal Hz HCh HSp. exfalso. pose proof (SAME l' Hal Hz HCh HSp) as ->. destruct (d_tsig p3) as [i|]; [|discriminate]. cbn [only] in HOt. destruct HOt as (x & pos & Hg & Hx & _). destruct HSp as [HSp _]. destruct (HSp _ _ _ Hg Hx) as (_ & HI & _). lia. }
  assert (SPEC : special_ok (an + ns) l).
  { split.
    - intros i x pos Hg Hx. destruct (d_tsig p3) as [k|]; cbn [only] in HOt; [|exfalso; eapply HOt; eauto]. destruct HOt as (y & py & Hy & Ty & Hf & Hok & Hu). assert (i = k) as -> by eauto. rewrite Hg in Hy. inversion Hy; subst y py. split; [exact Hf|]. split; [|auto]. pose proof (zget_some _ _ _ Hg). change (c_first c) with (an + ns) in Hf. lia.
    - intros i x pos Hg Hx. destruct (d_opt p3) as [k|]; cbn [only] in HOo; [|exfalso; eapply HOo; eauto]. destruct HOo as (y & py & Hy & Ty & Hf & Hok & Hu). assert (i = k) as -> by eauto. rewrite Hg in Hy. inversion Hy; subst y py. split; [exact Hf|]. split; [auto|]. intros. eauto. }
  assert (IX : index_of 41 l (d_opt p3) /\ index_of 250 l (d_tsig p3)).
  { split; [destruct (d_opt p3) as [k|]; cbn [only] in HOo|destruct (d_tsig p3) as [k|]; cbn [only] in HOt]; cbn [index_of]; auto; [destruct HOo as (y & py & Hy & Ty & _)|destruct HOt as (y & py & Hy & Ty & _)]; eauto. }
  assert (ENDQ : d_parsed p3 <= d_size p3 /\ (d_parsed p3 = d_size p3 -> chain (c_m c) (c_can c) qend l n)).
  { destruct HST as [[(Hw & Hs & _ & HCh) _]|(_ & l' & t & pos & e & El & HCh & HR & _ & Hp & Hs & _)].
    - destruct (chain_in _ _ qend _ _ HBm ltac:(lia) ltac:(lia) HCh) as (_ & _ & HE). rewrite Hs. change (c_n c) with n. split; [|intros <-; exact HCh]. destruct l as [|a0 l0]; [inversion HCh; subst; cbn [c_qend c] in *; lia|specialize (HE ltac:(discriminate)); lia].
    - destruct (chain_in _ _ qend _ _ HBm ltac:(lia) ltac:(lia) HCh) as (_ & HX & _). pose proof (zlen_nonneg l'). change (c_qend c) with qend in *. destruct (reads1_in _ _ pos _ _ HBm ltac:(lia) ltac:(lia) HR) as [_ HE]. rewrite Hp, Hs. change (c_n c) with n. split; [lia|]. intros HEQ. assert (e = n) as <- by lia. rewrite El. apply chain_app. exists pos. split; [auto|]. econstructor; [eauto|constructor]. }
  destruct ENDQ as [EQ1 EQ2]. destruct (d_parsed p3 <? d_size p3) eqn:EPS.
  { exists KNOT_ETRAIL, p3. split; [reflexivity|]. split; [auto|]. split; [lia|]. split; [lia|]. split; [discriminate|]. intros l' _ Hal Hz HCh HSp. exfalso. pose proof (SAME l' Hal Hz HCh HSp) as ->.
    destruct HST as [[(Hw & Hs & _ & HCh') _]|(_ & l' & t & pos & e & El & HCh' & HR & _ & Hp & Hs & _)].
    - pose proof (chain_det _ _ _ _ _ _ HCh HCh'). change (c_n c) with n in *. lia.
    - assert (HCC : chain (c_m c) (c_can c) qend l e) by (rewrite El; apply chain_app; exists pos; split; [auto|]; econstructor; [eauto|constructor]). pose proof (chain_det _ _ _ _ _ _ HCh HCC). change (c_n c) with n in *. lia. }
  exists KNOT_EOK, p3. split; [reflexivity|]. split; [auto|]. split; [lia|]. split; [lia|]. rewrite R3. split.
  - intros _. split; [auto|]. split; [apply EQ2; lia|]. split; [auto|]. split; [auto|]. split; [apply IX|]. split; [apply IX|].
    destruct HST as [[(Hw & Hs & Htw & HCh') HK]|(HK & l' & t & pos & e & El & HCh' & HR & HTy & Hp & Hs & HD & HU & Htw & _)].
    + left. change (c_n c) with n in *. split; [auto|]. split; [auto|]. split; [lia|]. auto.
    + right. split; [auto|]. exists l', t, pos. change (c_n c) with n in *. split; [auto|]. split; [auto|]. split; [auto|]. split; [lia|]. split; [auto|]. split; [auto|]. rewrite Htw. f_equal. f_equal. lia.
  - intros l' _ Hal Hz HCh HSp. split; [auto|]. symmetry. apply SAME; auto.
Qed.
