From Verif Require Import Base DnameModel DnameSpec DnameProofs DnameProofs2 DnameProofs4 WireModel WireProofs WireProps RdatasetModel RdatasetSpec RdatasetProofs RdatasetProps JserModel JserSpec JserProofs JserProofs2 JserProofs3.

(** ** Reading *)
Lemma rd16' : forall w pre v post, 0 <= v < 2 ^ 16 -> at_ w pre (be 2 v ++ post) -> exists w', wire_read_u16 w = Ok (v, w') /\ at_ w' (pre ++ be 2 v) post.
Proof. intros w pre v post Hv H. destruct (c48_read w pre (be 2 v) post H) as (w' & E & A). exists w'. split; [|auto]. unfold wire_read_u16. change (zlen (be 2 v)) with 2 in E. rewrite E. cbn [rbind]. rewrite unbe_be, Z.mod_small by (change (256 ^ Z.of_nat 2) with (2 ^ 16); lia). reflexivity. Qed.
Lemma rd32' : forall w pre v post, 0 <= v < 2 ^ 32 -> at_ w pre (be 4 v ++ post) -> exists w', wire_read_u32 w = Ok (v, w') /\ at_ w' (pre ++ be 4 v) post.
Proof. intros w pre v post Hv H. destruct (c48_read w pre (be 4 v) post H) as (w' & E & A). exists w'. split; [|auto]. unfold wire_read_u32. change (zlen (be 4 v)) with 4 in E. rewrite E. cbn [rbind]. rewrite unbe_be, Z.mod_small by (change (256 ^ Z.of_nat 4) with (2 ^ 32); lia). reflexivity. Qed.

Definition chunk_of (to now : Z) (P : list (list Z)) : list Z := make_header to now ++ concat P.
Definition part_ok (max : Z) (P : list (list Z)) : Prop := P <> [] /\ total P <= max /\ Forall (fun it => 6 <= zlen it) P.

Lemma header_len : forall to now, zlen (make_header to now) = 32.
Proof. intros. unfold make_header. rewrite !zlen_app, !zlen_be. lia. Qed.
Lemma next_serial_of : forall to now body, 0 <= to < 2 ^ 32 -> next_serial (make_header to now ++ body) = Ok to.
Proof.
  intros to now body H. unfold next_serial. rewrite mem_read_ok by (rewrite ?zlen_app, ?header_len; pose proof (zlen_nonneg body); lia). cbn [rbind]. change (zskipn 0 (make_header to now ++ body)) with (make_header to now ++ body).
  unfold make_header. rewrite <- !app_assoc. change 4 with (zlen (be 4 to)). rewrite zfirstn_app_exact, unbe_be, Z.mod_small by (change (256 ^ Z.of_nat 4) with (2 ^ 32); lia). reflexivity.
Qed.
Lemma update_wire_of : forall to now body, zlen body < 2 ^ 62 -> exists w, update_wire (make_header to now ++ body) = Ok w /\ at_ w (make_header to now) body.
Proof.
  intros to now body H. unfold update_wire. destruct (at_skip (wire_init_const (make_header to now ++ body)) [] (make_header to now) body) as (w & E & A & _).
  - unfold at_, wire_init_const. cbn [app w_buf w_pos w_err]. repeat split; auto. rewrite zlen_app, header_len. lia.
  - rewrite header_len in E. exists w. split; [exact E|exact A].
Qed.

(** What remains to be read: [I] in the current chunk, then [parts] *)
Definition rd_ (max to now : Z) (c : rctx) (I : list (list Z)) (parts : list (list (list Z))) : Prop :=
  (exists pre, at_ (rc_wire c) pre (concat I)) /\ rc_rest c = map (chunk_of to now) parts /\ rc_next c = to /\ rc_ret c = KNOT_EOK /\
  Forall (fun it => 6 <= zlen it) I /\ Forall (part_ok max) parts /\ 0 <= max < 2 ^ 62 /\ 0 <= to < 2 ^ 32.
Definition left_is (max to now : Z) (c : rctx) (l : list (list Z)) : Prop := exists I parts, rd_ max to now c I parts /\ l = I ++ concat parts.

Lemma available_none : forall max to now c, left_is max to now c [] -> make_available c = Ok (false, c).
Proof.
  intros max to now c (I & parts & ((pre & HA) & H2 & H3 & H4 & H5 & H6 & H7 & H8) & HE). symmetry in HE. apply app_eq_nil in HE. destruct HE as [-> HE]. unfold make_available. rewrite (at_avail _ _ _ HA). cbn [concat]. rewrite zlen_nil. change (0 =? 0) with true. cbv iota. rewrite H2.
  destruct parts as [|P parts]; [reflexivity|]. inversion H6 as [|? ? (G & _) _]; subst. cbn [concat] in HE. apply app_eq_nil in HE. destruct HE. congruence.
Qed.
Lemma available_some : forall max to now c it l, left_is max to now c (it :: l) ->
  exists c' I parts, make_available c = Ok (true, c') /\ rd_ max to now c' (it :: I) parts /\ l = I ++ concat parts.
Proof.
  intros max to now c it l (I & parts & ((pre & HA) & H2 & H3 & H4 & H5 & H6 & H7 & H8) & HE). unfold make_available. rewrite (at_avail _ _ _ HA). destruct I as [|i I].
  - cbn [concat]. rewrite zlen_nil. change (0 =? 0) with true. cbv iota. rewrite H2. cbn [app] in HE. destruct parts as [|P parts]; [discriminate|]. cbn [map]. inversion H6 as [|? ? (G1 & G2 & G3) G4]; subst.
    unfold chunk_of at 1. rewrite next_serial_of by auto. cbn [rbind]. rewrite Z.eqb_refl. cbn [negb]. destruct (update_wire_of (rc_next c) now (concat P)) as (w & EW & AW); [unfold total in G2; lia|].
    change (update_wire (chunk_of (rc_next c) now P) = Ok w) in EW. rewrite EW. cbn [rbind]. destruct P as [|p P]; [congruence|]. cbn [concat app] in HE. inversion HE; subst. eexists _, P, parts. split; [reflexivity|]. split; [|auto]. split; [exists (make_header (rc_next c) now); exact AW|]. cbn [rc_rest rc_next rc_ret]. do 6 (split; [auto|]). auto.
  - cbn [app] in HE. inversion HE; subst. inversion H5; subst. cbn [concat]. rewrite zlen_app. pose proof (zlen_nonneg (concat I)). replace (zlen i + zlen (concat I) =? 0) with false by lia. exists c, I, parts. split; [auto|]. split; [|auto]. split; [exists pre; auto|]. do 6 (split; [auto|]). auto.
Qed.

Lemma layout_app_le : forall a b, zlen (layout a) <= zlen (layout (a ++ b)).
Proof. intros. unfold layout. rewrite map_app, concat_app, zlen_app. pose proof (zlen_nonneg (concat (map record_layout b))). lia. Qed.

Lemma read_rdata_spec : forall max to now al j rs, (forall n, al n = true) -> canonical rs -> zlen rs < 2 ^ 16 -> zlen (layout rs) <= 2 ^ 32 - 1 - 65538 -> 0 <= j_ttl j < 2 ^ 32 ->
  forall ds done c first ttl s l, rs = done ++ ds -> is s done -> left_is max to now c (map (rditem j) ds ++ l) ->
  exists c' s', read_rdata (length ds) first al c ttl s = Ok (c', (if first then match ds with [] => ttl | _ => j_ttl j end else ttl), s') /\ is s' rs /\ left_is max to now c' l.
Proof.
  intros max to now al j rs HAL HCN HN HZ HT. induction ds as [|d ds IH]; intros done c first ttl s l HE HS HL.
  - rewrite app_nil_r in HE. subst done. exists c, s. cbn [length read_rdata]. split; [destruct first; reflexivity|]. auto.
  - cbn [map app] in HL. assert (HW : w_err (rc_wire c) = KNOT_EOK) by (destruct HL as (I0 & p0 & ((pre0 & A0) & _) & _); apply A0).
    destruct (available_some _ _ _ _ _ _ HL) as (c1 & I & parts & EA & ((pre & HA) & H2 & H3 & H4 & H5 & H6 & H7 & H8) & HLL). cbn [length read_rdata]. rewrite HW. change (negb (KNOT_EOK =? KNOT_EOK)) with false. cbv iota. rewrite EA. cbn [rbind].
    cbn [concat] in HA. unfold rditem in HA. rewrite <- !app_assoc in HA. assert (HD : rdata_ok d). { destruct HCN as [_ HF]. rewrite HE in HF. apply Forall_app in HF. destruct HF as [_ HF]. inversion HF; auto. } destruct HD as [HDB HDL]. pose proof (zlen_nonneg d).
    destruct (rd32' _ _ _ _ HT HA) as (w1 & -> & A1). cbn [rbind]. destruct (rd16' w1 _ (zlen d) _ ltac:(lia) A1) as (w2 & -> & A2). cbn [rbind].
    pose proof A2 as (B1 & B2 & B3 & B4). rewrite B3. change (KNOT_EOK =? KNOT_EOK) with true. cbv iota. rewrite mem_read_ok by (rewrite ?B1, ?B2, ?zlen_app; pose proof (zlen_nonneg (concat I)); pose proof (zlen_nonneg pre); rewrite ?zlen_be; try lia; apply zlen_nonneg). cbn [rbind].
    rewrite B1, B2, zskipn_app_exact, zfirstn_app_exact.
    assert (HC2 : canonical (done ++ [d])). { replace (done ++ d :: ds) with ((done ++ [d]) ++ ds) in HE by (rewrite <- app_assoc; reflexivity). rewrite HE in HCN. apply canonical_app in HCN. apply HCN. }
    pose proof HS as (_ & S1 & S2 & S3 & _). assert (HR : rs = (done ++ [d]) ++ ds) by (rewrite <- app_assoc; exact HE).
    destruct (c07_add al s done d HS (conj HDB HDL)) as [(s' & rs' & ES & IS & IM & _)|[(_ & HF & _)|(_ & (n & HF) & _)]].
    + rewrite ES. cbn [rbind]. assert (rs' = done ++ [d]) as ->. { apply canonical_ext; [apply IS|auto|]. intros x. rewrite IM, in_app_iff. cbn [In]. intuition. }
      destruct (at_skip w2 _ d _ A2) as (w3 & -> & A3 & _). cbn [rbind].
      destruct (IH (done ++ [d]) (mkrc w3 (rc_rest c1) (rc_next c1) (rc_ret c1)) false (if first then j_ttl j else ttl) s' l HR IS) as (c' & s2 & EQ & IS2 & HL2).
      { exists I, parts. split; [|auto]. split; [exists (((pre ++ be 4 (j_ttl j)) ++ be 2 (zlen d)) ++ d); exact A3|]. cbn [rc_rest rc_next rc_ret]. inversion H5; subst. do 6 (split; [auto|]). auto. }
      exists c', s2. split; [|auto]. destruct first; exact EQ.
    + exfalso. rewrite HR in HN, HZ. rewrite zlen_app in HN. pose proof (zlen_nonneg ds). rewrite S3, S1 in HF. pose proof (layout_app_le (done ++ [d]) ds). pose proof (layout_app_le done [d]). rewrite zlen_app in HN. change (zlen [d]) with 1 in HN. rewrite S2 in HF. lia.
    + rewrite HAL in HF. discriminate.
Qed.

Lemma read_rrset_spec : forall max to now al j c l, (forall n, al n = true) -> rr_ok j -> left_is max to now c (items j ++ l) ->
  exists c', read_rrset al c = Ok (Some j, c') /\ left_is max to now c' l.
Proof.
  intros max to now al j c l HAL HJ HL. destruct (rr_view j HJ) as (ls & rs & V). destruct (rr_count j HJ) as [HC _]. unfold items in HL. cbn [app] in HL.
  destruct (available_some _ _ _ _ _ _ HL) as (c1 & I & parts & EA & ((pre & HA) & H2 & H3 & H4 & H5 & H6 & H7 & H8) & HLL). unfold read_rrset. rewrite EA. cbn [rbind negb].
  cbn [concat] in HA. unfold hdr in HA. rewrite <- !app_assoc in HA. pose proof HA as (B1 & B2 & B3 & B4). rewrite B1, B2, zskipn_app_exact. cbv zeta.
  assert (HS : name_size ls = zlen (j_owner j)) by (rewrite (v_owner _ _ _ V), zlen_wire; reflexivity).
  assert (HDS : forall x, dname_size (j_owner j ++ x) = Ok (zlen (j_owner j))) by (intros x; rewrite <- HS; rewrite (v_owner _ _ _ V); apply dname_size_spec; apply (v_name _ _ _ V)). rewrite HDS. cbn [rbind]. unfold take. rewrite zlen_app. replace (zlen (j_owner j) >? _) with false by (pose proof (zlen_nonneg (be 2 (j_type j) ++ be 2 (j_class j) ++ be 2 (count (j_rrs j)) ++ concat I)); lia). cbn [rbind]. rewrite zfirstn_app_exact.
  destruct (at_skip _ _ _ _ HA) as (w1 & -> & A1 & _). cbn [rbind]. destruct (rd16' _ _ _ _ (v_type _ _ _ V) A1) as (w2 & -> & A2). cbn [rbind]. destruct (rd16' _ _ _ _ (v_class _ _ _ V) A2) as (w3 & -> & A3). cbn [rbind]. destruct (rd16' w3 _ (count (j_rrs j)) _ ltac:(lia) A3) as (w4 & -> & A4). cbn [rbind].
  pose proof (v_is _ _ _ V) as (C1 & C2 & C3 & C4 & C5 & C6).
  destruct (read_rdata_spec max to now al j rs HAL C1 ltac:(lia) ltac:(pose proof (v_size _ _ _ V); rewrite <- C2; lia) (v_ttl _ _ _ V) rs [] (mkrc w4 (rc_rest c1) (rc_next c1) (rc_ret c1)) true 0 rdataset_init l eq_refl c07_init) as (c' & s' & EQ & IS & HL2).
  { exists I, parts. rewrite <- (v_rdl _ _ _ V). split; [|exact HLL]. split; [eexists; exact A4|]. cbn [rc_rest rc_next rc_ret]. inversion H5; subst. do 6 (split; [auto|]). auto. }
  replace (Z.to_nat (count (j_rrs j))) with (length rs) by (rewrite C3; unfold zlen; lia). rewrite EQ. cbn [rbind].
  assert (s' = j_rrs j) as -> by (apply (c07_canonical_form _ _ _ _ IS (v_is _ _ _ V)); intros; reflexivity). pose proof HL2 as (I2 & p2 & ((pre2 & A5) & D2 & D3 & D4 & D5) & D6). pose proof A5 as (_ & _ & E3 & _). rewrite D4, E3. change (KNOT_EOK =? KNOT_EOK) with true. change (KNOT_EOK =? KNOT_ERANGE) with false. cbv iota. change (KNOT_EOK =? KNOT_EOK) with true. cbv iota.
  eexists. split.
  - destruct rs as [|r rs]; [destruct (v_ne _ _ _ V eq_refl)|]. destruct j as [o t cl tt s]. reflexivity.
  - exists I2, p2. split; [|auto]. split; [exists pre2; exact A5|]. cbn [rc_rest rc_next rc_ret]. auto.
Qed.

Lemma is_apex_spec : forall apex j, legal_name apex -> rr_ok j -> exists b, is_apex_soa j (dwire apex) = Ok b /\ (b = true <-> apex_soa apex j).
Proof.
  intros apex j HA HJ. destruct (rr_view j HJ) as (ls & rs & V). unfold is_apex_soa, apex_soa. destruct (j_type j =? 6) eqn:ET; [|exists false; split; [auto|]; split; [discriminate|lia]].
  destruct (dname_is_equal_spec ls apex [] [] (proj1 (v_name _ _ _ V)) (proj1 HA)) as (b & EB & HB). rewrite !app_nil_r in EB. rewrite (v_owner _ _ _ V), EB. exists b. split; [auto|]. rewrite HB. split.
  - intros ->. split; [lia|auto].
  - intros [_ E]. apply wire_inj in E; auto. apply (v_name _ _ _ V). apply HA.
Qed.

Lemma read_section : forall max to now al apex, (forall n, al n = true) -> legal_name apex -> forall l fuel c from soa tree rest, Forall rr_ok l -> Forall (fun j => ~ apex_soa apex j) l -> left_is max to now c (flat_map items l ++ rest) ->
  exists c', read_changeset_loop (length l + fuel) al c (dwire apex) from soa tree = read_changeset_loop fuel al c' (dwire apex) from soa (tree ++ l) /\ left_is max to now c' rest.
Proof.
  intros max to now al apex HAL HX. induction l as [|j l IH]; intros fuel c from soa tree rest H1 H2 HL; [exists c; rewrite app_nil_r; auto|]. inversion H1; subst. inversion H2; subst. cbn [flat_map] in HL. rewrite <- app_assoc in HL.
  destruct (read_rrset_spec _ _ _ al j c _ HAL H3 HL) as (c1 & ER & HL1). cbn [length Nat.add read_changeset_loop]. rewrite ER. cbn [rbind]. destruct (is_apex_spec apex j HX H3) as (b & -> & HB). cbn [rbind]. destruct b; [exfalso; apply H5; apply HB; auto|].
  destruct (IH fuel c1 from soa (tree ++ [j]) rest H4 H6 HL1) as (c2 & -> & HL2). exists c2. rewrite <- app_assoc. auto.
Qed.
Lemma read_end : forall max to now fuel al c apex from soa tree, left_is max to now c [] -> read_changeset_loop (S fuel) al c apex from soa tree = Ok (Some (mkjch from soa tree), c).
Proof. intros max to now fuel al c apex from soa tree H. cbn [read_changeset_loop]. unfold read_rrset. rewrite (available_none _ _ _ _ H). cbn [rbind negb]. destruct H as (I & p & (_ & _ & _ & -> & _) & _). change (KNOT_EOK =? KNOT_EOK) with true. reflexivity. Qed.

Lemma read_begin_spec : forall max to now parts l, l <> [] -> Forall (part_ok max) parts -> concat parts = flat_map items l -> 0 <= max < 2 ^ 62 -> 0 <= to < 2 ^ 32 ->
  exists c, read_begin (map (chunk_of to now) parts) = Ok c /\ left_is max to now c (flat_map items l) /\ (length l <= length (concat (map (chunk_of to now) parts)))%nat.
Proof.
  intros max to now parts l HNE HP HC HM HTO.
  assert (HLEN : (length l <= length (concat (map (chunk_of to now) parts)))%nat).
  { assert (G1 : (length l <= length (flat_map items l))%nat) by (clear; induction l as [|j l IH]; cbn [flat_map length]; [lia|]; rewrite app_length; unfold items at 1; cbn [length]; lia).
    assert (G2 : (length (concat parts) <= length (concat (map (chunk_of to now) parts)))%nat).
    { clear - HP. induction HP as [|P parts (_ & _ & HQ) _ IH]; [cbn; lia|]. cbn [map concat]. rewrite !app_length. unfold chunk_of at 1. rewrite app_length. assert (length P <= length (concat P))%nat; [|lia]. clear - HQ. induction HQ as [|it P H _ IH]; [cbn; lia|]. cbn [concat length]. rewrite app_length. unfold zlen in H. lia. }
    rewrite HC in G2. lia. }
  destruct parts as [|P parts].
  - exfalso. cbn [concat] in HC. destruct l as [|j l]; [congruence|discriminate].
  - inversion HP as [|? ? (G1 & G2 & G3) G4]; subst. cbn [map read_begin]. unfold chunk_of at 1. rewrite next_serial_of by auto. cbn [rbind]. destruct (update_wire_of to now (concat P)) as (w & EW & AW); [unfold total in G2; lia|]. change (update_wire (chunk_of to now P) = Ok w) in EW. rewrite EW. cbn [rbind].
    eexists. split; [reflexivity|]. split; [|exact HLEN]. exists P, parts. split; [|auto]. split; [exists (make_header to now); exact AW|]. cbn [rc_rest rc_next rc_ret]. auto 10.
Qed.
Lemma read_spec : forall max to now al apex ch parts, (forall n, al n = true) -> ch_ok apex ch -> Forall (part_ok max) parts -> concat parts = flat_map items (source ch) -> 0 <= max < 2 ^ 62 -> 0 <= to < 2 ^ 32 ->
  exists c, read_changeset al (map (chunk_of to now) parts) (dwire apex) = Ok (Some ch, c) /\ rc_next c = to /\ rc_ret c = KNOT_EOK.
Proof.
  intros max to now al apex ch parts HAL (HX & HS & HT & HA & HF) HP HC HM HTO. unfold read_changeset.
  destruct (read_begin_spec max to now parts (source ch)) as (c0 & -> & HL & HLEN); auto. { unfold source. destruct (jc_from ch) as [[? ?]|]; discriminate. }
  cbn [rbind]. set (fuel := S (length (concat (map (chunk_of to now) parts)))) in *.
  unfold source in *. destruct ch as [[[soa rem]|] so add]; cbn [jc_from jc_to jc_add] in *.
  - destruct HF as [HF1 HF2]. inversion HS as [|? ? HS1 HS2]; subst. apply Forall_app in HS2. destruct HS2 as [HS2 HS3]. inversion HS3 as [|? ? HS4 HS5]; subst. cbn [flat_map] in HL.
    destruct (read_rrset_spec _ _ _ al soa c0 _ HAL HS1 HL) as (c1 & -> & HL1). cbn [rbind]. rewrite flat_map_app in HL1. cbn [flat_map] in HL1.
    cbn [length] in HLEN. rewrite app_length in HLEN. cbn [length] in HLEN. replace fuel with (length rem + S (length add + S (fuel - length rem - length add - 2)))%nat by (unfold fuel; lia).
    destruct (read_section _ _ _ al apex HAL HX rem (S (length add + S (fuel - length rem - length add - 2))) c1 None soa [] _ HS2 HF2 HL1) as (c2 & -> & HL2).
    cbn [read_changeset_loop]. destruct (read_rrset_spec _ _ _ al so c2 _ HAL HS4 HL2) as (c3 & -> & HL3). cbn [rbind]. destruct (is_apex_spec apex so HX HS4) as (b & -> & HB). cbn [rbind]. destruct b; [|exfalso; assert (false = true) by (apply HB; auto); discriminate].
    cbn [app]. rewrite <- (app_nil_r (flat_map items add)) in HL3. destruct (read_section _ _ _ al apex HAL HX add (S (fuel - length rem - length add - 2)) c3 (Some (soa, rem)) so [] _ HS5 HA HL3) as (c4 & -> & HL4).
    rewrite (read_end _ _ _ _ _ _ _ _ _ _ HL4). exists c4. split; [reflexivity|]. destruct HL4 as (I & p & (_ & _ & G1 & G2 & _) & _). auto.
  - inversion HS as [|? ? HS1 HS2]; subst. cbn [flat_map] in HL. destruct (read_rrset_spec _ _ _ al so c0 _ HAL HS1 HL) as (c1 & -> & HL1). cbn [rbind]. cbn [length] in HLEN. replace fuel with (length add + S (fuel - length add - 1))%nat by (unfold fuel; lia).
    rewrite <- (app_nil_r (flat_map items add)) in HL1. destruct (read_section _ _ _ al apex HAL HX add (S (fuel - length add - 1)) c1 None so [] _ HS2 HA HL1) as (c4 & -> & HL4).
    rewrite (read_end _ _ _ _ _ _ _ _ _ _ HL4). exists c4. split; [reflexivity|]. destruct HL4 as (I & p & (_ & _ & G1 & G2 & _) & _). auto.
Qed.
