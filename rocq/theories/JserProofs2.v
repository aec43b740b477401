From Verif Require Import Base DnameModel DnameSpec DnameProofs DnameProofs2 WireModel WireProofs WireProps RdatasetModel RdatasetSpec RdatasetProofs RdatasetProps JserModel JserSpec JserProofs.

Lemma at_avail : forall w pre post, at_ w pre post -> wire_available w = zlen post.
Proof. intros w pre post H. destruct (at_wf _ _ _ H) as [W S]. rewrite wf_avail by auto. rewrite S. destruct H as (_ & -> & _). lia. Qed.
Lemma at_skip : forall w pre d post, at_ w pre (d ++ post) -> exists w', wire_skip w (zlen d) = Ok w' /\ at_ w' (pre ++ d) post /\ w_ro w' = w_ro w.
Proof.
  intros w pre d post H. pose proof (at_avail _ _ _ H) as HA. destruct H as (H1 & H2 & H3 & H4). pose proof (zlen_nonneg d). pose proof (zlen_nonneg post). rewrite zlen_app in HA.
  unfold wire_skip. rewrite H3, HA. change (KNOT_EOK =? KNOT_EOK) with true. cbn [negb]. replace (zlen d >=? 0) with true by lia. replace (zlen d >? _) with false by lia. eexists. split; [reflexivity|]. split; [|reflexivity].
  unfold at_. cbn [set_pos w_buf w_pos w_err]. rewrite H1, H2, <- !app_assoc, zlen_app. auto.
Qed.
Lemma zskipn_add : forall A (l : list A) a b, 0 <= a -> 0 <= b -> zskipn b (zskipn a l) = zskipn (a + b) l.
Proof. intros. unfold zskipn. rewrite Z2Nat.inj_add by lia. generalize (Z.to_nat a) (Z.to_nat b). clear. intros a b. revert l. induction a; intros l; [reflexivity|]. destruct l; [destruct b; reflexivity|]. cbn [skipn Nat.add]. apply IHa. Qed.

Lemma write_hdr : forall j w pre post, rr_ok j -> at_ w pre post -> w_ro w = false -> zlen (hdr j) <= zlen post ->
  exists mem w1 w2 w3 w4, mem_write (w_buf w) (w_pos w) (zfirstn (zlen (j_owner j)) (j_owner j)) = Ok mem /\
    wire_available (mkwire mem (w_pos w) (w_err w) (w_ro w)) = zlen post /\
    wire_skip (mkwire mem (w_pos w) (w_err w) (w_ro w)) (zlen (j_owner j)) = Ok w1 /\ wire_write_u16 w1 (j_type j) = Ok w2 /\ wire_write_u16 w2 (j_class j) = Ok w3 /\ wire_write_u16 w3 (count (j_rrs j)) = Ok w4 /\
    at_ w4 (pre ++ hdr j) (zskipn (zlen (hdr j)) post) /\ w_ro w4 = false.
Proof.
  intros j w pre post HJ HA HR HL. rewrite hdr_len in HL. set (o := j_owner j) in *. pose proof (zlen_nonneg o).
  assert (HZ : zfirstn (zlen o) o = o) by (rewrite <- (app_nil_r o) at 2; apply zfirstn_app_exact). rewrite HZ. pose proof HA as (H1 & H2 & H3 & H4).
  assert (HM : mem_write (w_buf w) (w_pos w) o = Ok (pre ++ o ++ zskipn (zlen o) post)).
  { rewrite H1, H2, mem_write_ok by (rewrite ?zlen_app; try lia; apply zlen_nonneg). rewrite zfirstn_app_exact. do 3 f_equal. rewrite <- zskipn_add by (try lia; apply zlen_nonneg). rewrite zskipn_app_exact. reflexivity. }
  rewrite HM. set (wm := mkwire (pre ++ o ++ zskipn (zlen o) post) (w_pos w) (w_err w) (w_ro w)).
  assert (HAm : at_ wm pre (o ++ zskipn (zlen o) post)). { unfold at_, wm. cbn [w_buf w_pos w_err]. repeat split; auto. rewrite !zlen_app in *. rewrite zlen_zskipn by lia. lia. }
  destruct (at_skip wm pre o _ HAm) as (w1 & S1 & A1 & R1). change (w_ro wm) with (w_ro w) in R1. rewrite HR in R1.
  pose proof (zlen_zskipn post (zlen o) ltac:(lia)) as Z1.
  destruct (proj1 (c48_write w1 _ _ (be 2 (j_type j)) A1 R1)) as (w2 & S2 & A2 & R2); [rewrite zlen_be; lia|]. rewrite zlen_be in A2. rewrite zskipn_add in A2 by lia.
  pose proof (zlen_zskipn post (zlen o + Z.of_nat 2) ltac:(lia)) as Z2.
  destruct (proj1 (c48_write w2 _ _ (be 2 (j_class j)) A2 R2)) as (w3 & S3 & A3 & R3); [rewrite zlen_be; lia|]. rewrite zlen_be in A3. rewrite zskipn_add in A3 by lia.
  pose proof (zlen_zskipn post (zlen o + Z.of_nat 2 + Z.of_nat 2) ltac:(lia)) as Z3.
  destruct (proj1 (c48_write w3 _ _ (be 2 (count (j_rrs j))) A3 R3)) as (w4 & S4 & A4 & R4); [rewrite zlen_be; lia|]. rewrite zlen_be in A4. rewrite zskipn_add in A4 by lia.
  exists (pre ++ o ++ zskipn (zlen o) post), w1, w2, w3, w4. split; [reflexivity|]. split; [change (wire_available wm = zlen post); rewrite (at_avail wm _ _ HAm), zlen_app; lia|]. split; [auto|]. split; [auto|]. split; [auto|]. split; [auto|]. split; [|auto].
  rewrite hdr_len. fold o. replace (zlen o + 6) with (zlen o + Z.of_nat 2 + Z.of_nat 2 + Z.of_nat 2) by lia. unfold hdr. fold o. rewrite <- !app_assoc in A4. exact A4.
Qed.
Lemma write_rd : forall j d w pre post, at_ w pre post -> w_ro w = false -> zlen (rditem j d) <= zlen post -> 
  exists w1 w2 w3, wire_write_u32 w (j_ttl j) = Ok w1 /\ wire_write_u16 w1 (zlen d) = Ok w2 /\ wire_write w2 d = Ok w3 /\ at_ w3 (pre ++ rditem j d) (zskipn (zlen (rditem j d)) post) /\ w_ro w3 = false.
Proof.
  intros j d w pre post HA HR HL. rewrite rditem_len in HL. pose proof (zlen_nonneg d).
  destruct (proj1 (c48_write w _ _ (be 4 (j_ttl j)) HA HR)) as (w2 & S2 & A2 & R2); [rewrite zlen_be; lia|]. rewrite zlen_be in A2.
  pose proof (zlen_zskipn post (Z.of_nat 4) ltac:(lia)) as Z2.
  destruct (proj1 (c48_write w2 _ _ (be 2 (zlen d)) A2 R2)) as (w3 & S3 & A3 & R3); [rewrite zlen_be; lia|]. rewrite zlen_be in A3. rewrite zskipn_add in A3 by lia.
  pose proof (zlen_zskipn post (Z.of_nat 4 + Z.of_nat 2) ltac:(lia)) as Z3.
  destruct (proj1 (c48_write w3 _ _ d A3 R3)) as (w4 & S4 & A4 & R4); [lia|]. rewrite zskipn_add in A4 by lia.
  exists w2, w3, w4. do 3 (split; [auto|]). split; [|auto]. rewrite rditem_len. replace (6 + zlen d) with (Z.of_nat 4 + Z.of_nat 2 + zlen d) by lia. unfold rditem. rewrite <- !app_assoc in A4. exact A4.
Qed.

Lemma last_default : forall A (l : list A) x a (b : A), last (x :: l) a = last l x.
Proof. intros A l. induction l as [|y l IH]; intros x a b; [reflexivity|]. change (last (x :: y :: l) a) with (last (y :: l) a). rewrite IH by exact a. symmetry. apply (IH y x a). Qed.
Lemma last_in : forall A (l : list A) x, In (last l x) (x :: l).
Proof. intros A l. induction l as [|y l IH]; intros x; [left; reflexivity|]. rewrite (last_default _ l y x x). right. apply IH. Qed.
Lemma total_len : forall P, Forall (fun it => 6 <= zlen it) P -> total P = 0 -> P = [].
Proof. intros P H H0. destruct H; auto. rewrite total_cons in H0. pose proof (total_nonneg l). lia. Qed.
Lemma flat_len_last : forall l x, Forall rr_ok (x :: l) -> l <> [] -> zlen (flat_map items l) >= zlen (items (last l x)).
Proof.
  induction l as [|y l IH]; intros x H Hne; [congruence|]. cbn [flat_map]. rewrite zlen_app, (last_default _ l y x x). inversion H; subst. destruct l as [|z l].
  - cbn [last flat_map]. rewrite zlen_nil. lia.
  - pose proof (IH y H3 ltac:(discriminate)). pose proof (zlen_nonneg (items y)). lia.
Qed.
Lemma flat_len_two : forall l x, Forall rr_ok (x :: l) -> l <> [] -> zlen (items x) >= 1 /\ zlen (flat_map items (x :: l)) > zlen (items (last l x)).
Proof.
  intros l x H Hne. pose proof (flat_len_last l x H Hne). inversion H; subst. destruct (rr_count x H3). cbn [flat_map]. rewrite zlen_app. lia.
Qed.
Lemma item_min : forall l, Forall rr_ok l -> Forall (fun it => 6 <= zlen it) (flat_map items l).
Proof. intros l H. apply Forall_forall. intros it Hi. apply in_flat_map in Hi. destruct Hi as (j & _ & Hi). eapply item_pos; eauto. Qed.

Lemma chunk_spec : forall fuel w cur buf phase pre post P p', Forall rr_ok (cur :: buf) -> at_ w pre post -> w_ro w = false -> -1 <= phase <= count (j_rrs cur) ->
  from_ cur phase ++ flat_map items buf = P ++ from_ (last buf cur) p' -> -1 <= p' <= count (j_rrs (last buf cur)) -> zlen post = total P -> (length P < fuel)%nat ->
  exists w', chunk_loop fuel w (cur :: buf) phase = Ok (w', p') /\ at_ w' (pre ++ concat P) [].
Proof.
  induction fuel as [|fuel IH]; intros w cur buf phase pre post P p' HK HA HR HP HE HP' HT HF; [lia|]. pose proof (at_avail _ _ _ HA) as AV.
  inversion HK as [|? ? HC HB]; subst. assert (HLast : rr_ok (last buf cur)) by (pose proof (last_in _ buf cur) as HI; rewrite Forall_forall in HK; auto).
  destruct P as [|it P].
  - (* nothing more to write *)
    cbn [app] in HE. change (total []) with 0 in HT. assert (post = []) by (destruct post; auto; rewrite zlen_cons in HT; pose proof (zlen_nonneg post); lia). subst post. cbn [concat]. rewrite app_nil_r.
    cbn [chunk_loop]. destruct (phase >=? count (j_rrs cur)) eqn:EP.
    + rewrite (from_end cur phase HC HP ltac:(lia)) in HE. cbn [app] in HE. destruct buf as [|nx buf].
      * cbn [last] in *. exists w. split; [|auto]. cbn [flat_map] in HE. assert (zlen (from_ cur p') = 0) by (rewrite <- HE; reflexivity). rewrite from_len in H by auto. repeat f_equal. lia.
      * destruct buf as [|ny buf].
        -- cbn [last flat_map] in *. rewrite app_nil_r in HE. inversion HB as [|? ? HNx _]; subst. change (RRSET_INIT =? RRSET_INIT) with true. cbv iota. rewrite rr_size by auto. cbn [rbind]. rewrite AV, zlen_nil.
           destruct (rr_view nx HNx) as (ls & rs & V). replace (zlen (j_owner nx) >? 0) with true by (rewrite (v_owner _ _ _ V), zlen_wire; pose proof (name_size_pos ls); lia). exists w. split; [|auto].
           rewrite <- from_init in HE. apply (f_equal (@zlen _)) in HE. apply from_eq in HE; auto; [subst p'; reflexivity|destruct (rr_count nx HNx); lia].
        -- exfalso. destruct (flat_len_two (ny :: buf) nx HB ltac:(discriminate)) as [_ G]. rewrite <- (last_default _ (ny :: buf) nx cur cur) in G. rewrite HE in G. rewrite from_len in G by auto. destruct (rr_count _ HLast) as [_ G2]. rewrite G2 in G. lia.
    + destruct buf as [|nx buf].
      * cbn [last flat_map] in *. rewrite app_nil_r in HE. apply (f_equal (@zlen _)) in HE. apply from_eq in HE; auto. subst p'. exists w. split; [|auto]. destruct (phase =? RRSET_INIT) eqn:EI.
        -- rewrite rr_size by auto. cbn [rbind]. rewrite AV, zlen_nil. destruct (rr_view cur HC) as (ls & rs & V). replace (zlen (j_owner cur) >? 0) with true by (rewrite (v_owner _ _ _ V), zlen_wire; pose proof (name_size_pos ls); lia). reflexivity.
        -- unfold RRSET_INIT in EI. destruct (from_rd cur phase HC ltac:(lia)) as (d & -> & _). cbn [rbind]. rewrite AV, zlen_nil. pose proof (zlen_nonneg d). replace (0 <? 6 + zlen d) with true by lia. reflexivity.
      * exfalso. apply (f_equal (@zlen _)) in HE. rewrite zlen_app in HE. pose proof (flat_len_last (nx :: buf) cur HK ltac:(discriminate)) as G. rewrite (from_len cur) in HE by auto. rewrite (from_len (last (nx :: buf) cur)) in HE by auto. destruct (rr_count _ HLast) as [_ G2]. rewrite G2 in G. lia.
  - rewrite total_cons in HT. pose proof (total_nonneg P). cbn [length] in HF.
    (* a header *)
    assert (HH : forall j b, Forall rr_ok (j :: b) -> last b j = last buf cur -> it = hdr j -> from_ j 0 ++ flat_map items b = P ++ from_ (last b j) p' ->
      exists w', (let* n := dname_size (j_owner j) in if n >? wire_available w then Ok (w, RRSET_INIT) else
          let* mem := mem_write (w_buf w) (w_pos w) (zfirstn n (j_owner j)) in
          let w := mkwire mem (w_pos w) (w_err w) (w_ro w) in
          if wire_available w <? n + 6 then Ok (w, RRSET_INIT) else
          let* w := wire_skip w n in
          let* w := wire_write_u16 w (j_type j) in
          let* w := wire_write_u16 w (j_class j) in
          let* w := wire_write_u16 w (count (j_rrs j)) in
          chunk_loop fuel w (j :: b) 0) = Ok (w', p') /\ at_ w' (pre ++ concat (it :: P)) []).
    { intros j b HKb HLb -> HEb. inversion HKb as [|? ? HJ _]; subst. rewrite rr_size by auto. cbn [rbind]. rewrite AV. destruct (write_hdr j w pre post HJ HA HR ltac:(lia)) as (mem & w1 & w2 & w3 & w4 & Q1 & Q2 & Q3 & Q4 & Q5 & Q6 & Q7 & Q8). pose proof (hdr_len j) as HL6. pose proof (zlen_nonneg (j_owner j)).
      replace (zlen (j_owner j) >? zlen post) with false by lia. rewrite Q1. cbn [rbind]. cbv zeta. rewrite Q2. replace (zlen post <? zlen (j_owner j) + 6) with false by lia. rewrite Q3. cbn [rbind]. rewrite Q4. cbn [rbind]. rewrite Q5. cbn [rbind]. rewrite Q6. cbn [rbind].
      destruct (rr_count j HJ). destruct (IH w4 j b 0 _ _ P p' HKb Q7 Q8 ltac:(lia) HEb) as (w' & -> & AW); [rewrite HLb; auto|rewrite zlen_zskipn by lia; lia|lia|]. exists w'. split; [auto|]. cbn [concat]. rewrite app_assoc. auto. }
    cbn [chunk_loop]. destruct (phase >=? count (j_rrs cur)) eqn:EP.
    + rewrite (from_end cur phase HC HP ltac:(lia)) in HE. cbn [app] in HE. destruct buf as [|nx buf]; [discriminate|]. rewrite (last_default _ buf nx cur cur) in *. cbn [flat_map] in HE. rewrite from_0 in HE. inversion HE as [[E1 E2]]. destruct (HH nx buf HB eq_refl ltac:(congruence) E2) as (w' & EQ & AW). exists w'. split; [exact EQ|]. try rewrite E1. exact AW.
    + destruct (Z.eq_dec phase (-1)) as [->|Hne].
      * rewrite from_init, from_0 in HE. inversion HE as [[E1 E2]]. destruct (HH cur buf HK eq_refl ltac:(congruence) E2) as (w' & EQ & AW). exists w'. split; [exact EQ|]. try rewrite E1. exact AW.
      * replace (phase =? RRSET_INIT) with false by (unfold RRSET_INIT; lia). destruct (from_rd cur phase HC ltac:(lia)) as (d & -> & FR & _). rewrite FR in HE. inversion HE as [[E1 E2]]. subst it. cbn [rbind]. rewrite AV. rewrite rditem_len in HT. replace (zlen post <? 6 + zlen d) with false by lia.
        destruct (write_rd cur d w pre post HA HR ltac:(rewrite rditem_len; lia)) as (w1 & w2 & w3 & Q1 & Q2 & Q3 & Q4 & Q5). rewrite Q1. cbn [rbind]. rewrite Q2. cbn [rbind]. rewrite Q3. cbn [rbind].
        pose proof (rditem_len cur d). destruct (IH w3 cur buf (phase + 1) _ _ P p' HK Q4 Q5 ltac:(lia) E2 HP') as (w' & -> & AW); [rewrite zlen_zskipn by (pose proof (zlen_nonneg d); lia); lia|lia|]. exists w'. split; [auto|]. cbn [concat]. rewrite app_assoc. auto.
Qed.
