From Verif Require Import Base SerialModel SerialSpec SerialProofs SerialProps JournalModel JournalSpec JournalProofs JournalProofs2 JournalProofs3 JournalProofs4 JournalProofs5.

Definition mode (h : hist) (fl : bool) (m : md) (mg : option stored) : Prop :=
  mg <> None -> if fl then h_file h <> m_merged m else h_file h = m_merged m.
(** Merging is possible, or it isn't going to be needed *)
Definition ready (h : hist) (G : Prop) (fl : bool) (t : txn) (m : md) (chain : list (Z * stored)) (mg : option stored) : Prop :=
  (G /\ rel t m chain mg /\ mode h fl m mg) \/ upto (t_db t) m = m_to m.
(** The deletion of everything meets an assertion in journal_metadata_after_delete() *)
Definition unsafe (d : db) (m : md) : Prop := exists z, d_zij d = Some z /\ s_to (z_st z) = m_to m /\ m_flushed m <> m_to m.

Definition fixed (F : Prop) (h : hist) (G : Prop) (fl : bool) (t : txn) (m : md) (mg : option stored) (mc : Z) (p : txn * md) : Prop :=
  let '(t', m') := p in
  (t_ret t' <> KNOT_EOK /\ t_log t' = [] /\ (upto (t_db t) m = m_to m -> m_mv m' = m_mv m)) \/
  (t_ret t' = KNOT_EBUSY /\ G /\ exists d', t_log t' = [d'] /\ good h d') \/
  (alive t' /\ env F t' /\ same t t' /\ exists chain' mg', inv (t_db t') m' chain' mg' /\
     (G -> gh h (t_db t') m' chain' mg') /\ m_to m' = m_to m /\ m_count m' <= mc /\ keysub t t' /\
     (d_zij (t_db t') = None <-> d_zij (t_db t) = None) /\ ready h G fl t' m' chain' mg' /\
     (fl = true \/ upto (t_db t) m = m_to m -> mg' = mg /\ m_merged m' = m_merged m /\ m_mv m' = m_mv m) /\
     (unsafe (t_db t') m' -> F) /\ (upto (t_db t) m = m_to m -> m_flushed m = m_to m -> m_flushed m' = m_to m')).

Lemma serial_zij_alive : forall F t, alive t -> env F t ->
  (exists fl, serial_to_zij t = (set_fl t fl, option_map (fun z => s_to (z_st z)) (d_zij (t_db t))) /\
     alive (set_fl t fl) /\ env F (set_fl t fl)) \/
  (F /\ exists t', serial_to_zij t = (t', None) /\ hdead (t_log t) t').
Proof.
  intros F t A E. unfold serial_to_zij.
  destruct (enter_alive F t A E) as [(fl & E1 & A1 & V1)|(HFF & t1 & E1 & D1)]; rewrite E1.
  - left. exists fl. auto.
  - right. split; [exact HFF|]. eauto.
Qed.

Lemma rel_upd : forall t t' m chain chain' mg z n, rel t m chain mg -> same t t' -> d_zij (t_db t') = d_zij (t_db t) ->
  (exists dl, chain = dl ++ chain') -> rel t' (upd m z n) chain' mg.
Proof.
  intros t t' m chain chain' mg z n (m0 & chain0 & p & H1 & H2 & H3 & H4 & H5 & H6 & H7 & H8) (S1 & S2) EZ (dl & ED).
  exists m0, chain0, (p ++ dl). rewrite S1, EZ. do 3 (split; [assumption|]). split; [rewrite <- app_assoc, <- ED; exact H4|].
  auto.
Qed.

Lemma u64_le : forall x, 0 <= x -> u64 x <= x.
Proof. intros x H. unfold u64. apply Z.mod_le; lia. Qed.
Lemma u_minus_ge : forall a b, 0 <= b -> a - b <= u_minus a b.
Proof. intros a b H. unfold u_minus. pose proof (u64_le b H). lia. Qed.

Lemma inv_tov : forall d m chain mg tv, inv d m chain mg -> (tv = false -> chain = []) ->
  inv d (mkmd (m_first m) (m_to m) (m_flushed m) (m_merged m) (m_count m) tv (m_mv m)) chain mg.
Proof. intros d m chain mg tv I H. eapply inv_md_ext; [exact I|..]; try reflexivity. exact H. Qed.
Lemma inv_first_to : forall d m chain mg, inv d m chain mg -> m_first m = m_to m -> chain = [].
Proof.
  intros d m chain mg I H. destruct chain as [|[k s] r]; [reflexivity|]. pose proof (i_path _ _ _ _ I) as HP. cbn [spath] in HP.
  exfalso. apply (i_end _ _ _ _ I). left. cbn [fst]. destruct HP as [-> _]. exact H.
Qed.

Lemma fix_loop_alive : forall F h (G : Prop) fl ms mc fuel t m chain mg a b, alive t -> env F t -> inv (t_db t) m chain mg ->
  t_log t = [] -> (G -> gh h (t_db t) m chain mg) -> ready h G fl t m chain mg -> h_last h = Some (m_to m) \/ ~ G -> 0 < ms ->
  (unsafe (t_db t) m -> F) ->
  m_count m <= mc + Z.max 0 b ->
  (length chain + (if (upto (t_db t) m =? m_to m)%Z then 0 else 1) < fuel)%nat ->
  W F [] fst (fix_loop fuel t m fl ms a b) (fixed F h G fl t m mg mc).
Proof.
  intros F h G fl ms mc fuel. induction fuel as [|fuel IH]; intros t m chain mg a b A E I HLOG HG HR HL HM HUS HB HFU; [lia|].
  cbn [fix_loop]. destruct (((a >? 0) || (b >? 0)) && (t_ret t =? KNOT_EOK)) eqn:EC; cbn [negb].
  2:{ apply W_ok. right. right. split; [exact A|]. split; [exact E|]. split; [split; reflexivity|]. exists chain, mg.
      split; [exact I|]. split; [exact HG|]. split; [reflexivity|].
      split. { destruct A as (A1 & _). rewrite A1 in EC. cbn [Z.eqb KNOT_EOK] in EC. rewrite andb_true_r in EC. lia. }
      split; [intros k; auto|]. split; [tauto|]. split; [exact HR|]. split; [auto|]. split; [exact HUS|]. auto. }
  assert (HAB : 0 < a \/ 0 < b) by lia.
  destruct (serial_zij_alive F t A E) as [(fs & E1 & A1 & V1)|(HFF & t1 & E1 & D1)]; rewrite E1.
  2:{ right. split; [exact HFF|]. intros [t' m'] EQ. cbn [fst]. rewrite HLOG in D1.
      unfold journal_delete in EQ. destruct (delete_loop _ _ _ _ _ _ _ _) as [[[[t2 x] y] z]| | |] eqn:ED; cbn [rbind] in EQ; try discriminate EQ.
      assert (H2 := delete_loop_hdead _ _ _ _ _ _ _ _ _ _ _ _ _ D1 ED).
      left. destruct (x =? 0).
      - destruct (negb _).
        + destruct (try_flush t2 m fl ms) as [[t3 m3]| | |] eqn:ET; cbn [rbind] in EQ; try discriminate EQ.
          assert (H3 : hdead [] t3).
          { replace (@nil db) with (t_log t2) by apply H2. eapply try_flush_dead; [right|exact ET]. destruct H2 as [H2 H2L]. split; [exact H2|reflexivity]. }
          eapply fix_loop_hdead; [exact H3|exact EQ].
        + injection EQ as <- <-. exact H2.
      - destruct (after_delete m z y); cbn [rbind] in EQ; try discriminate EQ. eapply fix_loop_hdead; [exact H2|exact EQ]. }
  assert (HUP : match option_map (fun z => s_to (z_st z)) (d_zij (t_db t)) with Some z => z | None => m_flushed m end = upto (t_db t) m).
  { unfold upto. destruct (d_zij (t_db t)); reflexivity. }
  rewrite HUP. set (t1 := set_fl t fs) in *.
  unfold journal_delete.
  assert (HLEN : (length chain < S (length (d_chs (t_db t1))))%nat) by (pose proof (inv_length _ _ _ _ I); change (t_db t1) with (t_db t); lia).
  pose proof (delete_loop_alive F h a b mg chain (S (length (d_chs (t_db t1)))) t1 m 0 0 A1 V1 I HLEN (Z.le_refl 0)) as HDEL.
  change (t_log t1) with (t_log t) in HDEL. rewrite HLOG in HDEL. change (upto (t_db t1) m) with (upto (t_db t) m) in HDEL.
  eapply W_bind; [exact HDEL| |].
  2:{ intros [[[t2 x] y] z] [t3 m3] D EQ. cbn [fst] in *.
      destruct (x =? 0).
      - destruct (negb _).
        + destruct (try_flush t2 m fl ms) as [[t4 m4]| | |] eqn:ET; cbn [rbind] in EQ; try discriminate EQ.
          assert (H3 : hdead [] t4).
          { destruct D as [D|[D DL]].
            - replace (@nil db) with (t_log t2) by apply D. eapply try_flush_dead; [right|exact ET]. destruct D as [D DL]. split; [exact D|reflexivity].
            - rewrite <- DL. eapply try_flush_dead; [left; exact D|exact ET]. }
          left. eapply fix_loop_hdead; [exact H3|exact EQ].
        + injection EQ as <- <-. destruct D as [D|[D DL]]; [left; exact D|right]. split; [discriminate|exact DL].
      - destruct (after_delete m z y); cbn [rbind] in EQ; try discriminate EQ. eapply fix_loop_dead; [exact D|exact EQ]. }
  clear HDEL. intros [[[t2 x] y] z] (chain' & n & B1 & B2 & (B3 & B3') & B4 & B5 & B6 & B7 & B8 & B9 & B10 & B11 & B12).
  change (t_db t1) with (t_db t) in *. change (t_base t1) with (t_base t) in *. change (t_log t1) with (t_log t) in *.
  rewrite HLOG in B3'.
  assert (HUP2 : upto (t_db t2) (upd m z (m_count m - n)) = upto (t_db t) m) by (unfold upto; rewrite B4; reflexivity).
  destruct (Z.eq_dec n 0) as [N|N].
  - (* nothing to delete *)
    destruct (B11 N) as (X1 & X2 & X3 & X4 & X5). subst x chain' z. cbn [Z.eqb].
    assert (HFST : m_first m = upto (t_db t) m) by lia.
    destruct (upto (t_db t) m =? m_to m) eqn:EU; cbn [negb].
    + apply W_ok. left. cbn [set_ret t_ret t_log]. split; [discriminate|]. split; [exact B3'|reflexivity].
    + destruct HR as [(HGG & HREL & HMODE)|HR]; [|lia].
      assert (HREL2 : rel t2 m chain mg).
      { destruct HREL as (m0 & chain0 & p & R1 & R2 & R3 & R4 & R5 & R6 & R7 & R8). exists m0, chain0, p. rewrite B3, X2. auto 10. }
      assert (I2 : inv (t_db t2) m chain mg) by (rewrite X2; exact I).
      assert (G2 : gh h (t_db t2) m chain mg) by (rewrite X2; apply HG; exact HGG).
      assert (HL2 : h_last h = Some (m_to m)) by (destruct HL; [assumption|contradiction]).
      pose proof (try_flush_alive F h t2 m chain mg fl ms B1 B2 I2 HREL2 G2 HL2 HM B3') as HTF.
      rewrite X2 in HTF. specialize (HTF ltac:(lia) HFST HMODE).
      eapply W_bind; [exact HTF| |].
      2:{ intros [t3 m3] [t4 m4] D EQ. cbn [fst] in *. eapply fix_loop_dead; [exact D|exact EQ]. }
      intros [t3 m3] [(Y1 & Y2 & Y3)|(Y1 & Y2 & Y3 & (Y4 & Y4') & chain3 & mg3 & Y5 & Y6 & Y7 & Y8 & Y9 & Y10 & Y11 & Y12 & Y13)].
      * assert (EQL : fix_loop fuel t3 m3 fl ms a b = Ok (t3, m3)).
        { destruct fuel; cbn [fix_loop]; rewrite Y2; rewrite andb_false_r; reflexivity. }
        rewrite EQL. apply W_ok. right. left. split; [exact Y2|]. split; [exact HGG|exact Y3].
      * assert (HR3 : ready h G fl t3 m3 chain3 mg3) by (right; exact Y7).
        assert (HL3 : h_last h = Some (m_to m3) \/ ~ G) by (left; rewrite Y9; exact HL2).
        assert (HUS3 : unsafe (t_db t3) m3 -> F) by (intros (z & _ & _ & Z3); contradiction).
        assert (HFU3 : (length chain3 + (if (upto (t_db t3) m3 =? m_to m3)%Z then 0 else 1) < fuel)%nat).
        { rewrite Y7, Z.eqb_refl. lia. }
        assert (HLOG3 : t_log t3 = []) by (rewrite Y4'; exact B3').
        specialize (IH t3 m3 chain3 mg3 a b Y2 Y3 Y5 HLOG3 (fun _ => Y6) HR3 HL3 HM HUS3 ltac:(lia) HFU3).
        destruct IH as [(q & EQ & HQ)|HQ]; [left; exists q; split; [exact EQ|]|right; exact HQ].
        destruct q as [t4 m4]. unfold fixed in *. destruct HQ as [(HQ1 & HQ2 & HQ3)|[HQ|HQ]]; [left; split; [exact HQ1|split; [exact HQ2|lia]]|right; left; exact HQ|right; right].
        destruct HQ as (Q1 & Q2 & (Q3 & Q3') & chain4 & mg4 & Q4 & Q5 & Q6 & Q7 & Q8 & Q9 & Q10 & Q11 & Q12 & Q13).
        split; [exact Q1|]. split; [exact Q2|]. split; [split; [congruence|congruence]|]. exists chain4, mg4.
        split; [exact Q4|]. split; [exact Q5|]. split; [congruence|]. split; [exact Q7|].
        split; [intros k Hk; specialize (Y12 k (Q8 k Hk)); rewrite X2 in Y12; exact Y12|].
        split; [rewrite Q9; exact Y13|]. split; [exact Q10|].
        split; [intros [Hf|Hf]; [congruence|lia]|]. split; [exact Q12|]. intros Hf. lia.
  - (* something was deleted *)
    assert (HN : 0 < n) by lia. specialize (B12 HN). replace (x =? 0) with false by lia.
    assert (HCN : chain <> []) by (intros ->; cbn [length] in B9; lia).
    assert (HTOV : m_tov m = true) by (destruct (m_tov m) eqn:ET; [reflexivity|exfalso; apply HCN; apply (i_tov _ _ _ _ I ET)]).
    replace (0 + n) with n in B7 by lia. subst y.
    assert (HZTO : z = m_to m -> chain' = []).
    { intros EZ. apply (inv_first_to _ _ _ _ B5). exact EZ. }
    set (tv := negb (z =? m_to m)).
    set (m2 := mkmd z (m_to m) (m_flushed m) (m_merged m) (m_count m - n) tv (m_mv m)).
    assert (HAD : after_delete m z n = Ok m2 \/ (F /\ after_delete m z n = UB)).
    { unfold after_delete. replace (n =? 0) with false by lia. rewrite HTOV. cbn [negb]. subst m2 tv.
      destruct (z =? m_to m) eqn:EZ; [|left; reflexivity]. cbn [negb].
      assert (HC' : chain' = []) by (apply HZTO; lia). 
      replace (m_count m =? n) with true by (rewrite (i_count _ _ _ _ I), B9, HC'; cbn [length]; lia). cbn [negb]. rewrite orb_false_r.
      destruct (m_flushed m =? m_to m) eqn:EF; cbn [negb]; [left; reflexivity|]. right. split; [|reflexivity].
      apply HUS. pose proof (i_upto _ _ _ _ B5) as [H|H]; [|rewrite HC' in H; contradiction].
      rewrite HUP2 in H. cbn [upd m_to] in H. unfold upto in H. destruct (d_zij (t_db t)) as [zz|] eqn:EZZ; [|lia].
      exists zz. split; [exact EZZ|]. split; [exact H|]. lia. }
    destruct HAD as [HAD|[HFF HAD]]; rewrite HAD; cbn [rbind]; [|right; split; [exact HFF|discriminate]].
    assert (I2 : inv (t_db t2) m2 chain' mg).
    { apply (inv_tov _ _ _ _ tv B5). intros H. apply HZTO. subst tv. destruct (z =? m_to m) eqn:EZ; [lia|discriminate]. }
    assert (HG2 : G -> gh h (t_db t2) m2 chain' mg).
    { intros g. eapply gh_md_ext; [apply B10; apply HG; exact g|reflexivity|reflexivity]. }
    assert (HUP3 : upto (t_db t2) m2 = upto (t_db t) m) by (unfold upto; rewrite B4; reflexivity).
    assert (HR2 : ready h G fl t2 m2 chain' mg).
    { destruct HR as [(g & HREL & HMODE)|HR]; [left|right; rewrite HUP3; exact HR].
      split; [exact g|]. split; [|exact HMODE].
      pose proof (rel_upd t t2 m chain chain' mg z (m_count m - n) HREL (conj B3 (eq_trans B3' (eq_sym HLOG))) B4 B6) as (m0 & chain0 & p & R). exists m0, chain0, p. exact R. }
    assert (HUS2 : unsafe (t_db t2) m2 -> F).
    { intros (zz & U1 & U2 & U3). apply HUS. exists zz. rewrite <- B4. auto. }
    assert (HB2 : m_count m2 <= mc + Z.max 0 (u_minus b n)).
    { cbn [m2 m_count]. pose proof (u_minus_ge b n B8). lia. }
    assert (HFU2 : (length chain' + (if (upto (t_db t2) m2 =? m_to m2)%Z then 0 else 1) < fuel)%nat).
    { rewrite HUP3. cbn [m2 m_to]. destruct (upto (t_db t) m =? m_to m); lia. }
    specialize (IH t2 m2 chain' mg (u_minus a x) (u_minus b n) B1 B2 I2 B3' HG2 HR2 HL HM HUS2 HB2 HFU2).
    destruct IH as [(q & EQ & HQ)|HQ]; [left; exists q; split; [exact EQ|]|right; exact HQ].
    destruct q as [t4 m4]. unfold fixed in *. destruct HQ as [(HQ1 & HQ2 & HQ3)|[HQ|HQ]]; [left; rewrite HUP3 in HQ3; auto|right; left; exact HQ|right; right].
    destruct HQ as (Q1 & Q2 & (Q3 & Q3') & chain4 & mg4 & Q4 & Q5 & Q6 & Q7 & Q8 & Q9 & Q10 & Q11 & Q12 & Q13).
    split; [exact Q1|]. split; [exact Q2|]. split; [split; [congruence|congruence]|]. exists chain4, mg4.
    split; [exact Q4|]. split; [exact Q5|]. split; [exact Q6|]. split; [exact Q7|].
    split. { intros k Hk. specialize (Q8 k Hk). rewrite (i_chs _ _ _ _ I2) in Q8. rewrite (i_chs _ _ _ _ I).
             destruct B6 as (dl & B6). destruct (find_ch k chain) eqn:EF; [discriminate|].
             apply find_keys in EF. rewrite B6, keys_app in EF.
             assert (EF2 : find_ch k chain' = None) by (apply find_keys; intros Hi; apply EF; apply in_or_app; right; exact Hi).
             rewrite EF2 in Q8. exact Q8. }
    split; [rewrite Q9, B4; tauto|]. split; [exact Q10|]. rewrite HUP3 in Q11, Q13. split; [exact Q11|]. split; [exact Q12|]. exact Q13.
Qed.
