From Verif Require Import Base SerialModel SerialSpec SerialProofs SerialProps JournalModel JournalSpec JournalProofs JournalProofs2 JournalProofs3 JournalProofs4 JournalProofs5 JournalProofs6 JournalProofs7 JournalProofs8.

Lemma delete_merged_alive : forall F t m chain mg, alive t -> env F t -> inv (t_db t) m chain mg ->
  (exists t' m' freed, delete_merged t m = (t', m', freed) /\ alive t' /\ env F t' /\ same t t' /\ inv (t_db t') m' chain None /\
     d_zij (t_db t') = d_zij (t_db t) /\ m_to m' = m_to m /\ m_count m' = m_count m /\ m_tov m' = m_tov m /\
     keysub t t' /\ (mg <> None -> find_ch (m_merged m) (d_chs (t_db t')) = None)) \/
  (F /\ exists t' m' freed, delete_merged t m = (t', m', freed) /\ hdead (t_log t) t').
Proof.
  intros F t m chain mg A E I. unfold delete_merged. pose proof (i_mg _ _ _ _ I) as HMG. destruct mg as [M|].
  - destruct HMG as (HMV & HOK & HNK & HNT & HZ). rewrite HMV. cbn [negb].
    assert (HF : find_ch (m_merged m) (d_chs (t_db t)) = Some M).
    { rewrite (i_chs _ _ _ _ I). apply find_keys in HNK. rewrite HNK, Z.eqb_refl. reflexivity. }
    destruct (delete_ch_alive F t (m_merged m) M A E HF) as [(t1 & E1 & A1 & V1 & S1 & D1)|(HFF & t1 & x & y & E1 & D1)]; rewrite E1.
    + left. eexists _, _, _. split; [reflexivity|]. split; [exact A1|]. split; [exact V1|]. split; [exact S1|].
      rewrite D1. cbn [with_chs d_zij d_chs m_to m_count m_tov].
      split. { eapply inv_md_ext; [apply (inv_drop_mg _ _ _ _ _ I eq_refl)|..]; try reflexivity; [intros K; contradiction|apply (i_tov _ _ _ _ I)]. }
      do 4 (split; [reflexivity|]). split.
      * intros k. rewrite D1. cbn [with_chs d_chs]. rewrite find_del. destruct (k =? m_merged m); [intros K; contradiction|auto].
      * intros _. rewrite find_del, Z.eqb_refl. reflexivity.
    + right. split; [exact HFF|]. eexists _, _, _. split; [reflexivity|exact D1].
  - rewrite HMG. cbn [negb]. left. exists t, m, 0. split; [reflexivity|]. do 2 (split; [assumption|]). split; [split; reflexivity|].
    split; [exact I|]. do 4 (split; [reflexivity|]). split; [intros k; auto|]. intros K. contradiction.
Qed.

Lemma rest_some : forall F h c t d i x, good h d -> alive t -> env F t -> t_log t = [] -> t_db t = d ->
  allowed h d (OInsert c i (Some x)) -> i_size i < cf_usage c -> slt (c_from (i_ch i)) (c_to (i_ch i)) ->
  slt (c_from (i_ch x)) (c_to (i_ch x)) -> c_to (i_ch x) = c_to (i_ch i) -> c_from (i_ch x) <> c_from (i_ch i) ->
  ended F h (update h (OInsert c i (Some x))) (cf_depth c) (insert_rest c t (md_of d) i (Some x)).
Proof.
  intros F h c t d i x (m & chain & mg & HM & I & HGD) A E HLOG HDB (HS & HAL) HSZ HLT HLX HTX HFX.
  destruct HS as (S1 & S2 & S3 & S4 & S5 & S6 & S7 & S8 & X1 & X2 & X3 & X4). rewrite HM in *. clear HGD. rewrite <- HDB in I.
  unfold insert_rest, fix_occupation. rewrite (u64_id (cf_depth c - 1)) by lia.
  destruct (contains_zij_alive F t A E) as [(fs & E1 & A1 & V1)|(HF & t1 & E1 & D1)]; rewrite E1.
  2:{ right. split; [exact HF|]. intros l ret. rewrite HLOG in D1. unfold delete_merged. destruct (m_mv m); cbn [negb].
      - destruct (delete_ch_dead [] t1 (m_merged m) (or_introl D1)) as (t2 & E2 & D2). rewrite E2. apply rest_fix_dead. left. exact D2.
      - apply rest_fix_dead. left. exact D1. }
  destruct (d_zij (t_db t)) as [z|] eqn:EZ.
  - (* the zone is in the journal *)
    assert (HMV : m_mv m = false).
    { pose proof (i_mg _ _ _ _ I) as K. destruct mg; [|exact K]. destruct K as (_ & _ & _ & _ & K). congruence. }
    unfold delete_merged. rewrite HMV. cbn [negb]. cbv zeta iota.
    set (t1 := set_ret (set_fl t fs) KNOT_ESEMCHECK).
    assert (EQ : forall n m a b, fix_loop n t1 m (cf_flush c) (cf_msize c) a b = Ok (t1, m)).
    { intros n mm a b. destruct n; cbn [fix_loop]; change (t_ret t1 =? KNOT_EOK) with false; rewrite andb_false_r; reflexivity. }
    rewrite EQ. cbn [rbind].
    assert (HDD : dead [] t1) by (right; split; [discriminate|exact HLOG]).
    match goal with |- context [insert_cont c t1 ?mm i (Some x)] =>
      destruct (insert_cont_dead c t1 mm i (Some x) [] HDD (or_intror HMV)) as (r & EE & N1 & _) end.
    left. exists [], r. split; [exact EE|]. right. left. auto.
  - cbv zeta iota. set (t1 := set_fl t fs) in *.
    assert (I1 : inv (t_db t1) m chain mg) by exact I.
    destruct (delete_merged_alive F t1 m chain mg A1 V1 I1) as [(t2 & m2 & fr & E2 & A2 & V2 & (B1 & B2) & I2 & B3 & B4 & B5 & B6 & B7 & B8)|(HF & t2 & m2 & fr & E2 & D2)]; rewrite E2.
    2:{ right. split; [exact HF|]. intros l ret. change (t_log t1) with (t_log t) in D2. rewrite HLOG in D2. apply rest_fix_dead. left. exact D2. }
    change (t_db t1) with (t_db t) in *. change (t_log t1) with (t_log t) in *. rewrite EZ in B3. rewrite HLOG in B2.
    change (mkmd (m_first m2) (m_to m2) (m_to m2) (m_merged m2) (m_count m2) (m_tov m2) (m_mv m2)) with (setfl m2 (m_to m2)).
    pose proof (inv_setfl _ _ _ _ I2 B3) as I3. set (m3 := setfl m2 (m_to m2)) in *.
    assert (HUP : upto (t_db t2) m3 = m_to m3) by (unfold upto; rewrite B3; reflexivity).
    assert (HMV3 : m_mv m3 = false) by apply (i_mg _ _ _ _ I3).
    assert (HFU : (length chain + (if (upto (t_db t2) m3 =? m_to m3)%Z then 0 else 1) < 3 + length (d_chs (t_db t2)))%nat).
    { pose proof (inv_length _ _ _ _ I3). destruct (upto (t_db t2) m3 =? m_to m3); lia. }
    assert (HB : m_count m3 <= cf_depth c - 1 + Z.max 0 (u_minus (m_count m3) (cf_depth c - 1))).
    { pose proof (u_minus_ge (m_count m3) (cf_depth c - 1) ltac:(lia)). lia. }
    assert (HUS : unsafe (t_db t2) m3 -> F) by (intros (z & K & _); congruence).
    set (a0 := u_minus (cf_occ c) _).
    pose proof (fix_loop_alive F h False (cf_flush c) (cf_msize c) (cf_depth c - 1) (3 + length (d_chs (t_db t2))) t2 m3 chain None
      a0 (u_minus (m_count m3) (cf_depth c - 1)) A2 V2 I3 B2 (False_ind _) (or_intror HUP) (or_intror (fun K => K)) S4 HUS HB HFU) as HFIX.
    destruct HFIX as [([t4 m4] & EQ & HFIX)|[HF HFIX]].
    2:{ right. split; [exact HF|]. intros l ret. destruct (fix_loop _ _ _ _ _ _ _) as [[t4 m4]| | |] eqn:EQ; cbn [rbind]; try discriminate.
        apply insert_cont_dead'. exact (HFIX _ eq_refl). }
    rewrite EQ. cbn [rbind].
    destruct HFIX as [(R1 & R2 & R3)|[(_ & [] & _)|HFIX]].
    + assert (HX : Some x = None \/ m_mv m4 = false) by (right; rewrite (R3 HUP); exact HMV3).
      destruct (insert_cont_dead c t4 m4 i (Some x) [] (or_intror (conj R1 R2)) HX) as (r & EE & N1 & _).
      left. exists [], r. split; [exact EE|]. right. left. auto.
    + destruct HFIX as (Q1 & Q2 & (Q3 & Q3') & chain4 & mg4 & Q4 & Q5 & Q6 & Q7 & Q8 & Q9 & Q10 & Q11 & Q12 & Q13).
      destruct (Q11 (or_intror HUP)) as (-> & _). assert (HZ4 : d_zij (t_db t4) = None) by (apply Q9; exact B3).
      assert (HUP4 : upto (t_db t4) m4 = m_to m4) by (unfold upto; rewrite HZ4; apply (Q13 HUP); reflexivity).
      apply (insert_cont_alive F h _ False c t4 m4 chain4 None); try assumption; try lia.
      * congruence.
      * intros HT _. split; [apply (i_tov _ _ _ _ Q4 HT)|]. auto.
      * right. split; [exact Q10|]. split; [right; exact HUP4|]. split; [intros K; contradiction|exact Q12].
      * cbn [next_h update]. split; [reflexivity|]. split; [exact HZ4|]. split; [reflexivity|]. do 4 (split; [assumption|]).
        destruct (find_ch (c_from (i_ch x)) (d_chs (t_db t4))) eqn:EX; [|reflexivity]. exfalso.
        assert (K2 : find_ch (c_from (i_ch x)) (d_chs (t_db t2)) <> None) by (apply Q8; rewrite EX; discriminate).
        assert (K1 : stores (t_db t) (c_from (i_ch x))) by (apply B7; exact K2).
        apply HAL. rewrite <- HDB. split; [exact K1|]. intros HMV EE.
        assert (HMG : mg <> None) by (pose proof (i_mg _ _ _ _ I) as K; destruct mg; [discriminate|congruence]).
        apply K2. rewrite EE. apply B8. exact HMG.
Qed.

(** ** The operations *)
Definition stepped (F : Prop) (h hn : hist) (d : db) (P : db -> Prop) (r : res (list db * Z)) : Prop :=
  (exists l ret, r = Ok (l, ret) /\ (length l <= 1)%nat /\
     ((ret = KNOT_EOK /\ good hn (last l d) /\ P (last l d)) \/
      (ret <> KNOT_EOK /\ l = []) \/
      (ret = KNOT_EBUSY /\ good h (last l d)))) \/
  (F /\ forall l ret, r = Ok (l, ret) -> ret <> KNOT_EOK /\ l = []).
Lemma ended_stepped : forall F h hn d depth r, ended F h hn depth r -> stepped F h hn d (fun d' => m_count (md_of d') <= depth) r.
Proof.
  intros F h hn d depth r [(l & ret & E & H)|H]; [|right; exact H]. left. exists l, ret. split; [exact E|].
  destruct H as [(H1 & d' & -> & H2 & H3)|[(H1 & ->)|(H1 & d' & -> & H2)]]; cbn [length last]; auto 6.
Qed.

Definition start (fl : list fault) (rd : list Z) (d : db) : txn := mktxn d d [] KNOT_EOK true false fl rd.
Lemma begin_alive : forall (F : Prop) fl rd d, ~ In FMem fl -> (fl <> [] \/ rd <> [] -> F) ->
  (exists f, begin_txn fl rd d = set_fl (start fl rd d) f /\ alive (begin_txn fl rd d) /\ env F (begin_txn fl rd d)) \/
  (F /\ hdead [] (begin_txn fl rd d)).
Proof.
  intros F fl rd d H1 H2. unfold begin_txn.
  destruct (enter_alive F (start fl rd d)) as [(f & E1 & A1 & V1)|(HF & t1 & E1 & D1)].
  - split; [reflexivity|split; reflexivity].
  - split; assumption.
  - unfold start in E1. rewrite E1. left. exists f. auto.
  - unfold start in E1. rewrite E1. right. split; [exact HF|]. split; [left; reflexivity|apply D1].
Qed.
Lemma uli_alive : forall F t, alive t -> env F t ->
  (exists f, update_last_inserter t = set_fl t f /\ alive (set_fl t f) /\ env F (set_fl t f)) \/ (F /\ hdead (t_log t) (update_last_inserter t)).
Proof.
  intros F t A E. unfold update_last_inserter.
  destruct (enter_alive F t A E) as [(fl & E1 & A1 & V1)|(HFF & t1 & E1 & D1)]; rewrite E1; cbn [snd]; [left; eauto|right; auto].
Qed.
Lemma load_alive : forall F t, alive t -> env F t ->
  (exists f, load_md t = (set_fl t f, md_of (t_db t)) /\ alive (set_fl t f) /\ env F (set_fl t f)) \/
  (F /\ exists t', load_md t = (t', md0) /\ hdead (t_log t) t').
Proof.
  intros F t A E. unfold load_md.
  destruct (enter_alive F t A E) as [(fl & E1 & A1 & V1)|(HFF & t1 & E1 & D1)]; rewrite E1; [left; eauto|right; eauto].
Qed.
Lemma load_hdead : forall L t, hdead L t -> exists t', load_md t = (t', md0) /\ hdead L t'.
Proof. intros L t H. unfold load_md. destruct (enter_hdead L t H) as (t1 & E & D). rewrite E. eauto. Qed.

Lemma insert_good : forall (F : Prop) h fl (rd : list Z) d c i extra, good h d -> allowed h d (OInsert c i extra) ->
  ~ In FMem fl -> (fl <> [] \/ rd <> [] -> F) -> (unsafe d (md_of d) -> F) ->
  ended F h (update h (OInsert c i extra)) (cf_depth c) (insert fl rd d c i extra).
Proof.
  intros F h fl rd d c i extra HGD HAL HFM HFF HUS. unfold insert.
  assert (HFAIL : forall e, e <> KNOT_EOK -> ended F h (update h (OInsert c i extra)) (cf_depth c) (Ok ([], e))).
  { intros e He. left. exists [], e. split; [reflexivity|]. right. left. auto. }
  destruct (i_size i >=? cf_usage c) eqn:C1; [apply HFAIL; discriminate|].
  match goal with |- context [if ?b then Ok ([], KNOT_EINVAL) else _] => destruct b eqn:C2 end; [apply HFAIL; discriminate|].
  cbv zeta.
  match goal with |- context [if ?b then Ok ([], KNOT_ESEMCHECK) else _] => destruct b eqn:C3 end; [apply HFAIL; discriminate|].
  apply orb_false_elim in C3 as [C3 C4].
  assert (HSN : sane c i extra) by (destruct extra; apply HAL).
  assert (HLT : slt (c_from (i_ch i)) (c_to (i_ch i))).
  { destruct HSN as (_ & _ & _ & _ & _ & _ & K1 & K2 & _). split; [exact K1|]. split; [exact K2|].
    destruct (serial_compare (c_from (i_ch i)) (c_to (i_ch i))); try discriminate C3. reflexivity. }
  assert (HDEAD : forall t m, F -> hdead [] t -> ended F h (update h (OInsert c i extra)) (cf_depth c) (insert_rest c (update_last_inserter t) m i extra)).
  { intros t m HF D. right. split; [exact HF|]. intros l ret. apply insert_rest_dead. left. apply uli_hdead. exact D. }
  destruct (begin_alive F fl rd d HFM HFF) as [(f1 & E1 & A1 & V1)|(HF & D1)].
  2:{ destruct (load_hdead [] _ D1) as (t2 & E2 & D2). rewrite E2. apply (HDEAD t2 md0 HF D2). }
  destruct (load_alive F _ A1 V1) as [(f2 & E2 & A2 & V2)|(HF & t2 & E2 & D2)]; rewrite E2.
  2:{ rewrite E1 in D2. apply (HDEAD t2 md0 HF D2). }
  destruct (uli_alive F _ A2 V2) as [(f3 & E3 & A3 & V3)|(HF & D3)].
  2:{ right. split; [exact HF|]. intros l ret. rewrite E1 in D3 at 1. cbn [t_log set_fl start] in D3.
      match goal with |- ?x = _ -> _ => change x with (insert_rest c (update_last_inserter (set_fl (begin_txn fl rd d) f2)) (md_of (t_db (begin_txn fl rd d))) i extra) end.
      apply insert_rest_dead. left. exact D3. }
  rewrite E3. rewrite E1 in *. cbn [t_db set_fl start].
  match goal with |- ended _ _ _ _ ?x => change x with (insert_rest c (set_fl (set_fl (set_fl (start fl rd d) f1) f2) f3) (md_of d) i extra) end.
  destruct extra as [x|].
  - apply orb_false_elim in C2 as [C5 C6].
    apply rest_some; try assumption; try reflexivity; try lia.
    destruct HSN as (_ & _ & _ & _ & _ & _ & _ & _ & _ & _ & K1 & K2). split; [exact K1|]. split; [exact K2|].
    destruct (serial_compare (c_from (i_ch x)) (c_to (i_ch x))); try discriminate C4. reflexivity.
  - apply rest_none; try assumption; try reflexivity; lia.
Qed.
