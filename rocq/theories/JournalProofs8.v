From Verif Require Import Base SerialModel SerialSpec SerialProofs SerialProps JournalModel JournalSpec JournalProofs JournalProofs2 JournalProofs3 JournalProofs4 JournalProofs5 JournalProofs6 JournalProofs7.

Lemma inv_empty : inv db0 md0 [] None.
Proof.
  constructor; cbn [db0 md0 d_chs d_zij m_first m_to m_flushed m_merged m_count m_tov m_mv spath keys map length find_ch In]; auto.
  constructor.
Qed.

Lemma del_zone_alive : forall F t, alive t -> env F t ->
  (alive (del_zone t) /\ env F (del_zone t) /\ same t (del_zone t) /\ t_db (del_zone t) = db0) \/ (F /\ hdead (t_log t) (del_zone t)).
Proof.
  intros F t A E. unfold del_zone.
  destruct (enter_alive F t A E) as [(fl & E1 & A1 & V1)|(HFF & t1 & E1 & D1)]; rewrite E1.
  - left. split; [exact A1|]. split; [exact V1|]. split; [split; reflexivity|reflexivity].
  - right. auto.
Qed.

Lemma insert_cont_alive : forall F h hn (G : Prop) c t m chain mg i extra, alive t -> env F t -> t_log t = [] ->
  inv (t_db t) m chain mg -> (G -> gh h (t_db t) m chain mg) -> h_last h = Some (m_to m) \/ ~ G -> (G -> extra = None) ->
  0 < cf_msize c -> m_count m <= cf_depth c - 1 -> 1 <= cf_depth c ->
  slt (c_from (i_ch i)) (c_to (i_ch i)) -> 0 < i_ssize i ->
  (m_tov m = false -> c_from (i_ch i) <> m_to m -> chain = [] /\ d_zij (t_db t) = None /\ mg = None) ->
  cycle F h G c t m chain mg (c_to (i_ch i)) -> (extra <> None -> upto (t_db t) m = m_to m) ->
  match extra with
  | None => hn = update h (OInsert c i None) /\
      ((G /\ h_last h = Some (m_to m)) \/ (h_last h = None /\ chain = [] /\ d_zij (t_db t) = None /\ mg = None))
  | Some _ => next_h h hn G (t_db t) m chain mg i extra
  end ->
  ended F h hn (cf_depth c) (insert_cont c t m i extra).
Proof.
  intros F h hn G c t m chain mg i extra A E HLOG I HG HL HGX HMS HC HDP HLT HSZ HD HCY HEX HN.
  unfold insert_cont. destruct (m_tov m && negb (m_to m =? c_from (i_ch i))) eqn:EC.
  - apply andb_prop in EC as [ET EN]. assert (HNE : m_to m <> c_from (i_ch i)) by lia.
    destruct (contains_zij_alive F t A E) as [(fs & E1 & A1 & V1)|(HF & t1 & E1 & D1)]; rewrite E1.
    2:{ right. split; [exact HF|]. rewrite HLOG in D1. intros l ret. apply insert_end_dead'. left. apply del_zone_hdead. exact D1. }
    destruct (d_zij (t_db t)) as [z|] eqn:EZ.
    + assert (HX : extra = None \/ m_mv m = false).
      { destruct extra as [x|]; [|left; reflexivity]. destruct HN as (_ & HN & _). congruence. }
      assert (HDD : dead [] (set_ret (set_fl t fs) KNOT_ESEMCHECK)) by (right; split; [discriminate|exact HLOG]).
      destruct (insert_end_dead c _ m i extra [] HDD HX) as (r & EE & N1 & _).
      left. exists [], r. split; [exact EE|]. right. left. auto.
    + destruct (del_zone_alive F _ A1 V1) as [(A2 & V2 & (S1 & S2) & D2)|(HF & D2)].
      2:{ right. split; [exact HF|]. change (t_log (set_fl t fs)) with (t_log t) in D2. rewrite HLOG in D2. intros l ret. apply insert_end_dead'. left. exact D2. }
      apply (insert_end_alive F h hn False c _ md0 [] None); try assumption; try rewrite D2; try tauto.
      * rewrite S2. exact HLOG.
      * apply inv_empty.
      * cbn [md0 m_count]. lia.
      * left. rewrite D2. reflexivity.
      * destruct extra as [x|]; cbn [next_h] in *.
        -- destruct HN as (N1 & N2 & N3 & N4 & N5 & N6 & N7 & N8). cbn [db0 d_zij d_chs find_ch]. auto 10.
        -- right. destruct HN as (-> & HN). do 3 (split; [reflexivity|]). cbn [update].
           destruct HN as [(_ & ->)|(-> & _)]; [|reflexivity]. replace (m_to m =? c_from (i_ch i)) with false by lia. reflexivity.
  - assert (HLK : c_from (i_ch i) = m_to m \/ (chain = [] /\ d_zij (t_db t) = None /\ mg = None)).
    { destruct (Z.eq_dec (c_from (i_ch i)) (m_to m)) as [Q|Q]; [left; exact Q|right]. apply HD; [|exact Q]. destruct (m_tov m); [|reflexivity]. cbn [andb] in EC. lia. }
    apply (insert_end_alive F h hn G c t m chain mg); try assumption.
    destruct extra as [x|]; [exact HN|]. cbn [next_h]. destruct HN as (-> & HN). cbn [update].
    destruct HN as [(g & HLS)|(HLS & N1 & N2 & N3)].
    + rewrite HLS. destruct (m_to m =? c_from (i_ch i)) eqn:EQ.
      * left. split; [exact g|]. split; [lia|reflexivity].
      * right. destruct HLK as [HLK|(K1 & K2 & K3)]; [lia|]. auto.
    + right. rewrite HLS. auto.
Qed.

Lemma inv_setfl : forall d m chain mg, inv d m chain mg -> d_zij d = None -> inv d (setfl m (m_to m)) chain mg.
Proof.
  intros d m chain mg I HZ. constructor; cbn [setfl m_first m_to m_flushed m_merged m_count m_tov m_mv]; try apply I.
  left. unfold upto. rewrite HZ. reflexivity.
Qed.

(** ** The first half of the insertion *)
Definition insert_rest (c : conf) (t : txn) (m : md) (i : input) (extra : option input) : res (list db * Z) :=
  let '(t, m, size) :=
    match extra with
    | None => (t, m, i_size i)
    | Some x =>
        let '(t, z) := contains_zij t in
        let t := if z then set_ret t KNOT_ESEMCHECK else t in
        let '(t, m, freed) := delete_merged t m in
        (t, mkmd (m_first m) (m_to m) (m_to m) (m_merged m) (m_count m) (m_tov m) (m_mv m),
         u64 (i_size i + i_size x - freed))
    end in
  let* (t, m) := fix_occupation t m (cf_flush c) (cf_msize c) (cf_occ c) (u64 (cf_usage c - size)) (u64 (cf_depth c - 1)) in
  insert_cont c t m i extra.

Lemma rest_fix_dead : forall c t m i extra L x y z l ret, dead L t ->
  (let* (t, m) := fix_loop x t m (cf_flush c) (cf_msize c) y z in insert_cont c t m i extra) = Ok (l, ret) -> ret <> KNOT_EOK /\ l = L.
Proof.
  intros c t m i extra L x y z l ret D. destruct (fix_loop _ _ _ _ _ _ _) as [[t2 m2]| | |] eqn:EQ; cbn [rbind]; try discriminate.
  apply insert_cont_dead'. eapply fix_loop_dead; eassumption.
Qed.
Lemma insert_rest_dead : forall c t m i extra L l ret, dead L t -> insert_rest c t m i extra = Ok (l, ret) -> ret <> KNOT_EOK /\ l = L.
Proof.
  intros c t m i extra L l ret D. unfold insert_rest, fix_occupation. destruct extra as [x|]; [|apply rest_fix_dead; exact D].
  destruct (contains_zij_dead L t D) as (t1 & E1 & D1). rewrite E1. cbv iota. unfold delete_merged.
  destruct (m_mv m); cbn [negb].
  - destruct (delete_ch_dead L t1 (m_merged m) (or_introl D1)) as (t2 & E2 & D2). rewrite E2. apply rest_fix_dead. left. exact D2.
  - apply rest_fix_dead. left. exact D1.
Qed.

Lemma u64_id : forall x, 0 <= x < 2 ^ 64 -> u64 x = x.
Proof. intros x H. unfold u64. apply Z.mod_small. exact H. Qed.

(** What follows the making of space *)
Lemma rest_none : forall F h c t d i, good h d -> alive t -> env F t -> t_log t = [] -> t_db t = d -> t_base t = d ->
  (unsafe d (md_of d) -> F) -> allowed h d (OInsert c i None) -> i_size i < cf_usage c -> slt (c_from (i_ch i)) (c_to (i_ch i)) ->
  ended F h (update h (OInsert c i None)) (cf_depth c) (insert_rest c t (md_of d) i None).
Proof.
  intros F h c t d i (m & chain & mg & HM & I & HGD) A E HLOG HDB HBS HUS (HS & HAL) HSZ HLT.
  destruct HS as (S1 & S2 & S3 & S4 & S5 & S6 & S7 & S8 & _). rewrite HM in *. rewrite <- HDB in I.
  unfold insert_rest, fix_occupation. rewrite (u64_id (cf_usage c - i_size i)) by lia. rewrite (u64_id (cf_depth c - 1)) by lia.
  set (G := m_tov m = true).
  assert (HG : G -> gh h (t_db t) m chain mg) by (unfold G; intros g; rewrite g in HGD; rewrite HDB; apply HGD).
  assert (HL : h_last h = Some (m_to m) \/ ~ G).
  { unfold G. destruct (m_tov m); [left; apply HGD|right; discriminate]. }
  assert (HNG : m_tov m = false -> h_last h = None /\ chain = [] /\ d_zij (t_db t) = None /\ mg = None).
  { intros g. rewrite g in HGD. rewrite HDB. destruct HGD as (K1 & K2 & K3). split; [exact K1|]. split; [apply (i_tov _ _ _ _ I g)|]. auto. }
  assert (HCNT : 0 <= m_count m) by (rewrite (i_count _ _ _ _ I); lia).
  destruct HAL as [(R1 & R2 & R3)|(B1 & B2 & B3)].
  - (* there is enough space *)
    rewrite HM in R2. rewrite u_minus_0 by lia. rewrite u_minus_0 by lia.
    assert (EQ : forall n, fix_loop n t m (cf_flush c) (cf_msize c) 0 0 = Ok (t, m)) by (intros [|n]; reflexivity).
    rewrite EQ. cbn [rbind].
    assert (HTO : find_ch (c_to (i_ch i)) (d_chs (t_db t)) = None).
    { rewrite HDB. unfold stores in R3. destruct (find_ch (c_to (i_ch i)) (d_chs d)); [exfalso; apply R3; discriminate|reflexivity]. }
    apply (insert_cont_alive F h _ G c t m chain mg); try assumption; try lia.
    + reflexivity.
    + intros HT _. destruct (HNG HT) as (_ & K). exact K.
    + left. exact HTO.
    + intros K. contradiction.
    + split; [reflexivity|]. unfold G. destruct (m_tov m) eqn:ET; [left; split; [reflexivity|apply HGD]|right]. apply HNG. reflexivity.
  - assert (HRD : ready h G (cf_flush c) t m chain mg).
    { destruct (m_tov m) eqn:ET.
      - left. split; [reflexivity|]. split.
        + exists m, chain, []. rewrite HBS. rewrite <- HDB at 1. split; [exact I|]. split; [apply HGD|]. split; [exact ET|].
          split; [reflexivity|]. split; [reflexivity|]. split; [rewrite HDB; reflexivity|]. auto.
        + intros HMG. apply B3. pose proof (i_mg _ _ _ _ I) as K. destruct mg; [apply K|contradiction].
      - right. destruct (HNG eq_refl) as (_ & -> & _). destruct (i_upto _ _ _ _ I) as [K|[]]. exact K. }
    assert (HFU : (length chain + (if (upto (t_db t) m =? m_to m)%Z then 0 else 1) < 3 + length (d_chs (t_db t)))%nat).
    { pose proof (inv_length _ _ _ _ I). destruct (upto (t_db t) m =? m_to m); lia. }
    assert (HB : m_count m <= cf_depth c - 1 + Z.max 0 (u_minus (m_count m) (cf_depth c - 1))).
    { pose proof (u_minus_ge (m_count m) (cf_depth c - 1) ltac:(lia)). lia. }
    assert (HUS' : unsafe (t_db t) m -> F) by (rewrite HDB; exact HUS).
    pose proof (fix_loop_alive F h G (cf_flush c) (cf_msize c) (cf_depth c - 1) (3 + length (d_chs (t_db t))) t m chain mg
      (u_minus (cf_occ c) (cf_usage c - i_size i)) (u_minus (m_count m) (cf_depth c - 1)) A E I HLOG HG HRD HL S4 HUS' HB HFU) as HFIX.
    destruct HFIX as [([t2 m2] & EQ & HFIX)|[HF HFIX]].
    2:{ right. split; [exact HF|]. intros l ret. destruct (fix_loop _ _ _ _ _ _ _) as [[t2 m2]| | |] eqn:EQ; cbn [rbind]; try discriminate.
        apply insert_cont_dead'. exact (HFIX _ eq_refl). }
    rewrite EQ. cbn [rbind].
    destruct HFIX as [(R1 & R2 & R3)|[(R1 & g & d' & R2 & R3)|HFIX]].
    + destruct (insert_cont_dead c t2 m2 i None [] (or_intror (conj R1 R2)) (or_introl eq_refl)) as (r & EE & N1 & _).
      left. exists [], r. split; [exact EE|]. right. left. auto.
    + assert (R1' : t_ret t2 <> KNOT_EOK) by (rewrite R1; discriminate).
      destruct (insert_cont_dead c t2 m2 i None [d'] (or_intror (conj R1' R2)) (or_introl eq_refl)) as (r & EE & N1 & N2).
      left. exists [d'], r. split; [exact EE|]. right. right. split; [rewrite N2; auto|]. eauto.
    + destruct HFIX as (Q1 & Q2 & (Q3 & Q3') & chain4 & mg4 & Q4 & Q5 & Q6 & Q7 & Q8 & Q9 & Q10 & Q11 & Q12 & Q13).
      assert (HNG2 : m_tov m = false -> h_last h = None /\ chain4 = [] /\ d_zij (t_db t2) = None /\ mg4 = None).
      { intros g. destruct (HNG g) as (K1 & K2 & K3 & K4). split; [exact K1|].
        assert (KU : upto (t_db t) m = m_to m) by (subst chain; destruct (i_upto _ _ _ _ I) as [K|[]]; exact K).
        destruct (Q11 (or_intror KU)) as (-> & _). split; [|split; [apply Q9; exact K3|exact K4]].
        destruct chain4 as [|[k s] r]; [reflexivity|]. exfalso.
        assert (KS : find_ch k (d_chs (t_db t2)) <> None).
        { rewrite (i_chs _ _ _ _ Q4). cbn [find_ch]. rewrite Z.eqb_refl. discriminate. }
        apply Q8 in KS. apply KS. rewrite (i_chs _ _ _ _ I), K2, K4. reflexivity. }
      apply (insert_cont_alive F h _ G c t2 m2 chain4 mg4); try assumption; try lia.
      * congruence.
      * rewrite Q6. exact HL.
      * reflexivity.
      * intros HT HNE. destruct (m_tov m) eqn:ET; [|destruct (HNG2 eq_refl) as (_ & K); exact K].
        split; [apply (i_tov _ _ _ _ Q4 HT)|]. destruct HGD as (K1 & K2 & K3 & K4 & K5).
        destruct B1 as [B1|[B1|(B1 & B1' & B1'')]]; [rewrite K3 in B1; injection B1 as B1; lia|rewrite K3 in B1; discriminate|].
        assert (HZN : d_zij (t_db t) = None).
        { rewrite HDB. destruct (d_zij d) as [z|] eqn:EZ; [|reflexivity]. unfold gh in K2. rewrite EZ in K2. congruence. }
        split; [apply Q9; exact HZN|]. destruct (Q11 (or_introl B1)) as (-> & _).
        pose proof (i_mg _ _ _ _ I) as KM. destruct mg; [|reflexivity]. destruct KM as (KM & _). congruence.
      * destruct (cf_flush c) eqn:EFL.
        -- right. rewrite EFL. split; [exact Q10|]. split; [left; reflexivity|]. split; [|exact Q12].
           destruct (Q11 (or_introl eq_refl)) as (-> & K2 & _). rewrite K2. intros HMG. apply not_eq_sym. apply B2.
           pose proof (i_mg _ _ _ _ I) as K. destruct mg; [apply K|contradiction].
        -- left. destruct (find_ch (c_to (i_ch i)) (d_chs (t_db t2))) eqn:EX; [|reflexivity]. exfalso.
           apply B2. unfold stores. rewrite <- HDB. apply Q8. rewrite EX. discriminate.
      * intros K. contradiction.
      * split; [reflexivity|]. unfold G. destruct (m_tov m) eqn:ET; [left; split; [reflexivity|rewrite Q6; apply HGD]|right]. apply HNG2. reflexivity.
Qed.
