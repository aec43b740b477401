From Verif Require Import Base SerialModel SerialSpec SerialProofs SerialProps JournalModel JournalSpec JournalProofs JournalProofs2 JournalProofs3 JournalProofs4 JournalProofs5 JournalProofs6 JournalProofs7 JournalProofs8 JournalProofs9.

Lemma good_empty : good (mkh 0 [] None None) db0.
Proof. exists md0, [], None. split; [reflexivity|]. split; [apply inv_empty|]. cbn [md0 m_tov]. auto. Qed.

Lemma zone_good : forall (F : Prop) h fl (rd : list Z) d serial id size ssize mu, 0 < ssize -> ~ In FMem fl -> (fl <> [] \/ rd <> [] -> F) ->
  stepped F h (update h (OZone serial id size ssize mu)) d (fun _ => True) (insert_zone fl rd d serial id size ssize mu).
Proof.
  intros F h fl rd d serial id size ssize mu HS HFM HFF. unfold insert_zone.
  destruct (size >=? mu). { left. eexists _, _. split; [reflexivity|]. split; [cbn [length]; lia|]. right. left. split; [discriminate|reflexivity]. }
  cbv zeta. set (st := mkst serial ssize [] true). set (m := mkmd serial serial 0 0 0 true false).
  assert (HDIE : forall t, F -> hdead [] t -> stepped F h (update h (OZone serial id size ssize mu)) d (fun _ => True) (Ok (t_log (commit t), t_ret (commit t)))).
  { intros t HF D. right. split; [exact HF|]. intros l ret [= <- <-]. destruct (commit_hdead [] t D) as [[_ D1] D2]. auto. }
  destruct (begin_alive F fl rd d HFM HFF) as [(f1 & E1 & A1 & V1)|(HF & D1)].
  2:{ apply HDIE; [exact HF|]. apply store_hdead, write_zij_hdead, del_zone_hdead, uli_hdead. exact D1. }
  destruct (uli_alive F _ A1 V1) as [(f3 & E3 & A3 & V3)|(HF & D3)].
  2:{ apply HDIE; [exact HF|]. apply store_hdead, write_zij_hdead, del_zone_hdead. rewrite E1 in D3 at 1. exact D3. }
  rewrite E3. rewrite E1 in *.
  destruct (del_zone_alive F _ A3 V3) as [(A4 & V4 & (S4 & S4') & D4)|(HF & D4)].
  2:{ apply HDIE; [exact HF|]. apply store_hdead, write_zij_hdead. exact D4. }
  destruct (write_zij_alive F _ (mkzij serial id st) A4 V4) as [(A5 & V5 & (S5 & S5') & D5)|(HF & D5)].
  2:{ apply HDIE; [exact HF|]. apply store_hdead. rewrite S4' in D5. exact D5. }
  destruct (store_commit F _ m A5 V5) as [(R1 & R2)|(HF & D6 & R)].
  2:{ right. split; [exact HF|]. intros l ret [= <- <-]. rewrite S5', S4' in D6. destruct D6 as [_ D6]. auto. }
  left. eexists _, _. split; [reflexivity|]. rewrite R2, S5', S4', D5, D4. cbn [t_log set_fl start app length last d_chs d_zij db0].
  split; [lia|]. left. split; [exact R1|]. split; [|exact I].
  exists m, [], None. split; [reflexivity|]. split.
  - constructor; cbn [d_chs d_zij m m_first m_to m_flushed m_merged m_count m_tov m_mv spath keys map length find_ch In]; auto.
    + constructor.
    + split; [reflexivity|]. split; [exact HS|reflexivity].
  - cbn [m m_tov d_md]. split; [reflexivity|]. split; [reflexivity|]. split; [reflexivity|]. split; [right; discriminate|intros K; contradiction].
Qed.

Lemma flushed_good : forall (F : Prop) h fl (rd : list Z) d, good h d -> ~ In FMem fl -> (fl <> [] \/ rd <> [] -> F) ->
  stepped F h (update h OFlushed) d (fun _ => True) (set_flushed fl rd d).
Proof.
  intros F h fl rd d (m & chain & mg & HM & IV & HGD) HFM HFF. unfold set_flushed.
  assert (HDIE : forall t, F -> hdead [] t -> stepped F h (update h OFlushed) d (fun _ => True) (Ok (t_log (commit t), t_ret (commit t)))).
  { intros t HF D. right. split; [exact HF|]. intros l ret [= <- <-]. destruct (commit_hdead [] t D) as [[_ D1] D2]. auto. }
  destruct (begin_alive F fl rd d HFM HFF) as [(f1 & E1 & A1 & V1)|(HF & D1)].
  2:{ destruct (load_hdead [] _ D1) as (t2 & E2 & D2). rewrite E2. apply HDIE; [exact HF|]. apply store_hdead. exact D2. }
  destruct (load_alive F _ A1 V1) as [(f2 & E2 & A2 & V2)|(HF & t2 & E2 & D2)]; rewrite E2.
  2:{ apply HDIE; [exact HF|]. apply store_hdead. rewrite E1 in D2. exact D2. }
  rewrite E1 in *. cbn [t_db set_fl start] in *. rewrite HM.
  change (mkmd (m_first m) (m_to m) (m_to m) (m_merged m) (m_count m) (m_tov m) (m_mv m)) with (setfl m (m_to m)).
  destruct (store_commit F _ (setfl m (m_to m)) A2 V2) as [(R1 & R2)|(HF & D6 & R)].
  2:{ right. split; [exact HF|]. intros l ret [= <- <-]. destruct D6 as [_ D6]. auto. }
  left. eexists _, _. split; [reflexivity|]. rewrite R2. cbn [t_log t_db set_fl start app length last].
  split; [lia|]. left. split; [exact R1|]. split; [|exact I].
  assert (IS : inv d (setfl m (m_to m)) chain mg).
  { constructor; cbn [setfl m_first m_to m_flushed m_merged m_count m_tov m_mv]; try apply IV.
    pose proof (i_upto _ _ _ _ IV) as K. unfold upto in *. cbn [setfl m_flushed]. destruct (d_zij d); [exact K|left; reflexivity]. }
  exists (setfl m (m_to m)), chain, mg. split; [reflexivity|].
  split. { eapply inv_ext; [exact IS|reflexivity|reflexivity]. }
  cbn [setfl m_tov m_to d_md d_zij update]. destruct (m_tov m) eqn:ET.
  - destruct HGD as (K1 & K2 & K3 & K4 & K5). rewrite K3. cbn [h_last]. split; [reflexivity|]. split.
    + unfold gh, upto in *. cbn [d_zij m_flushed setfl m_merged h_zone h_file h_since]. destruct (d_zij d) as [z|]; [exact K2|].
      destruct K2 as (K2 & _). split; [exact K2|]. right. split; [reflexivity|].
      rewrite (after_none (m_to m) chain (i_end _ _ _ _ IV)). reflexivity.
    + auto.
  - destruct HGD as (K1 & K2 & K3). rewrite K1. auto.
Qed.

Lemma scrape_good : forall (F : Prop) h fl (rd : list Z) d check, good h d -> ~ In FMem fl -> (fl <> [] \/ rd <> [] -> F) ->
  stepped F h (update h (OScrape check)) d (fun _ => True) (scrape fl rd d check).
Proof.
  intros F h fl rd d check HGD HFM HFF. unfold scrape.
  destruct (check && negb (m_tov (md_of d))) eqn:EC.
  { left. eexists _, _. split; [reflexivity|]. split; [cbn [length]; lia|]. left. split; [reflexivity|]. split; [|exact I]. cbn [last].
    destruct HGD as (m & chain & mg & HM & IV & HGD). exists m, chain, mg. split; [exact HM|]. split; [exact IV|].
    rewrite HM in EC. apply andb_prop in EC as [_ EC]. destruct (m_tov m); [discriminate EC|]. destruct HGD as (_ & K). cbn [update h_last]. auto. }
  cbv zeta.
  assert (HDIE : forall t, F -> hdead [] t -> stepped F h (update h (OScrape check)) d (fun _ => True) (Ok (t_log (commit t), t_ret (commit t)))).
  { intros t HF D. right. split; [exact HF|]. intros l ret [= <- <-]. destruct (commit_hdead [] t D) as [[_ D1] D2]. auto. }
  destruct (begin_alive F fl rd d HFM HFF) as [(f1 & E1 & A1 & V1)|(HF & D1)].
  2:{ apply HDIE; [exact HF|]. apply del_zone_hdead, uli_hdead. exact D1. }
  destruct (uli_alive F _ A1 V1) as [(f3 & E3 & A3 & V3)|(HF & D3)].
  2:{ apply HDIE; [exact HF|]. apply del_zone_hdead. rewrite E1 in D3 at 1. exact D3. }
  rewrite E3. rewrite E1 in *.
  destruct (del_zone_alive F _ A3 V3) as [(A4 & V4 & (S4 & S4') & D4)|(HF & D4)].
  2:{ apply HDIE; [exact HF|]. exact D4. }
  destruct (commit_alive F _ A4 V4) as [(R1 & R2 & R3)|(HF & D5 & R)].
  2:{ right. split; [exact HF|]. intros l ret [= <- <-]. rewrite S4' in D5. destruct D5 as [_ D5]. auto. }
  left. eexists _, _. split; [reflexivity|]. rewrite R3, S4', D4. cbn [t_log set_fl start app length last].
  split; [lia|]. left. split; [exact R1|]. split; [apply good_empty|exact I].
Qed.

Definition bound (o : op) (d : db) : Prop := match o with OInsert c _ _ => m_count (md_of d) <= cf_depth c | _ => True end.
Lemma step_good : forall (F : Prop) h fl rd d o, good h d -> allowed h d o -> ~ In FMem fl -> (fl <> [] \/ rd <> [] -> F) -> (unsafe d (md_of d) -> F) ->
  stepped F h (update h o) d (bound o) (exec fl rd d o).
Proof.
  intros F h fl rd d o HGD HAL HFM HFF HUS. destruct o as [serial id size ssize mu|c i extra| |check]; cbn [exec bound].
  - apply zone_good; assumption.
  - apply ended_stepped. apply insert_good; assumption.
  - apply flushed_good; assumption.
  - apply scrape_good; assumption.
Qed.

(** ** Reading *)
Lemma good_loadable : forall h d, good h d -> loadable h d.
Proof.
  intros h d (m & chain & mg & HM & IV & HGD). unfold loadable. destruct (m_tov m) eqn:ET.
  - destruct HGD as (K1 & K2 & K3 & K4 & K5). rewrite K3. unfold gh in K2. destruct (d_zij d) as [z|] eqn:EZ.
    + rewrite K2. exists z, (map snd (after (s_to (z_st z)) chain)). split; [apply (read_zij d m chain mg z IV K1 ET EZ)|].
      unfold upto. rewrite EZ. auto.
    + destruct K2 as (K2 & K6). rewrite K2.
      assert (HRZ : read_zone d = Err KNOT_ENOENT) by (unfold read_zone; rewrite HM, ET, EZ; reflexivity).
      split; [exact HRZ|]. pose proof (i_upto _ _ _ _ IV) as HU. unfold upto in HU. rewrite EZ in HU.
      destruct K6 as [(M & -> & L1 & L2 & L3)|(L1 & L2)].
      * right. exists (M :: map snd (after (s_to M) chain)). rewrite L2. split.
        -- apply (read_merged d m chain M IV K1 ET). rewrite L1. exact HU.
        -- rewrite L3, L1. reflexivity.
      * rewrite L1, L2. destruct HU as [HU|HU].
        -- left. split; [exact HU|]. split; [rewrite HU, (after_none (m_to m) chain (i_end _ _ _ _ IV)); reflexivity|].
           rewrite HU. unfold read_from. rewrite HM, ET. cbn [negb]. cbv zeta. rewrite (inv_to_none _ _ _ _ IV). reflexivity.
        -- right. eexists. split; [apply (read_chain d m chain mg _ IV K1 ET HU)|reflexivity].
  - destruct HGD as (K1 & K2 & K3). rewrite K1. unfold read_from, read_zone. rewrite HM, ET. auto.
Qed.

(** Each changeset is stored under the serial the previous one ended with *)
Lemma read_loop_any : forall fuel d next n total, n <= total -> (Z.to_nat (total - n) < fuel)%nat ->
  exists l e, read_loop fuel d next n total = Ok (l, e) /\ n + Z.of_nat (length l) <= total /\ follows d next l /\
    (e = KNOT_EOK -> find_ch (last (map s_to l) next) (d_chs d) = None) /\ (e = KNOT_EOK \/ e = KNOT_ELOOP \/ e = KNOT_EMALF).
Proof.
  induction fuel as [|fuel IH]; intros d next n total HN HF; [lia|]. cbn [read_loop].
  destruct (find_ch next (d_chs d)) as [s|] eqn:E0.
  2:{ exists [], KNOT_EOK. cbn [length follows map last]. split; [reflexivity|]. split; [lia|]. auto. }
  assert (HE : forall e, e = KNOT_ELOOP \/ e = KNOT_EMALF -> exists l e', Ok ([], e) = Ok (l, e') /\ n + Z.of_nat (length l) <= total /\ follows d next l /\
    (e' = KNOT_EOK -> find_ch (last (map s_to l) next) (d_chs d) = None) /\ (e' = KNOT_EOK \/ e' = KNOT_ELOOP \/ e' = KNOT_EMALF)).
  { intros e He. exists [], e. cbn [length follows]. split; [reflexivity|]. split; [lia|]. split; [exact I|]. split; [intros ->; destruct He; discriminate|auto]. }
  destruct (next =? s_to s); [apply HE; auto|]. destruct (n + 1 >? total) eqn:ET; [apply HE; auto|].
  destruct (s_ok s) eqn:EO; cbn [negb]; [|apply HE; auto].
  destruct (IH d (s_to s) (n + 1) total ltac:(lia) ltac:(lia)) as (l & e & -> & H1 & H2 & H3 & H4). cbn [rbind].
  exists (s :: l), e. split; [reflexivity|]. split; [cbn [length]; lia|]. split; [cbn [follows]; auto|]. split; [|exact H4].
  intros He. specialize (H3 He). cbn [map]. destruct (map s_to l) as [|x r] eqn:EL; [exact H3|].
  replace (last (s_to s :: x :: r) next) with (last (x :: r) (s_to s)); [exact H3|].
  cbn [last]. clear. revert x. induction r as [|y r IHr]; intros x; [reflexivity|apply (IHr y)].
Qed.
