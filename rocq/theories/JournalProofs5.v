From Verif Require Import Base SerialModel SerialSpec SerialProofs SerialProps JournalModel JournalSpec JournalProofs JournalProofs2 JournalProofs3 JournalProofs4.

(** * Committed states *)
Definition good (h : hist) (d : db) : Prop :=
  exists m chain mg, md_of d = m /\ inv d m chain mg /\
    if m_tov m then
      d_md d = Some m /\ gh h d m chain mg /\ h_last h = Some (m_to m) /\
      (chain <> [] \/ d_zij d <> None) /\ (mg <> None -> chain <> [])
    else h_last h = None /\ d_zij d = None /\ mg = None.

Definition setfl (m : md) (f : Z) : md := mkmd (m_first m) (m_to m) f (m_merged m) (m_count m) (m_tov m) (m_mv m).
Definition keysub (t t' : txn) : Prop :=
  forall k, find_ch k (d_chs (t_db t')) <> None -> find_ch k (d_chs (t_db t)) <> None.

Lemma on_path : forall d m chain mg x, inv d m chain mg -> x = m_to m \/ In x (keys chain) ->
  spath x (after x chain) (m_to m) /\ leads x (flat (after x chain)) (m_to m).
Proof.
  intros d m chain mg x I H.
  assert (HP : spath x (after x chain) (m_to m)).
  { eapply after_path; [apply (i_path _ _ _ _ I)|exact H|apply (i_end _ _ _ _ I)]. }
  split; [exact HP|]. apply spath_leads; [exact HP|].
  destruct (after_app x chain) as (p & E & _). eapply Forall_suffix; [exact E|apply (i_ok _ _ _ _ I)].
Qed.

Lemma inv_zmerge : forall d m chain mg z ms x f, inv d m chain mg -> d_zij d = Some z -> 0 < ms ->
  inv (mkdb (d_chs d) (Some (zmerged z ms m chain)) x) (setfl m f) chain mg.
Proof.
  intros d m chain mg z ms x f I HZ HM.
  assert (MGN : mg = None).
  { pose proof (i_mg _ _ _ _ I) as G. destruct mg; [|reflexivity]. destruct G as (_ & _ & _ & _ & G). congruence. }
  constructor; cbn [setfl m_first m_to m_flushed m_merged m_count m_tov m_mv d_chs d_zij]; try apply I.
  - subst mg. pose proof (i_mg _ _ _ _ I) as G. exact G.
  - left. reflexivity.
  - pose proof (i_zij _ _ _ _ I) as G. rewrite HZ in G. destruct G as (G1 & G2 & G3).
    split; [|split; [exact HM|reflexivity]]. cbn [zmerged z_serial z_st s_data s_to].
    pose proof (i_upto _ _ _ _ I) as HU. unfold upto in HU. rewrite HZ in HU.
    eapply leads_app; [exact G1|]. apply (on_path _ _ _ _ _ I HU).
Qed.
Lemma gh_zmerge : forall h d m chain mg z ms x f, inv d m chain mg -> gh h d m chain mg -> d_zij d = Some z ->
  gh h (mkdb (d_chs d) (Some (zmerged z ms m chain)) x) (setfl m f) chain mg.
Proof.
  intros h d m chain mg z ms x f I G HZ. unfold gh, upto in *. rewrite HZ in G. cbn [d_zij zmerged z_serial z_id z_st s_to s_data].
  rewrite (after_none (m_to m) chain (i_end _ _ _ _ I)). rewrite app_nil_r. exact G.
Qed.

Lemma inv_merge_mv : forall d m chain M ms, inv d m chain (Some M) -> s_to M = m_flushed m -> 0 < ms ->
  let M' := mkst (m_to m) ms (s_data M ++ flat (after (m_flushed m) chain)) true in
  inv (with_chs d (put_ch (m_merged m) M' (del_ch (m_merged m) (d_chs d)))) (setfl m (m_to m)) chain (Some M').
Proof.
  intros d m chain M ms I HT HM M'.
  pose proof (i_mg _ _ _ _ I) as (G1 & (A1 & A2 & A3 & A4 & A5) & G3 & G4 & G5).
  constructor; cbn [setfl with_chs m_first m_to m_flushed m_merged m_count m_tov m_mv d_chs d_zij]; try apply I.
  - intros k. rewrite find_put by (rewrite find_del, Z.eqb_refl; reflexivity). rewrite find_del, (i_chs _ _ _ _ I).
    destruct (k =? m_merged m) eqn:E; [|reflexivity]. apply Z.eqb_eq in E. subst k. apply find_keys in G3. rewrite G3. reflexivity.
  - split; [exact G1|]. split; [|auto]. subst M'. unfold entry_ok. cbn [s_data s_to s_size s_ok].
    pose proof (i_upto _ _ _ _ I) as HU. unfold upto in HU. rewrite G5 in HU.
    split; [eapply leads_app; [exact A1|rewrite HT; apply (on_path _ _ _ _ _ I HU)]|].
    split; [intros A; apply app_eq_nil in A as [A _]; contradiction|]. auto.
  - left. unfold upto. cbn [with_chs setfl d_zij m_flushed]. rewrite G5. reflexivity.
Qed.
Lemma inv_merge_first : forall d m k s r ms tv, inv d m ((k, s) :: r) None -> d_zij d = None -> 0 < ms -> (tv = false -> r = []) ->
  let M' := mkst (m_to m) ms (flat ((k, s) :: r)) true in
  inv (with_chs d (put_ch k M' (del_ch k (d_chs d)))) (mkmd (s_to s) (m_to m) (m_to m) k (m_count m - 1) tv true) r (Some M').
Proof.
  intros d m k s r ms tv I HZ HM HT M'.
  pose proof (i_nd _ _ _ _ I) as ND. cbn [keys map fst] in ND. apply NoDup_cons_iff in ND as [N1 N2].
  pose proof (i_path _ _ _ _ I) as HP. pose proof (i_ok _ _ _ _ I) as HO.
  assert (HL : leads k (flat ((k, s) :: r)) (m_to m)).
  { apply spath_leads; [cbn [spath] in *; split; [reflexivity|apply HP]|exact HO]. }
  cbn [spath] in HP. apply Forall_cons_iff in HO as [[(A1 & A2 & A3 & A4 & A5) HLT] HO]. cbn [fst snd] in *.
  pose proof (i_end _ _ _ _ I) as HE. cbn [keys map fst In] in HE.
  constructor; cbn [with_chs m_first m_to m_flushed m_merged m_count m_tov m_mv d_chs d_zij].
  - apply HP.
  - exact HO.
  - exact N2.
  - intros A. apply HE. right. exact A.
  - rewrite (i_count _ _ _ _ I). cbn [length]. lia.
  - intros x. rewrite find_put by (rewrite find_del, Z.eqb_refl; reflexivity). rewrite find_del, (i_chs _ _ _ _ I). cbn [find_ch].
    destruct (x =? k) eqn:E; [|destruct (find_ch x r); reflexivity].
    apply Z.eqb_eq in E. subst x. apply find_keys in N1. rewrite N1. reflexivity.
  - split; [reflexivity|]. split; [|split; [exact N1|split; [|exact HZ]]].
    + subst M'. unfold entry_ok. cbn [s_data s_to s_size s_ok]. split; [exact HL|].
      split; [unfold flat, all_data; cbn [map flat_map snd]; intros A; apply app_eq_nil in A as [A _]; contradiction|].
      split; [exact HM|]. split; [reflexivity|]. intros E. apply HE. left. exact E.
    + intros E. apply HE. left. exact E.
  - exact HT.
  - left. unfold upto. cbn [with_chs d_zij m_flushed]. rewrite HZ. reflexivity.
  - rewrite HZ. exact Logic.I.
Qed.

Lemma inv_drop_mg : forall d m chain M mv', inv d m chain (Some M) -> mv' = m_merged m ->
  inv (with_chs d (del_ch (m_merged m) (d_chs d))) (mkmd (m_first m) (m_to m) (m_flushed m) mv' (m_count m) (m_tov m) false) chain None.
Proof.
  intros d m chain M mv' I ->.
  pose proof (i_mg _ _ _ _ I) as (G1 & (A1 & A2 & A3 & A4 & A5) & G3 & G4 & G5).
  constructor; cbn [with_chs m_first m_to m_flushed m_merged m_count m_tov m_mv d_chs d_zij]; try apply I.
  - intros k. rewrite find_del, (i_chs _ _ _ _ I). destruct (k =? m_merged m) eqn:E.
    + apply Z.eqb_eq in E. subst k. apply find_keys in G3. rewrite G3. reflexivity.
    + reflexivity.
  - reflexivity.
Qed.

Lemma inv_md_ext : forall d m m' chain mg, inv d m chain mg -> m_first m' = m_first m -> m_to m' = m_to m -> m_flushed m' = m_flushed m ->
  (mg <> None -> m_merged m' = m_merged m) -> m_count m' = m_count m -> (m_tov m' = false -> chain = []) -> m_mv m' = m_mv m -> inv d m' chain mg.
Proof.
  intros d m m' chain mg I E1 E2 E3 E4 E5 E6 E7. constructor; try apply I; rewrite ?E1, ?E2, ?E5, ?E7; try apply I.
  - intros k. rewrite (i_chs _ _ _ _ I). destruct mg; [|reflexivity]. rewrite E4 by discriminate. reflexivity.
  - pose proof (i_mg _ _ _ _ I) as G. destruct mg; [|exact G]. rewrite E4 by discriminate. exact G.
  - exact E6.
  - pose proof (i_upto _ _ _ _ I) as G. unfold upto in *. rewrite E3. exact G.
Qed.

Lemma gh_md_ext : forall h d m m' chain mg, gh h d m chain mg -> m_flushed m' = m_flushed m -> (mg <> None -> m_merged m' = m_merged m) ->
  gh h d m' chain mg.
Proof.
  intros h d m m' chain mg G E1 E2. unfold gh, upto in *. rewrite E1. destruct (d_zij d); [exact G|].
  destruct G as (G1 & [(M & -> & G2 & G3 & G4)|G2]).
  - split; [exact G1|]. left. exists M. rewrite E2 by discriminate. auto.
  - split; [exact G1|]. right. exact G2.
Qed.

Lemma contains_zij_alive : forall F t, alive t -> env F t ->
  (exists fl, contains_zij t = (set_fl t fl, match d_zij (t_db t) with Some _ => true | None => false end) /\
     alive (set_fl t fl) /\ env F (set_fl t fl)) \/
  (F /\ exists t', contains_zij t = (t', false) /\ hdead (t_log t) t').
Proof.
  intros F t A E. unfold contains_zij, serial_to_zij.
  destruct (enter_alive F t A E) as [(fl & E1 & A1 & V1)|(HFF & t1 & E1 & D1)]; rewrite E1.
  - left. exists fl. split; [cbn [set_fl t_db]; destruct (d_zij (t_db t)); reflexivity|]. auto.
  - right. split; [exact HFF|]. eauto.
Qed.

(** Storing of the metadata and commit *)
Lemma store_commit : forall F t m, alive t -> env F t ->
  (t_ret (commit (store_md t m)) = KNOT_EOK /\
   t_log (commit (store_md t m)) = t_log t ++ [mkdb (d_chs (t_db t)) (d_zij (t_db t)) (Some m)]) \/
  (F /\ hdead (t_log t) (commit (store_md t m)) /\ t_ret (commit (store_md t m)) <> KNOT_EOK).
Proof.
  intros F t m A E. destruct (store_alive F t m A E) as [(A1 & V1 & (S1 & S2) & D1)|(HF & D1)].
  - destruct (commit_alive F _ A1 V1) as [(R1 & R2 & R3)|(HF & D2 & R)].
    + left. split; [exact R1|]. rewrite R3, D1, S2. reflexivity.
    + right. rewrite <- S2. auto.
  - right. split; [exact HF|]. apply commit_hdead. exact D1.
Qed.

Lemma try_flush_alive : forall F h t m chain mg fl ms, alive t -> env F t -> inv (t_db t) m chain mg -> rel t m chain mg ->
  gh h (t_db t) m chain mg -> h_last h = Some (m_to m) -> 0 < ms -> t_log t = [] ->
  upto (t_db t) m <> m_to m -> m_first m = upto (t_db t) m ->
  (mg <> None -> if fl : bool then h_file h <> m_merged m else h_file h = m_merged m) ->
  W F [] fst (try_flush t m fl ms) (fun p => let '(t', m') := p in
    (fl = true /\ t_ret t' = KNOT_EBUSY /\ exists d', t_log t' = [d'] /\ good h d') \/
    (fl = false /\ alive t' /\ env F t' /\ same t t' /\
     exists chain' mg', inv (t_db t') m' chain' mg' /\ gh h (t_db t') m' chain' mg' /\
       upto (t_db t') m' = m_to m' /\ m_flushed m' = m_to m' /\ m_to m' = m_to m /\ m_count m' <= m_count m /\
       (length chain' <= length chain)%nat /\ keysub t t' /\ (d_zij (t_db t') = None <-> d_zij (t_db t) = None))).
Proof.
  intros F h t m chain mg fl ms A E I R G HL HM HLOG HU HF HMODE.
  assert (HC : chain <> []).
  { intros ->. pose proof (i_upto _ _ _ _ I) as [H|[]]. contradiction. }
  assert (HTOV : m_tov m = true).
  { destruct (m_tov m) eqn:ET; [reflexivity|]. exfalso. apply HC. apply (i_tov _ _ _ _ I). exact ET. }
  unfold try_flush.
  destruct (contains_zij_alive F t A E) as [(fs & E1 & A1 & V1)|(HFF & t1 & E1 & D1)]; rewrite E1.
  2:{ right. split; [exact HFF|]. intros [t' m'] EQ. rewrite HLOG in D1. left. cbn [fst]. revert EQ. destruct fl; cbn [negb rbind].
      - apply flush_end_hdead. exact D1.
      - destruct (merge_ch t1 _ ms) as [[t2 o]|e| |] eqn:EMM; cbn [rbind]; try discriminate.
        destruct (after_merge _ _ _ _ _) as [m2|e| |]; cbn [rbind]; try discriminate. intros [= <- <-].
        eapply merge_ch_hdead; [exact D1|exact EMM]. }
  set (t1 := set_fl t fs) in *.
  assert (I1 : inv (t_db t1) m chain mg) by exact I.
  assert (R1 : rel t1 m chain mg) by exact R.
  destruct (d_zij (t_db t)) as [z|] eqn:EZ.
  - (* the zone is in the journal *)
    assert (MGN : mg = None).
    { pose proof (i_mg _ _ _ _ I) as G'. destruct mg; [|reflexivity]. destruct G' as (_ & _ & _ & _ & G'). congruence. }
    subst mg. assert (MV : m_mv m = false) by apply (i_mg _ _ _ _ I).
    pose proof (merge_zij_alive F t1 m chain None z ms A1 V1 I1 R1 EZ) as HMG.
    replace (t_log t1) with (@nil db) in HMG by (symmetry; exact HLOG).
    destruct fl; cbn [negb].
    + eapply W_bind with (txa := fst) (P := fun p => let '(t', m') := p in alive t' /\ env F t' /\ same t t' /\ m' = m /\
         t_db t' = mkdb (d_chs (t_db t)) (Some (zmerged z ms m chain)) (d_md (t_db t))).
      { eapply W_bind; [exact HMG| |].
        - intros [t2 o]. cbn [fst snd]. intros (B1 & B2 & (B3 & B3') & B4 & B5). apply W_ok.
          split; [exact B1|]. split; [exact B2|]. split; [split; [exact B3|exact B3']|]. split; [reflexivity|exact B5].
        - intros [t2 o] [t3 m3] D [= <- <-]. exact D. }
      * intros [t2 m2] (B1 & B2 & (B3 & B3') & -> & B5). rewrite MV.
        destruct (store_commit F t2 m B1 B2) as [(C1 & C2)|(HFF & C1 & C2)].
        -- apply W_ok. left. split; [reflexivity|]. rewrite C1. cbn [Z.eqb KNOT_EOK]. split; [reflexivity|].
           eexists. cbn [set_ret t_log]. rewrite C2, B3', HLOG. cbn [app]. split; [reflexivity|].
           rewrite B5. cbn [d_chs d_zij]. exists m, chain, None. split; [reflexivity|].
           assert (EQM : setfl m (m_flushed m) = m) by (destruct m; reflexivity).
           pose proof (inv_zmerge _ _ _ _ _ _ (Some m) (m_flushed m) I EZ HM) as II. rewrite EQM in II.
           pose proof (gh_zmerge _ _ _ _ _ _ ms (Some m) (m_flushed m) I G EZ) as GG. rewrite EQM in GG.
           split; [exact II|]. rewrite HTOV.
           split; [reflexivity|]. split; [exact GG|].
           split; [exact HL|]. split; [left; exact HC|]. intros _. exact HC.
        -- right. split; [exact HFF|]. intros p [= <-]. cbn [fst]. replace (t_ret _ =? KNOT_EOK) with false by lia.
           left. rewrite <- HLOG, <- B3'. exact C1.
      * intros [t2 m2] [t3 m3] D. cbn [fst] in *. intros EQ.
        destruct D as [D|[D DL]]; [left; revert EQ; apply flush_end_hdead; exact D|].
        revert EQ. left. revert EQ. destruct (m_mv m2).
        -- destruct (delete_ch_dead [] t2 (m_merged m2)) as (t4 & E4 & D4); [right; auto|]. rewrite E4. cbn [fst].
           intros [= <- <-]. destruct (commit_hdead [] _ (store_hdead [] t4 (mkmd (m_first m2) (m_to m2) (m_flushed m2) (m_merged m2) (m_count m2) (m_tov m2) false) D4)) as [Z1 Z2].
           destruct (t_ret _ =? KNOT_EOK); exact Z1.
        -- intros [= <- <-]. destruct (commit_hdead [] _ (store_dead [] t2 m2 (or_intror (conj D DL)))) as [Z1 Z2].
           destruct (t_ret _ =? KNOT_EOK); exact Z1.
    + eapply W_bind with (txa := fst) (P := fun p => let '(t', m') := p in alive t' /\ env F t' /\ same t t' /\ m' = setfl m (m_to m) /\
         t_db t' = mkdb (d_chs (t_db t)) (Some (zmerged z ms m chain)) (d_md (t_db t))).
      { eapply W_bind; [exact HMG| |].
        - intros [t2 o]. cbn [fst snd]. intros (B1 & B2 & (B3 & B3') & B4 & B5).
          unfold after_merge. cbn [m_mv]. rewrite MV. cbn [rbind]. apply W_ok.
          split; [exact B1|]. split; [exact B2|]. split; [split; [exact B3|exact B3']|]. split; [unfold setfl; rewrite ?MV; reflexivity|exact B5].
        - intros [t2 o] [t3 m3] D. unfold after_merge. cbn [m_mv]. rewrite MV. cbn [rbind]. intros [= <- <-]. exact D. }
      * intros [t2 m2] (B1 & B2 & (B3 & B3') & -> & B5). apply W_ok. right. split; [reflexivity|].
        split; [exact B1|]. split; [exact B2|]. split; [split; [exact B3|exact B3']|].
        exists chain, None. rewrite B5. split; [apply (inv_zmerge _ _ _ _ _ _ _ _ I EZ HM)|].
        split; [apply (gh_zmerge _ _ _ _ _ _ _ _ _ I G EZ)|]. do 3 (split; [reflexivity|]). split; [cbn [setfl m_count]; lia|].
        split; [lia|]. split; [intros k; rewrite B5; auto|]. cbn [d_zij]. split; discriminate.
      * intros [t2 m2] [t3 m3] D [= <- <-]. exact D.
  - (* no zone in the journal *)
    pose proof HU as HU0. unfold upto in HU, HF. rewrite EZ in HU, HF.
    assert (HONF : m_flushed m = m_to m \/ In (m_flushed m) (keys chain)).
    { pose proof (i_upto _ _ _ _ I) as H. unfold upto in H. rewrite EZ in H. exact H. }
    destruct fl; cbn [negb].
    + (* the zone file is to be flushed *)
      cbn [rbind]. destruct mg as [M|].
      * assert (HFILE : h_file h <> m_merged m) by (apply HMODE; discriminate).
        pose proof (i_mg _ _ _ _ I) as (G1 & G2 & G3 & G4 & G5). rewrite G1.
        assert (HFM : find_ch (m_merged m) (d_chs (t_db t1)) = Some M).
        { change (t_db t1) with (t_db t). rewrite (i_chs _ _ _ _ I). apply find_keys in G3. rewrite G3, Z.eqb_refl. reflexivity. }
        destruct (delete_ch_alive F t1 (m_merged m) M A1 V1 HFM) as [(t2 & E2 & A2 & V2 & (S1 & S2) & D2)|(HFF & t2 & x & y & E2 & D2)]; rewrite E2; cbn [fst].
        -- set (m' := mkmd (m_first m) (m_to m) (m_flushed m) (m_merged m) (m_count m) (m_tov m) false).
           destruct (store_commit F t2 m' A2 V2) as [(C1 & C2)|(HFF & C1 & C2)].
           ++ apply W_ok. left. split; [reflexivity|]. rewrite C1. cbn [Z.eqb KNOT_EOK]. split; [reflexivity|].
              eexists. cbn [set_ret t_log]. rewrite C2, S2. change (t_log t1) with (t_log t). rewrite HLOG. cbn [app]. split; [reflexivity|].
              rewrite D2. cbn [with_chs d_chs d_zij]. change (t_db t1) with (t_db t).
              exists m', chain, None. split; [reflexivity|].
              assert (II : inv (mkdb (del_ch (m_merged m) (d_chs (t_db t))) (d_zij (t_db t)) (Some m')) m' chain None).
              { eapply inv_ext; [apply (inv_drop_mg _ _ _ _ (m_merged m) I eq_refl)|reflexivity|reflexivity]. }
              split; [exact II|]. cbn [m' m_tov]. rewrite HTOV. split; [reflexivity|].
              split. { unfold gh in *. cbn [d_zij]. rewrite EZ in *. destruct G as (GZ & [(M0 & _ & _ & GF & _)|GG]); [contradiction|].
                       split; [exact GZ|]. right. exact GG. }
              split; [exact HL|]. split; [left; exact HC|]. intros N. contradiction.
           ++ right. split; [exact HFF|]. intros p [= <-]. cbn [fst]. replace (t_ret _ =? KNOT_EOK) with false by lia.
              left. rewrite <- HLOG. change (t_log t) with (t_log t1). rewrite <- S2. exact C1.
        -- right. split; [exact HFF|]. intros p [= <-]. cbn [fst]. left.
           destruct (commit_hdead _ _ (store_hdead _ t2 (mkmd (m_first m) (m_to m) (m_flushed m) (m_merged m) (m_count m) (m_tov m) false) D2)) as [Z1 Z2].
           change (t_log t1) with (t_log t) in Z1. rewrite HLOG in Z1. destruct (t_ret _ =? KNOT_EOK); exact Z1.
      * assert (MV : m_mv m = false) by apply (i_mg _ _ _ _ I). rewrite MV.
        destruct (store_commit F t1 m A1 V1) as [(C1 & C2)|(HFF & C1 & C2)].
        -- apply W_ok. left. split; [reflexivity|]. rewrite C1. cbn [Z.eqb KNOT_EOK]. split; [reflexivity|].
           eexists. cbn [set_ret t_log]. rewrite C2. change (t_log t1) with (t_log t). rewrite HLOG. cbn [app]. split; [reflexivity|].
           change (t_db t1) with (t_db t). exists m, chain, None. split; [reflexivity|].
           split; [eapply inv_ext; [exact I|reflexivity|reflexivity]|]. rewrite HTOV. split; [reflexivity|].
           split; [eapply gh_ext; [exact G|reflexivity]|]. split; [exact HL|]. split; [left; exact HC|]. intros N. contradiction.
        -- right. split; [exact HFF|]. intros p [= <-]. cbn [fst]. replace (t_ret _ =? KNOT_EOK) with false by lia.
           left. rewrite <- HLOG. exact C1.
    + (* merging instead *)
      destruct R as (m0 & chain0 & p & I0 & HM0 & HT0 & EC & EM & EZ0 & EMG & EMV).
      destruct mg as [M|].
      * assert (HFILE : h_file h = m_merged m) by (apply HMODE; discriminate).
        pose proof (i_mg _ _ _ _ I) as (G1 & G2 & G3 & G4 & G5). rewrite G1.
        assert (HLINK : s_to M = m_flushed m /\ h_since h = s_data M ++ flat (after (m_flushed m) chain) /\ h_zone h = None).
        { unfold gh in G. rewrite EZ in G. destruct G as (GZ & [(M0 & [= <-] & GT & _ & GS)|(GF & _)]); [auto|].
          exfalso. destruct HONF as [H|H]; [apply HU; exact H|]. apply G3. rewrite <- HFILE, GF. exact H. }
        destruct HLINK as (HLK & HSINCE & HZN).
        assert (HFM : find_ch (m_merged m) (d_chs (t_db t1)) = Some M).
        { change (t_db t1) with (t_db t). rewrite (i_chs _ _ _ _ I). apply find_keys in G3. rewrite G3, Z.eqb_refl. reflexivity. }
        assert (HRD : read_from (t_base t1) (m_merged m) = Ok (M :: map snd (after (m_flushed m) chain), KNOT_EOK)).
        { change (t_base t1) with (t_base t). rewrite <- EMG.
          rewrite (read_merged _ _ _ _ I0 HM0 HT0).
          - do 3 f_equal. rewrite HLK. f_equal. eapply rel_after; [exact I0|exact EC|]. rewrite EM. exact HONF.
          - rewrite HLK, EM. destruct HONF as [H|H]; [left; exact H|right]. rewrite EC, keys_app. apply in_or_app. right. exact H. }
        pose proof (merge_ch_alive F t1 (m_merged m) M _ ms A1 V1 HRD HFM ltac:(apply G2)) as HMG.
        replace (t_log t1) with (@nil db) in HMG by (symmetry; exact HLOG).
        assert (HLAST : last_to M (map snd (after (m_flushed m) chain)) = m_to m).
        { eapply (spath_last _ (m_merged m) (m_to m) (m_merged m)). cbn [spath]. split; [reflexivity|]. rewrite HLK.
          apply (on_path _ _ _ _ _ I HONF). }
        rewrite HLAST in HMG.
        set (M' := mkst (m_to m) ms (s_data M ++ flat (after (m_flushed m) chain)) true).
        eapply W_bind with (txa := fst) (P := fun q => let '(t', m') := q in alive t' /\ env F t' /\ same t t' /\ m' = setfl m (m_to m) /\
           t_db t' = with_chs (t_db t) (put_ch (m_merged m) M' (del_ch (m_merged m) (d_chs (t_db t))))).
        { eapply W_bind; [exact HMG| |].
          - intros [t2 o]. cbn [fst snd]. intros (B1 & B2 & (B3 & B3') & B4 & B5).
            unfold after_merge. cbn [m_mv m_merged]. rewrite G1, Z.eqb_refl. cbn [rbind negb orb]. apply W_ok.
            split; [exact B1|]. split; [exact B2|]. split; [split; [exact B3|exact B3']|]. split; [unfold setfl; rewrite G1; reflexivity|exact B5].
          - intros [t2 o] [t3 m3] D. unfold after_merge. cbn [m_mv m_merged]. rewrite G1, Z.eqb_refl. cbn [rbind negb orb]. intros [= <- <-]. exact D. }
        -- intros [t2 m2] (B1 & B2 & (B3 & B3') & -> & B5). apply W_ok. right. split; [reflexivity|].
           split; [exact B1|]. split; [exact B2|]. split; [split; [exact B3|exact B3']|].
           exists chain, (Some M'). rewrite B5. split; [apply (inv_merge_mv _ _ _ _ _ I HLK HM)|].
           split. { unfold gh. cbn [with_chs d_zij setfl m_flushed m_merged]. rewrite EZ. split; [exact HZN|]. left. exists M'.
                    split; [reflexivity|]. split; [reflexivity|]. split; [exact HFILE|]. cbn [M' s_data].
                    rewrite (after_none (m_to m) chain (i_end _ _ _ _ I)). change (flat []) with (@nil change). rewrite app_nil_r. exact HSINCE. }
           split; [unfold upto; cbn [with_chs d_zij]; rewrite EZ; reflexivity|]. do 2 (split; [reflexivity|]). split; [cbn [setfl m_count]; lia|].
           split; [lia|]. split; [|cbn [with_chs d_zij]; rewrite EZ; tauto].
           intros k. rewrite B5. cbn [with_chs d_chs]. rewrite find_put by (rewrite find_del, Z.eqb_refl; reflexivity). rewrite find_del.
           destruct (k =? m_merged m) eqn:EK; [|auto]. intros _. apply Z.eqb_eq in EK. subst k. change (t_db t1) with (t_db t) in HFM. rewrite HFM. discriminate.
        -- intros [t2 m2] [t3 m3] D [= <- <-]. exact D.
      * assert (MV : m_mv m = false) by apply (i_mg _ _ _ _ I). rewrite MV.
        destruct chain as [|[k s] r]; [contradiction|].
        pose proof (i_path _ _ _ _ I) as HPATH. cbn [spath] in HPATH. destruct HPATH as [HK HPATH].
        assert (HINV := I).
        pose proof (i_ok _ _ _ _ I) as HO. apply Forall_cons_iff in HO as [[(O1 & O2 & O3 & O4 & O5) HLT] HO]. cbn [fst snd] in *.
        assert (HFM : find_ch (m_first m) (d_chs (t_db t1)) = Some s).
        { rewrite <- HK. eapply inv_find; [exact I|left; reflexivity]. }
        assert (HAFT : after (m_first m) ((k, s) :: r) = (k, s) :: r) by (cbn [after]; rewrite HK, Z.eqb_refl; reflexivity).
        assert (HRD : read_from (t_base t1) (m_first m) = Ok (s :: map snd r, KNOT_EOK)).
        { change (t_base t1) with (t_base t).
          rewrite (read_chain _ _ _ _ (m_first m) I0 HM0 HT0).
          - rewrite (rel_after m0 chain0 p ((k, s) :: r) _ None (m_first m) I0 EC); [rewrite HAFT; reflexivity|].
            right. left. exact HK.
          - rewrite EC, keys_app. apply in_or_app. right. left. exact HK. }
        pose proof (merge_ch_alive F t1 (m_first m) s _ ms A1 V1 HRD HFM O3) as HMG.
        replace (t_log t1) with (@nil db) in HMG by (symmetry; exact HLOG).
        assert (HLAST : last_to s (map snd r) = m_to m).
        { eapply (spath_last _ k (m_to m) k). cbn [spath]. auto. }
        rewrite HLAST in HMG.
        assert (HRN : s_to s = m_to m -> r = []).
        { intros ES. destruct r as [|[k2 s2] r2]; [reflexivity|]. cbn [spath] in HPATH. exfalso.
          apply (i_end _ _ _ _ I). right. left. cbn [fst]. destruct HPATH as [HK2 _]. congruence. }
        set (M' := mkst (m_to m) ms (flat ((k, s) :: r)) true).
        set (tv := if s_to s =? m_to m then false else true).
        assert (HTV : tv = false -> r = []) by (intros H; apply HRN; subst tv; destruct (s_to s =? m_to m) eqn:EQ; [lia|discriminate]).
        set (m' := mkmd (s_to s) (m_to m) (m_to m) k (m_count m - 1) tv true).
        assert (HAM : after_merge m false (m_first m) (m_to m) (s_to s) = Ok m').
        { unfold after_merge. cbn [m_mv m_first m_to m_flushed m_count m_tov m_merged]. rewrite MV, Z.eqb_refl. cbn [negb].
          unfold after_delete. cbn [m_mv m_first m_to m_flushed m_count m_tov m_merged Z.eqb]. rewrite HTOV. cbn [negb].
          subst m' tv. rewrite <- HK. destruct (s_to s =? m_to m) eqn:EQ; [|reflexivity].
          rewrite Z.eqb_refl. cbn [negb orb].
          rewrite (i_count _ _ _ _ I). rewrite (HRN ltac:(lia)). cbn [length Z.of_nat Z.eqb Pos.eqb negb]. apply Z.eqb_eq in EQ. rewrite EQ. reflexivity. }
        eapply W_bind with (txa := fst) (P := fun q => let '(t', m'') := q in alive t' /\ env F t' /\ same t t' /\ m'' = m' /\
           t_db t' = with_chs (t_db t) (put_ch k M' (del_ch k (d_chs (t_db t))))).
        { eapply W_bind; [exact HMG| |].
          - intros [t2 o]. cbn [fst snd]. intros (B1 & B2 & (B3 & B3') & -> & B5). rewrite HAM. cbn [rbind]. apply W_ok.
            split; [exact B1|]. split; [exact B2|]. split; [split; [exact B3|exact B3']|]. split; [reflexivity|]. rewrite B5, HK. reflexivity.
          - intros [t2 o] [t3 m3] D. cbv beta iota. destruct (after_merge m false (m_first m) (m_to m) o) as [m4| | |]; cbn [rbind]; intros EQ; try discriminate EQ. injection EQ as <- <-. exact D. }
        -- intros [t2 m2] (B1 & B2 & (B3 & B3') & -> & B5). apply W_ok. right. split; [reflexivity|].
           split; [exact B1|]. split; [exact B2|]. split; [split; [exact B3|exact B3']|].
           exists r, (Some M'). rewrite B5. split; [apply (inv_merge_first _ _ _ _ _ _ tv I EZ HM HTV)|].
           split. { unfold gh in *. rewrite EZ in G. cbn [with_chs d_zij m' m_flushed m_merged]. rewrite EZ.
                    destruct G as (GZ & [(M0 & GM & _)|(GF & GS)]); [discriminate|]. split; [exact GZ|]. left. exists M'.
                    split; [reflexivity|]. split; [reflexivity|]. split; [rewrite GF, <- HF; symmetry; exact HK|].
                    rewrite (after_none (m_to m) r); [|intros A'; apply (i_end _ _ _ _ I); right; exact A'].
                    cbn [M' s_data]. change (flat []) with (@nil change). rewrite app_nil_r. rewrite GS, <- HF, HAFT. reflexivity. }
           split; [unfold upto; cbn [with_chs d_zij]; rewrite EZ; reflexivity|]. do 2 (split; [reflexivity|]). split; [cbn [m' m_count]; lia|].
           split; [cbn [length]; lia|]. split; [|cbn [with_chs d_zij]; rewrite EZ; tauto].
           intros x. rewrite B5. cbn [with_chs d_chs]. rewrite find_put by (rewrite find_del, Z.eqb_refl; reflexivity). rewrite find_del.
           destruct (x =? k) eqn:EK; [|auto]. intros _. apply Z.eqb_eq in EK. subst x. change (t_db t1) with (t_db t) in HFM. rewrite HK, HFM. discriminate.
        -- intros [t2 m2] [t3 m3] D [= <- <-]. exact D.
Qed.
