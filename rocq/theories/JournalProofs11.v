From Verif Require Import Base SerialModel SerialSpec SerialProofs SerialProps JournalModel JournalSpec JournalProofs JournalProofs2 JournalProofs3 JournalProofs4 JournalProofs5 JournalProofs6 JournalProofs7 JournalProofs8 JournalProofs9 JournalProofs10.

Lemma entry_from : forall k s, entry_ok k s -> s_from s = k.
Proof. intros k s (H1 & H2 & _). unfold s_from. destruct (s_data s) as [|c l]; [contradiction|]. cbn [leads] in H1. apply H1. Qed.

Lemma after_first : forall d m chain mg, inv d m chain mg -> after (m_first m) chain = chain.
Proof.
  intros d m chain mg IV. pose proof (i_path _ _ _ _ IV) as HP. destruct chain as [|[k s] r]; [reflexivity|].
  cbn [spath] in HP. destruct HP as [-> _]. cbn [after]. rewrite Z.eqb_refl. reflexivity.
Qed.

(** Reading from any stored serial, even from a merged changeset which isn't connected to the chain *)
Lemma read_good : forall d m chain mg x, inv d m chain mg -> d_md d = Some m -> m_tov m = true ->
  (find_ch x (d_chs d) = None /\ read_from d x = Err KNOT_ENOENT) \/
  (In x (keys chain) /\ read_from d x = Ok (map snd (after x chain), KNOT_EOK)) \/
  (exists M l b, mg = Some M /\ x = m_merged m /\ read_from d x = Ok (M :: l, KNOT_EOK) /\ contiguous x (M :: l) b).
Proof.
  intros d m chain mg x IV HM HT.
  destruct (in_dec Z.eq_dec x (keys chain)) as [HX|HX]; [right; left; split; [exact HX|apply (read_chain d m chain mg x IV HM HT HX)]|].
  pose proof (i_chs _ _ _ _ IV x) as HF. pose proof HX as HX2. apply find_keys in HX2. rewrite HX2 in HF.
  assert (HN : find_ch x (d_chs d) = None -> read_from d x = Err KNOT_ENOENT).
  { intros K. unfold read_from, md_of. rewrite HM, HT, K. reflexivity. }
  destruct mg as [M|]; [|left; auto]. destruct (x =? m_merged m) eqn:EX; [|left; auto].
  apply Z.eqb_eq in EX. subst x. right. right. pose proof (i_mg _ _ _ _ IV) as (G1 & (A1 & A2 & A3 & A4 & A5) & G3 & G4 & G5).
  destruct (in_dec Z.eq_dec (s_to M) (keys chain)) as [HY|HY].
  - exists M, (map snd (after (s_to M) chain)), (m_to m). split; [reflexivity|]. split; [reflexivity|].
    split; [apply (read_merged d m chain M IV HM HT); right; exact HY|]. cbn [contiguous]. split; [exact A1|]. split; [exact A2|].
    apply spath_contiguous; [eapply after_path; [apply (i_path _ _ _ _ IV)|right; exact HY|apply (i_end _ _ _ _ IV)]|].
    destruct (after_app (s_to M) chain) as (p & E & _). eapply Forall_suffix; [exact E|apply (i_ok _ _ _ _ IV)].
  - exists M, [], (s_to M). split; [reflexivity|]. split; [reflexivity|]. split.
    + unfold read_from, md_of. rewrite HM, HT, HF, G1, Z.eqb_refl. cbn [negb andb]. cbv zeta.
      rewrite (i_count _ _ _ _ IV). replace (m_merged m =? s_to M) with false by lia.
      replace (0 + 1 >? Z.of_nat (length chain) + 1) with false by lia. cbn [orb]. unfold read_fuel. cbn [read_loop].
      rewrite HF. replace (m_merged m =? s_to M) with false by lia.
      replace (0 + 1 >? Z.of_nat (length chain) + 1) with false by lia. rewrite A4. cbn [negb].
      assert (HE : find_ch (s_to M) (d_chs d) = None).
      { rewrite (i_chs _ _ _ _ IV). apply find_keys in HY. rewrite HY. replace (s_to M =? m_merged m) with false by lia. reflexivity. }
      destruct (Z.to_nat (Z.of_nat (length chain) + 1)) as [|n] eqn:EN; [lia|]. cbn [read_loop]. rewrite HE. reflexivity.
    + cbn [contiguous]. auto.
Qed.

Lemma last_map_path : forall l a b x, spath a l b -> l <> [] -> last (map s_to (map snd l)) x = b.
Proof.
  induction l as [|[k s] r IH]; intros a b x HP HN; [contradiction|]. cbn [spath] in HP. destruct HP as [_ HP].
  destruct r as [|e r]; [exact HP|]. cbn [map snd]. apply (IH _ _ x HP). discriminate.
Qed.

Lemma good_sem_check : forall h d, good h d -> sem_check d = Ok KNOT_EOK.
Proof.
  intros h d (m & chain & mg & HM & IV & HGD). unfold sem_check. rewrite HM. cbv zeta.
  destruct (m_tov m) eqn:ET; cbn [negb]; [|reflexivity]. destruct HGD as (K1 & K2 & K3 & K4 & K5).
  assert (HMT : md_of d = m) by exact HM.
  assert (HW : walk_from d (m_first m) = Ok (map snd chain, if match chain with [] => true | _ => false end then KNOT_ENOENT else KNOT_EOK)).
  { unfold walk_from. rewrite HM, ET. cbn [negb]. destruct chain as [|[k s] r].
    - pose proof (i_path _ _ _ _ IV) as HP. cbn [spath] in HP. unfold read_from. rewrite HM, ET. cbn [negb]. cbv zeta.
      rewrite HP, (inv_to_none _ _ _ _ IV). reflexivity.
    - rewrite (read_chain d m _ mg (m_first m) IV K1 ET).
      + rewrite (after_first _ _ _ _ IV). reflexivity.
      + pose proof (i_path _ _ _ _ IV) as HP. cbn [spath] in HP. destruct HP as [-> _]. left. reflexivity. }
  assert (HFT : chain <> [] -> m_first m =? m_to m = false).
  { intros HN. destruct (m_first m =? m_to m) eqn:EF; [|reflexivity]. exfalso. apply HN. apply (inv_first_to _ _ _ _ IV). lia. }
  assert (HLEN : Z.of_nat (length (map snd chain)) = m_count m) by (rewrite map_length; symmetry; apply IV).
  assert (HSF : forall k s r, chain = (k, s) :: r -> s_from s = m_first m).
  { intros k s r ->. pose proof (i_path _ _ _ _ IV) as HP. cbn [spath] in HP. destruct HP as [<- _].
    pose proof (i_ok _ _ _ _ IV) as HO. inversion HO as [|? ? [HO1 _] _]; subst. apply entry_from. exact HO1. }
  pose proof (last_map_path chain (m_first m) (m_to m)) as HLAST.
  destruct (d_zij d) as [z|] eqn:EZ.
  - rewrite (read_zij d m chain mg z IV K1 ET EZ). pose proof (i_zij _ _ _ _ IV) as GZ. rewrite EZ in GZ. destruct GZ as (_ & _ & GO). rewrite GO.
    cbn [rbind]. rewrite Z.eqb_refl. rewrite HW. cbn [rbind].
    assert (HMV : m_mv m = false).
    { pose proof (i_mg _ _ _ _ IV) as K. destruct mg; [|exact K]. destruct K as (_ & _ & _ & _ & K). congruence. }
    rewrite HMV. cbn [length Z.of_nat]. pose proof (i_upto _ _ _ _ IV) as HU. unfold upto in HU. rewrite EZ in HU.
    destruct chain as [|[k s] r].
    + destruct HU as [HU|[]]. pose proof (i_path _ _ _ _ IV) as HP. cbn [spath] in HP.
      rewrite Z.eqb_refl. cbn [andb rbind map app negb Bool.eqb last length Z.of_nat]. rewrite HU, HP, !Z.eqb_refl.
      cbn [negb andb orb Bool.eqb Z.gtb Z.compare Z.eqb Z.add]. cbn [map length Z.of_nat] in HLEN. rewrite <- HLEN. reflexivity.
    + change ((KNOT_EOK =? KNOT_ENOENT) && true) with false. cbn [andb]. rewrite Z.eqb_refl. cbn [negb].
      replace (Z.of_nat (length (map snd ((k, s) :: r))) >? 0) with true by (cbn [map length]; lia).
      rewrite HLEN, Z.eqb_refl. rewrite (HFT ltac:(discriminate)). specialize (HLAST 0 (i_path _ _ _ _ IV) ltac:(discriminate)).
      cbn [map snd app negb Bool.eqb andb]. cbn [map snd] in HLAST.
      replace (last (s_to (z_st z) :: s_to s :: map s_to (map snd r)) 0) with (m_to m) by (symmetry; exact HLAST).
      rewrite Z.eqb_refl. rewrite (HSF k s r eq_refl), Z.eqb_refl. reflexivity.
  - assert (HCN : chain <> []) by (destruct K4 as [K4|K4]; [exact K4|contradiction]).
    assert (HML : (if m_mv m then match read_from d (m_merged m) with
        | Ok (s :: _, _) => Ok ([], [s], KNOT_EOK) | Ok ([], e) => Ok ([], [], e) | Err e => Ok ([], [], e) | UB => UB | OOF => OOF end
      else Ok ([], [], KNOT_EOK)) = Ok (@nil zij, match mg with Some M => [M] | None => [] end, KNOT_EOK)).
    { pose proof (i_mg _ _ _ _ IV) as G. destruct mg as [M|]; [|rewrite G; reflexivity]. destruct G as (G1 & G2 & G3 & _). rewrite G1.
      destruct (read_good d m chain (Some M) (m_merged m) IV K1 ET) as [(Q & _)|[(Q & _)|(M' & l & b & [= <-] & _ & Q & _)]].
      - exfalso. rewrite (i_chs _ _ _ _ IV) in Q. apply find_keys in G3. rewrite G3, Z.eqb_refl in Q. discriminate.
      - contradiction.
      - rewrite Q. reflexivity. }
    rewrite HML. cbn [rbind]. rewrite Z.eqb_refl, HW. cbn [rbind]. destruct chain as [|[k s] r]; [contradiction|].
    rewrite andb_false_r. rewrite Z.eqb_refl. cbn [negb].
    replace (Z.of_nat (length (map snd ((k, s) :: r))) >? 0) with true by (cbn [map length]; lia).
    assert (HC0 : m_count m =? 0 = false) by (rewrite (i_count _ _ _ _ IV); cbn [length]; lia).
    rewrite HLEN, Z.eqb_refl, HC0. rewrite (HFT ltac:(discriminate)). specialize (HLAST 0 (i_path _ _ _ _ IV) ltac:(discriminate)).
    cbn [map snd app negb Bool.eqb andb]. cbn [map snd] in HLAST. rewrite HLAST, Z.eqb_refl.
    rewrite (HSF k s r eq_refl), Z.eqb_refl.
    pose proof (i_mg _ _ _ _ IV) as G. destruct mg as [M|].
    + destruct G as (G1 & G2 & _). rewrite G1. rewrite (entry_from _ _ G2), Z.eqb_refl.
      cbn [length Z.of_nat andb negb Bool.eqb]. rewrite !Z.eqb_refl. reflexivity.
    + rewrite G. reflexivity.
Qed.

(** ** At most one state is committed, whatever the database and the failures are *)
Definition calm (t : txn) : Prop := t_log t = [] \/ (t_ret t = KNOT_EBUSY /\ t_open t = false /\ length (t_log t) = 1%nat).
Lemma enter_log : forall t, t_log (snd (enter t)) = t_log t.
Proof.
  intros t. unfold enter. destruct (negb (t_ret t =? KNOT_EOK)); [reflexivity|]. destruct (negb (t_open t)); [reflexivity|].
  destruct (t_bad t); [reflexivity|]. destruct (t_fl t) as [|[] r]; reflexivity.
Qed.
Lemma enter_log' : forall t b t', enter t = (b, t') -> t_log t' = t_log t.
Proof. intros t b t' E. rewrite <- (enter_log t), E. reflexivity. Qed.
Lemma enter_calm : forall t b t', enter t = (b, t') -> calm t -> calm t' /\ (b = true -> t_log t' = []).
Proof.
  intros t b t' E [H|(H1 & H2 & H3)].
  - apply enter_log' in E. split; [left|intros _]; congruence.
  - destruct (enter_dead t) as (t1 & E1 & D1 & R1); [rewrite H1; discriminate|]. rewrite E1 in E. injection E as <- <-.
    split; [right|discriminate]. pose proof (enter_log' _ _ _ E1) as HL. split; [congruence|]. split; [|congruence].
    unfold enter in E1. rewrite H1 in E1. cbn [Z.eqb negb] in E1. injection E1 as <-. reflexivity.
Qed.
Ltac calm_prim H := match goal with |- context [enter ?t] => let E := fresh in destruct (enter t) as [[|] ?] eqn:E; destruct (enter_calm _ _ _ E H) as [? ?] end.
Lemma calm_set_db : forall t d, t_log t = [] -> calm (set_db t d). Proof. intros t d H. left. exact H. Qed.
Lemma write_ch_calm : forall t k s, calm t -> calm (write_ch t k s).
Proof. intros t k s H. unfold write_ch. calm_prim H; [apply calm_set_db; auto|assumption]. Qed.
Lemma store_calm : forall t m, calm t -> calm (store_md t m).
Proof. intros t m H. unfold store_md. calm_prim H; [apply calm_set_db; auto|assumption]. Qed.
Lemma del_zone_calm : forall t, calm t -> calm (del_zone t).
Proof. intros t H. unfold del_zone. calm_prim H; [apply calm_set_db; auto|assumption]. Qed.
Lemma write_zij_log : forall t z, t_log (write_zij t z) = t_log t.
Proof. intros t z. unfold write_zij. destruct (enter t) as [[|] ?] eqn:E; apply enter_log' in E; exact E. Qed.
Lemma write_ch_log : forall t k s, t_log (write_ch t k s) = t_log t.
Proof. intros t k s. unfold write_ch. destruct (enter t) as [[|] ?] eqn:E; apply enter_log' in E; exact E. Qed.
Lemma store_log : forall t m, t_log (store_md t m) = t_log t.
Proof. intros t k. unfold store_md. destruct (enter t) as [[|] ?] eqn:E; apply enter_log' in E; exact E. Qed.
Lemma del_zone_log : forall t, t_log (del_zone t) = t_log t.
Proof. intros t. unfold del_zone. destruct (enter t) as [[|] ?] eqn:E; apply enter_log' in E; exact E. Qed.
Lemma delete_ch_log : forall t k t' x y, delete_ch t k = (t', x, y) -> t_log t' = t_log t.
Proof.
  intros t k t' x y. unfold delete_ch. destruct (enter t) as [[|] t1] eqn:E; apply enter_log' in E; cbn [negb].
  - destruct (find_ch k (d_chs (t_db t1))); intros [= <- <- <-]; [rewrite enter_log|]; exact E.
  - intros [= <- <- <-]. exact E.
Qed.
Lemma delete_zij_log : forall t t' x y, delete_zij t = (t', x, y) -> t_log t' = t_log t.
Proof.
  intros t t' x y. unfold delete_zij. destruct (enter t) as [[|] t1] eqn:E; apply enter_log' in E; cbn [negb].
  - destruct (d_zij (t_db t1)); intros [= <- <- <-]; [rewrite enter_log|]; exact E.
  - intros [= <- <- <-]. exact E.
Qed.
Lemma contains_zij_log : forall t t' z, contains_zij t = (t', z) -> t_log t' = t_log t.
Proof. intros t t' z. unfold contains_zij, serial_to_zij. destruct (enter t) as [b t1] eqn:E. apply enter_log' in E. intros [= <- <-]. exact E. Qed.
Lemma contains_zij_calm : forall t t' z, contains_zij t = (t', z) -> calm t -> calm t' /\ (z = true -> t_log t' = []).
Proof.
  intros t t' z. unfold contains_zij, serial_to_zij. destruct (enter t) as [b t1] eqn:E. intros [= <- <-] H.
  destruct (enter_calm _ _ _ E H) as [H1 H2]. split; [exact H1|]. destruct b; [auto|discriminate].
Qed.
Lemma contains_ch_calm : forall t k t' z, contains_ch t k = (t', z) -> calm t -> calm t' /\ (z = true -> t_log t' = []).
Proof.
  intros t k t' z. unfold contains_ch. destruct (enter t) as [b t1] eqn:E. intros [= <- <-] H.
  destruct (enter_calm _ _ _ E H) as [H1 H2]. split; [exact H1|]. destruct b; [auto|discriminate].
Qed.
Lemma delete_loop_log : forall fuel t from a b stop fs fc t' x y z,
  delete_loop fuel t from a b stop fs fc = Ok (t', x, y, z) -> t_log t' = t_log t.
Proof.
  induction fuel as [|fuel IH]; intros t from a b stop fs fc t' x y z; cbn [delete_loop]; [discriminate|].
  destruct (_ && _); [|intros [= <- <- <- <-]; reflexivity]. destruct (delete_ch t from) as [[t1 fr] nx] eqn:E. apply delete_ch_log in E.
  destruct (fr >? 0); [|intros [= <- <- <- <-]; exact E]. intros H. apply IH in H. congruence.
Qed.
Lemma merge_zij_log : forall t ms t' o, merge_zij t ms = Ok (t', o) -> t_log t' = t_log t.
Proof.
  intros t ms t' o. unfold merge_zij. cbv zeta. destruct (_ =? 1); [intros [= <- <-]; reflexivity|].
  destruct (read_zone _) as [[[z l] e]|e| |]; try discriminate; [|intros [= <- <-]; reflexivity].
  destruct ((_ =? 2) || _); [discriminate|]. destruct (delete_zij _) as [[t1 fr] nx] eqn:E. apply delete_zij_log in E.
  destruct (_ && _); [discriminate|]. intros [= <- <-]. rewrite write_zij_log. exact E.
Qed.
Lemma merge_ch_log : forall t k ms t' o, merge_ch t k ms = Ok (t', o) -> t_log t' = t_log t.
Proof.
  intros t k ms t' o. unfold merge_ch. cbv zeta. destruct (_ =? 1); [intros [= <- <-]; reflexivity|].
  destruct (read_from _ _) as [[[|s l] e]|e| |]; try discriminate; [|intros [= <- <-]; reflexivity].
  destruct (_ =? 2); [discriminate|]. destruct (delete_ch _ _) as [[t1 fr] nx] eqn:E. apply delete_ch_log in E.
  destruct (_ && _); [discriminate|]. intros [= <- <-]. rewrite write_ch_log. exact E.
Qed.
Lemma commit_log : forall t, t_log t = [] ->
  (t_log (commit t) = [] /\ t_ret (commit t) <> KNOT_EOK) \/ (length (t_log (commit t)) = 1%nat /\ t_ret (commit t) = KNOT_EOK /\ t_open (commit t) = false).
Proof.
  intros t H. unfold commit. destruct (enter t) as [[|] t1] eqn:E; pose proof (enter_log' _ _ _ E) as HL.
  - right. cbn [t_log t_ret t_open]. rewrite HL, H. auto.
  - left. split; [congruence|]. revert E. unfold enter. destruct (t_ret t =? KNOT_EOK) eqn:ER; cbn [negb].
    + destruct (t_open t); cbn [negb]; [|intros [= <-]; discriminate]. destruct (t_bad t); [intros [= <-]; discriminate|].
      destruct (t_fl t) as [|[] r]; intros [= <-]; discriminate.
    + intros [= <-]. cbn [set_open t_ret]. lia.
Qed.
Lemma try_flush_calm : forall t m fl ms t' m', t_log t = [] -> try_flush t m fl ms = Ok (t', m') -> calm t'.
Proof.
  intros t m fl ms t' m' H. unfold try_flush. destruct (contains_zij t) as [t1 z] eqn:E1. apply contains_zij_log in E1. rewrite H in E1.
  set (X := if z then _ else _).
  assert (HX : forall t2 m2, X = Ok (t2, m2) -> t_log t2 = []).
  { intros t2 m2. unfold X. destruct z.
    - destruct (merge_zij t1 ms) as [[t3 o]| | |] eqn:E2; cbn [rbind]; try discriminate. apply merge_zij_log in E2.
      destruct fl; [intros [= <- <-]; congruence|]. destruct (after_merge _ _ _ _ _); cbn [rbind]; try discriminate. intros [= <- <-]; congruence.
    - destruct fl; [intros [= <- <-]; exact E1|]. destruct (merge_ch _ _ _) as [[t3 o]| | |] eqn:E2; cbn [rbind]; try discriminate. apply merge_ch_log in E2.
      destruct (after_merge _ _ _ _ _); cbn [rbind]; try discriminate. intros [= <- <-]; congruence. }
  destruct X as [[t2 m2]| | |]; cbn [rbind]; try discriminate. specialize (HX t2 m2 eq_refl).
  destruct (negb fl); [intros [= <- <-]; left; exact HX|].
  assert (HC : forall t3 m3, t_log t3 = [] -> calm (if t_ret (commit (store_md t3 m3)) =? KNOT_EOK then set_ret (commit (store_md t3 m3)) KNOT_EBUSY else commit (store_md t3 m3))).
  { intros t3 m3 H3. rewrite <- (store_log t3 m3) in H3. destruct (commit_log _ H3) as [(C1 & C2)|(C1 & C2 & C3)].
    - destruct (t_ret _ =? KNOT_EOK) eqn:EQ; [exfalso; apply C2; lia|left; exact C1].
    - rewrite C2, Z.eqb_refl. right. cbn [set_ret t_ret t_open t_log]. auto. }
  destruct (m_mv m2).
  - destruct (delete_ch t2 (m_merged m2)) as [[t3 x] y] eqn:E3. apply delete_ch_log in E3. cbn [fst]. intros [= <- <-]. apply HC. congruence.
  - intros [= <- <-]. apply HC. exact HX.
Qed.
Lemma fix_loop_calm : forall fuel t m fl ms a b t' m', calm t -> fix_loop fuel t m fl ms a b = Ok (t', m') -> calm t'.
Proof.
  induction fuel as [|fuel IH]; intros t m fl ms a b t' m' H; cbn [fix_loop];
    (destruct (((a >? 0) || (b >? 0)) && (t_ret t =? KNOT_EOK)) eqn:EC; cbn [negb]; [|intros [= <- <-]; exact H]); [discriminate|].
  assert (HL : t_log t = []) by (destruct H as [H|(H & _)]; [exact H|rewrite H in EC; rewrite andb_false_r in EC; discriminate EC]).
  unfold serial_to_zij. destruct (enter t) as [bb t1] eqn:E1. apply enter_log' in E1. unfold journal_delete.
  destruct (delete_loop _ _ _ _ _ _ _ _) as [[[[t2 x] y] z]| | |] eqn:E2; cbn [rbind]; try discriminate. apply delete_loop_log in E2.
  destruct (x =? 0).
  - destruct (negb _); [|intros [= <- <-]; left; cbn [set_ret t_log]; congruence].
    destruct (try_flush t2 m fl ms) as [[t3 m3]| | |] eqn:E3; cbn [rbind]; try discriminate.
    intros H3. eapply IH; [|exact H3]. eapply try_flush_calm; [|exact E3]. congruence.
  - destruct (after_delete _ _ _) as [m3| | |]; cbn [rbind]; try discriminate. intros H3. eapply IH; [|exact H3]. left. congruence.
Qed.
Definition one_commit (r : res (list db * Z)) : Prop :=
  forall l ret, r = Ok (l, ret) -> (l = [] \/ exists d', l = [d']) /\ (ret <> KNOT_EOK -> ret <> KNOT_EBUSY -> l = []).
Lemma commit_one : forall t, calm t -> one_commit (Ok (t_log (commit t), t_ret (commit t))).
Proof.
  intros t H l ret [= <- <-].
  assert (HL : forall x : list db, length x = 1%nat -> exists d', x = [d']) by (intros [|x [|? ?]] K; try discriminate K; eauto).
  destruct H as [H|(H1 & H2 & H3)].
  - destruct (commit_log t H) as [(C1 & C2)|(C1 & C2 & C3)]; [auto|]. split; [right; auto|]. intros K. contradiction.
  - unfold commit. destruct (enter_dead t) as (t1 & E1 & D1 & R1); [rewrite H1; discriminate|]. rewrite E1. apply enter_log' in E1.
    rewrite E1, R1. split; [right; auto|]. intros _ K. contradiction.
Qed.
Lemma insert_fin_calm : forall t m i extra, calm t -> one_commit (insert_fin t m i extra).
Proof.
  intros t m i extra H. unfold insert_fin. cbv zeta. destruct extra as [x|].
  - destruct (after_extra _ _ _) as [m2| | |]; cbn [rbind]; try (intros l ret K; discriminate K). apply commit_one, store_calm, write_ch_calm, write_ch_calm. exact H.
  - cbn [rbind]. apply commit_one, store_calm, write_ch_calm. exact H.
Qed.
Lemma insert_end_calm : forall c t m i extra, calm t -> one_commit (insert_end c t m i extra).
Proof.
  intros c t m i extra H. rewrite insert_end_eq. destruct (contains_ch t _) as [t1 z] eqn:E1. destruct (contains_ch_calm _ _ _ _ E1 H) as [H1 H2].
  destruct z; [|apply insert_fin_calm; exact H1]. unfold fix_occupation.
  destruct (fix_loop _ _ _ _ _ _ _) as [[t2 m2]| | |] eqn:E2; cbn [rbind]; try (intros l ret K; discriminate K).
  apply insert_fin_calm. eapply fix_loop_calm; [exact H1|exact E2].
Qed.
Lemma insert_cont_calm : forall c t m i extra, calm t -> one_commit (insert_cont c t m i extra).
Proof.
  intros c t m i extra H. unfold insert_cont. destruct (m_tov m && _); [|apply insert_end_calm; exact H].
  destruct (contains_zij t) as [t1 z] eqn:E1. destruct (contains_zij_calm _ _ _ E1 H) as [H1 H2].
  destruct z; apply insert_end_calm; [left; cbn [set_ret t_log]; auto|apply del_zone_calm; exact H1].
Qed.
Lemma begin_log : forall fl rd d, t_log (begin_txn fl rd d) = [].
Proof. intros fl rd d. unfold begin_txn. destruct (enter _) as [[|] t] eqn:E; apply enter_log' in E; exact E. Qed.
Lemma exec_one : forall fl rd d o, one_commit (exec fl rd d o).
Proof.
  intros fl rd d o.
  assert (HE : forall e, one_commit (Ok ([], e))) by (intros e l ret [= <- <-]; auto).
  destruct o as [serial id size ssize mu|c i extra| |check]; cbn [exec].
  - unfold insert_zone. destruct (size >=? mu); [apply HE|]. cbv zeta. apply commit_one. left.
    rewrite store_log, write_zij_log, del_zone_log. unfold update_last_inserter. rewrite enter_log. apply begin_log.
  - unfold insert. cbv zeta. destruct (i_size i >=? cf_usage c); [apply HE|].
    match goal with |- context [if ?b then Ok ([], KNOT_EINVAL) else _] => destruct b end; [apply HE|].
    match goal with |- context [if ?b then Ok ([], KNOT_ESEMCHECK) else _] => destruct b end; [apply HE|].
    unfold load_md. destruct (enter (begin_txn fl rd d)) as [b t1] eqn:E1. apply enter_log' in E1. rewrite begin_log in E1.
    assert (HG : forall m, one_commit (insert_rest c (update_last_inserter t1) m i extra)).
    { intros m. assert (H2 : t_log (update_last_inserter t1) = []) by (unfold update_last_inserter; rewrite enter_log; exact E1).
      unfold insert_rest.
      assert (HR : forall t m s, t_log t = [] -> one_commit (let* (t0, m0) := fix_occupation t m (cf_flush c) (cf_msize c) (cf_occ c) (u64 (cf_usage c - s)) (u64 (cf_depth c - 1)) in insert_cont c t0 m0 i extra)).
      { intros t mm s K. unfold fix_occupation. destruct (fix_loop _ _ _ _ _ _ _) as [[t2 m2]| | |] eqn:E2; cbn [rbind]; try (intros l ret Q; discriminate Q).
        apply insert_cont_calm. eapply fix_loop_calm; [left; exact K|exact E2]. }
      destruct extra as [x|]; [|apply HR; exact H2].
      destruct (contains_zij (update_last_inserter t1)) as [t2 z] eqn:E2. apply contains_zij_log in E2. rewrite H2 in E2.
      unfold delete_merged. destruct (negb (m_mv m)).
      - apply HR. destruct z; exact E2.
      - destruct (delete_ch _ _) as [[t3 fr] y] eqn:E3. apply delete_ch_log in E3. apply HR. rewrite E3. destruct z; exact E2. }
    destruct b; apply HG.
  - unfold set_flushed, load_md. destruct (enter (begin_txn fl rd d)) as [[|] t1] eqn:E1; apply enter_log' in E1; rewrite begin_log in E1;
      apply commit_one, store_calm; left; exact E1.
  - unfold scrape. destruct (check && _); [apply HE|]. cbv zeta. apply commit_one. left. rewrite del_zone_log. unfold update_last_inserter. rewrite enter_log. apply begin_log.
Qed.
