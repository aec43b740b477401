From Verif Require Import Base SerialModel SerialSpec SerialProofs SerialProps JournalModel JournalSpec JournalProofs JournalProofs2.

Definition upd (m : md) (f c : Z) : md := mkmd f (m_to m) (m_flushed m) (m_merged m) c (m_tov m) (m_mv m).
Definition with_chs (d : db) (l : list (Z * stored)) : db := mkdb l (d_zij d) (d_md d).
Definition same (t t' : txn) : Prop := t_base t' = t_base t /\ t_log t' = t_log t.

Lemma inv_ext : forall d d' m chain mg, inv d m chain mg -> (forall k, find_ch k (d_chs d') = find_ch k (d_chs d)) ->
  d_zij d' = d_zij d -> inv d' m chain mg.
Proof.
  intros d d' m chain mg I H1 H2. constructor; try apply I.
  - intros k. rewrite H1. apply I.
  - rewrite H2. apply I.
  - unfold upto. rewrite H2. apply I.
  - rewrite H2. apply I.
Qed.
Lemma gh_ext : forall h d d' m chain mg, gh h d m chain mg -> d_zij d' = d_zij d -> gh h d' m chain mg.
Proof. intros h d d' m chain mg H E. unfold gh, upto in *. rewrite E. exact H. Qed.

Lemma inv_length : forall d m chain mg, inv d m chain mg -> (length chain <= length (d_chs d))%nat.
Proof.
  intros d m chain mg I. replace (length chain) with (length (keys chain)) by apply map_length.
  replace (length (d_chs d)) with (length (keys (d_chs d))) by apply map_length.
  apply NoDup_incl_length; [apply I|]. intros k H.
  destruct (in_dec Z.eq_dec k (keys (d_chs d))) as [A|A]; [exact A|].
  apply find_keys in A. rewrite (i_chs _ _ _ _ I) in A.
  destruct (find_ch k chain) eqn:E; [discriminate|]. apply find_keys in E. contradiction.
Qed.

Lemma inv_del_head : forall d m k s r mg, inv d m ((k, s) :: r) mg -> k <> upto d m ->
  inv (with_chs d (del_ch k (d_chs d))) (upd m (s_to s) (m_count m - 1)) r mg.
Proof.
  intros d m k s r mg I HU. pose proof (i_nd _ _ _ _ I) as ND. cbn [keys map fst] in ND. apply NoDup_cons_iff in ND as [N1 N2].
  assert (HMG : match mg with Some M => k <> m_merged m | None => True end).
  { pose proof (i_mg _ _ _ _ I) as G. destruct mg as [M|]; [|exact Logic.I]. destruct G as (_ & _ & G & _).
    intros E. apply G. left. exact E. }
  constructor; cbn [with_chs upd m_first m_to m_flushed m_merged m_count m_tov m_mv d_chs d_zij d_md].
  - pose proof (i_path _ _ _ _ I) as H. cbn [spath] in H. apply H.
  - pose proof (i_ok _ _ _ _ I) as H. apply Forall_cons_iff in H. apply H.
  - exact N2.
  - pose proof (i_end _ _ _ _ I) as H. intros A. apply H. right. exact A.
  - rewrite (i_count _ _ _ _ I). cbn [length]. lia.
  - intros x. rewrite find_del. rewrite (i_chs _ _ _ _ I). cbn [find_ch].
    destruct (x =? k) eqn:E; [|reflexivity].
    apply Z.eqb_eq in E. subst x. apply find_keys in N1. rewrite N1.
    destruct mg as [M|]; [|reflexivity]. replace (k =? m_merged m) with false by lia. reflexivity.
  - pose proof (i_mg _ _ _ _ I) as G. destruct mg as [M|]; [|exact G]. destruct G as (G1 & G2 & G3 & G4 & G5).
    do 2 (split; [assumption|]). split; [|split; assumption]. intros A. apply G3. right. exact A.
  - intros T. pose proof (i_tov _ _ _ _ I T). discriminate.
  - pose proof (i_upto _ _ _ _ I) as H. unfold upto in *. cbn [d_zij m_flushed] in *.
    destruct H as [H|[H|H]]; [left; exact H| |right; exact H]. exfalso. apply HU. exact H.
  - apply I.
Qed.
Lemma gh_del_head : forall h d m k s r mg f c l, gh h d m ((k, s) :: r) mg -> k <> upto d m ->
  gh h (with_chs d l) (upd m f c) r mg.
Proof.
  intros h d m k s r mg f c l H HU. unfold gh, upto in *. cbn [with_chs upd d_zij m_flushed m_merged] in *.
  destruct (d_zij d) as [z|].
  - cbn [after] in H. replace (k =? s_to (z_st z)) with false in H by lia. exact H.
  - cbn [after] in H. replace (k =? m_flushed m) with false in H by lia. exact H.
Qed.

Lemma delete_ch_alive : forall F t k s, alive t -> env F t -> find_ch k (d_chs (t_db t)) = Some s ->
  (exists t', delete_ch t k = (t', s_size s, Some (s_to s)) /\ alive t' /\ env F t' /\ same t t' /\
     t_db t' = with_chs (t_db t) (del_ch k (d_chs (t_db t)))) \/
  (F /\ exists t' x y, delete_ch t k = (t', x, y) /\ hdead (t_log t) t').
Proof.
  intros F t k s A E HF. unfold delete_ch.
  destruct (enter_alive F t A E) as [(fl & E1 & A1 & V1)|(HFF & t1 & E1 & D1)]; rewrite E1; cbn [negb].
  2:{ right. split; [exact HFF|]. eauto. }
  cbn [set_fl t_db]. rewrite HF.
  set (t2 := set_db (set_fl t fl) _).
  destruct (enter_alive F t2 A1 V1) as [(fl2 & E2 & A2 & V2)|(HFF & t3 & E2 & D2)]; rewrite E2; cbn [snd].
  - left. eexists. split; [reflexivity|]. split; [exact A2|]. split; [exact V2|]. split; [split; reflexivity|]. reflexivity.
  - right. split; [exact HFF|]. do 3 eexists. split; [reflexivity|]. exact D2.
Qed.

Lemma delete_loop_alive : forall F h a b mg chain fuel t m fs fc, alive t -> env F t -> inv (t_db t) m chain mg ->
  (length chain < fuel)%nat -> 0 <= fs ->
  W F (t_log t) (fun p => fst (fst (fst p))) (delete_loop fuel t (m_first m) a b (upto (t_db t) m) fs fc)
    (fun p => let '(t', x, y, z) := p in
       exists chain' n, alive t' /\ env F t' /\ same t t' /\ d_zij (t_db t') = d_zij (t_db t) /\
         inv (t_db t') (upd m z (m_count m - n)) chain' mg /\ (exists dl, chain = dl ++ chain') /\
         y = fc + n /\ 0 <= n /\ n = Z.of_nat (length chain) - Z.of_nat (length chain') /\
         (gh h (t_db t) m chain mg -> gh h (t_db t') (upd m z (m_count m - n)) chain' mg) /\
         (n = 0 -> x = fs /\ t_db t' = t_db t /\ chain' = chain /\ z = m_first m /\ (m_first m = upto (t_db t) m \/ (a <= fs /\ b <= fc))) /\
         (0 < n -> fs < x)).
Proof.
  intros F h a b mg chain. induction chain as [|[k s] r IH]; intros fuel t m fs fc A E I HL HS;
    (destruct fuel as [|fuel]; [lia|]); cbn [delete_loop].
  - assert (HP := i_path _ _ _ _ I). cbn [spath] in HP.
    assert (HU : m_first m = upto (t_db t) m).
    { pose proof (i_upto _ _ _ _ I) as [H|[]]. congruence. }
    rewrite <- HU, Z.eqb_refl. cbn [negb andb]. apply W_ok. exists [], 0.
    do 2 (split; [assumption|]). do 2 (split; [try split; reflexivity|]). rewrite Z.sub_0_r.
    assert (EM : upd m (m_first m) (m_count m) = m) by (destruct m; reflexivity). rewrite EM.
    split; [exact I|]. split; [exists []; reflexivity|]. split; [lia|]. split; [lia|]. split; [reflexivity|].
    split; [auto|]. split; [intros _; repeat split; auto|lia].
  - assert (HP := i_path _ _ _ _ I). cbn [spath] in HP. destruct HP as [HK HP].
    destruct (negb (m_first m =? upto (t_db t) m) && ((fs <? a) || (fc <? b))) eqn:EC.
    2:{ apply W_ok. exists ((k, s) :: r), 0.
        do 2 (split; [assumption|]). do 2 (split; [try split; reflexivity|]). rewrite Z.sub_0_r.
        assert (EM : upd m (m_first m) (m_count m) = m) by (destruct m; reflexivity). rewrite EM.
        split; [exact I|]. split; [exists []; reflexivity|]. split; [lia|]. split; [lia|]. split; [lia|].
        split; [auto|]. split; [intros _; do 4 (split; [reflexivity|]); lia|lia]. }
    assert (HU : k <> upto (t_db t) m) by lia.
    assert (HF : find_ch (m_first m) (d_chs (t_db t)) = Some s).
    { rewrite <- HK. eapply inv_find; [exact I|left; reflexivity]. }
    destruct (delete_ch_alive F t (m_first m) s A E HF) as [(t' & E1 & A1 & V1 & (S1 & S2) & D1)|(HFF & t' & x & y & E1 & D1)]; rewrite E1.
    + assert (HSZ : 0 < s_size s).
      { pose proof (i_ok _ _ _ _ I) as H. apply Forall_cons_iff in H as [[(_ & _ & H & _) _] _]. exact H. }
      replace (s_size s >? 0) with true by lia.
      assert (I2 := inv_del_head _ _ _ _ _ _ I HU). rewrite HK in I2. rewrite <- D1 in I2.
      assert (HUP : upto (t_db t) m = upto (t_db t') (upd m (s_to s) (m_count m - 1))).
      { unfold upto. rewrite D1. reflexivity. }
      rewrite HUP. rewrite <- S2.
      assert (HL2 : (length r < fuel)%nat) by (cbn [length] in HL; lia).
      assert (HS2 : 0 <= fs + s_size s) by lia.
      specialize (IH fuel t' (upd m (s_to s) (m_count m - 1)) (fs + s_size s) (fc + 1) A1 V1 I2 HL2 HS2).
      cbn [upd m_first m_count m_to m_flushed m_merged m_tov m_mv] in IH. change (mkmd (s_to s) (m_to m) (m_flushed m) (m_merged m) (m_count m - 1) (m_tov m) (m_mv m)) with (upd m (s_to s) (m_count m - 1)) in IH.
      destruct IH as [(p & EP & HPOST)|[HFF HD]].
      * left. exists p. split; [exact EP|]. destruct p as [[[t2 x] y] z].
        destruct HPOST as (chain' & n & B1 & B2 & (B3 & B3') & B4 & B5 & (dl & B6) & B7 & B8 & B9 & B10 & B11 & B12).
        assert (HX : fs + s_size s <= x).
        { destruct (Z.eq_dec n 0) as [N|N]; [apply B11 in N; lia|]. assert (0 < n) by lia. specialize (B12 H). lia. }
        exists chain', (n + 1). split; [exact B1|]. split; [exact B2|]. split; [split; congruence|].
        split; [rewrite B4, D1; reflexivity|]. 
        assert (EU : forall q, upd (upd m (s_to s) (m_count m - 1)) z (m_count m - 1 - n) = q -> upd m z (m_count m - (n + 1)) = q).
        { intros q <-. unfold upd. cbn [m_to m_flushed m_merged m_tov m_mv]. f_equal. lia. }
        rewrite (EU _ eq_refl).
        split; [exact B5|]. split; [exists ((k, s) :: dl); rewrite B6; reflexivity|].
        split; [lia|]. split; [lia|]. split; [cbn [length]; lia|].
        split. { intros G. apply B10. rewrite D1. eapply gh_del_head; [exact G|exact HU]. }
        split; [lia|lia].
      * right. split; [exact HFF|]. exact HD.
    + right. split; [exact HFF|]. intros p EP. destruct (x >? 0).
      * destruct p as [[[t2 x2] y2] z2]. cbn [fst]. left. eapply delete_loop_hdead; [exact D1|exact EP].
      * injection EP as <-. cbn [fst]. left. exact D1.
Qed.
