From Verif Require Import Base SerialModel SerialSpec SerialProofs SerialProps JournalModel JournalSpec JournalProofs JournalProofs2 JournalProofs3.

(** The transaction and what is committed: the chain lost only its beginning. *)
Definition rel (t : txn) (m : md) (chain : list (Z * stored)) (mg : option stored) : Prop :=
  exists m0 chain0 p, inv (t_base t) m0 chain0 mg /\ d_md (t_base t) = Some m0 /\ m_tov m0 = true /\
    chain0 = p ++ chain /\ m_to m0 = m_to m /\ d_zij (t_base t) = d_zij (t_db t) /\
    m_merged m0 = m_merged m /\ m_mv m0 = m_mv m.

Lemma rel_after : forall m0 chain0 p chain d mg x, inv d m0 chain0 mg -> chain0 = p ++ chain ->
  x = m_to m0 \/ In x (keys chain) -> after x chain0 = after x chain.
Proof.
  intros m0 chain0 p chain d mg x I -> H. apply after_suffix. intros A.
  pose proof (i_nd _ _ _ _ I) as ND. pose proof (i_end _ _ _ _ I) as NE. rewrite keys_app in *.
  destruct H as [->|H].
  - apply NE. apply in_or_app. left. exact A.
  - clear NE I. induction (keys p) as [|k r IH]; [contradiction|]. cbn [app] in ND. apply NoDup_cons_iff in ND as [N1 N2].
    destruct A as [->|A]; [|auto]. apply N1. apply in_or_app. right. exact H.
Qed.

Definition zmerged (z : zij) (ms : Z) (m : md) (chain : list (Z * stored)) : zij :=
  mkzij (z_serial z) (z_id z) (mkst (m_to m) ms (s_data (z_st z) ++ flat (after (s_to (z_st z)) chain)) true).

Lemma last_to_path : forall z l b, spath (s_to (z_st z)) l b -> last_to (z_st z) (map snd l) = b.
Proof. intros z l b H. apply (spath_last l 0 b 0 (z_st z)). cbn [spath]. auto. Qed.

Lemma set_rd_env : forall F t x r, env F t -> t_rd t = x :: r -> env F (set_rd t r).
Proof. intros F t x r [H1 H2] E. split; [exact H1|]. intros _. apply H2. right. rewrite E. discriminate. Qed.

Lemma delete_zij_alive : forall F t z, alive t -> env F t -> d_zij (t_db t) = Some z ->
  (exists t', delete_zij t = (t', s_size (z_st z), Some (s_to (z_st z))) /\ alive t' /\ env F t' /\ same t t' /\
     t_db t' = mkdb (d_chs (t_db t)) None (d_md (t_db t))) \/
  (F /\ exists t' x y, delete_zij t = (t', x, y) /\ hdead (t_log t) t').
Proof.
  intros F t z A E HF. unfold delete_zij.
  destruct (enter_alive F t A E) as [(fl & E1 & A1 & V1)|(HFF & t1 & E1 & D1)]; rewrite E1; cbn [negb].
  2:{ right. split; [exact HFF|]. eauto. }
  cbn [set_fl t_db]. rewrite HF.
  set (t2 := set_db (set_fl t fl) _).
  destruct (enter_alive F t2 A1 V1) as [(fl2 & E2 & A2 & V2)|(HFF & t3 & E2 & D2)]; rewrite E2; cbn [snd].
  - left. eexists. split; [reflexivity|]. split; [exact A2|]. split; [exact V2|]. split; [split; reflexivity|]. reflexivity.
  - right. split; [exact HFF|]. do 3 eexists. split; [reflexivity|]. exact D2.
Qed.
Lemma write_zij_alive : forall F t z, alive t -> env F t ->
  (alive (write_zij t z) /\ env F (write_zij t z) /\ same t (write_zij t z) /\
     t_db (write_zij t z) = mkdb (d_chs (t_db t)) (Some z) (d_md (t_db t))) \/
  (F /\ hdead (t_log t) (write_zij t z)).
Proof.
  intros F t z A E. unfold write_zij.
  destruct (enter_alive F t A E) as [(fl & E1 & A1 & V1)|(HFF & t1 & E1 & D1)]; rewrite E1.
  - left. split; [exact A1|]. split; [exact V1|]. split; [split; reflexivity|]. reflexivity.
  - right. auto.
Qed.
Lemma write_ch_alive : forall F t k s, alive t -> env F t ->
  (alive (write_ch t k s) /\ env F (write_ch t k s) /\ same t (write_ch t k s) /\
     t_db (write_ch t k s) = with_chs (t_db t) (put_ch k s (d_chs (t_db t)))) \/
  (F /\ hdead (t_log t) (write_ch t k s)).
Proof.
  intros F t k s A E. unfold write_ch.
  destruct (enter_alive F t A E) as [(fl & E1 & A1 & V1)|(HFF & t1 & E1 & D1)]; rewrite E1.
  - left. split; [exact A1|]. split; [exact V1|]. split; [split; reflexivity|]. reflexivity.
  - right. auto.
Qed.
Lemma store_alive : forall F t m, alive t -> env F t ->
  (alive (store_md t m) /\ env F (store_md t m) /\ same t (store_md t m) /\
     t_db (store_md t m) = mkdb (d_chs (t_db t)) (d_zij (t_db t)) (Some m)) \/
  (F /\ hdead (t_log t) (store_md t m)).
Proof.
  intros F t m A E. unfold store_md.
  destruct (enter_alive F t A E) as [(fl & E1 & A1 & V1)|(HFF & t1 & E1 & D1)]; rewrite E1.
  - left. split; [exact A1|]. split; [exact V1|]. split; [split; reflexivity|]. reflexivity.
  - right. auto.
Qed.
Lemma commit_alive : forall F t, alive t -> env F t ->
  (t_ret (commit t) = KNOT_EOK /\ t_open (commit t) = false /\ t_log (commit t) = t_log t ++ [t_db t]) \/
  (F /\ hdead (t_log t) (commit t) /\ t_ret (commit t) <> KNOT_EOK).
Proof.
  intros F t A E. unfold commit.
  destruct (enter_alive F t A E) as [(fl & E1 & A1 & V1)|(HFF & t1 & E1 & D1)]; rewrite E1.
  - left. repeat split; reflexivity.
  - right. split; [exact HFF|]. split; [exact D1|].
    revert E1. unfold enter. destruct A as (-> & -> & ->). cbn [negb Z.eqb KNOT_EOK].
    destruct (t_fl t) as [|[]]; try discriminate; intros [= <-]; cbn [set_ret t_ret]; discriminate.
Qed.

(** The tail of a merge: deletion of the old one and writing of the merged one *)
Lemma merge_zij_tail : forall F t z z', alive t -> env F t -> d_zij (t_db t) = Some z -> 0 < s_size (z_st z) ->
  W F (t_log t) fst
    (let '(t, freed, next) := delete_zij t in
      if (t_ret t =? KNOT_EOK) && (negb (freed >? 0) || negb (match next with Some n => n =? s_to (z_st z) | None => false end))
      then UB else Ok (write_zij t z', s_to (z_st z)))
    (fun p => alive (fst p) /\ env F (fst p) /\ same t (fst p) /\ snd p = s_to (z_st z) /\
       t_db (fst p) = mkdb (d_chs (t_db t)) (Some z') (d_md (t_db t))).
Proof.
  intros F t z z' A E HZ HS.
  destruct (delete_zij_alive F t z A E HZ) as [(t1 & E1 & A1 & V1 & (S1 & S2) & D1)|(HF & t1 & x & y & E1 & D1)]; rewrite E1.
  - replace (s_size (z_st z) >? 0) with true by lia. rewrite Z.eqb_refl. cbn [negb orb]. rewrite andb_false_r.
    destruct (write_zij_alive F t1 z' A1 V1) as [(A2 & V2 & (S3 & S4) & D2)|(HF & D2)].
    + apply W_ok. cbn [fst snd]. split; [exact A2|]. split; [exact V2|]. split; [split; congruence|]. split; [reflexivity|].
      rewrite D2, D1. reflexivity.
    + right. split; [exact HF|]. intros p [= <-]. cbn [fst]. left. rewrite <- S2. exact D2.
  - right. split; [exact HF|]. intros p. destruct (_ && _); [discriminate|]. intros [= <-]. cbn [fst]. left.
    apply write_zij_hdead. exact D1.
Qed.
Lemma merge_ch_tail : forall F t k s s', alive t -> env F t -> find_ch k (d_chs (t_db t)) = Some s -> 0 < s_size s ->
  W F (t_log t) fst
    (let '(t, freed, next) := delete_ch t k in
      if (t_ret t =? KNOT_EOK) && (negb (freed >? 0) || negb (match next with Some n => n =? s_to s | None => false end))
      then UB else Ok (write_ch t k s', s_to s))
    (fun p => alive (fst p) /\ env F (fst p) /\ same t (fst p) /\ snd p = s_to s /\
       t_db (fst p) = with_chs (t_db t) (put_ch k s' (del_ch k (d_chs (t_db t))))).
Proof.
  intros F t k s s' A E HZ HS.
  destruct (delete_ch_alive F t k s A E HZ) as [(t1 & E1 & A1 & V1 & (S1 & S2) & D1)|(HF & t1 & x & y & E1 & D1)]; rewrite E1.
  - replace (s_size s >? 0) with true by lia. rewrite Z.eqb_refl. cbn [negb orb]. rewrite andb_false_r.
    destruct (write_ch_alive F t1 k s' A1 V1) as [(A2 & V2 & (S3 & S4) & D2)|(HF & D2)].
    + apply W_ok. cbn [fst snd]. split; [exact A2|]. split; [exact V2|]. split; [split; congruence|]. split; [reflexivity|].
      rewrite D2, D1. reflexivity.
    + right. split; [exact HF|]. intros p [= <-]. cbn [fst]. left. rewrite <- S2. exact D2.
  - right. split; [exact HF|]. intros p. destruct (_ && _); [discriminate|]. intros [= <-]. cbn [fst]. left.
    apply write_ch_hdead. exact D1.
Qed.

Lemma set_rd_alive : forall t r, alive t -> alive (set_ret (set_rd t r) KNOT_EOK).
Proof. intros t r (H1 & H2 & H3). repeat split; assumption. Qed.

Lemma merge_zij_alive : forall F t m chain mg z ms, alive t -> env F t -> inv (t_db t) m chain mg -> rel t m chain mg ->
  d_zij (t_db t) = Some z ->
  W F (t_log t) fst (merge_zij t ms)
    (fun p => alive (fst p) /\ env F (fst p) /\ same t (fst p) /\ snd p = s_to (z_st z) /\
       t_db (fst p) = mkdb (d_chs (t_db t)) (Some (zmerged z ms m chain)) (d_md (t_db t))).
Proof.
  intros F t m chain mg z ms A E I (m0 & chain0 & p & I0 & HM & HT & EC & EM & EZ & EMG & EMV) HZ.
  assert (HR : read_zone (t_base t) = Ok (z, map snd (after (s_to (z_st z)) chain), KNOT_EOK)).
  { rewrite (read_zij _ _ _ _ z I0 HM HT) by congruence. do 3 f_equal.
    rewrite (rel_after m0 chain0 p chain _ mg _ I0 EC); [reflexivity|].
    pose proof (i_upto _ _ _ _ I) as HU. unfold upto in HU. rewrite HZ in HU. rewrite EM. exact HU. }
  pose proof (i_zij _ _ _ _ I) as G. rewrite HZ in G. destruct G as (G1 & G2 & G3).
  assert (HLAST : last_to (z_st z) (map snd (after (s_to (z_st z)) chain)) = m_to m).
  { apply last_to_path. eapply after_path; [apply (i_path _ _ _ _ I)| |apply (i_end _ _ _ _ I)].
    pose proof (i_upto _ _ _ _ I) as HU. unfold upto in HU. rewrite HZ in HU. exact HU. }
  unfold merge_zij. cbv zeta. cbn [set_rd t_base]. rewrite HR, G3, HLAST.
  change (mkzij (z_serial z) (z_id z) (mkst (m_to m) ms (s_data (z_st z) ++ all_data (map snd (after (s_to (z_st z)) chain))) true)) with (zmerged z ms m chain).
  destruct (t_rd t) as [|x rs] eqn:ER.
  - cbn [Z.eqb Pos.eqb orb negb tl].
    assert (V' : env F (set_ret (set_rd t []) KNOT_EOK)).
    { destruct E as [V1 V2]. split; [exact V1|]. cbn [set_ret set_rd t_fl t_rd]. intros [H|H]; [apply V2; left; exact H|contradiction]. }
    apply (merge_zij_tail F (set_ret (set_rd t []) KNOT_EOK) z _ (set_rd_alive t [] A) V' HZ G2).
  - assert (HF : F) by (apply E; right; rewrite ER; discriminate). cbn [tl].
    destruct (x =? 1). { right. split; [exact HF|]. intros q [= <-]. right. split; [discriminate|reflexivity]. }
    destruct (x =? 2). { right. split; [exact HF|]. discriminate. }
    cbn [orb negb].
    destruct (x =? 3).
    + right. split; [exact HF|]. intros q.
      destruct (enter_dead (set_ret (set_rd t rs) KNOT_ENOMEM)) as (t1 & E1 & D1 & _); [discriminate|].
      unfold delete_zij. rewrite E1. cbn [negb]. destruct (_ && _); [discriminate|]. intros [= <-]. cbn [fst]. left.
      apply write_zij_hdead. exact D1.
    + assert (V' : env F (set_ret (set_rd t rs) KNOT_EOK)) by (apply (set_rd_env F t x rs E ER)).
      apply (merge_zij_tail F (set_ret (set_rd t rs) KNOT_EOK) z _ (set_rd_alive t rs A) V' HZ G2).
Qed.

Lemma merge_ch_alive : forall F t k s l ms, alive t -> env F t ->
  read_from (t_base t) k = Ok (s :: l, KNOT_EOK) -> find_ch k (d_chs (t_db t)) = Some s -> 0 < s_size s ->
  W F (t_log t) fst (merge_ch t k ms)
    (fun p => alive (fst p) /\ env F (fst p) /\ same t (fst p) /\ snd p = s_to s /\
       t_db (fst p) = with_chs (t_db t) (put_ch k (mkst (last_to s l) ms (all_data (s :: l)) true) (del_ch k (d_chs (t_db t))))).
Proof.
  intros F t k s l ms A E HR HF HS.
  unfold merge_ch. cbv zeta. cbn [set_rd t_base]. rewrite HR.
  destruct (t_rd t) as [|x rs] eqn:ER.
  - cbn [Z.eqb Pos.eqb tl].
    assert (V' : env F (set_ret (set_rd t []) KNOT_EOK)).
    { destruct E as [V1 V2]. split; [exact V1|]. cbn [set_ret set_rd t_fl t_rd]. intros [H|H]; [apply V2; left; exact H|contradiction]. }
    apply (merge_ch_tail F (set_ret (set_rd t []) KNOT_EOK) k s _ (set_rd_alive t [] A) V' HF HS).
  - assert (HFF : F) by (apply E; right; rewrite ER; discriminate). cbn [tl].
    destruct (x =? 1). { right. split; [exact HFF|]. intros q [= <-]. right. split; [discriminate|reflexivity]. }
    destruct (x =? 2). { right. split; [exact HFF|]. discriminate. }
    destruct (x =? 3).
    + right. split; [exact HFF|]. intros q.
      destruct (enter_dead (set_ret (set_rd t rs) KNOT_ENOMEM)) as (t1 & E1 & D1 & _); [discriminate|].
      unfold delete_ch. rewrite E1. cbn [negb]. destruct (_ && _); [discriminate|]. intros [= <-]. cbn [fst]. left.
      apply write_ch_hdead. exact D1.
    + assert (V' : env F (set_ret (set_rd t rs) KNOT_EOK)) by (apply (set_rd_env F t x rs E ER)).
      apply (merge_ch_tail F (set_ret (set_rd t rs) KNOT_EOK) k s _ (set_rd_alive t rs A) V' HF HS).
Qed.
