From Verif Require Import Base SerialModel SerialSpec SerialProofs SerialProps JournalModel JournalSpec JournalProofs JournalProofs2 JournalProofs3 JournalProofs4 JournalProofs5 JournalProofs6.

Lemma after_end : forall x l e, x = fst e \/ In x (keys l) -> ~ In (fst e) (keys l) -> after x (l ++ [e]) = after x l ++ [e].
Proof.
  intros x l [k s]. cbn [fst]. induction l as [|[k' s'] r IH]; cbn [app after keys map fst In]; intros H HN.
  - destruct H as [->|[]]. rewrite Z.eqb_refl. reflexivity.
  - destruct (k' =? x) eqn:E; [reflexivity|]. apply IH; [|auto]. destruct H as [H|[H|H]]; [auto|lia|auto].
Qed.

Lemma find_app1 : forall k l k' s, find_ch k (l ++ [(k', s)]) =
  match find_ch k l with Some x => Some x | None => if k =? k' then Some s else None end.
Proof.
  intros k l k' s. induction l as [|[a x] r IH]; cbn [app find_ch]; [reflexivity|]. destruct (k =? a); [reflexivity|exact IH].
Qed.

Section Insert.
Lemma link_unstored : forall d m chain mg k, inv d m chain mg ->
  k = m_to m \/ (chain = [] /\ d_zij d = None /\ mg = None) -> find_ch k (d_chs d) = None.
Proof.
  intros d m chain mg k I [->|(-> & _ & ->)]; [eapply inv_to_none; exact I|]. rewrite (i_chs _ _ _ _ I). reflexivity.
Qed.

Lemma inv_insert : forall d m chain mg ch sz, inv d m chain mg ->
  c_from ch = m_to m \/ (chain = [] /\ d_zij d = None /\ mg = None) ->
  slt (c_from ch) (c_to ch) -> c_from ch <> c_to ch -> 0 < sz -> find_ch (c_to ch) (d_chs d) = None ->
  inv (with_chs d (put_ch (c_from ch) (mkst (c_to ch) sz [ch] true) (d_chs d)))
      (after_insert m (c_from ch) (c_to ch)) (chain ++ [(c_from ch, mkst (c_to ch) sz [ch] true)]) mg.
Proof.
  intros d m chain mg ch sz I HLK HLT HNE HS HTO.
  pose proof (link_unstored _ _ _ _ _ I HLK) as HFR. set (st := mkst (c_to ch) sz [ch] true).
  assert (HFK : ~ In (c_from ch) (keys chain)).
  { apply find_keys. rewrite (i_chs _ _ _ _ I) in HFR. destruct (find_ch (c_from ch) chain); [discriminate|reflexivity]. }
  assert (HTK : ~ In (c_to ch) (keys chain)).
  { apply find_keys. rewrite (i_chs _ _ _ _ I) in HTO. destruct (find_ch (c_to ch) chain); [discriminate|reflexivity]. }
  assert (HPATH : spath (if m_first m =? m_to m then c_from ch else m_first m) (chain ++ [(c_from ch, st)]) (c_to ch)).
  { destruct (m_first m =? m_to m) eqn:EF.
    - rewrite (inv_first_to _ _ _ _ I) by lia. cbn [app spath st s_to]. auto.
    - apply spath_app. exists (m_to m). split; [apply (i_path _ _ _ _ I)|]. cbn [spath st s_to].
      destruct HLK as [H|(-> & _)]; [auto|]. pose proof (i_path _ _ _ _ I) as H. cbn [spath] in H. lia. }
  constructor; cbn [with_chs after_insert m_first m_to m_flushed m_merged m_count m_tov m_mv d_chs d_zij].
  - exact HPATH.
  - apply Forall_app. split; [apply I|]. constructor; [|constructor]. cbn [fst snd st s_to].
    split; [|exact HLT]. unfold entry_ok. cbn [st s_data s_to s_size s_ok leads].
    split; [auto|]. split; [discriminate|]. auto.
  - rewrite keys_app. cbn [keys map fst]. apply NoDup_app_remove_l with (l := []) || idtac.
    pose proof (i_nd _ _ _ _ I) as ND. clear -ND HFK. unfold keys in *. induction (map fst chain) as [|x r IH]; cbn [app].
    + constructor; [auto|constructor].
    + apply NoDup_cons_iff in ND as [N1 N2]. constructor; [|apply IH; [intros A; apply HFK; right; exact A|exact N2]].
      intros A. apply in_app_or in A as [A|[A|[]]]; [auto|]. apply HFK. left. congruence.
  - rewrite keys_app. intros A. apply in_app_or in A as [A|[A|[]]]; [auto|]. cbn [fst] in A. auto.
  - rewrite app_length. cbn [length]. rewrite (i_count _ _ _ _ I). lia.
  - intros k. rewrite (find_put _ _ _ _ HFR). rewrite find_app1. rewrite (i_chs _ _ _ _ I).
    destruct (k =? c_from ch) eqn:E; [|destruct (find_ch k chain); reflexivity].
    apply Z.eqb_eq in E. subst k. apply find_keys in HFK. rewrite HFK. reflexivity.
  - pose proof (i_mg _ _ _ _ I) as G. destruct mg as [M|]; [|exact G]. destruct G as (G1 & G2 & G3 & G4 & G5).
    split; [exact G1|]. split; [exact G2|]. 
    assert (HST : forall k, find_ch k (d_chs d) = None -> m_merged m <> k).
    { intros k H E. subst k. rewrite (i_chs _ _ _ _ I) in H. apply find_keys in G3. rewrite G3, Z.eqb_refl in H. discriminate. }
    split. { rewrite keys_app. intros A. apply in_app_or in A as [A|[A|[]]]; [auto|]. cbn [fst] in A. symmetry in A. revert A. apply HST. exact HFR. }
    split; [apply HST; exact HTO|exact G5].
  - discriminate.
  - right. rewrite keys_app. apply in_or_app. pose proof (i_upto _ _ _ _ I) as HU.
    unfold upto in *. cbn [with_chs after_insert d_zij m_flushed] in *.
    destruct (d_zij d) as [z|] eqn:EZ.
    + destruct HU as [HU|HU]; [right; left; cbn [fst]|left; exact HU].
      destruct HLK as [H|(_ & H & _)]; [congruence|discriminate].
    + destruct (m_first m =? m_to m) eqn:EF; [right; left; reflexivity|].
      destruct HU as [HU|HU]; [right; left; cbn [fst]|left; exact HU].
      destruct HLK as [H|(-> & _)]; [congruence|]. pose proof (i_path _ _ _ _ I) as H. cbn [spath] in H. lia.
  - apply I.
Qed.

Definition cont_h (h : hist) (ch : change) : hist :=
  mkh (h_file h) (h_since h ++ [ch])
      (match h_zone h with Some (s, id, l) => Some (s, id, l ++ [ch]) | None => None end) (Some (c_to ch)).
Definition fresh_h (ch : change) : hist := mkh (c_from ch) [ch] None (Some (c_to ch)).
Definition extra_h (x : change) (to : Z) : hist := mkh (c_from x) [x] None (Some to).

Lemma gh_insert : forall h d m chain mg ch sz l, inv d m chain mg -> gh h d m chain mg -> c_from ch = m_to m ->
  gh (cont_h h ch) (with_chs d l) (after_insert m (c_from ch) (c_to ch))
     (chain ++ [(c_from ch, mkst (c_to ch) sz [ch] true)]) mg.
Proof.
  intros h d m chain mg ch sz l I G HLK. set (st := mkst (c_to ch) sz [ch] true).
  assert (HE : ~ In (c_from ch) (keys chain)) by (rewrite HLK; apply I).
  pose proof (i_upto _ _ _ _ I) as HU. rewrite <- HLK in HU.
  assert (HFL : flat [(c_from ch, st)] = [ch]) by reflexivity.
  unfold gh, upto in *. cbn [with_chs after_insert d_zij m_flushed m_merged cont_h h_zone h_file h_since].
  destruct (d_zij d) as [z|] eqn:EZ.
  - rewrite G. rewrite (after_end _ chain (c_from ch, st) HU HE), flat_app, HFL, app_assoc. reflexivity.
  - destruct G as (GZ & G). rewrite GZ. split; [reflexivity|].
    assert (HF : (if m_first m =? m_to m then c_from ch else m_flushed m) = m_flushed m).
    { destruct (m_first m =? m_to m) eqn:EF; [|reflexivity]. rewrite (inv_first_to _ _ _ _ I) in HU by lia. destruct HU as [HU|[]]. congruence. }
    rewrite HF. rewrite (after_end _ chain (c_from ch, st) HU HE), flat_app, HFL.
    destruct G as [(M & G1 & G2 & G3 & G4)|(G1 & G2)].
    + left. exists M. rewrite G4, app_assoc. auto.
    + right. rewrite G2. auto.
Qed.
Lemma gh_fresh : forall d m ch sz l, d_zij d = None -> m_first m = m_to m ->
  gh (fresh_h ch) (with_chs d l) (after_insert m (c_from ch) (c_to ch)) [(c_from ch, mkst (c_to ch) sz [ch] true)] None.
Proof.
  intros d m ch sz l HZ HF. unfold gh. cbn [with_chs after_insert d_zij m_flushed fresh_h h_zone h_file h_since]. rewrite HZ, HF, Z.eqb_refl.
  split; [reflexivity|]. right. split; [reflexivity|]. cbn [after]. rewrite Z.eqb_refl. reflexivity.
Qed.

Lemma inv_extra : forall d m chain x sz, inv d m chain None -> d_zij d = None -> m_mv m = false -> m_tov m = true -> c_to x = m_to m ->
  c_from x <> c_to x -> 0 < sz -> ~ In (c_from x) (keys chain) ->
  inv (with_chs d (put_ch (c_from x) (mkst (c_to x) sz [x] true) (d_chs d)))
      (mkmd (m_first m) (m_to m) (c_to x) (c_from x) (m_count m) (m_tov m) true) chain (Some (mkst (c_to x) sz [x] true)).
Proof.
  intros d m chain x sz I HZ HMV HTV HTO HNE HS HK.
  constructor; cbn [with_chs m_first m_to m_flushed m_merged m_count m_tov m_mv d_chs d_zij]; try apply I.
  - intros k. assert (HFR : find_ch (c_from x) (d_chs d) = None).
    { rewrite (i_chs _ _ _ _ I). apply find_keys in HK. rewrite HK. reflexivity. }
    rewrite (find_put _ _ _ _ HFR). rewrite (i_chs _ _ _ _ I).
    destruct (k =? c_from x) eqn:E; [|destruct (find_ch k chain); reflexivity].
    apply Z.eqb_eq in E. subst k. apply find_keys in HK. rewrite HK. reflexivity.
  - split; [reflexivity|]. split; [|split; [exact HK|split; [congruence|exact HZ]]].
    unfold entry_ok. cbn [s_data s_to s_size s_ok leads]. split; [auto|]. split; [discriminate|]. auto.
  - left. unfold upto. cbn [with_chs d_zij m_flushed]. rewrite HZ. exact HTO.
Qed.
End Insert.

(** The result of an insertion *)
Definition ended (F : Prop) (h hn : hist) (depth : Z) (r : res (list db * Z)) : Prop :=
  (exists l ret, r = Ok (l, ret) /\
     ((ret = KNOT_EOK /\ exists d', l = [d'] /\ good hn d' /\ m_count (md_of d') <= depth) \/
      (ret <> KNOT_EOK /\ l = []) \/
      (ret = KNOT_EBUSY /\ exists d', l = [d'] /\ good h d'))) \/
  (F /\ forall l ret, r = Ok (l, ret) -> ret <> KNOT_EOK /\ l = []).

Lemma contains_ch_alive : forall F t k, alive t -> env F t ->
  (exists fl, contains_ch t k = (set_fl t fl, match find_ch k (d_chs (t_db t)) with Some _ => true | None => false end) /\
     alive (set_fl t fl) /\ env F (set_fl t fl)) \/
  (F /\ exists t', contains_ch t k = (t', false) /\ hdead (t_log t) t').
Proof.
  intros F t k A E. unfold contains_ch.
  destruct (enter_alive F t A E) as [(fl & E1 & A1 & V1)|(HFF & t1 & E1 & D1)]; rewrite E1.
  - left. exists fl. auto.
  - right. split; [exact HFF|]. eauto.
Qed.

Definition insert_fin (t : txn) (m : md) (i : input) (extra : option input) : res (list db * Z) :=
  let ch := i_ch i in
  let t := write_ch t (c_from ch) (i_stored i) in
  let m := after_insert m (c_from ch) (c_to ch) in
  let* (t, m) :=
    match extra with
    | None => Ok (t, m)
    | Some x =>
        let t := write_ch t (c_from (i_ch x)) (i_stored x) in
        let* m := after_extra m (c_from (i_ch x)) (c_to (i_ch x)) in Ok (t, m)
    end in
  let t := commit (store_md t m) in
  Ok (t_log t, t_ret t).

Lemma insert_fin_dead : forall t m i extra L, dead L t -> extra = None \/ m_mv m = false ->
  exists ret, insert_fin t m i extra = Ok (L, ret) /\ ret <> KNOT_EOK /\ (t_ret t <> KNOT_EOK -> ret = t_ret t).
Proof.
  intros t m i extra L D HX.
  assert (HH : forall t m, t_ret t <> KNOT_EOK -> t_ret (commit (store_md t m)) = t_ret t).
  { clear. intros t m H. unfold store_md. destruct (enter_dead t H) as (t1 & E1 & D1 & R1). rewrite E1.
    unfold commit. destruct (enter_dead t1) as (t2 & E2 & D2 & R2); [congruence|]. rewrite E2. congruence. }
  assert (HW : forall t k s, t_ret t <> KNOT_EOK -> t_ret (write_ch t k s) = t_ret t).
  { clear. intros t k s H. unfold write_ch. destruct (enter_dead t H) as (t1 & E1 & D1 & R1). rewrite E1. exact R1. }
  unfold insert_fin. cbv zeta.
  assert (D2 := write_ch_dead L t (c_from (i_ch i)) (i_stored i) D).
  destruct extra as [x|].
  - destruct HX as [HX|HX]; [discriminate|]. unfold after_extra, after_insert. cbn [m_mv]. rewrite HX. cbn [rbind].
    assert (D3 := write_ch_hdead L _ (c_from (i_ch x)) (i_stored x) D2).
    destruct (commit_hdead L _ (store_hdead L _ (mkmd (if m_first m =? m_to m then c_from (i_ch i) else m_first m) (c_to (i_ch i)) (c_to (i_ch x)) (c_from (i_ch x)) (m_count m + 1) true true) D3)) as [C1 C2].
    eexists. split; [f_equal; f_equal; apply C1|]. split; [exact C2|]. intros H. pose proof (HW t (c_from (i_ch i)) (i_stored i) H) as Q1.
    assert (Q2 : t_ret (write_ch (write_ch t (c_from (i_ch i)) (i_stored i)) (c_from (i_ch x)) (i_stored x)) = t_ret t) by (rewrite HW; congruence).
    rewrite HH; congruence.
  - cbn [rbind]. destruct (commit_hdead L _ (store_hdead L _ (after_insert m (c_from (i_ch i)) (c_to (i_ch i))) D2)) as [C1 C2].
    eexists. split; [f_equal; f_equal; apply C1|]. split; [exact C2|]. intros H. pose proof (HW t (c_from (i_ch i)) (i_stored i) H) as Q1. rewrite HH; congruence.
Qed.
Lemma insert_fin_dead' : forall t m i extra L l ret, dead L t -> insert_fin t m i extra = Ok (l, ret) -> ret <> KNOT_EOK /\ l = L.
Proof.
  intros t m i extra L l ret D E.
  assert (HX : extra = None \/ m_mv m = false).
  { destruct extra as [x|]; [|left; reflexivity]. destruct (m_mv m) eqn:EM; [|right; reflexivity]. exfalso. revert E.
    unfold insert_fin, after_extra, after_insert. cbn [m_mv]. rewrite EM. discriminate. }
  destruct (insert_fin_dead t m i extra L D HX) as (r & E' & H & _). rewrite E' in E. injection E as <- <-. auto.
Qed.

Lemma insert_end_eq : forall c t m i extra, insert_end c t m i extra =
  (let '(t, cyc) := contains_ch t (c_to (i_ch i)) in
   let* (t, m) := if cyc then fix_occupation t m (cf_flush c) (cf_msize c) (cf_occ c) (2 ^ 63 - 1) 1 else Ok (t, m) in
   insert_fin t m i extra).
Proof. reflexivity. Qed.
Lemma insert_end_dead : forall c t m i extra L, dead L t -> extra = None \/ m_mv m = false ->
  exists ret, insert_end c t m i extra = Ok (L, ret) /\ ret <> KNOT_EOK /\ (t_ret t <> KNOT_EOK -> ret = t_ret t).
Proof.
  intros c t m i extra L D HX. rewrite insert_end_eq. destruct (contains_ch_dead L t (c_to (i_ch i)) D) as (t1 & E1 & D1).
  assert (HR1 : t_ret t <> KNOT_EOK -> t_ret t1 = t_ret t).
  { intros H. revert E1. unfold contains_ch. destruct (enter_dead t H) as (t2 & E2 & D2 & R2). rewrite E2. intros [= <-]. exact R2. }
  rewrite E1. cbn [rbind]. destruct (insert_fin_dead t1 m i extra L (or_introl D1) HX) as (r & E & H1 & H2).
  exists r. split; [exact E|]. split; [exact H1|]. intros H. rewrite H2; [auto|]. rewrite HR1; auto.
Qed.
Lemma insert_end_dead' : forall c t m i extra L l ret, dead L t ->
  insert_end c t m i extra = Ok (l, ret) -> ret <> KNOT_EOK /\ l = L.
Proof.
  intros c t m i extra L l ret D. rewrite insert_end_eq. destruct (contains_ch_dead L t (c_to (i_ch i)) D) as (t1 & E1 & D1).
  rewrite E1. cbn [rbind]. apply insert_fin_dead'. left. exact D1.
Qed.
Lemma insert_cont_dead : forall c t m i extra L, dead L t -> extra = None \/ m_mv m = false ->
  exists ret, insert_cont c t m i extra = Ok (L, ret) /\ ret <> KNOT_EOK /\ (t_ret t <> KNOT_EOK -> ret = t_ret t).
Proof.
  intros c t m i extra L D HX. unfold insert_cont. destruct (m_tov m && _); [|apply insert_end_dead; assumption].
  destruct (contains_zij_dead L t D) as (t1 & E1 & D1). rewrite E1. cbv iota.
  assert (HR1 : t_ret t <> KNOT_EOK -> t_ret t1 = t_ret t).
  { intros H. revert E1. unfold contains_zij, serial_to_zij. destruct (enter_dead t H) as (t2 & E2 & D2 & R2). rewrite E2. intros [= <-]. exact R2. }
  destruct (insert_end_dead c (del_zone t1) md0 i extra L (or_introl (del_zone_hdead L t1 D1)) (or_intror eq_refl)) as (r & E & H1 & H2).
  exists r. split; [exact E|]. split; [exact H1|]. intros H.
  assert (HD : t_ret (del_zone t1) = t_ret t1).
  { unfold del_zone. destruct (enter_dead t1) as (t2 & E2 & D2 & R2); [rewrite HR1; auto|]. rewrite E2. exact R2. }
  rewrite H2; rewrite HD, HR1; auto.
Qed.
Lemma insert_cont_dead' : forall c t m i extra L l ret, dead L t ->
  insert_cont c t m i extra = Ok (l, ret) -> ret <> KNOT_EOK /\ l = L.
Proof.
  intros c t m i extra L l ret D. unfold insert_cont. destruct (m_tov m && _); [|apply insert_end_dead'; assumption].
  destruct (contains_zij_dead L t D) as (t1 & E1 & D1). rewrite E1. cbv iota.
  apply insert_end_dead'. left. apply del_zone_hdead. exact D1.
Qed.

Definition next_h (h hn : hist) (G : Prop) (d : db) (m : md) (chain : list (Z * stored)) (mg : option stored) (i : input) (extra : option input) : Prop :=
  match extra with
  | None => (G /\ c_from (i_ch i) = m_to m /\ hn = cont_h h (i_ch i)) \/
            (chain = [] /\ d_zij d = None /\ mg = None /\ hn = fresh_h (i_ch i))
  | Some x => mg = None /\ d_zij d = None /\ hn = extra_h (i_ch x) (c_to (i_ch i)) /\ c_to (i_ch x) = c_to (i_ch i) /\
              slt (c_from (i_ch x)) (c_to (i_ch x)) /\ c_from (i_ch x) <> c_from (i_ch i) /\ 0 < i_ssize x /\
              find_ch (c_from (i_ch x)) (d_chs d) = None
  end.
Lemma slt_asym : forall a b, slt a b -> slt b a -> False.
Proof.
  intros a b (H1 & H2 & H3) (_ & _ & H4). pose proof (proj1 (c16_compare_antisym a b H1 H2)) as [H _]. specialize (H H3). congruence.
Qed.
Lemma slt_ne : forall a b, slt a b -> a <> b.
Proof. intros a b H ->. exact (slt_asym _ _ H H). Qed.

Lemma insert_fin_alive : forall F h hn (G : Prop) t m chain mg i extra depth, alive t -> env F t -> t_log t = [] ->
  inv (t_db t) m chain mg -> (G -> gh h (t_db t) m chain mg) -> m_count m <= depth - 1 ->
  slt (c_from (i_ch i)) (c_to (i_ch i)) -> 0 < i_ssize i ->
  c_from (i_ch i) = m_to m \/ (chain = [] /\ d_zij (t_db t) = None /\ mg = None) ->
  find_ch (c_to (i_ch i)) (d_chs (t_db t)) = None -> next_h h hn G (t_db t) m chain mg i extra ->
  ended F h hn depth (insert_fin t m i extra).
Proof.
  intros F h hn G t m chain mg i extra depth A E HLOG I HG HC HLT HSZ HLK HTO HN.
  unfold insert_fin. cbv zeta. set (ch := i_ch i) in *.
  pose proof (slt_ne _ _ HLT) as HNE.
  pose proof (inv_insert _ _ _ _ ch (i_ssize i) I HLK HLT HNE HSZ HTO) as I2.
  change (mkst (c_to ch) (i_ssize i) [ch] true) with (i_stored i) in I2.
  assert (HDIE : forall t1 (f : txn -> res (list db * Z)), F -> hdead [] t1 ->
     (forall l ret, f t1 = Ok (l, ret) -> ret <> KNOT_EOK /\ l = []) -> ended F h hn depth (f t1)) by (intros; right; auto).
  destruct (write_ch_alive F t (c_from ch) (i_stored i) A E) as [(A1 & V1 & (S1 & S2) & D1)|(HF & D1)].
  2:{ right. split; [exact HF|]. rewrite HLOG in D1. intros l ret. destruct extra as [x|].
      - destruct (after_extra _ _ _) as [m3| | |]; cbn [rbind]; try discriminate. intros [= <- <-].
        destruct (commit_hdead [] _ (store_hdead [] _ m3 (write_ch_hdead [] _ (c_from (i_ch x)) (i_stored x) D1))) as [[C0 C1] C2]. auto.
      - cbn [rbind]. intros [= <- <-]. destruct (commit_hdead [] _ (store_hdead [] _ (after_insert m (c_from ch) (c_to ch)) D1)) as [[C0 C1] C2]. auto. }
  set (t1 := write_ch t (c_from ch) (i_stored i)) in *. rewrite <- D1 in I2.
  set (m2 := after_insert m (c_from ch) (c_to ch)) in *.
  set (chain2 := chain ++ [(c_from ch, i_stored i)]) in *.
  assert (HCN : chain2 <> []) by (subst chain2; destruct chain; discriminate).
  destruct extra as [x|]; cbn [rbind].
  - destruct HN as (-> & HZ & -> & X1 & X2 & X3 & X4 & X5).
    assert (HMV : m_mv m2 = false) by (apply (i_mg _ _ _ _ I2)).
    unfold after_extra. rewrite HMV. cbn [rbind].
    assert (HZ1 : d_zij (t_db t1) = None) by (rewrite D1; exact HZ).
    assert (HK : ~ In (c_from (i_ch x)) (keys chain2)).
    { apply find_keys. subst chain2. rewrite find_app1. rewrite (i_chs _ _ _ _ I) in X5.
      destruct (find_ch (c_from (i_ch x)) chain); [discriminate|]. destruct (c_from (i_ch x) =? c_from ch) eqn:EX; [exfalso; apply X3; apply Z.eqb_eq; exact EX|reflexivity]. }
    pose proof (inv_extra _ _ _ (i_ch x) (i_ssize x) I2 HZ1 HMV eq_refl X1 (slt_ne _ _ X2) X4 HK) as I3.
    change (mkst (c_to (i_ch x)) (i_ssize x) [i_ch x] true) with (i_stored x) in I3.
    set (m3 := mkmd (m_first m2) (m_to m2) (c_to (i_ch x)) (c_from (i_ch x)) (m_count m2) (m_tov m2) true) in *.
    destruct (write_ch_alive F t1 (c_from (i_ch x)) (i_stored x) A1 V1) as [(A2 & V2 & (S3 & S4) & D2)|(HF & D2)].
    2:{ right. split; [exact HF|]. rewrite S2, HLOG in D2. intros l ret [= <- <-].
        destruct (commit_hdead [] _ (store_hdead [] _ m3 D2)) as [[C0 C1] C2]. auto. }
    destruct (store_commit F _ m3 A2 V2) as [(R1 & R2)|(HF & D3 & R)].
    2:{ right. split; [exact HF|]. rewrite S4, S2, HLOG in D3. intros l ret [= <- <-]. destruct D3 as [D3 D4]. auto. }
    left. eexists _, _. split; [reflexivity|]. left. split; [exact R1|]. rewrite R2, S4, S2, HLOG. eexists. split; [reflexivity|].
    split; [|cbn [md_of d_md m3 m_count m2 after_insert]; lia].
    exists m3, chain2, (Some (i_stored x)). split; [reflexivity|]. rewrite <- D2 in I3.
    split. { eapply inv_ext; [exact I3|reflexivity|reflexivity]. }
    cbn [m3 m_tov m2 after_insert d_md]. split; [reflexivity|].
    split. { unfold gh. cbn [d_zij m_flushed m_merged extra_h h_zone h_file h_since]. rewrite D2. cbn [with_chs d_zij]. rewrite HZ1.
             split; [reflexivity|]. left. exists (i_stored x). split; [reflexivity|]. split; [reflexivity|]. split; [reflexivity|].
             replace (m_flushed m3) with (c_to ch) by (symmetry; exact X1). rewrite (after_none (c_to ch) chain2 (i_end _ _ _ _ I2)). reflexivity. }
    split; [reflexivity|]. split; [left; exact HCN|]. auto.
  - destruct (store_commit F _ m2 A1 V1) as [(R1 & R2)|(HF & D3 & R)].
    2:{ right. split; [exact HF|]. rewrite S2, HLOG in D3. intros l ret [= <- <-]. destruct D3 as [D3 D4]. auto. }
    left. eexists _, _. split; [reflexivity|]. left. split; [exact R1|]. rewrite R2, S2, HLOG. eexists. split; [reflexivity|].
    split; [|cbn [md_of d_md m2 after_insert m_count]; lia].
    exists m2, chain2, mg. split; [reflexivity|].
    split. { eapply inv_ext; [exact I2|reflexivity|reflexivity]. }
    cbn [m_tov m2 after_insert d_md]. split; [reflexivity|].
    destruct HN as [(g & HL & ->)|(-> & HZ & -> & ->)].
    + split. { rewrite D1. apply (gh_insert h (t_db t) m chain mg ch (i_ssize i) (put_ch (c_from ch) (i_stored i) (d_chs (t_db t))) I (HG g) HL). }
      split; [reflexivity|]. split; [left; exact HCN|]. auto.
    + split. { rewrite D1. apply (gh_fresh (t_db t) m ch (i_ssize i) (put_ch (c_from ch) (i_stored i) (d_chs (t_db t))) HZ). apply (i_path _ _ _ _ I). }
      split; [reflexivity|]. split; [left; exact HCN|]. auto.
Qed.

Lemma u_minus_0 : forall a b, 0 <= a <= b -> b < 2 ^ 64 -> u_minus a b = 0.
Proof. intros a b H1 H2. unfold u_minus, u64. rewrite Z.mod_small by lia. lia. Qed.

(** The serial doesn't come back, or everything is deleted first *)
Definition cycle (F : Prop) (h : hist) (G : Prop) (c : conf) (t : txn) (m : md) (chain : list (Z * stored)) (mg : option stored) (to : Z) : Prop :=
  find_ch to (d_chs (t_db t)) = None \/
  (ready h G (cf_flush c) t m chain mg /\ (cf_flush c = true \/ upto (t_db t) m = m_to m) /\
   (mg <> None -> m_merged m <> to) /\ (unsafe (t_db t) m -> F)).

Lemma ready_fl : forall h G fl t m chain mg f, ready h G fl t m chain mg -> ready h G fl (set_fl t f) m chain mg.
Proof. intros h G fl t m chain mg f H. exact H. Qed.

Lemma insert_end_alive : forall F h hn (G : Prop) c t m chain mg i extra, alive t -> env F t -> t_log t = [] ->
  inv (t_db t) m chain mg -> (G -> gh h (t_db t) m chain mg) -> h_last h = Some (m_to m) \/ ~ G -> (G -> extra = None) ->
  0 < cf_msize c -> m_count m <= cf_depth c - 1 ->
  slt (c_from (i_ch i)) (c_to (i_ch i)) -> 0 < i_ssize i ->
  c_from (i_ch i) = m_to m \/ (chain = [] /\ d_zij (t_db t) = None /\ mg = None) ->
  cycle F h G c t m chain mg (c_to (i_ch i)) -> (extra <> None -> upto (t_db t) m = m_to m) ->
  next_h h hn G (t_db t) m chain mg i extra ->
  ended F h hn (cf_depth c) (insert_end c t m i extra).
Proof.
  intros F h hn G c t m chain mg i extra A E HLOG I HG HL HGX HMS HC HLT HSZ HLK HCY HEX HN.
  rewrite insert_end_eq.
  destruct (contains_ch_alive F t (c_to (i_ch i)) A E) as [(fs & E1 & A1 & V1)|(HF & t1 & E1 & D1)]; rewrite E1.
  2:{ right. split; [exact HF|]. rewrite HLOG in D1. cbn [rbind]. intros l ret. apply insert_fin_dead'. left. exact D1. }
  destruct (find_ch (c_to (i_ch i)) (d_chs (t_db t))) as [sx|] eqn:EF.
  2:{ cbn [rbind]. eapply insert_fin_alive; try eassumption. }
  destruct HCY as [HCY|(HRD & HFM & HMM & HUS)]; [rewrite HCY in EF; discriminate EF|].
  assert (HTO : c_from (i_ch i) = m_to m).
  { destruct HLK as [H|(-> & _ & ->)]; [exact H|]. rewrite (i_chs _ _ _ _ I) in EF. discriminate EF. }
  assert (HIN : find_ch (c_to (i_ch i)) chain <> None).
  { rewrite (i_chs _ _ _ _ I) in EF. destruct (find_ch (c_to (i_ch i)) chain); [discriminate|].
    destruct mg as [M|]; [|discriminate EF]. specialize (HMM ltac:(discriminate)). destruct (c_to (i_ch i) =? m_merged m) eqn:E2; [lia|discriminate EF]. }
  assert (HCP : 1 <= m_count m).
  { rewrite (i_count _ _ _ _ I). destruct chain; [exfalso; apply HIN; reflexivity|cbn [length]; lia]. }
  unfold fix_occupation.
  assert (HFU : (length chain + (if (upto (t_db (set_fl t fs)) m =? m_to m)%Z then 0 else 1) < 3 + length (d_chs (t_db (set_fl t fs))))%nat).
  { pose proof (inv_length _ _ _ _ I). change (t_db (set_fl t fs)) with (t_db t). destruct (upto (t_db t) m =? m_to m); lia. }
  assert (HB : m_count m <= 1 + Z.max 0 (u_minus (m_count m) 1)).
  { pose proof (u_minus_ge (m_count m) 1 ltac:(lia)). lia. }
  pose proof (fix_loop_alive F h G (cf_flush c) (cf_msize c) 1 (3 + length (d_chs (t_db (set_fl t fs)))) (set_fl t fs) m chain mg
    (u_minus (cf_occ c) (2 ^ 63 - 1)) (u_minus (m_count m) 1) A1 V1 I HLOG HG (ready_fl _ _ _ _ _ _ _ fs HRD) HL HMS HUS HB HFU) as HFIX.
  destruct HFIX as [([t2 m2] & EQ & HFIX)|[HF HFIX]].
  2:{ right. split; [exact HF|]. intros l ret. destruct (fix_loop _ _ _ _ _ _ _) as [[t2 m2]| | |] eqn:EQ; cbn [rbind]; try discriminate.
      apply insert_fin_dead'. exact (HFIX _ eq_refl). }
  rewrite EQ. cbn [rbind]. change (t_db (set_fl t fs)) with (t_db t) in *.
  destruct HFIX as [(R1 & R2 & R3)|[(R1 & g & d' & R2 & R3)|HFIX]].
  - assert (HX : extra = None \/ m_mv m2 = false).
    { destruct extra as [x|]; [right|left; reflexivity]. rewrite R3 by (apply HEX; discriminate).
      destruct HN as (-> & _). apply (i_mg _ _ _ _ I). }
    destruct (insert_fin_dead t2 m2 i extra [] (or_intror (conj R1 R2)) HX) as (r & EE & N1 & _).
    left. exists [], r. split; [exact EE|]. right. left. auto.
  - assert (R1' : t_ret t2 <> KNOT_EOK) by (rewrite R1; discriminate).
    destruct (insert_fin_dead t2 m2 i extra [d'] (or_intror (conj R1' R2)) (or_introl (HGX g))) as (r & EE & N1 & N2).
    left. exists [d'], r. split; [exact EE|]. right. right. split; [rewrite N2; auto|]. eauto.
  - destruct HFIX as (Q1 & Q2 & (Q3 & Q3') & chain4 & mg4 & Q4 & Q5 & Q6 & Q7 & Q8 & Q9 & Q10 & Q11 & Q12 & Q13).
    change (t_db (set_fl t fs)) with (t_db t) in *. change (t_log (set_fl t fs)) with (t_log t) in *.
    destruct (Q11 HFM) as (-> & Q11b & Q11c).
    assert (HUN : find_ch (c_to (i_ch i)) (d_chs (t_db t2)) = None).
    { rewrite (i_chs _ _ _ _ Q4).
      assert (H4 : find_ch (c_to (i_ch i)) chain4 = None).
      { pose proof (i_count _ _ _ _ Q4) as HCN. destruct chain4 as [|[k s] r]; [reflexivity|].
        destruct r as [|e r]; [|cbn [length] in HCN; lia].
        pose proof (i_path _ _ _ _ Q4) as HP. cbn [spath] in HP. destruct HP as [_ HP].
        pose proof (i_ok _ _ _ _ Q4) as HO. inversion HO as [|? ? [_ HO1] _]; subst. cbn [fst snd] in HO1.
        rewrite HP, Q6, <- HTO in HO1. cbn [find_ch]. destruct (c_to (i_ch i) =? k) eqn:EK; [|reflexivity].
        apply Z.eqb_eq in EK. subst k. exfalso. exact (slt_asym _ _ HLT HO1). }
      rewrite H4. destruct mg as [M|]; [|reflexivity]. rewrite Q11b. specialize (HMM ltac:(discriminate)).
      destruct (c_to (i_ch i) =? m_merged m) eqn:E2; [lia|reflexivity]. }
    assert (HDEP : m_count m2 <= cf_depth c - 1) by lia.
    eapply (insert_fin_alive F h hn G t2 m2 chain4 mg); try eassumption.
    + congruence.
    + left. congruence.
    + destruct extra as [x|]; cbn [next_h] in *.
      * destruct HN as (N1 & N2 & N3 & N4 & N5 & N6 & N7 & N8). split; [exact N1|]. split; [apply Q9; exact N2|].
        do 5 (split; [assumption|]). destruct (find_ch (c_from (i_ch x)) (d_chs (t_db t2))) eqn:EX; [|reflexivity].
        exfalso. specialize (Q8 (c_from (i_ch x))). rewrite EX in Q8. apply Q8; [discriminate|exact N8].
      * destruct HN as [(g & N1 & N2)|(-> & _)]; [left; rewrite Q6; auto|]. exfalso. apply HIN. reflexivity.
Qed.
