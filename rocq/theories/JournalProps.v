(** C19, C20, C21, C22: the journal. The limits within which the promises are kept are in [allowed], see the refutations in the end. *)
From Verif Require Import Base SerialModel SerialSpec SerialProofs SerialProps JournalModel JournalSpec JournalProofs JournalProofs2 JournalProofs3 JournalProofs4 JournalProofs5 JournalProofs6 JournalProofs7 JournalProofs8 JournalProofs9 JournalProofs10 JournalProofs11.

Lemma step_reached : forall h d o fl rd l ret, good h d -> allowed h d o -> ~ In FMem fl -> exec fl rd d o = Ok (l, ret) ->
  (ret = KNOT_EOK /\ good (update h o) (last l d) /\ bound o (last l d)) \/ (ret <> KNOT_EOK /\ l = []) \/ (ret = KNOT_EBUSY /\ good h (last l d)).
Proof.
  intros h d o fl rd l ret HG HA HF E.
  destruct (step_good True h fl rd d o HG HA HF (fun _ => I) (fun _ => I)) as [(l' & ret' & E' & _ & H)|(_ & H)].
  - rewrite E in E'. injection E' as <- <-. exact H.
  - right. left. exact (H l ret E).
Qed.
Lemma reach_good : forall h d, reach h d -> good h d.
Proof.
  intros h d H. induction H as [|h d o fl rd l ret H IH HA HF E]; [apply good_empty|].
  destruct (step_reached h d o fl rd l ret IH HA HF E) as [(-> & K & _)|[(K & ->)|(-> & K)]].
  - rewrite Z.eqb_refl. exact K.
  - replace (ret =? KNOT_EOK) with false by lia. exact IH.
  - exact K.
Qed.

(** ** C19 *)
(** The server's own check of the journal always passes. *)
Theorem c19_sem_check_partial : forall h d, reach h d -> sem_check d = Ok KNOT_EOK.
Proof. intros h d H. eapply good_sem_check, reach_good, H. Qed.

(** The metadata describe the changesets stored: a chain from the first serial to the last one, and at most one
    changeset more, the merged one. *)
Theorem c19_contiguous_partial : forall h d, reach h d -> m_tov (md_of d) = true ->
  let m := md_of d in
  exists ls, contiguous (m_first m) ls (m_to m) /\ Z.of_nat (length ls) = m_count m /\ h_last h = Some (m_to m) /\
    (ls = [] -> d_zij d <> None) /\ (ls <> [] -> read_from d (m_first m) = Ok (ls, KNOT_EOK)) /\
    (d_zij d = None -> m_flushed m = m_to m \/ stores d (m_flushed m)) /\
    (forall k s, find_ch k (d_chs d) = Some s -> s_from s = k /\ s_ok s = true /\ (In s ls \/ (m_mv m = true /\ k = m_merged m))).
Proof.
  intros h d H HT m. destruct (reach_good h d H) as (m' & chain & mg & HM & IV & HGD). subst m. rewrite HM in *. rewrite HT in HGD.
  destruct HGD as (K1 & K2 & K3 & K4 & K5). exists (map snd chain).
  split; [apply spath_contiguous; apply IV|]. split; [rewrite map_length; symmetry; apply IV|]. split; [exact K3|].
  split. { intros E. apply map_eq_nil in E. destruct K4 as [K4|K4]; [contradiction|exact K4]. }
  split. { intros E. rewrite (read_chain d m' chain mg (m_first m') IV K1 HT).
           - rewrite (after_first _ _ _ _ IV). reflexivity.
           - pose proof (i_path _ _ _ _ IV) as HP. destruct chain as [|[k s] r]; [contradiction|]. cbn [spath] in HP. destruct HP as [-> _]. left. reflexivity. }
  split. { intros EZ. pose proof (i_upto _ _ _ _ IV) as HU. unfold upto in HU. rewrite EZ in HU. destruct HU as [HU|HU]; [left; exact HU|right].
           unfold stores. rewrite (i_chs _ _ _ _ IV). destruct (find_ch (m_flushed m') chain) eqn:EF; [discriminate|]. apply find_keys in EF. contradiction. }
  intros k s E. rewrite (i_chs _ _ _ _ IV) in E. destruct (find_ch k chain) as [s'|] eqn:EF.
  - injection E as ->. assert (HIN : In (k, s) chain).
    { clear -EF. induction chain as [|[a x] r IH]; cbn [find_ch] in EF; [discriminate|]. destruct (k =? a) eqn:EK; [|right; auto].
      injection EF as ->. left. apply Z.eqb_eq in EK. congruence. }
    pose proof (i_ok _ _ _ _ IV) as HO. rewrite Forall_forall in HO. destruct (HO _ HIN) as [HE _]. cbn [fst snd] in HE.
    split; [apply entry_from; exact HE|]. split; [apply HE|]. left. apply in_map_iff. exists (k, s). auto.
  - destruct mg as [M|]; [|discriminate]. destruct (k =? m_merged m') eqn:EK; [|discriminate]. injection E as ->. apply Z.eqb_eq in EK. subst k.
    pose proof (i_mg _ _ _ _ IV) as (G1 & G2 & _). split; [apply entry_from; exact G2|]. split; [apply G2|]. auto.
Qed.

(** No assertion fails and no operation is endless, without failures of the system, unless a flush was promised
    and not done with the zone in the journal. *)
Theorem c19_no_crash_partial : forall h d o, reach h d -> allowed h d o ->
  (forall z, d_zij d = Some z -> s_to (z_st z) = m_to (md_of d) -> m_flushed (md_of d) = m_to (md_of d)) ->
  exists l ret, exec [] [] d o = Ok (l, ret).
Proof.
  intros h d o H HA HU.
  destruct (step_good False h [] [] d o (reach_good h d H) HA (fun K => K)) as [(l & ret & E & _)|([] & _)].
  - intros [K|K]; apply K; reflexivity.
  - intros (z & Z1 & Z2 & Z3). apply Z3. apply (HU z Z1 Z2).
  - eauto.
Qed.

(** ** C20 *)
(** Every operation on every database, with any failures: at most one state is committed, and an error leaves the
    journal as it was, except for KNOT_EBUSY. *)
Theorem c20_one_commit : forall fl rd d o l ret, exec fl rd d o = Ok (l, ret) ->
  (l = [] \/ exists d', l = [d']) /\ (ret <> KNOT_EOK -> ret <> KNOT_EBUSY -> l = []).
Proof. intros fl rd d o l ret. apply exec_one. Qed.

(** The zone can always be loaded. *)
Theorem c20_loadable_partial : forall h d, reach h d -> loadable h d.
Proof. intros h d H. apply good_loadable, reach_good, H. Qed.

(** A crash after any number of committed states: the zone can be loaded in the version before the operation, or
    the operation was successful and the zone can be loaded in the version after it; the metadata and the
    changesets agree. *)
Theorem c20_crash_points_partial : forall h d o fl rd l ret n, reach h d -> allowed h d o -> ~ In FMem fl ->
  exec fl rd d o = Ok (l, ret) ->
  let d' := last (firstn n l) d in
  sem_check d' = Ok KNOT_EOK /\ (loadable h d' \/ (ret = KNOT_EOK /\ loadable (update h o) d')).
Proof.
  intros h d o fl rd l ret n H HA HF E. cbv zeta. pose proof (reach_good h d H) as HG.
  assert (HH : last (firstn n l) d = d \/ last (firstn n l) d = last l d).
  { destruct (c20_one_commit fl rd d o l ret E) as [[->|(d' & ->)] _]; destruct n as [|n]; cbn [firstn]; auto.
    destruct n; cbn [firstn]; auto. }
  assert (H0 : sem_check d = Ok KNOT_EOK /\ loadable h d) by (split; [eapply good_sem_check; exact HG|apply good_loadable; exact HG]).
  destruct HH as [-> | ->]; [destruct H0; auto|].
  destruct (step_reached h d o fl rd l ret HG HA HF E) as [(-> & K & _)|[(K & ->)|(-> & K)]].
  - split; [eapply good_sem_check; exact K|]. right. split; [reflexivity|]. apply good_loadable. exact K.
  - cbn [last]. destruct H0; auto.
  - split; [eapply good_sem_check; exact K|]. left. apply good_loadable. exact K.
Qed.
(** After the operation returns *)
Theorem c20_returned_partial : forall h d o fl rd l ret, reach h d -> allowed h d o -> ~ In FMem fl ->
  exec fl rd d o = Ok (l, ret) -> loadable (if ret =? KNOT_EOK then update h o else h) (last l d).
Proof. intros h d o fl rd l ret H HA HF E. apply good_loadable, reach_good. eapply reach_op; eassumption. Qed.

(** ** C21 *)
(** Reading from any serial of any database ends, with at most as many changesets as the metadata say (and the
    merged one), each starting with the serial the previous one ends with. It isn't a success if there is more. *)
Theorem c21_ends : forall d serial,
  read_from d serial = Err KNOT_ENOENT \/
  exists l e, read_from d serial = Ok (l, e) /\ Z.of_nat (length l) <= m_count (md_of d) + 1 /\ follows d serial l /\
    (e = KNOT_EOK -> ~ stores d (last (map s_to l) serial)) /\ (e = KNOT_EOK \/ e = KNOT_ELOOP \/ e = KNOT_EMALF).
Proof.
  intros d serial. unfold read_from. cbv zeta. destruct (negb (m_tov (md_of d))); [auto|].
  destruct (find_ch serial (d_chs d)) as [s|]; [|auto]. destruct (_ || _) eqn:EC; [auto|]. right.
  set (total := m_count (md_of d) + _) in *.
  assert (HT : total <= m_count (md_of d) + 1) by (subst total; destruct (_ && _); lia).
  destruct (read_loop_any (read_fuel total) d serial 0 total) as (l & e & E & H1 & H2 & H3 & H4).
  - lia.
  - unfold read_fuel. lia.
  - exists l, e. split; [exact E|]. split; [lia|]. split; [exact H2|]. split; [|exact H4]. intros He K. apply K. auto.
Qed.
Theorem c21_zone_ends : forall d,
  read_zone d = Err KNOT_ENOENT \/
  exists z l e, read_zone d = Ok (z, l, e) /\ d_zij d = Some z /\ Z.of_nat (length l) <= m_count (md_of d) /\ follows d (s_to (z_st z)) l /\
    (e = KNOT_EOK -> ~ stores d (last (map s_to l) (s_to (z_st z)))).
Proof.
  intros d. unfold read_zone. cbv zeta. destruct (negb (m_tov (md_of d))); [auto|]. destruct (d_zij d) as [z|]; [|auto].
  destruct (0 + 1 >? m_count (md_of d) + 1) eqn:EC; [auto|]. right.
  destruct (negb (s_ok (z_st z))).
  - exists z, [], KNOT_EMALF. split; [reflexivity|]. split; [reflexivity|]. cbn [length follows]. split; [lia|]. split; [exact I|discriminate].
  - destruct (read_loop_any (read_fuel (m_count (md_of d) + 1)) d (s_to (z_st z)) 1 (m_count (md_of d) + 1)) as (l & e & E & H1 & H2 & H3 & H4).
    + lia.
    + unfold read_fuel. lia.
    + exists z, l, e. rewrite E. split; [reflexivity|]. split; [reflexivity|]. split; [lia|]. split; [exact H2|]. intros He K. apply K. auto.
Qed.

(** Reading from a stored serial is a success and gives changesets one after another; to the last serial, unless it
    starts with a merged changeset which doesn't belong to the zone file. *)
Theorem c21_contiguous_partial : forall h d serial, reach h d ->
  (~ (stores d serial /\ m_tov (md_of d) = true) /\ read_from d serial = Err KNOT_ENOENT) \/
  exists l b, read_from d serial = Ok (l, KNOT_EOK) /\ l <> [] /\ contiguous serial l b /\
    (m_mv (md_of d) = false \/ serial <> m_merged (md_of d) \/ serial = h_file h -> h_last h = Some b).
Proof.
  intros h d serial H. destruct (reach_good h d H) as (m & chain & mg & HM & IV & HGD). rewrite HM. destruct (m_tov m) eqn:ET.
  2:{ left. split; [intros [_ K]; discriminate K|]. unfold read_from. rewrite HM, ET. reflexivity. }
  destruct HGD as (K1 & K2 & K3 & K4 & K5).
  destruct (read_good d m chain mg serial IV K1 ET) as [(Q1 & Q2)|[(Q1 & Q2)|(M & l & b & -> & -> & Q2 & Q3)]].
  - left. split; [intros [K _]; apply K; exact Q1|exact Q2].
  - right. exists (map snd (after serial chain)), (m_to m). split; [exact Q2|].
    split. { destruct (after_in serial chain Q1) as (s & r & ->). discriminate. }
    split; [|intros _; exact K3]. apply spath_contiguous.
    + eapply after_path; [apply (i_path _ _ _ _ IV)|right; exact Q1|apply (i_end _ _ _ _ IV)].
    + destruct (after_app serial chain) as (p & E & _). eapply Forall_suffix; [exact E|apply (i_ok _ _ _ _ IV)].
  - right. exists (M :: l), b. split; [exact Q2|]. split; [discriminate|]. split; [exact Q3|].
    pose proof (i_mg _ _ _ _ IV) as (G1 & G2 & G3 & G4 & G5). intros [K|[K|K]]; [congruence|contradiction|].
    unfold gh in K2. rewrite G5 in K2. pose proof (i_upto _ _ _ _ IV) as HU. unfold upto in HU. rewrite G5 in HU.
    destruct K2 as (_ & [(M' & E & L1 & L2 & L3)|(L1 & _)]).
    + injection E as <-. rewrite <- L1 in HU. rewrite (read_merged d m chain M IV K1 ET HU) in Q2. injection Q2 as <-.
      cbn [contiguous] in Q3. destruct Q3 as (_ & _ & Q3). rewrite K3. f_equal.
      assert (Q4 : contiguous (s_to M) (map snd (after (s_to M) chain)) (m_to m)).
      { apply spath_contiguous.
        - eapply after_path; [apply (i_path _ _ _ _ IV)|exact HU|apply (i_end _ _ _ _ IV)].
        - destruct (after_app (s_to M) chain) as (p & E & _). eapply Forall_suffix; [exact E|apply (i_ok _ _ _ _ IV)]. }
      revert Q3 Q4. generalize (map snd (after (s_to M) chain)) as l. generalize (s_to M) as a. clear.
      intros a l. revert a. induction l as [|s r IH]; cbn [contiguous]; intros a Q3 Q4; [congruence|]. destruct Q3 as (_ & _ & Q3), Q4 as (_ & _ & Q4). eauto.
    + exfalso. rewrite <- K in L1. destruct HU as [HU|HU]; [congruence|]. apply G3. rewrite L1. exact HU.
Qed.

(** ** C22 *)
Theorem c22_depth_partial : forall h d c i extra fl rd l, reach h d -> allowed h d (OInsert c i extra) -> ~ In FMem fl ->
  exec fl rd d (OInsert c i extra) = Ok (l, KNOT_EOK) -> m_count (md_of (last l d)) <= cf_depth c.
Proof.
  intros h d c i extra fl rd l H HA HF E.
  destruct (step_reached h d _ fl rd l KNOT_EOK (reach_good h d H) HA HF E) as [(_ & _ & K)|[(K & _)|(K & _)]]; [exact K|contradiction|discriminate K].
Qed.
(** Whatever the insertion deletes, the changes since the zone file or since the zone in the journal are still there. *)
Theorem c22_nothing_lost_partial : forall h d c i fl rd l last_serial, reach h d -> allowed h d (OInsert c i None) -> ~ In FMem fl ->
  h_last h = Some last_serial -> last_serial = c_from (i_ch i) -> h_zone h = None ->
  exec fl rd d (OInsert c i None) = Ok (l, KNOT_EOK) ->
  exists ls, read_from (last l d) (h_file h) = Ok (ls, KNOT_EOK) /\ all_data ls = h_since h ++ [i_ch i].
Proof.
  intros h d c i fl rd l s H HA HF HL HS HZ E.
  pose proof (c20_returned_partial h d _ fl rd l KNOT_EOK H HA HF E) as K. rewrite Z.eqb_refl in K. unfold loadable in K. cbn [update] in K.
  rewrite HL, HS, Z.eqb_refl, HZ in K. cbn [h_last h_zone h_file h_since] in K. destruct K as (_ & [(_ & K & _)|K]); [|exact K].
  destruct (h_since h); discriminate K.
Qed.

(** ** A history *)
Definition ex_conf (fl : bool) (depth : Z) : conf := mkconf fl 100000 depth 100 40.
Definition ex_ins (fl : bool) (depth a b : Z) : op := OInsert (ex_conf fl depth) (mkin (mkch a b a) 10 20) None.
Definition ex_extra (fl : bool) (depth a b e : Z) : op :=
  OInsert (ex_conf fl depth) (mkin (mkch a b a) 10 20) (Some (mkin (mkch e b 7) 10 20)).
Definition ex_zone (serial : Z) : op := OZone serial 1 10 20 1000.
(** Operations without failures of the system *)
Fixpoint replay (h : hist) (d : db) (ops : list op) : res (hist * db) :=
  match ops with
  | [] => Ok (h, d)
  | o :: r =>
      let* (l, ret) := exec [] [] d o in replay (if ret =? KNOT_EOK then update h o else h) (last l d) r
  end.
Fixpoint all_allowed (h : hist) (d : db) (ops : list op) : Prop :=
  match ops with
  | [] => True
  | o :: r => allowed h d o /\
      match exec [] [] d o with
      | Ok (l, ret) => all_allowed (if ret =? KNOT_EOK then update h o else h) (last l d) r
      | _ => False
      end
  end.
Lemma replay_reach : forall ops h d h' d', reach h d -> all_allowed h d ops -> replay h d ops = Ok (h', d') -> reach h' d'.
Proof.
  induction ops as [|o r IH]; intros h d h' d' H HA E; cbn [replay all_allowed] in *; [injection E as <- <-; exact H|].
  destruct HA as [HA1 HA2]. destruct (exec [] [] d o) as [[l ret]| | |] eqn:EX; cbn [rbind] in E; try contradiction.
  eapply IH; [|exact HA2|exact E]. eapply reach_op; [exact H|exact HA1| |exact EX]. intros [].
Qed.

(** Merging of the oldest changesets, without flushing: *)
Definition ex_ops : list op := [ex_ins false 2 1 2; ex_ins false 2 2 3; ex_ins false 2 3 4; ex_ins false 2 4 5].
Ltac sane_tac := unfold sane, ex_conf; cbn [cf_depth cf_occ cf_usage cf_msize i_size i_ssize i_ch c_from c_to]; repeat split; lia.
Example c19_ex_allowed : all_allowed hist0 db0 ex_ops.
Proof.
  unfold ex_ops, ex_ins. cbn [all_allowed allowed].
  split. { split; [sane_tac|]. left. vm_compute. repeat split; try discriminate. intros K; apply K; reflexivity. }
  match goal with |- context [exec [] [] ?d ?o] => let x := eval vm_compute in (exec [] [] d o) in change (exec [] [] d o) with x end. cbv iota beta.
  cbn [Z.eqb last all_allowed allowed].
  split. { split; [sane_tac|]. left. vm_compute. repeat split; try discriminate. intros K; apply K; reflexivity. }
  match goal with |- context [exec [] [] ?d ?o] => let x := eval vm_compute in (exec [] [] d o) in change (exec [] [] d o) with x end. cbv iota beta.
  cbn [Z.eqb last all_allowed allowed].
  split. { split; [sane_tac|]. right. split; [left; reflexivity|]. split; [intros K; apply K; reflexivity|]. intros K. vm_compute in K. discriminate K. }
  match goal with |- context [exec [] [] ?d ?o] => let x := eval vm_compute in (exec [] [] d o) in change (exec [] [] d o) with x end. cbv iota beta.
  cbn [Z.eqb last all_allowed allowed].
  split. { split; [sane_tac|]. right. split; [left; reflexivity|]. split; [intros K; apply K; reflexivity|]. intros _. reflexivity. }
  vm_compute. exact I.
Qed.
Example c19_ex_reach : exists h d, reach h d /\ h_file h = 1 /\ length (h_since h) = 4%nat /\ m_count (md_of d) = 2 /\ m_mv (md_of d) = true.
Proof.
  destruct (replay hist0 db0 ex_ops) as [[h d]| | |] eqn:E; try (exfalso; vm_compute in E; discriminate E).
  exists h, d. split; [eapply replay_reach; [apply reach_0|apply c19_ex_allowed|exact E]|]. vm_compute in E. injection E as <- <-. repeat split.
Qed.

(** ** What is not true without the restrictions. Every history is of successful operations without failures, unless said. *)
Ltac refute ops := destruct (replay hist0 db0 ops) as [[h d]| | |] eqn:E; [exists h, d; split; [reflexivity|vm_compute in E; injection E as <- <-]|exfalso; vm_compute in E; discriminate E..].
(** A change not following the last one is stored next to the zone in the journal when all changesets have just
    been deleted: the zone loaded isn't the last one. *)
Theorem c20_discontinuity_refuted : exists h d,
  replay hist0 db0 [ex_zone 10; ex_ins false 1 10 11; ex_ins false 1 20 21] = Ok (h, d) /\ h_last h = Some 21 /\ ~ loadable h d /\
  exists z, read_zone d = Ok (z, [], KNOT_EOK) /\ s_to (z_st z) = 11.
Proof.
  refute [ex_zone 10; ex_ins false 1 10 11; ex_ins false 1 20 21]. split; [reflexivity|]. split; [|eexists; split; reflexivity].
  intros (K & _). vm_compute in K. discriminate K.
Qed.
(** The serial comes back to the beginning of the merged changeset: reading from the zone file is endless. *)
Theorem c21_serial_wrap_refuted : exists h d,
  replay hist0 db0 [ex_ins false 2 0 1; ex_ins false 2 1 2147483647; ex_ins false 2 2147483647 4294967294; ex_ins false 2 4294967294 0] = Ok (h, d) /\
  h_file h = 0 /\ (exists l, read_from d 0 = Ok (l, KNOT_ELOOP)) /\ sem_check d <> Ok KNOT_EOK.
Proof.
  refute [ex_ins false 2 0 1; ex_ins false 2 1 2147483647; ex_ins false 2 2147483647 4294967294; ex_ins false 2 4294967294 0].
  split; [reflexivity|]. split; [eexists; reflexivity|]. vm_compute. discriminate.
Qed.
(** A zone file written on demand, when flushing is disabled and there is a merged changeset: the changes since
    then are deleted. *)
Theorem c22_forced_flush_refuted : exists h d,
  replay hist0 db0 [ex_ins false 2 1 2; ex_ins false 2 2 3; ex_ins false 2 3 4; OFlushed; ex_ins false 2 4 5; ex_ins false 2 5 6; ex_ins false 2 6 7] = Ok (h, d) /\
  h_file h = 4 /\ length (h_since h) = 3%nat /\ h_last h = Some 7 /\ read_from d 4 = Err KNOT_ENOENT.
Proof.
  refute [ex_ins false 2 1 2; ex_ins false 2 2 3; ex_ins false 2 3 4; OFlushed; ex_ins false 2 4 5; ex_ins false 2 5 6; ex_ins false 2 6 7].
  repeat split.
Qed.
(** The last insertion ends with KNOT_EBUSY and asks for a flush, but the changeset from the zone file has been deleted already. *)
Theorem c22_flush_deletes_merged_refuted : exists h d,
  replay hist0 db0 [ex_ins true 5 1 2; ex_extra true 5 2 3 0; ex_ins true 1 3 4; ex_ins true 1 4 5] = Ok (h, d) /\
  h_file h = 0 /\ length (h_since h) = 2%nat /\ read_from d 0 = Err KNOT_ENOENT.
Proof. refute [ex_ins true 5 1 2; ex_extra true 5 2 3 0; ex_ins true 1 3 4; ex_ins true 1 4 5]. repeat split. Qed.
(** An "extra" changeset from a serial in the chain: the changeset there is overwritten. *)
Theorem c19_extra_refuted : exists h d,
  replay hist0 db0 [ex_ins true 5 1 2; ex_ins true 5 2 3; ex_extra true 5 3 4 2] = Ok (h, d) /\ sem_check d = Ok KNOT_EMALF.
Proof. refute [ex_ins true 5 1 2; ex_ins true 5 2 3; ex_extra true 5 3 4 2]. reflexivity. Qed.
(** The zone in the journal, the flush asked for by KNOT_EBUSY isn't done (or the server crashes before): the next
    insertion fails in an assertion. All operations are allowed. *)
Theorem c19_assertion_refuted : exists h d, replay hist0 db0 [ex_zone 10; ex_ins true 1 10 11; ex_ins true 1 11 12] = Ok (h, d) /\
  sem_check d = Ok KNOT_EOK /\ exec [] [] d (ex_ins true 1 11 12) = UB.
Proof. refute [ex_zone 10; ex_ins true 1 10 11; ex_ins true 1 11 12]. split; reflexivity. Qed.
(** Merging of a changeset which can't be read (no memory for it): NULL is dereferenced. *)
Theorem c20_merge_unreadable_refuted : exists h d, replay hist0 db0 [ex_ins false 1 1 2] = Ok (h, d) /\ exec [] [2] d (ex_ins false 1 2 3) = UB.
Proof. refute [ex_ins false 1 1 2]. reflexivity. Qed.
(** No memory when looking for the zone in the journal is forgotten by merging: the insertion succeeds, the journal is broken. *)
Theorem c20_no_memory_refuted : exists h d, replay hist0 db0 [ex_zone 10; ex_ins false 2 10 11; ex_ins false 2 11 12] = Ok (h, d) /\
  exists d', exec [FOk; FOk; FOk; FOk; FMem] [] d (ex_ins false 2 12 13) = Ok ([d'], KNOT_EOK) /\
    sem_check d' <> Ok KNOT_EOK /\ (exists z l, read_zone d' = Ok (z, l, KNOT_ELOOP)).
Proof.
  refute [ex_zone 10; ex_ins false 2 10 11; ex_ins false 2 11 12]. eexists. split; [reflexivity|]. split; [vm_compute; discriminate|].
  eexists _, _. reflexivity.
Qed.
(** With the depth of one and flushing disabled the second changeset can't be inserted. *)
Theorem c22_depth_one_refuted : exists h d, replay hist0 db0 [ex_ins false 1 1 2] = Ok (h, d) /\
  exec [] [] d (ex_ins false 1 2 3) = Ok ([], KNOT_ESPACE).
Proof. refute [ex_ins false 1 1 2]. reflexivity. Qed.

Print Assumptions c19_sem_check_partial.
Print Assumptions c19_contiguous_partial.
Print Assumptions c19_no_crash_partial.
Print Assumptions c20_one_commit.
Print Assumptions c20_loadable_partial.
Print Assumptions c20_crash_points_partial.
Print Assumptions c20_returned_partial.
Print Assumptions c21_ends.
Print Assumptions c21_zone_ends.
Print Assumptions c21_contiguous_partial.
Print Assumptions c22_depth_partial.
Print Assumptions c22_nothing_lost_partial.
