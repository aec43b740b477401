(** Well formed transfers in messages. *)
From Verif Require Import Base RdatasetModel RdatasetSpec RdatasetProofs RdatasetProps NodeModel NodeProps SerialModel SerialSpec SerialProps ZoneModel ZoneProofs ZoneView ZoneFold ZoneExamples ZoneTreeProps ChangesetProofs MergeProofs DiffModel DiffProofs ChangesetProps XfrModel XfrSpec XfrProofs XfrProofs2 XfrProofs3 XfrProofs4.

Definition proper_msg (m : msg) : Prop := usable m /\ m_unsigned m = false.
Definition finish (d : xdata) (z : contents) (r : res contents) : res (kstate * xdata * contents) :=
  match r with Ok z1 => Ok (DONE, d, z1) | Err e => Ok (FAIL, mkd (d_type d) (d_isoa d) (d_state d) (d_final d) (d_chs d) (d_by_one d) (d_size d) (d_axfr d) e, z) | UB => UB | OOF => OOF end.
Lemma run_ixfr : forall bump check cf msgs z d k d', Forall proper_msg msgs -> d_state d <> None -> d_isoa d = None -> d_type d = XFR_IXFR -> ixfr_rrs cf (records_of msgs) d = Ok (k, d') -> k = DONE \/ k = FAIL ->
  transfer bump check cf msgs z d = match k with DONE => finish d' z (ixfr_finalize bump check cf z d') | _ => Ok (FAIL, d', z) end.
Proof.
  induction msgs as [|m msgs IH]; intros z d k d' HP HS HI HT E HK; unfold records_of in E; cbn [map concat] in E; [cbn [ixfr_rrs] in E; injection E as <- <-; destruct HK; discriminate|].
  rewrite ixfr_app in E. destruct (ixfr_rrs cf (m_answer m) d) as [[k1 d1]| | |] eqn:E1; cbn [rbind] in E; try discriminate. destruct (rrs_state _ _ _ _ _ E1 HS) as (S1 & S2 & S3). destruct (Forall_inv HP) as [[RC EX] US]. cbn [transfer]. unfold transfer_consume. rewrite EX, HT. unfold ixfr_consume. rewrite RC. change (negb (0 =? 0)) with false. cbn iota. destruct (d_state d) as [st|] eqn:ES; [|contradiction]. rewrite HI, E1. cbn [rbind]. destruct k1.
  - cbn [rbind]. apply (IH z d1 k d' (Forall_inv_tail HP) S1); auto; congruence.
  - injection E as <- <-. rewrite US, S3, HT. unfold finish. rewrite S3, HT. destruct (ixfr_finalize bump check cf z d1); reflexivity.
  - injection E as <- <-. reflexivity.
  - injection E as <- <-. destruct HK; discriminate.
Qed.
Definition ix0 (b1 : bool) : xdata := mkd XFR_IXFR None (Some IXFR_START) None [] b1 0 None KNOT_EOK.
Definition und (s : rrset) (b1 : bool) : xdata := mkd XFR_UNDETERMINED (Some s) None None [] b1 0 None KNOT_EOK.
Lemma determined : forall cf m d t, m_rcode m = 0 -> d_state d = None -> determine_xfr_type (m_answer m) (c_serial cf) (d_isoa d) = Ok t -> t = XFR_IXFR -> d_isoa d = None -> d_axfr d = None ->
  ixfr_consume cf d m = ixfr_consume cf (ix0 (d_by_one d)) m.
Proof.
  intros cf m d t RC DS ED -> DI DA. unfold ixfr_consume. rewrite RC. change (negb (0 =? 0)) with false. cbn iota. rewrite DS, ED. cbn [rbind]. rewrite DI, DA. reflexivity.
Qed.
Lemma open_two : forall bump check cf m ms z b1 one two more, proper_msg m -> Forall (proper (c_zone cf)) (m_answer m) -> m_answer m = one :: two :: more -> soa_rr one -> soa_rr two -> (more = [] -> ~ same_rr one two) ->
  transfer bump check cf (m :: ms) z (xinit XFR_IXFR b1) = transfer bump check cf (m :: ms) z (ix0 b1).
Proof.
  intros bump check cf m ms z b1 one two more [[RC EX] US] HP HM S1 S2 NS. cbn [transfer]. unfold transfer_consume. rewrite EX. cbn [d_type xinit ix0]. rewrite (determined cf m (xinit XFR_IXFR b1) XFR_IXFR); auto. rewrite HM in *. pose proof (Forall_inv HP) as P1. pose proof (Forall_inv (Forall_inv_tail HP)) as P2. cbv beta in *. apply soa_spec in S1. apply soa_spec in S2. unfold determine_xfr_type. cbn [xinit d_isoa]. rewrite S1, S2. destruct more; [|reflexivity]. destruct (equal_spec (c_zone cf) one two P1 P2) as (e & -> & He). destruct e; [exfalso; apply NS; auto; apply He; auto|reflexivity].
Qed.
Lemma isoa_first : forall cf s d l, soa_rr s -> proper (c_zone cf) s -> d_state d = Some IXFR_START -> d_final d = None ->
  (let* (k, d) := ixfr_rrs cf [s] d in
   let d := mkd (d_type d) None (d_state d) (d_final d) (d_chs d) (d_by_one d) (d_size d) (d_axfr d) (d_ret d) in
   match k with CONSUME => ixfr_rrs cf l d | _ => Ok (k, d) end) = ixfr_rrs cf (s :: l) (noisoa d).
Proof.
  intros cf s d l SS (c & b & G) DS DF. pose proof G as (_ & HI & _). destruct (size_is s b HI) as (n & EN & _). apply soa_spec in SS. unfold noisoa. cbn [ixfr_rrs d_state]. rewrite DS. unfold ixfr_consume_rr. cbn [d_final d_by_one d_chs d_size d_type d_isoa d_axfr d_ret]. rewrite DF. destruct (under (fst s) (c_zone cf)); cbn [negb next_state rbind andb d_type d_isoa d_state d_final d_chs d_by_one d_size d_axfr d_ret]; [|rewrite DS, DF; reflexivity]. cbn [solve]. rewrite SS, EN. cbn [rbind]. destruct ((d_size d + n) / 2 >? c_max cf); reflexivity.
Qed.
Definition newer_soa (serial : Z) (one : rrset) : Prop := exists n, soa_serial_of one n /\ serial <> n /\ ~ rfc1982_gt serial n /\ serial32 serial /\ serial32 n.
Lemma open_one : forall bump check cf m ms z b1 one, proper_msg m -> m_answer m = [one] -> soa_rr one -> newer_soa (c_serial cf) one ->
  transfer bump check cf (m :: ms) z (xinit XFR_IXFR b1) = transfer bump check cf ms z (und one b1).
Proof.
  intros bump check cf m ms z b1 one [[RC EX] US] HM S1 (n & (v & HV & SN) & NE & NG & S32 & N32). cbn [transfer]. unfold transfer_consume. rewrite EX. cbn [d_type xinit]. unfold ixfr_consume. rewrite RC. change (negb (0 =? 0)) with false. cbn iota. cbn [d_state d_isoa]. rewrite HM. apply soa_spec in S1. unfold determine_xfr_type. rewrite S1.
  assert (EA : rdataset_at (rr_rrs (snd one)) 0 = Ok v) by (rewrite (c07_at _ [v] 0 HV) by lia; reflexivity). rewrite EA. cbn [rbind]. rewrite SN. cbn [rbind]. destruct (c16_masks (c_serial cf) n S32 N32) as [_ MG]. destruct (mask_geq (serial_compare (c_serial cf) n)); [exfalso; destruct (proj1 MG eq_refl); auto|]. reflexivity.
Qed.

Definition with_first (s : rrset) (m : msg) : msg := mkm (m_rcode m) (s :: m_answer m) (m_expired m) (m_unsigned m).
Lemma open_second : forall bump check cf m ms z b1 one two more, proper_msg m -> proper (c_zone cf) one -> Forall (proper (c_zone cf)) (m_answer m) -> m_answer m = two :: more -> soa_rr one -> soa_rr two -> ~ same_rr one two ->
  transfer bump check cf (m :: ms) z (und one b1) = transfer bump check cf (with_first one m :: ms) z (ix0 b1).
Proof.
  intros bump check cf m ms z b1 one two more [[RC EX] US] P1 HP HM S1 S2 NS. cbn [transfer]. f_equal. unfold transfer_consume. cbn [with_first m_expired m_unsigned]. rewrite EX. cbn [d_type und ix0]. replace (ixfr_consume cf (und one b1) m) with (ixfr_consume cf (ix0 b1) (with_first one m)); [reflexivity|].
  unfold ixfr_consume. cbn [with_first m_rcode m_answer]. rewrite RC. change (negb (0 =? 0)) with false. cbn iota. cbn [d_state und ix0 d_isoa]. rewrite HM in *. pose proof (Forall_inv HP) as P2. cbv beta in P2. apply soa_spec in S2. assert (ED : determine_xfr_type (two :: more) (c_serial cf) (Some one) = Ok XFR_IXFR) by (unfold determine_xfr_type; rewrite S2; destruct (equal_spec (c_zone cf) one two P1 P2) as (e & -> & He); destruct e; [exfalso; apply NS, He; auto|destruct more; reflexivity]). rewrite ED. symmetry. exact (isoa_first cf one (mkd XFR_IXFR (Some one) (Some IXFR_START) None [] b1 0 None KNOT_EOK) (two :: more) S1 P1 eq_refl eq_refl).
Qed.
(** The transfer is that of one sequence of records. *)
Lemma opened : forall bump check cf msgs z b1, Forall proper_msg msgs -> all_proper (c_zone cf) msgs -> told_incremental (c_serial cf) (map m_answer msgs) ->
  exists msgs', Forall proper_msg msgs' /\ records_of msgs' = records_of msgs /\ transfer bump check cf msgs z (xinit XFR_IXFR b1) = transfer bump check cf msgs' z (ix0 b1).
Proof.
  intros bump check cf msgs z b1 HM HP [(one & two & more & ms & E & S1 & S2 & NS)|(one & two & more & ms & n & E & S1 & S2 & NS & SN)].
  - destruct msgs as [|m msgs]; [discriminate|]. cbn [map] in E. injection E as E _. exists (m :: msgs). split; auto. split; auto. eapply open_two; eauto; [apply (Forall_inv HM)|apply (Forall_inv HP)].
  - destruct msgs as [|m1 [|m2 msgs]]; try discriminate. cbn [map] in E. injection E as E1 E2 _. exists (with_first one m2 :: msgs). inversion HM as [|? ? H1 H2]; subst. inversion H2 as [|? ? H3 H4]; subst. inversion HP as [|? ? Q1 Q2]; subst. inversion Q2 as [|? ? Q3 Q4]; subst. split; [constructor; [exact H3|auto]|]. split; [unfold records_of; cbn [map concat with_first m_answer]; rewrite E1; reflexivity|].
    rewrite (open_one bump check cf m1 (m2 :: msgs) z b1 one H1 E1 S1); [|exists n; auto]. eapply open_second; eauto. rewrite E1 in Q1. apply (Forall_inv Q1).
Qed.
Lemma inzone_zone : forall a l, Forall (proper a) l -> Forall (pzone a) (inzone a l).
Proof. intros a l H. rewrite Forall_forall in *. intros r Hr. apply filter_In in Hr. destruct Hr as [H1 H2]. split; auto. Qed.
Lemma records_proper : forall a msgs, all_proper a msgs -> Forall (proper a) (records_of msgs).
Proof. induction 1 as [|m msgs HM HP IH]; unfold records_of; cbn [map concat]; [constructor|]. apply Forall_app. split; auto. Qed.
Lemma form_flat : forall b1 l ds, ixfr_form b1 l ds -> Forall diff_ok ds /\ forall P : rrset -> Prop, Forall P l -> Forall P (flat ds).
Proof. intros b1 l ds (f & la & rest & -> & _ & _ & _ & D & _). split; auto. intros P HP. apply Forall_inv_tail in HP. apply Forall_app in HP. apply HP. Qed.
Lemma accepts : forall bump check cf msgs z b1 ds n, cwf z -> z_apex z = c_zone cf -> has_soa z -> c_strict cf = true -> Forall proper_msg msgs -> all_proper (c_zone cf) msgs -> told_incremental (c_serial cf) (map m_answer msgs) ->
  ixfr_form b1 (inzone (c_zone cf) (records_of msgs)) ds -> octets (inzone (c_zone cf) (records_of msgs)) n -> n / 2 <= c_max cf -> fits (c_zone cf) (crec z) ds ->
  (exists d' z1, cwf z1 /\ z_apex z1 = c_zone cf /\ (forall c v, crec z1 c v <-> patched (c_zone cf) (crec z) ds c v) /\ d_type d' = XFR_IXFR /\ transfer bump check cf msgs z (xinit XFR_IXFR b1) = finish d' z (commit_incremental bump check cf z z1)) \/
  (exists d', transfer bump check cf msgs z (xinit XFR_IXFR b1) = Ok (FAIL, d', z) /\ limit (d_ret d')).
Proof.
  intros bump check cf msgs z b1 ds n W A HS ST HM HP TI FM HO SZ FT. destruct (opened bump check cf msgs z b1 HM HP TI) as (msgs' & HM' & ER & ->). pose proof (records_proper _ _ HP) as RP. pose proof (inzone_zone _ _ RP) as IZ. destruct (form_flat _ _ _ FM) as [DO FL].
  assert (PF : Forall (proper (z_apex z)) (flat ds)). { rewrite A. apply (FL (proper (c_zone cf))). rewrite Forall_forall in *. intros r Hr. apply (IZ r Hr). }
  assert (RUN : ixfr_rrs cf (records_of msgs') (ix0 b1) = ixfr_rrs cf (inzone (c_zone cf) (records_of msgs)) (ix0 b1)) by (rewrite ER; apply rrs_filter; discriminate).
  destruct (fwd_all cf b1 (ix0 b1) _ ds n FM IZ HO SZ eq_refl eq_refl eq_refl eq_refl) as [(d' & E & M & T)|(d' & E & HL & T)].
  - rewrite <- RUN in E. rewrite (run_ixfr bump check cf msgs' z (ix0 b1) DONE d' HM') by (auto; discriminate). unfold ixfr_finalize. rewrite ST. rewrite <- A in *. destruct (apply_complete ds (rev (d_chs d')) z W HS DO PF M FT) as [(u & EU)|(e & EU & He)]; rewrite EU; cbn [rbind].
    + destruct (apply_sound ds _ z u W DO PF M EU) as (z1 & -> & W1 & A1 & _ & R1). cbn [u_new]. left. exists d', z1. split; auto.
    + right. unfold finish. eexists. split; [reflexivity|]. exact He.
  - rewrite <- RUN in E. rewrite (run_ixfr bump check cf msgs' z (ix0 b1) FAIL d' HM') by (auto; discriminate). right. exists d'. auto.
Qed.

(** ** Full *)
Lemma run_axfr : forall bump check cf msgs z d k d' z0, Forall proper_msg msgs -> d_axfr d = Some z0 -> d_isoa d = None -> d_type d = XFR_AXFR -> axfr_rrs cf (records_of msgs) d = Ok (k, d') -> k = DONE \/ k = FAIL ->
  transfer bump check cf msgs z d = match k with DONE => finish d' z (axfr_finalize check z d') | _ => Ok (FAIL, d', z) end.
Proof.
  assert (KEEP : forall cf l d k d' z0, d_axfr d = Some z0 -> axfr_rrs cf l d = Ok (k, d') -> d_isoa d' = d_isoa d /\ d_type d' = d_type d /\ (k = CONSUME -> exists z1, d_axfr d' = Some z1)).
  { induction l as [|r l IH]; intros d k d' z0 HA E; cbn [axfr_rrs] in E; [injection E as <- <-; eauto|]. rewrite HA in E. destruct (axfr_consume_rr cf d z0 r) as [[k1 d1]| | |] eqn:E1; cbn [rbind] in E; try discriminate.
    assert (X : d_isoa d1 = d_isoa d /\ d_type d1 = d_type d /\ (k1 = CONSUME -> exists z1, d_axfr d1 = Some z1)).
    { unfold axfr_consume_rr in E1. destruct (_ && _); [injection E1 as <- <-; repeat split; discriminate|]. destruct (negb (_ =? 1)); [injection E1 as <- <-; repeat split; discriminate|]. destruct (contents_add_rr z0 r) as [[ret z1]|e| |]; try discriminate.
      - destruct (rrset_size r); cbn [rbind] in E1; try discriminate. destruct (_ >? _); injection E1 as <- <-; repeat split; try discriminate. cbn. eauto.
      - destruct (e =? KNOT_EOUTOFZONE); [|injection E1 as <- <-; repeat split; discriminate]. destruct (rrset_size r); cbn [rbind] in E1; try discriminate. destruct (_ >? _); injection E1 as <- <-; repeat split; try discriminate. cbn. eauto. }
    destruct X as (X1 & X2 & X3). destruct k1; try (injection E as <- <-; split; auto; split; auto; discriminate). destruct (X3 eq_refl) as (z1 & HA1). destruct (IH _ _ _ _ HA1 E) as (Y1 & Y2 & Y3). split; [congruence|]. split; [congruence|auto]. }
  induction msgs as [|m msgs IH]; intros z d k d' z0 HP HA HI HT E HK; unfold records_of in E; cbn [map concat] in E; [cbn [axfr_rrs] in E; injection E as <- <-; destruct HK; discriminate|].
  rewrite axfr_app in E. destruct (axfr_rrs cf (m_answer m) d) as [[k1 d1]| | |] eqn:E1; cbn [rbind] in E; try discriminate. destruct (KEEP _ _ _ _ _ _ HA E1) as (S2 & S3 & S4). destruct (Forall_inv HP) as [[RC EX] US]. cbn [transfer]. unfold transfer_consume. rewrite EX, HT. unfold axfr_consume. rewrite RC. change (negb (0 =? 0)) with false. cbn iota. rewrite HA. cbv zeta. rewrite HI, E1. cbn [rbind]. destruct k1.
  - cbn [rbind]. destruct (S4 eq_refl) as (z1 & HA1). apply (IH z d1 k d' z1 (Forall_inv_tail HP) HA1); auto; congruence.
  - injection E as <- <-. rewrite US, S3, HT. unfold finish. rewrite S3, HT. destruct (axfr_finalize check z d1); reflexivity.
  - injection E as <- <-. reflexivity.
  - injection E as <- <-. destruct HK; discriminate.
Qed.
Definition ax0 (cf : xconf) (b1 : bool) : xdata := mkd XFR_AXFR None None None [] b1 0 (Some (contents_new (c_zone cf))) KNOT_EOK.
Lemma ax_opened : forall bump check cf m ms z b1, proper_msg m -> transfer bump check cf (m :: ms) z (xinit XFR_AXFR b1) = transfer bump check cf (m :: ms) z (ax0 cf b1).
Proof. intros bump check cf m ms z b1 [[RC EX] US]. cbn [transfer]. unfold transfer_consume. rewrite EX. cbn [d_type xinit ax0]. unfold axfr_consume. rewrite RC. reflexivity. Qed.
Lemma ax_isoa_first : forall cf s d l z0, d_axfr d = Some z0 -> proper (c_zone cf) s -> axinv cf d [] z0 ->
  (let* (k, d) := axfr_rrs cf [s] d in
   let d := mkd (d_type d) None (d_state d) (d_final d) (d_chs d) (d_by_one d) (d_size d) (d_axfr d) (d_ret d) in
   match k with CONSUME => axfr_rrs cf l d | _ => Ok (k, d) end) = axfr_rrs cf (s :: l) (noisoa d).
Proof.
  intros cf s d l z0 HA (c & b & G) AX. pose proof G as (_ & HI & _). destruct (size_is s b HI) as (n & EN & _). assert (NE : ends s z0 = false). { destruct (ends s z0) eqn:E; auto. exfalso. apply (ends_spec cf d [] z0 s AX) in E. destruct E as (_ & v & E). cbn [inzone filter] in E. eapply listed_nil; eauto. }
  unfold noisoa. cbn [axfr_rrs d_axfr]. rewrite HA. unfold axfr_consume_rr. fold (ends s z0). rewrite NE. cbn [d_type d_isoa d_state d_final d_chs d_by_one d_size d_axfr d_ret]. destruct (negb (RdatasetModel.count (rr_rrs (snd s)) =? 1)); [(cbn [rbind d_type d_isoa d_state d_final d_chs d_by_one d_size d_axfr d_ret]; rewrite ?HA; reflexivity)|]. rewrite EN. cbn [rbind]. destruct (contents_add_rr z0 s) as [[ret z1]|e| |]; try (cbn [rbind d_type d_isoa d_state d_final d_chs d_by_one d_size d_axfr d_ret]; rewrite ?HA; reflexivity); [destruct (d_size d + n >? c_max cf); (cbn [rbind d_type d_isoa d_state d_final d_chs d_by_one d_size d_axfr d_ret]; rewrite ?HA; reflexivity)|]. destruct (e =? KNOT_EOUTOFZONE); [|(cbn [rbind d_type d_isoa d_state d_final d_chs d_by_one d_size d_axfr d_ret]; rewrite ?HA; reflexivity)]. destruct (d_size d + n >? c_max cf); (cbn [rbind d_type d_isoa d_state d_final d_chs d_by_one d_size d_axfr d_ret]; rewrite ?HA; reflexivity).
Qed.
Lemma full_opened : forall bump check cf msgs z b1, Forall proper_msg msgs -> all_proper (c_zone cf) msgs -> told_full (c_serial cf) (map m_answer msgs) ->
  exists msgs', Forall proper_msg msgs' /\ records_of msgs' = records_of msgs /\ transfer bump check cf msgs z (xinit XFR_IXFR b1) = transfer bump check cf msgs' z (ax0 cf b1).
Proof.
  intros bump check cf msgs z b1 HM HP [(one & two & more & ms & E & S1 & S2)|(one & two & more & ms & n & E & S1 & S2 & SN)].
  - destruct msgs as [|m msgs]; [discriminate|]. cbn [map] in E. injection E as E _. exists (m :: msgs). split; auto. split; auto. pose proof (Forall_inv HM) as [[RC EX] US]. cbn [transfer]. unfold transfer_consume. rewrite EX. cbn [d_type xinit ax0]. pose proof (Forall_inv HP) as HA. cbv beta in HA.
    replace (ixfr_consume cf (xinit XFR_IXFR b1) m) with (axfr_consume cf (ax0 cf b1) m false); [reflexivity|]. unfold ixfr_consume. rewrite RC. change (negb (0 =? 0)) with false. cbn iota. cbn [d_state d_isoa xinit]. unfold determine_xfr_type. rewrite E in *. pose proof (Forall_inv HA) as P1. pose proof (Forall_inv (Forall_inv_tail HA)) as P2. cbv beta in *. apply soa_spec in S1. rewrite S1. destruct (equal_spec (c_zone cf) one two P1 P2) as (e & EE & He).
    assert (X : (let* same := match more with [] => rrset_equal one two | _ :: _ => Ok false end in if same then Ok XFR_AXFR else Ok (if true && negb (is_soa two) then XFR_AXFR else XFR_IXFR)) = Ok XFR_AXFR).
    { destruct S2 as [S2|[-> S2]]; [apply soa_nspec in S2; rewrite S2; destruct more; [rewrite EE|]; cbn [rbind]; [destruct e; reflexivity|reflexivity]|]. rewrite EE. apply He in S2. rewrite S2. reflexivity. }
    rewrite X. cbn [rbind]. unfold axfr_consume. rewrite RC. cbn [d_axfr ax0 d_isoa]. reflexivity.
  - destruct msgs as [|m1 [|m2 msgs]]; try discriminate. cbn [map] in E. injection E as E1 E2 _. exists (with_first one m2 :: msgs). inversion HM as [|? ? H1 H2]; subst. inversion H2 as [|? ? H3 H4]; subst. inversion HP as [|? ? Q1 Q2]; subst. inversion Q2 as [|? ? Q3 Q4]; subst. split; [constructor; [exact H3|auto]|]. split; [unfold records_of; cbn [map concat with_first m_answer]; rewrite E1; reflexivity|].
    rewrite (open_one bump check cf m1 (m2 :: msgs) z b1 one H1 E1 S1); [|exists n; auto]. rewrite E1 in Q1. pose proof (Forall_inv Q1) as P1. cbv beta in P1. destruct H3 as [[RC EX] US]. cbn [transfer]. unfold transfer_consume. cbn [with_first m_expired m_unsigned]. rewrite EX. cbn [d_type und ax0].
    replace (ixfr_consume cf (und one b1) m2) with (axfr_consume cf (ax0 cf b1) (with_first one m2) false); [reflexivity|].
    unfold ixfr_consume. rewrite RC. change (negb (0 =? 0)) with false. cbn iota. cbn [d_state d_isoa und]. unfold determine_xfr_type. rewrite E2. rewrite E2 in Q3. pose proof (Forall_inv Q3) as P2. cbv beta in P2. destruct (equal_spec (c_zone cf) one two P1 P2) as (e & EE & He).
    assert (X : (if is_soa two then let* e := rrset_equal one two in Ok (if e then XFR_AXFR else XFR_IXFR) else Ok XFR_AXFR) = Ok XFR_AXFR). { destruct S2 as [S2|S2]; [apply soa_nspec in S2; rewrite S2; reflexivity|]. rewrite EE. apply He in S2. rewrite S2. destruct (is_soa two); reflexivity. }
    assert (X' : match more with [] | _ => if is_soa two then let* e := rrset_equal one two in Ok (if e then XFR_AXFR else XFR_IXFR) else Ok XFR_AXFR end = Ok XFR_AXFR) by (destruct more; exact X). rewrite X'. cbn [rbind]. unfold axfr_consume. cbn [with_first m_rcode m_answer]. rewrite RC. change (negb (0 =? 0)) with false. cbn iota. cbn [d_axfr ax0 d_isoa]. cbv zeta. cbn [d_isoa d_type d_state d_final d_chs d_by_one]. rewrite E2.
    pose proof (ax_isoa_first cf one (mkd XFR_AXFR (Some one) None None [] b1 0 (Some (contents_new (c_zone cf))) KNOT_EOK) (two :: more) (contents_new (c_zone cf)) eq_refl P1 (ax_new cf (mkd XFR_AXFR (Some one) None None [] b1 0 (Some (contents_new (c_zone cf))) KNOT_EOK) eq_refl)) as R. symmetry. exact R.
Qed.
Lemma ax_fwd : forall cf rs d seen z0 n, axinv cf d seen z0 -> Forall (proper (c_zone cf)) rs -> octets rs n -> d_size d + n <= c_max cf -> (forall p r q, seen ++ rs = p ++ r :: q -> soa_rr r -> ~ zone_soa (c_zone cf) p) ->
  (exists d' z1, axfr_rrs cf rs d = Ok (CONSUME, d') /\ axinv cf d' (seen ++ rs) z1 /\ d_type d' = d_type d) \/ (exists d', axfr_rrs cf rs d = Ok (FAIL, d') /\ limit (d_ret d')).
Proof.
  induction rs as [|r rs IH]; intros d seen z0 n AX HP HO SZ HS; cbn [axfr_rrs].
  - left. exists d, z0. rewrite app_nil_r. auto.
  - rewrite (ax_z _ _ _ _ AX). change (r :: rs) with ([r] ++ rs) in HO. destruct (octets_app _ _ _ HO) as (n1 & n2 & O1 & O2 & ->). destruct (octets_one _ _ O1) as (v & HV & E1). pose proof (size_ok r v HV) as EZ. pose proof (octets_pos _ _ O2). destruct (ax_step cf d seen z0 r AX (Forall_inv HP)) as [(_ & SR & ZS)|(_ & k & d1 & E & T1 & T2 & T3 & HK)]; [exfalso; eapply HS; eauto|]. rewrite E. cbn [rbind]. destruct HK as [[-> HK]|(-> & z1 & m & AX1 & EM & SM)].
    + right. exists d1. split; auto. destruct HK as [HK|[HK|(m & EM & HK)]]; [auto|exfalso; apply HK; eauto|]. rewrite EZ in EM. injection EM as <-. lia.
    + rewrite EZ in EM. injection EM as <-. destruct (IH d1 (seen ++ [r]) z1 n2 AX1 (Forall_inv_tail HP) O2) as [(d2 & z2 & E2 & AX2 & T)|H2]; [lia|rewrite <- app_assoc; exact HS| |right; auto]. left. exists d2, z2. split; auto. rewrite <- app_assoc in AX2. split; auto. congruence.
Qed.
Lemma ax_accepts : forall bump check cf msgs z d0 b1 rs n, Forall proper_msg msgs -> all_proper (c_zone cf) msgs -> (d0 = xinit XFR_AXFR b1 \/ (d0 = xinit XFR_IXFR b1 /\ told_full (c_serial cf) (map m_answer msgs))) ->
  axfr_form (c_zone cf) (records_of msgs) rs -> octets (records_of msgs) n -> n <= c_max cf ->
  (exists d' z1, cwf z1 /\ z_apex z1 = c_zone cf /\ (forall c v, crec z1 c v <-> listed (c_zone cf) (inzone (c_zone cf) rs) c v) /\ d_type d' = XFR_AXFR /\ transfer bump check cf msgs z d0 = finish d' z (let ret := check z z1 in if negb (ret =? KNOT_EOK) then Err ret else Ok z1)) \/
  (exists d', transfer bump check cf msgs z d0 = Ok (FAIL, d', z) /\ limit (d_ret d')).
Proof.
  intros bump check cf msgs z d0 b1 rs n HM HP HD (last & rest & EL & SL & ZS & NS) HO SZ.
  assert (OP : exists msgs', Forall proper_msg msgs' /\ records_of msgs' = records_of msgs /\ transfer bump check cf msgs z d0 = transfer bump check cf msgs' z (ax0 cf b1)).
  { destruct HD as [->|[-> TF]]; [|apply full_opened; auto]. destruct msgs as [|m msgs]; [unfold records_of in EL; cbn in EL; destruct rs; discriminate|]. exists (m :: msgs). split; auto. split; auto. apply ax_opened. apply (Forall_inv HM). }
  destruct OP as (msgs' & HM' & ER & ->). pose proof (records_proper _ _ HP) as RP. rewrite EL in *. apply Forall_app in RP. destruct RP as [RP _]. destruct (octets_app _ _ _ HO) as (n1 & n2 & O1 & O2 & ->). pose proof (octets_pos _ _ O2).
  assert (AX : axinv cf (ax0 cf b1) [] (contents_new (c_zone cf))) by (apply ax_new; reflexivity). destruct (ax_fwd cf rs (ax0 cf b1) [] _ n1 AX RP O1) as [(d1 & z1 & E1 & AX1 & T1)|(d1 & E1 & HL)]; [cbn [ax0 d_size]; lia|cbn [app]; auto| |].
  - cbn [app] in AX1. assert (ED : axfr_rrs cf (records_of msgs') (ax0 cf b1) = Ok (DONE, d1)). { rewrite ER, axfr_app, E1. cbn [rbind axfr_rrs]. rewrite (ax_z _ _ _ _ AX1). unfold axfr_consume_rr. fold (ends last z1). rewrite (proj2 (ends_spec cf d1 rs z1 last AX1)) by auto. reflexivity. }
    rewrite (run_axfr bump check cf msgs' z (ax0 cf b1) DONE d1 (contents_new (c_zone cf)) HM') by auto. left. exists d1, z1. pose proof AX1 as [A1 A2 A3 A4 A5]. split; auto. split; auto. split; auto. split; auto. unfold axfr_finalize. rewrite A1. unfold commit_full. pose proof (apex_has z1 A2) as HA. destruct (node_rrset (zn_rrs (z_apexn z1)) SOA) as [e|]; [destruct HA as [-> _]; reflexivity|]. exfalso. apply HA. destruct ZS as (v & ZS). exists v. rewrite A3. apply A4. auto.
  - assert (ED : axfr_rrs cf (records_of msgs') (ax0 cf b1) = Ok (FAIL, d1)) by (rewrite ER, axfr_app, E1; reflexivity). rewrite (run_axfr bump check cf msgs' z (ax0 cf b1) FAIL d1 (contents_new (c_zone cf)) HM') by auto. right. exists d1. auto.
Qed.
