(** C39: incoming zone transfers.
    [transfer bump check cf msgs z (xinit t b1)] is what becomes of a sequence of messages when the published zone is [z]:
    the state of the transfer and the zone that is published afterwards. [t]: the kind of the query, [b1]: whether differences
    are to be taken one by one. [bump] and [check] are any functions: the server's own change of a serial that did not move, and
    the checks of a new version. *)
From Verif Require Import Base RdatasetModel RdatasetSpec RdatasetProofs RdatasetProps NodeModel NodeProps SerialModel SerialSpec SerialProps ZoneModel ZoneProofs ZoneView ZoneFold ZoneExamples ZoneTreeProps ChangesetProofs MergeProofs DiffModel DiffProofs ChangesetProps XfrModel XfrSpec XfrProofs XfrProofs2 XfrProofs3 XfrProofs4 XfrProofs5.

(** A version [z1] made of [z] has been published as [z']. *)
Definition published (bump : contents -> contents -> res contents) (check : contents -> contents -> Z) (journal : bool) (z z1 z' : contents) : Prop :=
  check z z' = KNOT_EOK /\ exists s0 s1 s2, apex_serial z = Ok s0 /\ apex_serial z1 = Ok s1 /\ apex_serial z' = Ok s2 /\ (s0 <> s1 -> z' = z1) /\ (s0 = s1 -> bump z z1 = Ok z') /\
    (journal = true -> s0 = s2 \/ (serial32 s0 -> serial32 s2 -> rfc1982_lt s0 s2)).
Lemma commit_published : forall bump check cf z z1 z', commit_incremental bump check cf z z1 = Ok z' -> published bump check (c_journal cf) z z1 z'.
Proof.
  intros bump check cf z z1 z' E. unfold commit_incremental in E. destruct (apex_serial z) as [s0| | |] eqn:E0; cbn [rbind] in E; try discriminate. destruct (apex_serial z1) as [s1| | |] eqn:E1; cbn [rbind] in E; try discriminate. destruct (if s0 =? s1 then bump z z1 else Ok z1) as [z2| | |] eqn:E2; cbn [rbind] in E; try discriminate. destruct (negb (check z z2 =? KNOT_EOK)) eqn:EC; [discriminate|]. destruct (apex_serial z2) as [s2| | |] eqn:E3; cbn [rbind] in E; try discriminate.
  assert (z2 = z') by (destruct (c_journal cf && _ && _); congruence). subst z2. split; [lia|]. exists s0, s1, s2. split; auto. split; auto. split; auto. destruct (s0 =? s1) eqn:ES; (split; [intros; first [lia|congruence]|]; split; [intros; first [lia|congruence]|]).
  all: intros HJ; rewrite HJ in E; cbn [andb] in E; destruct (s0 =? s2) eqn:EQ; [left; lia|right]; cbn [negb andb] in E; intros S0 S2; apply (c16_compare_rfc1982 s0 s2 S0 S2); destruct (serial_compare s0 s2); try discriminate; auto.
Qed.

(** Nothing changes unless the transfer ends well. *)
Theorem c39_unchanged : forall bump check cf msgs z d k d' z', transfer bump check cf msgs z d = Ok (k, d', z') -> k <> DONE -> z' = z.
Proof. exact not_done. Qed.

(** A transfer ends well in one of three ways. *)
Theorem c39_kinds : forall bump check cf msgs z t b1 d' z', t = XFR_IXFR \/ t = XFR_AXFR -> all_proper (c_zone cf) msgs -> transfer bump check cf msgs z (xinit t b1) = Ok (DONE, d', z') ->
  (d_type d' = XFR_UPTODATE /\ z' = z) \/ d_type d' = XFR_IXFR \/ d_type d' = XFR_AXFR.
Proof.
  intros bump check cf msgs z t b1 d' z' HT HP E. pose proof (start_msgs bump check cf msgs z _ [] d' z' (st_init _ b1 t HT) HP E) as H. unfold outcome in H. destruct (d_type d'); auto; contradiction.
Qed.

(** Incrementally: the records about the zone, in all messages up to some one, are the SOA, differences and the SOA. *)
Theorem c39_wellformed : forall bump check cf msgs z t b1 d' z', t = XFR_IXFR \/ t = XFR_AXFR -> all_proper (c_zone cf) msgs -> transfer bump check cf msgs z (xinit t b1) = Ok (DONE, d', z') -> d_type d' = XFR_IXFR ->
  exists used rest ds, msgs = used ++ rest /\ Forall usable used /\ ixfr_form b1 (inzone (c_zone cf) (records_of used)) ds.
Proof.
  intros bump check cf msgs z t b1 d' z' HT HP E HI. pose proof (start_msgs bump check cf msgs z _ [] d' z' (st_init _ b1 t HT) HP E) as H. unfold outcome in H. rewrite HI in H. destruct H as (used & rest & ds & H1 & _ & H2 & H3 & _). exists used, rest, ds. auto.
Qed.
(** and the new version is the old one with the differences, each of which fits. *)
Theorem c39_incremental : forall bump check cf msgs z t b1 d' z', cwf z -> z_apex z = c_zone cf -> c_strict cf = true -> t = XFR_IXFR \/ t = XFR_AXFR -> all_proper (c_zone cf) msgs ->
  transfer bump check cf msgs z (xinit t b1) = Ok (DONE, d', z') -> d_type d' = XFR_IXFR ->
  exists used rest ds z1, msgs = used ++ rest /\ Forall usable used /\ ixfr_form b1 (inzone (c_zone cf) (records_of used)) ds /\ fits (c_zone cf) (crec z) ds /\
    cwf z1 /\ z_apex z1 = c_zone cf /\ (forall c v, crec z1 c v <-> patched (c_zone cf) (crec z) ds c v) /\ published bump check (c_journal cf) z z1 z'.
Proof.
  intros bump check cf msgs z t b1 d' z' W A ST HT HP E HI. pose proof (start_msgs bump check cf msgs z _ [] d' z' (st_init _ b1 t HT) HP E) as H. unfold outcome in H. rewrite HI in H. destruct H as (used & rest & ds & H1 & _ & H2 & H3 & H4 & _ & H5). change (d_by_one (xinit t b1)) with b1 in H3. cbn [inzone filter app] in H3.
  unfold ixfr_finalize in H5. rewrite ST in H5. destruct (fold_res (apply_changeset true) (rev (d_chs d')) (mkup z None)) as [u| | |] eqn:EU; cbn [rbind] in H5; try discriminate. destruct (form_flat _ _ _ H3) as [DO FL].
  assert (PF : Forall (proper (z_apex z)) (flat ds)). { rewrite A. apply FL. subst msgs. unfold all_proper in HP. apply Forall_app in HP. pose proof (records_proper _ _ (proj1 HP)) as RP. rewrite Forall_forall in *. intros r Hr. apply filter_In in Hr. apply RP. apply Hr. }
  rewrite <- A in H4. destruct (apply_sound ds _ z u W DO PF H4 EU) as (z1 & -> & W1 & A1 & F1 & R1). rewrite A in *. cbn [u_new] in H5. exists used, rest, ds, z1. split; auto. split; auto. split; auto. split; auto. split; auto. split; auto. split; auto. apply commit_published. auto.
Qed.
(** In full: the new version has the records about the zone that come before the last SOA, and nothing else. *)
Theorem c39_full : forall bump check cf msgs z t b1 d' z', t = XFR_IXFR \/ t = XFR_AXFR -> all_proper (c_zone cf) msgs -> transfer bump check cf msgs z (xinit t b1) = Ok (DONE, d', z') -> d_type d' = XFR_AXFR ->
  exists used rest rs, msgs = used ++ rest /\ Forall usable used /\ axfr_form (c_zone cf) (records_of used) rs /\ check z z' = KNOT_EOK /\ cwf z' /\ z_apex z' = c_zone cf /\ has_soa z' /\ forall c v, crec z' c v <-> listed (c_zone cf) (inzone (c_zone cf) rs) c v.
Proof.
  intros bump check cf msgs z t b1 d' z' HT HP E HI. pose proof (start_msgs bump check cf msgs z _ [] d' z' (st_init _ b1 t HT) HP E) as H. unfold outcome in H. rewrite HI in H. destruct H as (used & rest & rs & H1 & _ & H2 & _ & H3 & H4 & H5 & H6 & H7). exists used, rest, rs. cbn [app] in H3. split; auto. split; auto. split; auto. split; auto. split; auto. split; auto. split; auto. destruct H3 as (_ & _ & _ & _ & (v & ZS) & _). exists v. rewrite H6. apply H7. auto.
Qed.

(** Conversely such transfers are taken, however the records are divided into messages. [limit]: a lack of space. *)
Theorem c39_accepts_incremental : forall bump check cf msgs z b1 ds n, cwf z -> z_apex z = c_zone cf -> has_soa z -> c_strict cf = true -> Forall proper_msg msgs -> all_proper (c_zone cf) msgs -> told_incremental (c_serial cf) (map m_answer msgs) ->
  ixfr_form b1 (inzone (c_zone cf) (records_of msgs)) ds -> octets (inzone (c_zone cf) (records_of msgs)) n -> n / 2 <= c_max cf -> fits (c_zone cf) (crec z) ds ->
  (forall z1, cwf z1 -> z_apex z1 = c_zone cf -> (forall c v, crec z1 c v <-> patched (c_zone cf) (crec z) ds c v) -> exists z', commit_incremental bump check cf z z1 = Ok z') ->
  (exists d' z1 z', (forall c v, crec z1 c v <-> patched (c_zone cf) (crec z) ds c v) /\ published bump check (c_journal cf) z z1 z' /\ d_type d' = XFR_IXFR /\ transfer bump check cf msgs z (xinit XFR_IXFR b1) = Ok (DONE, d', z')) \/
  (exists d', transfer bump check cf msgs z (xinit XFR_IXFR b1) = Ok (FAIL, d', z) /\ limit (d_ret d')).
Proof.
  intros bump check cf msgs z b1 ds n W A HS ST HM HP TI FM HO SZ FT OKC. destruct (accepts bump check cf msgs z b1 ds n W A HS ST HM HP TI FM HO SZ FT) as [(d' & z1 & W1 & A1 & R1 & T & E)|H]; [left|right; auto]. destruct (OKC z1 W1 A1 R1) as (z' & EC). rewrite EC in E. exists d', z1, z'. split; auto. split; [apply (commit_published _ _ cf); auto|]. split; auto.
Qed.
Theorem c39_accepts_full : forall bump check cf msgs z d0 b1 rs n, Forall proper_msg msgs -> all_proper (c_zone cf) msgs -> (d0 = xinit XFR_AXFR b1 \/ (d0 = xinit XFR_IXFR b1 /\ told_full (c_serial cf) (map m_answer msgs))) ->
  axfr_form (c_zone cf) (records_of msgs) rs -> octets (records_of msgs) n -> n <= c_max cf -> (forall z1, check z z1 = KNOT_EOK) ->
  (exists d' z', (forall c v, crec z' c v <-> listed (c_zone cf) (inzone (c_zone cf) rs) c v) /\ d_type d' = XFR_AXFR /\ transfer bump check cf msgs z d0 = Ok (DONE, d', z')) \/
  (exists d', transfer bump check cf msgs z d0 = Ok (FAIL, d', z) /\ limit (d_ret d')).
Proof.
  intros bump check cf msgs z d0 b1 rs n HM HP HD AF HO SZ OKC. destruct (ax_accepts bump check cf msgs z d0 b1 rs n HM HP HD AF HO SZ) as [(d' & z1 & W1 & A1 & R1 & T & E)|H]; [left|right; auto]. cbv zeta in E. rewrite OKC in E. exists d', z1. auto.
Qed.
(** A single SOA that is not newer: there is nothing to do. *)
Theorem c39_uptodate : forall bump check cf m ms z b1 one n, proper_msg m -> m_answer m = [one] -> soa_rr one -> soa_serial_of one n -> serial32 (c_serial cf) -> serial32 n -> c_serial cf = n \/ rfc1982_gt (c_serial cf) n ->
  exists d', transfer bump check cf (m :: ms) z (xinit XFR_IXFR b1) = Ok (DONE, d', z) /\ d_type d' = XFR_UPTODATE.
Proof.
  intros bump check cf m ms z b1 one n [[RC EX] US] HM S1 (v & HV & SN) S32 N32 HG. cbn [transfer]. unfold transfer_consume. rewrite EX. cbn [d_type xinit]. unfold ixfr_consume. rewrite RC. change (negb (0 =? 0)) with false. cbn iota. cbn [d_state d_isoa]. rewrite HM. apply soa_spec in S1. unfold determine_xfr_type. rewrite S1.
  assert (EA : rdataset_at (rr_rrs (snd one)) 0 = Ok v) by (rewrite (c07_at _ [v] 0 HV) by lia; reflexivity). cbn [xinit d_isoa]. rewrite EA. cbn [rbind]. rewrite SN. cbn [rbind]. destruct (c16_masks (c_serial cf) n S32 N32) as [_ MG]. rewrite (proj2 MG HG). cbn [rbind d_type]. rewrite US. eexists. split; reflexivity.
Qed.

(** The serials need not chain. Full statement: [forall ..., transfer ... = Ok (DONE, d', z') -> d_type d' = XFR_IXFR -> ixfr_form ... ds -> chained s ds last]
    where [s] is the serial of the zone and [last] that of the SOA that the answer begins with. *)
Fixpoint chained (s : Z) (ds : list diff) (last : Z) : Prop :=
  match ds with [] => s = last | x :: ds => exists t, soa_serial_of (df_from x) s /\ soa_serial_of (df_to x) t /\ chained t ds last end.
Definition xo (n : Z) : rrset := rs ex_a 6 60 [[0; 0; 0; 0; 0; n]].
Definition xw (n : Z) : rrset := rs ex_w 1 100 [[n]].
Definition xx (n : Z) : rrset := rs ([120] :: ex_a) 1 100 [[n]].
Definition xout : rrset := rs [[100]] 1 100 [[8]].
Definition x_Z := Eval vm_compute in of_res (contents_new []) (build ex_a [xo 1; rs ex_w 1 100 [[1]; [2]]]).
Definition x_cf : xconf := mkc ex_a 1 1000 true true.
Definition x_bump (_ z : contents) : res contents := Ok z.
Definition x_check (_ _ : contents) : Z := KNOT_EOK.
Definition x_msg (l : list rrset) : msg := mkm 0 l false false.
Definition x_bad : list msg := [x_msg [xo 9; xo 5; xw 1; xo 7; xw 3; xo 9]].
Definition x_diff : diff := mkdiff (xo 5) [xw 1] (xo 7) [xw 3].
Ltac xsame := let H := fresh in intros (_ & _ & _ & ? & H & ?); apply is_holds in H; revert H.
Lemma xo_is : forall n, 0 <= n < 256 -> is (rr_rrs (snd (xo n))) [[0; 0; 0; 0; 0; n]].
Proof. intros n Hn. apply ex_is; [|cbv; reflexivity|cbv; reflexivity]. split; [repeat constructor|]. repeat constructor; unfold byte; try lia. cbv. discriminate. Qed.
Lemma xo_serial : forall n m, 0 <= n < 256 -> soa_serial_of (xo n) m -> m = n.
Proof. intros n m Hn (v & HV & E). pose proof (is_fun _ _ _ HV (xo_is n Hn)) as X. injection X as ->. cbv in E. destruct n; try lia; congruence. Qed.
Lemma xo_proper : forall n, 0 <= n < 256 -> proper ex_a (xo n).
Proof. intros n Hn. exists (false, ex_a, 6), [[0; 0; 0; 0; 0; n]]. apply (good_ex ex_a ex_a 6 60 [[0; 0; 0; 0; 0; n]] false); try discriminate; [lia| |cbv; reflexivity|cbv; reflexivity|repeat (constructor; [split; [reflexivity|discriminate]|]); constructor]. split; [repeat constructor|]. repeat constructor; unfold byte; try lia. cbv. discriminate. Qed.
Lemma xo_diff : forall n m, 0 <= n < 256 -> 0 <= m < 256 -> n <> m -> ~ same_rr (xo n) (xo m).
Proof. intros n m Hn Hm NE (_ & _ & _ & b & H1 & H2). pose proof (is_fun _ _ _ H1 (xo_is n Hn)) as X1. pose proof (is_fun _ _ _ H2 (xo_is m Hm)) as X2. rewrite X1 in X2. injection X2 as X2. auto. Qed.
Lemma xw_proper : forall n, 0 <= n < 256 -> proper ex_a (xw n).
Proof. intros n Hn. exists (false, ex_w, 1), [[n]]. apply (good_ex ex_a ex_w 1 100 [[n]] false); try discriminate; [lia| |cbv; reflexivity|cbv; reflexivity|repeat (constructor; [split; [reflexivity|discriminate]|]); constructor]. split; [repeat constructor|]. repeat constructor; unfold byte; try lia. cbv. discriminate. Qed.
Lemma xx_proper : forall n, 0 <= n < 256 -> proper ex_a (xx n).
Proof. intros n Hn. exists (false, [120] :: ex_a, 1), [[n]]. apply (good_ex ex_a ([120] :: ex_a) 1 100 [[n]] false); try discriminate; [lia| |cbv; reflexivity|cbv; reflexivity|repeat (constructor; [split; [reflexivity|discriminate]|]); constructor]. split; [repeat constructor|]. repeat constructor; unfold byte; try lia. cbv. discriminate. Qed.
Lemma xout_proper : proper ex_a xout. Proof. gex false. Qed.
Ltac xprop := first [apply xo_proper; lia|apply xw_proper; lia|apply xx_proper; lia|apply xout_proper].
Lemma x_wf : cwf x_Z /\ z_apex x_Z = ex_a.
Proof. apply (build_wf ex_a [xo 1; rs ex_w 1 100 [[1]; [2]]]); [|vm_compute; reflexivity]. constructor; [apply xo_proper; lia|]. constructor; [gex false|constructor]. Qed.
Lemma xo_same : forall n, 0 <= n < 256 -> same_rr (xo n) (xo n). Proof. intros n Hn. repeat (split; [reflexivity|]). exists [[0; 0; 0; 0; 0; n]]. split; apply xo_is; auto. Qed.
Theorem c39_chain_refuted : exists cf msgs z d' z' ds, cwf z /\ z_apex z = c_zone cf /\ c_strict cf = true /\ c_journal cf = true /\ all_proper (c_zone cf) msgs /\
  transfer x_bump x_check cf msgs z (xinit XFR_IXFR false) = Ok (DONE, d', z') /\ d_type d' = XFR_IXFR /\ ixfr_form false (inzone (c_zone cf) (records_of msgs)) ds /\ apex_serial z = Ok 1 /\ apex_serial z' = Ok 7 /\
  ~ (exists last, chained 1 ds last) /\ ~ (exists s, chained s ds 9).
Proof.
  exists x_cf, x_bad, x_Z. destruct (transfer x_bump x_check x_cf x_bad x_Z (xinit XFR_IXFR false)) as [[[k d'] z']| | |] eqn:E; [|vm_compute in E; discriminate..]. exists d', z', [x_diff]. destruct x_wf as [W A]. split; auto. split; auto. split; auto. split; auto. split. { constructor; [|constructor]. unfold x_msg. cbn [m_answer]. repeat (constructor; [xprop|]). constructor. }
  vm_compute in E. injection E as <- <- <-. split; [reflexivity|]. split; [reflexivity|]. split.
  - exists (xo 9), (xo 9), []. split; [reflexivity|]. split; [reflexivity|]. split; [reflexivity|]. split; [discriminate|]. split; [constructor; [|constructor]; split; [reflexivity|split; [reflexivity|split; repeat constructor; cbv; discriminate]]|]. split; [apply xo_same; lia|constructor].
  - split; [vm_compute; reflexivity|]. split; [vm_compute; reflexivity|]. split.
    + intros (last & t & H1 & _). apply xo_serial in H1; lia.
    + intros (s & t & H1 & H2 & H3). apply xo_serial in H2; [|lia]. cbn [chained] in H3. lia.
Qed.

(** Cases that meet the hypotheses. Two differences in two messages, and a record that belongs to another zone. *)
Definition x_msgs : list msg := [x_msg [xo 3; xo 1; xw 1; xo 2]; x_msg [xw 3; xout; xo 2; xw 3; xo 3; xx 9; xo 3]].
Definition x_ds : list diff := [mkdiff (xo 1) [xw 1] (xo 2) [xw 3]; mkdiff (xo 2) [xw 3] (xo 3) [xx 9]].
Example c39_ex_proper : all_proper ex_a x_msgs /\ Forall proper_msg x_msgs.
Proof. split; [|repeat constructor]. repeat (constructor; [unfold x_msg; cbn [m_answer]; repeat (constructor; [xprop|]); constructor|]). constructor. Qed.
Example c39_ex_form : ixfr_form false (inzone ex_a (records_of x_msgs)) x_ds.
Proof.
  exists (xo 3), (xo 3), []. split; [reflexivity|]. split; [reflexivity|]. split; [reflexivity|]. split; [discriminate|]. split; [repeat (constructor; [split; [reflexivity|split; [reflexivity|split; repeat constructor; cbv; discriminate]]|]); constructor|]. split; [apply xo_same; lia|]. repeat constructor. apply xo_diff; lia.
Qed.
Example c39_ex_told : told_incremental 1 (map m_answer x_msgs).
Proof. left. exists (xo 3), (xo 1), [xw 1; xo 2], [[xw 3; xout; xo 2; xw 3; xo 3; xx 9; xo 3]]. repeat (split; [reflexivity|]). discriminate. Qed.
Example c39_ex_result : exists d' z', transfer x_bump x_check x_cf x_msgs x_Z (xinit XFR_IXFR false) = Ok (DONE, d', z') /\ d_type d' = XFR_IXFR /\ apex_serial z' = Ok 3 /\
  map (fun p => (fst p, map rr_type (zn_rrs (snd p)))) (z_nodes z') = [(ex_w, [1]); ([120] :: ex_a, [1])].
Proof. eexists _, _. vm_compute. repeat split. Qed.
Lemma xw_listed : forall n c v, 0 <= n < 256 -> (listed ex_a [xw n] c v <-> c = (false, ex_w, 1) /\ v = [n]).
Proof. intros n c v Hn. destruct (xw_proper n Hn) as (c0 & b & G). assert (G' : good ex_a (xw n) (false, ex_w, 1) [[n]]) by (apply (good_ex ex_a ex_w 1 100 [[n]] false); try discriminate; [lia| |cbv; reflexivity|cbv; reflexivity|repeat (constructor; [split; [reflexivity|discriminate]|]); constructor]; split; [repeat constructor|]; repeat constructor; unfold byte; try lia; cbv; discriminate). rewrite (listed_one _ _ _ _ _ _ G'). cbn [In]. intuition congruence. Qed.
Lemma xx_listed : forall n c v, 0 <= n < 256 -> (listed ex_a [xx n] c v <-> c = (false, [120] :: ex_a, 1) /\ v = [n]).
Proof. intros n c v Hn. assert (G' : good ex_a (xx n) (false, [120] :: ex_a, 1) [[n]]) by (apply (good_ex ex_a ([120] :: ex_a) 1 100 [[n]] false); try discriminate; [lia| |cbv; reflexivity|cbv; reflexivity|repeat (constructor; [split; [reflexivity|discriminate]|]); constructor]; split; [repeat constructor|]; repeat constructor; unfold byte; try lia; cbv; discriminate). rewrite (listed_one _ _ _ _ _ _ G'). cbn [In]. intuition congruence. Qed.
Lemma x_recs : forall c v, crec x_Z c v <-> (c = (false, ex_a, 6) /\ v = [0; 0; 0; 0; 0; 1]) \/ (c = (false, ex_w, 1) /\ (v = [1] \/ v = [2])).
Proof.
  intros c v. destruct x_wf as [W A]. assert (HI : forall e b, In (c, e) (cells x_Z) -> is (rr_rrs e) b -> (In v b <-> (c = (false, ex_a, 6) /\ v = [0; 0; 0; 0; 0; 1]) \/ (c = (false, ex_w, 1) /\ (v = [1] \/ v = [2])))).
  { intros e b H HB. cbv [cells x_Z] in H. vm_compute in H. destruct H as [H|[H|[]]]; injection H as <- <-.
    - pose proof (is_fun _ _ _ HB (xo_is 1 ltac:(lia))) as ->. cbn [In]. intuition congruence.
    - assert (HB2 : is (ex_s [[1]; [2]]) [[1]; [2]]) by (apply ex_is; [canon|cbv; reflexivity|cbv; reflexivity]). pose proof (is_fun _ _ _ HB HB2) as ->. cbn [In]. intuition congruence. }
  split.
  - intros H. destruct (crec_in _ _ _ W H) as (e & b & H1 & H2 & H3). apply (HI e b H1 H2). auto.
  - intros H. assert (X : exists e b, In (c, e) (cells x_Z) /\ is (rr_rrs e) b). { destruct H as [[-> _]|[-> _]]; [exists (snd (xo 1)), [[0; 0; 0; 0; 0; 1]]; split; [vm_compute; auto|apply xo_is; lia]|exists (snd (rs ex_w 1 100 [[1]; [2]])), [[1]; [2]]; split; [vm_compute; auto|apply ex_is; [canon|cbv; reflexivity|cbv; reflexivity]]]. }
    destruct X as (e & b & H1 & H2). apply (inl_cells x_Z c v W). exists e, b. split; auto. split; auto. apply (HI e b H1 H2). auto.
Qed.
Example c39_ex_fits : fits ex_a (crec x_Z) x_ds.
Proof.
  split; [|split; [|exact I]].
  - split; [intros c v H; apply xw_listed in H; [|lia]; apply x_recs; right; destruct H; auto|]. split; [|reflexivity]. intros c v H1 H2. apply xw_listed in H1; [|lia]. apply x_recs in H2. destruct H1 as [-> ->]. destruct H2 as [[_ H2]|[_ [H2|H2]]]; discriminate.
  - split; [|split; [|reflexivity]].
    + intros c v H. right. cbn [df_add]. split; [apply xw_listed in H; [|lia]; destruct H as [-> _]; discriminate|right; auto].
    + intros c v H1 H2. apply xx_listed in H1; [|lia]. destruct H1 as [-> ->]. exfalso. destruct H2 as [[H2 _]|[_ [[H2 _]|H2]]]; [discriminate| |apply xw_listed in H2; [|lia]; destruct H2; discriminate]. apply x_recs in H2. destruct H2 as [[H2 _]|[H2 _]]; discriminate.
Qed.
Definition x_axfr : list msg := [x_msg [xo 3; xout; xw 1]; x_msg [xw 7; xo 3]].
Example c39_ex_full : exists d' z', transfer x_bump x_check x_cf x_axfr x_Z (xinit XFR_IXFR false) = Ok (DONE, d', z') /\ d_type d' = XFR_AXFR /\ apex_serial z' = Ok 3 /\ length (cells z') = 2%nat.
Proof. eexists _, _. vm_compute. repeat split. Qed.
Example c39_ex_told_full : told_full 1 (map m_answer x_axfr).
Proof. left. exists (xo 3), xout, [xw 1], [[xw 7; xo 3]]. split; [reflexivity|]. split; [reflexivity|]. left. cbv. discriminate. Qed.
Example c39_ex_axfr : axfr_form ex_a (records_of x_axfr) [xo 3; xout; xw 1; xw 7].
Proof.
  exists (xo 3), []. split; [reflexivity|]. split; [reflexivity|]. split.
  - exists [0; 0; 0; 0; 0; 3]. destruct (xo_proper 3 ltac:(lia)) as (c & b & G). exists (xo 3), [[0; 0; 0; 0; 0; 3]]. split; [left; reflexivity|]. split; [|left; reflexivity]. apply (soa_good ex_a (xo 3)); [apply G|reflexivity|apply xo_is; lia|reflexivity].
  - intros p r q E SR (v & s & b & HI & _). destruct p as [|p1 p]; [destruct HI|]. clear HI. apply (f_equal (fun l => nth_error l (length (p1 :: p)))) in E. rewrite nth_error_app2, Nat.sub_diag in E by auto. cbn [length nth_error] in E. destruct (length p) as [|[|[|[|k]]]]; cbn [nth_error] in E; try discriminate; injection E as <-; cbv in SR; discriminate.
Qed.
(** A rejected one: the last SOA is missing, and then there is a record in place of an SOA. *)
Example c39_ex_rejected : (exists d', transfer x_bump x_check x_cf [x_msg [xo 3; xo 1; xw 1; xo 2; xw 3]] x_Z (xinit XFR_IXFR false) = Ok (CONSUME, d', x_Z)) /\
  (exists d', transfer x_bump x_check x_cf [x_msg [xo 3; xo 1; xw 7; xo 3; xo 3]] x_Z (xinit XFR_IXFR false) = Ok (FAIL, d', x_Z) /\ d_ret d' <> KNOT_EOK).
Proof. split; [eexists; vm_compute; reflexivity|]. eexists. split; [vm_compute; reflexivity|vm_compute; discriminate]. Qed.

Print Assumptions c39_unchanged.
Print Assumptions c39_kinds.
Print Assumptions c39_wellformed.
Print Assumptions c39_incremental.
Print Assumptions c39_full.
Print Assumptions c39_accepts_incremental.
Print Assumptions c39_accepts_full.
Print Assumptions c39_uptodate.
Print Assumptions c39_chain_refuted.
