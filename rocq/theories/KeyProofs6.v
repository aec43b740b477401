(** A run of knot_dnssec_key_rollover is a sequence of steps, and so every history keeps the invariant. *)
From Verif Require Import Base KeyModel KeySpec KeyProofs KeyProofs2 KeyProofs3 KeyProofs4 KeyProofs5.
From Coq Require Import Permutation.

Inductive steps (strict : Prop) (p : policy) (now : Z) : list key -> list key -> Prop :=
| ss_refl : forall ks, steps strict p now ks ks
| ss_step : forall a b c, step strict p now a b -> steps strict p now b c -> steps strict p now a c.
Lemma steps_trans : forall strict p now a b c, steps strict p now a b -> steps strict p now b c -> steps strict p now a c.
Proof. intros strict p now a b c H. induction H; intros; auto. econstructor; eauto. Qed.
Lemma steps_one : forall strict p now a b, step strict p now a b -> steps strict p now a b.
Proof. intros. econstructor; [eassumption|constructor]. Qed.
Lemma steps_inv : forall strict p now a b, 0 < now -> inv now a -> steps strict p now a b -> inv now b.
Proof. intros strict p now a b Hn V H. induction H; auto. apply IHsteps. eapply step_inv; eauto. Qed.

(** *** Due actions *)
Lemma due_spec : forall p now ks k ty, 0 < now -> kinv now k -> due p now ks k ty ->
  match ty with
  | APublish => get_key_state k now = KPreActive
  | ASubmit => get_key_state k now = KPublished /\ k_ksk k = true
  | AReplace => get_key_state k now = (if k_ksk k then KReady else KPublished)
  | ARemove => get_key_state k now = KRetired \/ get_key_state k now = KPostActive
  | AReallyRemove => get_key_state k now = KRemoved /\ p_keep_deleted p = false
  | AGenerate => get_key_state k now = KActive /\ running_rollover now ks = false /\ k_alg k = p_alg p
  | AInvalid | ARetire => False
  end.
Proof.
  intros p now ks k ty Hn K (tm & H & T). pose proof (state_spec now k Hn K) as F. unfold key_action in H. destruct (k_ksk k) eqn:Q.
  - destruct (get_key_state k now); try discriminate; cbn [state_facts] in F.
    + injection H as <- _. reflexivity.
    + injection H as <- _. auto.
    + injection H as <- _. reflexivity.
    + destruct (negb (running_rollover now ks)) eqn:R, (k_alg k =? p_alg p) eqn:A; cbn [andb] in H; injection H as <- <-; try (rewrite past_0 in T by lia; discriminate). apply negb_true_iff in R. repeat split; auto. lia.
    + destruct ((ret k =? 0) && (post k =? 0) && (rem k =? 0)) eqn:E; [|injection H as <- <-; rewrite past_0 in T by lia; discriminate]. exfalso. pose proof (ki_ksk2 _ _ K Q). lia.
    + injection H as <- _. auto.
    + injection H as <- _. auto.
    + injection H as <- <-. split; [reflexivity|]. unfold really_remove_time in T. destruct (p_keep_deleted p); auto. exfalso. destruct (knot_time_cmp 0 now >? 0); rewrite past_0 in T by lia; discriminate.
  - destruct (get_key_state k now); try discriminate; cbn [state_facts] in F.
    + injection H as <- _. reflexivity.
    + injection H as <- _. reflexivity.
    + destruct (negb (running_rollover now ks)) eqn:R, (k_alg k =? p_alg p) eqn:A; cbn [andb] in H; injection H as <- <-; try (rewrite past_0 in T by lia; discriminate). apply negb_true_iff in R. repeat split; auto. lia.
    + injection H as <- <-. rewrite past_0 in T by lia. discriminate.
    + injection H as <- _. auto.
    + injection H as <- _. auto.
    + injection H as <- <-. split; [reflexivity|]. unfold really_remove_time in T. destruct (p_keep_deleted p); auto. exfalso. destruct (knot_time_cmp 0 now >? 0); rewrite past_0 in T by lia; discriminate.
Qed.
Lemma gen_spec : forall e p now ks ksk zsk when b, (b = true -> when = 0) ->
  match generate_key e p now ks ksk zsk when b with Ok ks' => ks' = ks ++ [newkey p now ksk zsk when b] | Err _ => True | _ => False end.
Proof.
  intros e p now ks ksk zsk when b H. unfold generate_key. replace (b && negb (when =? 0)) with false; [|destruct b; auto; rewrite (H eq_refl); reflexivity]. destruct (negb (e_gen e (zlen ks))); [exact I|reflexivity].
Qed.
Lemma exec_spec : forall strict e p now ks a k, 0 < now < 2 ^ 63 -> inv now ks -> zget ks (a_key a) = Some k -> due p now ks k (a_type a) -> a_ksk a = k_ksk k ->
  (running_rollover now ks = false -> signing_scheme_present now p ks = true) ->
  match exec_action e p now ks a with Ok ks' => step strict p now ks ks' | Err _ => True | _ => False end.
Proof.
  intros strict e p now ks a k Hn V G D QA SC. pose proof (in_keys _ _ V) as FK. pose proof (proj1 (Forall_forall _ _) FK) as FA. assert (IK : In k ks) by eauto using zget_In. pose proof (FA k IK) as K.
  pose proof (due_spec p now ks k _ ltac:(lia) K D) as DS. unfold exec_action. destruct (a_type a).
  - destruct DS.
  - destruct DS as (S & R & A). rewrite QA. destruct (k_ksk k) eqn:Q.
    + unfold generate_ksk. pose proof (gen_spec e p now ks true (p_sts p) 0 false ltac:(discriminate)) as GS. destruct (generate_key _ _ _ _ _ _ _ _); auto. apply st_new_ksk; auto. exists k. auto.
    + unfold generate_zsk. pose proof (gen_spec e p now ks false true 0 false ltac:(discriminate)) as GS. destruct (generate_key _ _ _ _ _ _ _ _); auto. apply st_new_zsk; auto.
  - unfold exec_publish. rewrite G. replace (in_state now KPreActive k) with true by (symmetry; apply in_state_spec; exact DS). cbn [negb]. rewrite (upd_ok _ _ _ _ G). destruct (zset_perm _ _ _ G) as (r & P & P'). eapply st_publish; eauto.
  - destruct DS as [S Q]. unfold submit_key. rewrite G. replace (in_state now KPublished k) with true by (symmetry; apply in_state_spec; exact S). rewrite Q. cbn [negb andb].
    assert (ME : map (fun k => if k_ksk k && negb (k_pub_only k) && in_state now KReady k then with_t k (fun t => set_active t now) else k) ks = map (readied now) ks).
    { apply map_ext_in. intros x I. rewrite (ki_po _ _ (FA x I)). cbn [negb]. rewrite andb_true_r. reflexivity. } rewrite ME.
    destruct (zget_split _ _ _ G) as (a1 & b1 & E & L). assert (RK : readied now k = k). { unfold readied. replace (in_state now KReady k) with false; [rewrite andb_false_r; reflexivity|]. symmetry. destruct (in_state now KReady k) eqn:X; auto. apply in_state_spec in X. congruence. }
    assert (E' : map (readied now) ks = map (readied now) a1 ++ k :: map (readied now) b1) by (rewrite E, map_app; cbn [map]; rewrite RK; reflexivity).
    assert (L' : zlen (map (readied now) a1) = a_key a) by (unfold zlen in *; rewrite map_length; exact L).
    assert (G' : zget (map (readied now) ks) (a_key a) = Some k) by (rewrite E', <- L', zget_app_r, Z.sub_diag by lia; apply zget_0).
    rewrite (upd_ok _ _ _ _ G'). eapply (st_submit strict p now ks _ k (a1 ++ b1)); auto.
    + rewrite E. symmetry. apply Permutation_middle.
    + rewrite E', <- L', zset_at. rewrite map_app. symmetry. apply Permutation_middle.
  - destruct (new_sigs now 0 ks (a_key a) k Hn ltac:(unfold is_u32; lia) FK G DS) as (ks' & -> & RP). rewrite Z.add_0_r in RP. eapply st_replace; eauto.
  - destruct DS.
  - unfold exec_remove_old_key. rewrite G. replace (in_state now KRetired k || in_state now KPostActive k || in_state now KRemoved k) with true.
    + cbn [negb]. rewrite (upd_ok _ _ _ _ G). destruct (zset_perm _ _ _ G) as (r & P & P'). eapply st_remove; eauto.
    + destruct DS as [S|S]; apply in_state_spec in S; rewrite S, ?orb_true_r; reflexivity.
  - destruct DS as [S KD]. unfold exec_really_remove. rewrite G, KD. replace (in_state now KRemoved k) with true by (symmetry; apply in_state_spec; exact S). cbn [negb orb]. destruct (e_del e); cbn [negb]; auto. eapply st_delete; eauto using zdel_perm.
Qed.

(** *** The beginning of a run *)
Lemma running_true : forall now ks k, In k ks -> k_pub_only k = false -> get_key_state k now = KPreActive \/ get_key_state k now = KPublished -> running_rollover now ks = true.
Proof.
  intros now ks k I P S. unfold running_rollover. cbv zeta. replace (existsb (in_roll now) (filter (fun k0 => negb (k_pub_only k0)) ks)) with true; [reflexivity|]. symmetry. apply existsb_exists. exists k. split; [apply filter_In; rewrite P; auto|]. unfold in_roll. destruct S as [-> | ->]; reflexivity.
Qed.
Lemma new_state : forall p now ksk zsk b, 0 < now -> get_key_state (newkey p now ksk zsk 0 b) now = KPreActive \/ get_key_state (newkey p now ksk zsk 0 b) now = KPublished.
Proof.
  intros p now ksk zsk b Hn. unfold get_key_state, newkey. cbn [k_t t_remove t_revoke t_post_active t_retire t_retire_active t_active t_ready t_publish t_pre_active]. replace (now <=? 0) with false by lia.
  rewrite !past_0 by lia. destruct ksk, b; rewrite ?past_0 by lia; rewrite past_spec by lia; replace (now =? 0) with false by lia; replace (now <=? now) with true by lia; auto.
Qed.
Lemma init_spec : forall strict e p fl now ks, allow_all fl ->
  match gen_initial e p fl now ks with
  | Ok (ks', c) => ks' = ks /\ c = false \/ step strict p now ks ks' /\ exists l, ks' = ks ++ newkey p now true (p_sts p) now false :: l /\ forall k, In k l -> k_ksk k = false
  | Err _ => True | _ => False end.
Proof.
  intros strict e p fl now ks [F1 F2]. unfold gen_initial. rewrite F1, F2. cbn [negb andb]. rewrite orb_false_r.
  destruct (key_present now ks true false) eqn:G1; cbn [negb andb]; [left; auto|]. destruct (key_present now ks true true) eqn:G2; cbn [negb andb]; [left; auto|].
  unfold generate_ksk. pose proof (gen_spec e p now ks true (p_sts p) now false ltac:(discriminate)) as GS. destruct (generate_key e p now ks true (p_sts p) now false) as [ks1| | |] eqn:GE; cbn [rbind]; auto. subst ks1.
  assert (KP : key_present now (ks ++ [newkey p now true (p_sts p) now false]) false true = key_present now ks false true). { unfold key_present. rewrite existsb_app. cbn [existsb newkey k_ksk Bool.eqb andb orb]. rewrite orb_false_r. reflexivity. }
  rewrite KP. destruct (negb (p_sts p) && negb (key_present now ks false true)) eqn:B.
  - unfold generate_zsk. pose proof (gen_spec e p now (ks ++ [newkey p now true (p_sts p) now false]) false true now false ltac:(discriminate)) as GZ. destruct (generate_key e p now (ks ++ _) false true now false) as [ks2| | |]; cbn [rbind]; auto. subst ks2.
    right. rewrite <- app_assoc. cbn [app]. split.
    + apply st_init; [split; assumption|]. destruct (p_sts p), (key_present now ks false true); cbn in B |- *; try discriminate; reflexivity.
    + eexists. split; [reflexivity|]. intros k [<- | []]. reflexivity.
  - cbn [rbind]. right. split.
    + apply st_init; [split; assumption|]. destruct (p_sts p), (key_present now ks false true); cbn in B |- *; try discriminate; reflexivity.
    + eexists. split; [reflexivity|]. intros k [].
Qed.
Lemma forced_ksk_spec : forall (strict : Prop) e p fl now ks ch, (strict -> fl_force_ksk fl = true -> as_before p now ks) ->
  match gen_forced_ksk e p fl now ks ch with Ok (ks', c) => (ks' = ks /\ c = ch) \/ (step strict p now ks ks' /\ c = true) | Err _ => True | _ => False end.
Proof.
  intros strict e p fl now ks ch H. unfold gen_forced_ksk. destruct (fl_force_ksk fl && fl_ksk fl) eqn:F; [|auto]. apply andb_true_iff in F. destruct F as [F _]. destruct (running_rollover now ks) eqn:R; [auto|].
  unfold generate_ksk. pose proof (gen_spec e p now ks true (p_sts p) 0 false ltac:(discriminate)) as GS. destruct (generate_key _ _ _ _ _ _ _ _); cbn [rbind]; auto. right. split; [|reflexivity]. apply st_force; auto.
Qed.
Lemma forced_zsk_spec : forall strict e p fl now ks ch,
  match gen_forced_zsk e p fl now ks ch with Ok (ks', c) => (ks' = ks /\ c = ch) \/ (step strict p now ks ks' /\ c = true) | Err _ => True | _ => False end.
Proof.
  intros strict e p fl now ks ch. unfold gen_forced_zsk. destruct (fl_force_zsk fl && fl_zsk fl) eqn:F; [|auto]. destruct (running_rollover now ks) eqn:R; [auto|].
  unfold generate_zsk. pose proof (gen_spec e p now ks false true 0 false ltac:(discriminate)) as GS. destruct (generate_key _ _ _ _ _ _ _ _); cbn [rbind]; auto. right. split; [|reflexivity]. apply st_new_zsk; auto.
Qed.
Lemma both_spec : forall strict e p now ks b, running_rollover now ks = false ->
  match gen_both e p now ks b with Ok ks' => step strict p now ks ks' /\ exists l, ks' = ks ++ newkey p now true (p_sts p) 0 b :: l | Err _ => True | _ => False end.
Proof.
  intros strict e p now ks b R. unfold gen_both, generate_ksk, generate_zsk. pose proof (gen_spec e p now ks true (p_sts p) 0 b ltac:(auto)) as GS. destruct (generate_key e p now ks true (p_sts p) 0 b) as [ks1| | |]; cbn [rbind]; auto. subst ks1.
  destruct (p_sts p) eqn:PS; cbn [negb].
  - split; [|eexists; reflexivity]. eapply (st_both _ _ _ _ _ b); auto. rewrite PS. reflexivity.
  - pose proof (gen_spec e p now (ks ++ [newkey p now true false 0 b]) false true 0 b ltac:(auto)) as GZ. destruct (generate_key e p now (ks ++ _) false true 0 b) as [ks2| | |]; auto. subst ks2. rewrite <- app_assoc. cbn [app].
    split; [|eexists; reflexivity]. eapply (st_both _ _ _ _ _ b); auto. rewrite PS. reflexivity.
Qed.
Lemma alg_spec : forall strict e p fl now ks ch,
  match gen_alg e p fl now ks ch with Ok (ks', c) => (ks' = ks /\ c = ch) \/ (step strict p now ks ks' /\ c = true) | Err _ => True | _ => False end.
Proof.
  intros strict e p fl now ks ch. unfold gen_alg. destruct (_ && _ && _) eqn:B; [|auto]. apply andb_true_iff in B. destruct B as [B _]. apply andb_true_iff in B. destruct B as [_ B]. apply negb_true_iff in B.
  pose proof (both_spec strict e p now ks true B) as H. destruct (gen_both e p now ks true); cbn [rbind]; auto. destruct H. auto.
Qed.
Lemma scheme_spec : forall strict e p fl now ks ch, 0 < now -> allow_all fl ->
  match gen_scheme e p fl now ks ch with
  | Ok (ks', c) => ((ks' = ks /\ c = ch) \/ (step strict p now ks ks' /\ c = true)) /\ (running_rollover now ks' = false -> signing_scheme_present now p ks' = true)
  | Err _ => True | _ => False end.
Proof.
  intros strict e p fl now ks ch Hn [F1 F2]. unfold gen_scheme. rewrite F1, F2. destruct (negb (signing_scheme_present now p ks) && (true && true) && negb (running_rollover now ks)) eqn:B.
  - apply andb_true_iff in B. destruct B as [_ B]. apply negb_true_iff in B. pose proof (both_spec strict e p now ks false B) as H. destruct (gen_both e p now ks false); cbn [rbind]; auto. destruct H as (H & l & E). split; [auto|].
    intros R. exfalso. rewrite (running_true now a (newkey p now true (p_sts p) 0 false)) in R; [discriminate| |reflexivity|apply new_state; exact Hn]. rewrite E. apply in_or_app. right. left. reflexivity.
  - split; [auto|]. intros R. rewrite R in B. cbn [andb negb] in B. rewrite !andb_true_r in B. apply negb_false_iff in B. exact B.
Qed.

(** *** Runs *)
Theorem roll_spec : forall (strict : Prop) fuel e p fl now ks ch, 0 < now < 2 ^ 63 -> inv now ks -> allow_all fl -> (strict -> fl_force_ksk fl = true -> as_before p now ks) ->
  match roll fuel e p fl now ks ch with
  | Ok (ks', _) => ks' = ks /\ p_manual p = true \/ steps strict p now ks ks' /\ quiet p now ks'
  | UB => False | _ => True end.
Proof.
  intros strict fuel. induction fuel as [|fuel IH]; intros e p fl now ks ch Hn V HF HS; [exact I|]. cbn [roll]. destruct (p_manual p) eqn:MN; [left; auto|].
  pose proof (init_spec strict e p fl now ks HF) as H1. destruct (gen_initial e p fl now ks) as [[ks1 c1]| | |]; cbn [rbind]; auto.
  assert (S1 : steps strict p now ks ks1) by (destruct H1 as [[-> _]|[H1 _]]; [constructor|apply steps_one; exact H1]).
  assert (B1 : strict -> fl_force_ksk fl = true -> as_before p now ks1).
  { intros T F. specialize (HS T F). destruct H1 as [[-> _]|(_ & l & -> & L)]; [exact HS|]. intros k J Q ST. apply in_app_or in J. destruct J as [J|[<- | J]]; [apply HS; auto|split; reflexivity|]. rewrite (L k J) in Q. discriminate. }
  clear H1. pose proof (forced_ksk_spec strict e p fl now ks1 (ch || c1) B1) as H2. destruct (gen_forced_ksk e p fl now ks1 (ch || c1)) as [[ks2 c2]| | |]; cbn [rbind]; auto.
  assert (S2 : steps strict p now ks1 ks2) by (destruct H2 as [[-> _]|[H2 _]]; [constructor|apply steps_one; exact H2]). clear H2.
  pose proof (forced_zsk_spec strict e p fl now ks2 c2) as H3. destruct (gen_forced_zsk e p fl now ks2 c2) as [[ks3 c3]| | |]; cbn [rbind]; auto.
  assert (S3 : steps strict p now ks2 ks3) by (destruct H3 as [[-> _]|[H3 _]]; [constructor|apply steps_one; exact H3]). clear H3.
  set (fl' := mkfl (fl_ksk fl) (fl_force_ksk fl && negb (fl_ksk fl)) (fl_zsk fl) (fl_force_zsk fl && negb (fl_zsk fl)) (fl_preserve fl)).
  assert (HF' : allow_all fl') by exact HF. assert (FF : fl_force_ksk fl' = false) by (unfold fl'; cbn [fl_force_ksk]; rewrite (proj1 HF); apply andb_false_r). clearbody fl'.
  pose proof (alg_spec strict e p fl' now ks3 c3) as H4. destruct (gen_alg e p fl' now ks3 c3) as [[ks4 c4]| | |]; cbn [rbind]; auto.
  assert (S4 : steps strict p now ks3 ks4) by (destruct H4 as [[-> _]|[H4 _]]; [constructor|apply steps_one; exact H4]). clear H4.
  pose proof (scheme_spec strict e p fl' now ks4 c4 ltac:(lia) HF') as H5. destruct (gen_scheme e p fl' now ks4 c4) as [[ks5 c5]| | |]; cbn [rbind]; auto. destruct H5 as [H5 SC].
  assert (S5 : steps strict p now ks4 ks5) by (destruct H5 as [[-> _]|[H5 _]]; [constructor|apply steps_one; exact H5]). clear H5.
  assert (SS : steps strict p now ks ks5) by eauto using steps_trans. pose proof (steps_inv _ _ now _ _ ltac:(lia) V SS) as V5. clear S1 S2 S3 S4 S5 B1.
  destruct (next_action_spec p fl' now ks5 ltac:(lia) HF' (in_keys _ _ V5)) as (a & -> & A1 & A2). destruct (past (a_time a) now) eqn:PT; [|right; split; auto].
  destruct (A2 eq_refl) as (k & G & D & QA). pose proof (exec_spec strict e p now ks5 a k Hn V5 G D QA SC) as ES. destruct (exec_action e p now ks5 a) as [ks6| | |]; cbn [rbind]; auto.
  pose proof (step_inv _ _ now _ _ ltac:(lia) V5 ES) as V6. assert (S6 : steps strict p now ks ks6) by (eapply steps_trans; [exact SS|apply steps_one; exact ES]).
  destruct (next_action_spec p fl' now ks6 ltac:(lia) HF' (in_keys _ _ V6)) as (a' & -> & A1' & _). destruct (past (a_time a') now) eqn:PT'; [|right; split; auto].
  specialize (IH e p fl' now ks6 true Hn V6 HF' ltac:(congruence)). destruct (roll fuel e p fl' now ks6 true) as [[ks7 c7]| | |]; auto. destruct IH as [[-> IH]|[IH1 IH2]]; [congruence|]. right. split; [eapply steps_trans; eassumption|exact IH2].
Qed.
Theorem rollover_spec : forall (strict : Prop) fuel e p fl now ks, 0 < now < 2 ^ 63 -> inv now ks -> allow_all fl -> (strict -> forced_as_before p fl now ks) ->
  match key_rollover fuel e p fl now ks with
  | Ok ks' => ks' = ks \/ steps strict p now ks ks' /\ quiet p now ks'
  | UB => False | _ => True end.
Proof.
  intros strict fuel e p fl now ks Hn V HF HS. unfold key_rollover. assert (HS' : strict -> fl_force_ksk fl = true -> as_before p now ks) by (intros T F; exact (HS T F)).
  pose proof (roll_spec strict fuel e p fl now ks false Hn V HF HS') as H. destruct (roll fuel e p fl now ks false) as [[ks' ch]| | |]; cbn [rbind]; auto. destruct ch; [|auto]. destruct (e_commit e); auto. tauto.
Qed.
Theorem confirm_spec : forall e now delay ks, 0 < now < 2 ^ 63 -> inv now ks -> is_u32 delay ->
  match sbm_confirm e now delay ks with
  | Ok ks' => exists k, In k ks /\ k_ksk k = true /\ get_key_state k now = KReady /\ replaced now (now + delay) k ks ks'
  | Err _ => True | _ => False end.
Proof.
  intros e now delay ks Hn V HD. unfold sbm_confirm. destruct (find_key _ ks 0) as [i|] eqn:F; [|exact I]. destruct (find_some _ _ _ _ F) as (k & G & E). rewrite Z.sub_0_r in G. apply andb_true_iff in E. destruct E as [E S]. apply andb_true_iff in E. destruct E as [Q _]. apply in_state_spec in S.
  destruct (new_sigs now delay ks i k Hn HD (in_keys _ _ V) G ltac:(rewrite Q; exact S)) as (ks' & -> & RP). cbn [rbind]. destruct (e_commit e); [|exact I]. exists k. eauto using zget_In.
Qed.
Lemma inv_time : forall now now' ks, 0 < now -> inv now ks -> now <= now' -> inv now' ks.
Proof.
  intros now now' ks Hn [I1 I2 I3 I4 I5 I6 I7] H. constructor; auto.
  - eapply Forall_impl; [|exact I1]. intros k K. eapply kinv_time; eauto.
  - intros (k & I & Q & L). apply I5. exists k. split; [exact I|]. split; [exact Q|]. pose proof (proj1 (Forall_forall _ _) I1 k I) as K. pose proof (kinv_time now now' k K H) as K'. pose proof (state_spec now' k ltac:(lia) K') as F'. pose proof (state_spec now k Hn K) as F.
    pose proof (ki_ra _ _ K). pose proof (ki_ksk1 _ _ K Q). pose proof (ki_rem1 _ _ K). destruct L as [L|L]; rewrite L in F'; cbn [state_facts] in F'; revert F; destruct (get_key_state k now); cbn [state_facts]; unfold tail0; intros F; auto; exfalso; first [contradiction|lia].
  - intros z I Q T. apply I6; auto. lia.
Qed.
Lemma inv_nil : forall now, inv now [].
Proof. intros. constructor; try (cbn; lia); auto; try (intros ? []); try (intros ? ? []); try (intros (k & [] & _)). Qed.
Theorem history_inv : forall ok now ks, history ok now ks -> 0 < now < 2 ^ 63 /\ inv now ks.
Proof.
  intros ok now ks H. induction H as [now B|now now' ks H [B V] T|now ks fuel e p fl ks' H [B V] PO HF OK R|now ks e delay ks' H [B V] D R].
  - split; [exact B|apply inv_nil].
  - split; [lia|]. eapply inv_time; eauto; lia.
  - split; [exact B|]. pose proof (rollover_spec False fuel e p fl now ks B V HF ltac:(tauto)) as S. rewrite R in S. destruct S as [-> |[S _]]; [exact V|]. eapply steps_inv; eauto; lia.
  - split; [exact B|]. pose proof (confirm_spec e now delay ks B V D) as S. rewrite R in S. destruct S as (k & I & Q & ST & RP). unfold is_u32 in D. eapply replaced_inv; [| |exact V|exact I| |exact RP]; try lia. rewrite Q. exact ST.
Qed.
