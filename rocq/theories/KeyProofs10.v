(** Delays: nothing is done with a key too early. *)
From Verif Require Import Base KeyModel KeySpec KeyProofs KeyProofs2 KeyProofs3 KeyProofs4 KeyProofs5 KeyProofs6 KeyProofs7 KeyProofs8 KeyProofs9.
From Coq Require Import Permutation.

Lemma waited_refl : forall p now ks k, waited p now ks k k.
Proof. intros p now ks k. unfold waited. cbv zeta. repeat match goal with |- _ /\ _ => split end; intros; contradiction. Qed.
(** Times set in the run are now, or later *)
Definition setnow (now : Z) (k k' : key) : Prop := (rdy k = 0 -> rdy k' <> 0 -> rdy k' = now) /\ pre k' = pre k /\ (rem k <> 0 -> ret k' = ret k /\ post k' = post k).
Definition wstep (p : policy) (now : Z) (ks : list key) (k k' : key) : Prop := later k k' /\ waited p now ks k k' /\ setnow now k k'.

Lemma dueP_le : forall p now k, 0 < now < 2 ^ 63 -> policy_ok p -> no_wrap p -> 0 < pre k <= now -> dueP p now k -> pre k + p_prop p + p_max_ttl p <= now.
Proof.
  intros p now k Hn (_ & _ & _ & A & B & C & _) [W1 W2] K D. unfold is_u32 in *. unfold dueP, alg_publish_time in D. replace (pre k <=? 0) with false in D by lia. unfold knot_time_add in D. replace (pre k =? 0) with false in D by lia. cbn [negb] in D. unfold w32, w64 in D. rewrite (Z.mod_small (p_prop p + p_max_ttl p)) in D by lia. rewrite Z.mod_small in D by lia. rewrite past_spec in D by lia. lia.
Qed.
Lemma dueR_le : forall p now t, 0 < now < 2 ^ 63 -> policy_ok p -> no_wrap p -> 0 < t <= now -> dueR p now t -> t + p_prop p + p_key_ttl p <= now.
Proof.
  intros p now t Hn (_ & _ & _ & A & B & C & _) [W1 W2] K D. unfold is_u32 in *. unfold dueR, ksk_ready_time, publish_delay in D. replace (t <=? 0) with false in D by lia. unfold knot_time_add in D. replace (t =? 0) with false in D by lia. cbn [negb] in D. unfold w32, w64 in D. rewrite (Z.mod_small (p_prop p + p_key_ttl p)) in D by lia. rewrite Z.mod_small in D by lia. rewrite past_spec in D by lia. lia.
Qed.
Lemma due_timeout : forall p now ks k, 0 < now < 2 ^ 63 -> policy_ok p -> In k ks -> kinv now k -> get_key_state k now = KReady -> k_ksk k = true -> due p now ks k AReplace -> timeout_over p now ks.
Proof.
  intros p now ks k Hn (_ & _ & _ & _ & _ & _ & HT) I K S Q (tm & H & T). unfold key_action in H. rewrite S, Q in H. injection H as <-. unfold ksk_sbm_max_time in T. unfold is_u32 in HT. pose proof (state_spec now k ltac:(lia) K) as F. rewrite S in F. cbn [state_facts] in F. destruct F as (_ & _ & F & _). pose proof (ki_rdy _ _ K). replace (rdy k <=? 0) with false in T by lia. cbn [orb] in T.
  destruct (p_sbm_timeout p =? 0) eqn:Z0; [rewrite past_0 in T by lia; discriminate|]. unfold knot_time_plus in T. rewrite Z0 in T. replace (rdy k =? 0) with false in T by lia. cbn [negb andb] in T. unfold w64 in T. rewrite Z.mod_small in T by lia. rewrite past_spec in T by lia. split; [lia|]. exists k. repeat split; auto. lia.
Qed.
Lemma due_remove : forall p now ks k, 0 < now < 2 ^ 63 -> policy_ok p -> no_wrap p -> kinv now k -> nofut now k -> get_key_state k now = KRetired \/ get_key_state k now = KPostActive -> due p now ks k ARemove ->
  (ret k <> 0 -> ret k + p_prop p + p_max_ttl p <= now) /\ (post k <> 0 -> post k + p_prop p + p_key_ttl p <= now).
Proof.
  intros p now ks k Hn (_ & _ & _ & A & B & C & _) [W1 W2] K NF S (tm & H & T). unfold is_u32 in *. pose proof (state_spec now k ltac:(lia) K) as F. unfold key_action in H. destruct S as [S|S]; rewrite S in F, H; cbn [state_facts] in F.
  - destruct F as (_ & F1 & F2 & F3). assert (R0 : rem k = 0) by (destruct F3 as [F3|F3]; [exact F3|destruct (NF F3); lia]). split; [|lia]. intros _. pose proof (ki_ret1 _ _ K ltac:(lia)) as (_ & _ & _ & _ & ZZ).
    rewrite R0, min_0 in H by lia. unfold ksk_remove_time, zsk_remove_time in H. rewrite ZZ in H. replace (ret k <=? 0) with false in H by lia. unfold knot_time_add in H. replace (ret k =? 0) with false in H by lia. cbn [negb] in H. unfold w32, w64 in H. rewrite (Z.mod_small (p_prop p + p_max_ttl p)) in H by lia. rewrite Z.mod_small in H by lia.
    assert (tm = ret k + (p_prop p + p_max_ttl p)) as -> by (destruct (k_ksk k); congruence). rewrite past_spec in T by lia. lia.
  - destruct F as (_ & F1 & F2 & F3). split; [lia|]. intros _. unfold alg_remove_time, publish_delay, knot_time_add in H. replace (post k =? 0) with false in H by lia. cbn [negb] in H. unfold w32, w64 in H. rewrite (Z.mod_small (p_prop p + p_key_ttl p)) in H by lia. rewrite Z.mod_small in H by lia.
    assert (tm = post k + (p_prop p + p_key_ttl p)) as -> by (destruct (k_ksk k); congruence). rewrite past_spec in T by lia. lia.
Qed.

Definition wkeys (p : policy) (now : Z) (ks ks' : list key) : Prop :=
  forall k', In k' ks' -> (exists k, In k ks /\ wstep p now ks k k') \/ exists ksk zsk when b, k' = newkey p now ksk zsk when b /\ (when = 0 \/ when = now /\ ksk_gone now ks).
Lemma wstep_refl : forall p now ks k, wstep p now ks k k.
Proof. intros. split; [apply later_refl|]. split; [apply waited_refl|]. split; [intros A B; congruence|auto]. Qed.
Lemma w_f2 : forall p now a b ks ks', Permutation ks a -> Permutation ks' b -> Forall2 (wstep p now ks) a b -> wkeys p now ks ks'.
Proof.
  intros p now a b ks ks' PA PB H k' I. left. apply (Permutation_in _ PB) in I. enough (exists k, In k a /\ wstep p now ks k k') as (k & J & E) by (exists k; split; [apply (Permutation_in _ (Permutation_sym PA)); exact J|exact E]).
  clear PA PB. induction H; [destruct I|]. destruct I as [<- | I]; [exists x; split; [left; reflexivity|exact H]|]. destruct (IHForall2 I) as (k & J & E). exists k. split; [right; exact J|exact E].
Qed.
Lemma w_add : forall p now ks l, (forall k, In k l -> exists ksk zsk when b, k = newkey p now ksk zsk when b /\ (when = 0 \/ when = now /\ ksk_gone now ks)) -> wkeys p now ks (ks ++ l).
Proof. intros p now ks l H k I. apply in_app_or in I. destruct I as [I|I]; [left; exists k; split; [exact I|apply wstep_refl]|right; apply H; exact I]. Qed.
Lemma f2_w : forall p now ks r, Forall2 (wstep p now ks) r r.
Proof. intros. induction r; constructor; auto using wstep_refl. Qed.
Ltac wtac := unfold waited; kred; repeat match goal with |- _ /\ _ => split end; intros; try congruence; try lia; auto.
Lemma w_activated : forall p now ks k, 0 < now < 2 ^ 63 -> policy_ok p -> no_wrap p -> kinv now k -> nofut now k -> get_key_state k now = (if k_ksk k then KReady else KPublished) -> (k_ksk k = false -> dueR p now (pub k)) -> wstep p now ks k (activated now k).
Proof.
  intros p now ks k Hn PO NW K NF S D. split; [apply evo_activated; auto; [lia|destruct (k_ksk k); auto]|]. split; [|split; [intros A B; cbn in B; congruence|split; auto]]. pose proof (state_spec now k ltac:(lia) K) as F. pose proof (ki_pub _ _ K) as PB.
  assert (E : k_ksk k = false -> pub k + p_prop p + p_key_ttl p <= now). { intros Q. rewrite Q in S. rewrite S in F. cbn [state_facts] in F. apply dueR_le; auto; lia. }
  clear D K NF. unfold activated. kcase k. wtac.
Qed.
Lemma w_old : forall p now ks old new, 0 < now -> kinv now old -> nofut now old -> get_key_state old now = KActive -> (k_ksk old = true -> timeout_over p now ks) -> wstep p now ks old (old_after now now old new).
Proof.
  intros p now ks old new Hn K NF S T. split; [apply evo_old; auto|]. pose proof (state_spec now old Hn K) as F. rewrite S in F. cbn [state_facts] in F. destruct F as (F1 & F2 & F3 & F4 & F5 & F6). clear K NF S. unfold old_after, setnow. kcase old. kred. destruct (negb (alg =? k_alg new)), ksk, zsk; kred; split; wtac; destruct F6 as [F6|[_ F6]]; congruence.
Qed.
Lemma w_zsk : forall p now ks z old new, 0 < now -> kinv now z -> nofut now z -> z_eligible now new z -> post z <= now -> wstep p now ks z (zsk_after now now z old new).
Proof.
  intros p now ks z old new Hn K NF E PZ. split; [apply evo_zsk; auto|]. destruct E as (_ & Q & _ & E). pose proof (state_spec now z Hn K) as F. pose proof (ki_zsk _ _ K Q) as KZ. assert (R0 : rem z = 0) by (destruct E as [E|E]; rewrite E in F; cbn [state_facts] in F; lia). clear K NF F KZ E. unfold zsk_after, setnow. kcase z. kred. subst ksk. destruct (negb (k_alg old =? k_alg new)); kred; split; wtac.
Qed.
Lemma step_waits : forall strict p now ks ks', 0 < now < 2 ^ 63 -> policy_ok p -> no_wrap p -> inv now ks -> Forall (nofut now) ks -> step strict p now ks ks' -> wkeys p now ks ks'.
Proof.
  intros strict p now ks ks' Hn PO NW V NF ST. pose proof (in_keys _ _ V) as FK. pose proof (proj1 (Forall_forall _ _) FK) as FA. pose proof (proj1 (Forall_forall _ _) NF) as NA. assert (Hn' : 0 < now) by lia.
  destruct ST as [G -> |R _ -> |R -> |R _ _ -> |b R -> |k r P S D P'|k r P S Q D P'|k I S D RP|k r P S D P'|k P S D KD].
  - apply w_add. intros k [<- | I]; [eauto 8|]. destruct (p_sts p || key_present now ks false true); [destruct I|]. destruct I as [<- | []]. eauto 8.
  - apply w_add. intros k [<- | []]. eauto 8.
  - apply w_add. intros k [<- | []]. eauto 8.
  - apply w_add. intros k [<- | []]. eauto 8.
  - apply w_add. intros k [<- | I]; [eauto 8|]. destruct (p_sts p); [destruct I|]. destruct I as [<- | []]. eauto 8.
  - assert (IK : In k ks) by (apply (Permutation_in _ (Permutation_sym P)); left; reflexivity). eapply w_f2; [exact P|exact P'|]. constructor; [|apply f2_w]. split; [apply evo_publish; auto|]. pose proof (state_spec now k Hn' (FA k IK)) as F. rewrite S in F. cbn [state_facts] in F. pose proof (ki_pre _ _ (FA k IK)) as PR. pose proof (dueP_le p now k Hn PO NW ltac:(lia) (due_pub _ _ _ _ S D)) as LE.
    clear - LE F. unfold setnow. kcase k. kred. split; wtac.
  - assert (IK : In k ks) by (apply (Permutation_in _ (Permutation_sym P)); left; reflexivity). eapply w_f2; [exact P|exact P'|]. constructor.
    + split; [apply evo_ready; auto|]. pose proof (state_spec now k Hn' (FA k IK)) as F. rewrite S in F. cbn [state_facts] in F. pose proof (ki_pub _ _ (FA k IK)) as PR. pose proof (dueR_le p now (pub k) Hn PO NW ltac:(lia) (due_sub _ _ _ _ S Q D)) as LE. clear - LE F. unfold setnow. kcase k. kred. split; wtac.
    + assert (SUB : forall x, In x r -> In x ks) by (intros x X; apply (Permutation_in _ (Permutation_sym P)); right; exact X). clear P P'. revert SUB. generalize r. intros r0 SUB. induction r0 as [|x r0 IH]; cbn [map]; constructor; [|apply IH; intros; apply SUB; right; auto]. assert (IX : In x ks) by (apply SUB; left; reflexivity).
      destruct (k_ksk x && in_state now KReady x) eqn:E; [|apply wstep_refl]. apply andb_true_iff in E. destruct E as [E1 E2]. apply in_state_spec in E2. apply w_activated; auto; [rewrite E1; exact E2|congruence].
  - assert (W1 : wstep p now ks k (activated now k)). { apply w_activated; auto. intros Q. rewrite Q in S. destruct D as (tm & H & T). unfold key_action in H. rewrite S, Q in H. injection H as <-. exact T. }
    assert (TO : k_ksk k = true -> timeout_over p now ks) by (intros Q; rewrite Q in S; eapply due_timeout; eauto).
    destruct RP as [r P P' _|old r P P' Q A _|old z r P P' QN QO A Z]; eapply w_f2; try exact P; try exact P'.
    + constructor; [exact W1|apply f2_w].
    + assert (IO : In old ks) by (apply (Permutation_in _ (Permutation_sym P)); right; left; reflexivity). constructor; [exact W1|]. constructor; [apply w_old; auto; rewrite Q; exact TO|apply f2_w].
    + assert (IO : In old ks) by (apply (Permutation_in _ (Permutation_sym P)); right; left; reflexivity). assert (IZ : In z ks) by (apply (Permutation_in _ (Permutation_sym P)); right; right; left; reflexivity). rewrite QN in S. destruct (two_live now k old (z :: r) Hn' (inv_perm _ _ _ V P) QN S QO A) as (_ & _ & _ & _ & PZ & _).
      constructor; [exact W1|]. constructor; [apply w_old; auto|]. constructor; [|apply f2_w]. apply w_zsk; auto. apply PZ; [left; reflexivity|apply Z].
  - assert (IK : In k ks) by (apply (Permutation_in _ (Permutation_sym P)); left; reflexivity). eapply w_f2; [exact P|exact P'|]. constructor; [|apply f2_w]. split; [apply evo_remove; auto|]. destruct (due_remove p now ks k Hn PO NW (FA k IK) (NA k IK) S D) as [L1 L2]. clear - L1 L2. unfold setnow. kcase k. kred. split; wtac.
  - intros x I. left. exists x. split; [apply (Permutation_in _ (Permutation_sym P)); right; exact I|apply wstep_refl].
Qed.
Lemma later_times : forall k k', later k k' -> k_ksk k' = k_ksk k /\ (cre k <> 0 -> cre k' = cre k) /\ (pre k <> 0 -> pre k' = pre k) /\ (pub k <> 0 -> pub k' = pub k) /\ (rdy k <> 0 -> rdy k' = rdy k) /\ (act k <> 0 -> act k' = act k) /\
  (ra k <> 0 -> ra k' = ra k) /\ (ret k <> 0 -> ret k' = ret k) /\ (post k <> 0 -> post k' = post k) /\ (rem k <> 0 -> rem k' = rem k).
Proof.
  intros k k' (_ & Q & _ & L). unfold life in L. cbv zeta in L. split; [exact Q|]. repeat match goal with H : Forall2 _ (_ :: _) _ |- _ => inversion H; subst; clear H end. repeat match goal with |- _ /\ _ => split end; assumption.
Qed.
Lemma wstep_trans : forall p now a b k0 k1 k2, kinv now k1 -> (timeout_over p now b -> timeout_over p now a) -> wstep p now a k0 k1 -> wstep p now b k1 k2 -> wstep p now a k0 k2.
Proof.
  intros p now a b k0 k1 k2 K1 TO (L1 & W1 & (S1 & S4' & S6)) (L2 & W2 & (S2 & S4 & S5)). split; [eapply later_trans; eauto|]. pose proof (later_times _ _ L1) as (Q1 & _ & A3 & A4 & A5 & A6 & A7 & A8 & A9 & A10). pose proof (later_times _ _ L2) as (Q2 & _ & B3 & B4 & B5 & B6 & B7 & B8 & B9 & B10). clear L1 L2.
  pose proof (ki_act1 _ _ K1) as KA. pose proof (ki_rdy1 _ _ K1) as KR. pose proof (ki_pub1 _ _ K1) as KP. clear K1. unfold waited in W1, W2. cbv zeta in W1, W2. destruct W1 as (X1 & X2 & X3 & X4 & X5), W2 as (Y1 & Y2 & Y3 & Y4 & Y5). split.
  - unfold waited. cbv zeta. repeat match goal with |- _ /\ _ => split end.
    + intros Q E N. destruct (Z.eq_dec (act k1) 0) as [Z|Z]; [apply Y1; auto; congruence|]. specialize (X1 Q E Z). destruct (KA Z) as (P & _). rewrite (B4 P). exact X1.
    + intros Q E N. destruct (Z.eq_dec (rdy k1) 0) as [Z|Z]; [apply Y2; auto; congruence|]. specialize (X2 Q E Z). destruct (KR Z) as (_ & P & _). rewrite (B4 P). exact X2.
    + intros E N. destruct (Z.eq_dec (pub k1) 0) as [Z|Z]; [apply Y3; auto|]. rewrite S4. auto.
    + intros E N. destruct (Z.eq_dec (rem k1) 0) as [Z|Z]; [apply Y4; auto|]. destruct (S5 Z) as [-> ->]. auto.
    + intros Q E N. destruct (Z.eq_dec (ra k1) 0) as [Z|Z]; [apply TO; apply Y5; auto; congruence|]. auto.
  - split; [|split; [congruence|]].
    + intros E N. destruct (Z.eq_dec (rdy k1) 0) as [Z|Z]; [auto|]. rewrite (B5 Z). auto.
    + intros E. destruct (S6 E) as [<- <-]. apply S5. rewrite (A10 E). exact E.
Qed.
Lemma timeout_back : forall p now a b, 0 < now -> Forall (kinv now) a -> Forall (kinv now) b -> wkeys p now a b -> timeout_over p now b -> timeout_over p now a.
Proof.
  intros p now a b Hn FA FB W (T & y & I & Q & S & LE). pose proof (proj1 (Forall_forall _ _) FB y I) as KY. pose proof (state_spec now y Hn KY) as F. rewrite S in F. cbn [state_facts] in F. destruct F as (_ & _ & F1 & F2 & _). split; [exact T|]. destruct (W y I) as [(x & J & L & _ & (S1 & _))|(ksk & zsk & when & b0 & -> & H)].
  - pose proof (later_times _ _ L) as (Q1 & _ & _ & _ & A5 & A6 & _). assert (R : rdy x <> 0) by (intros R; specialize (S1 R F1); lia). specialize (A5 R). assert (A : act x = 0) by (destruct (Z.eq_dec (act x) 0) as [E|E]; auto; specialize (A6 E); congruence).
    exists x. split; [exact J|]. split; [congruence|]. split; [|lia]. pose proof (state_spec now x Hn (proj1 (Forall_forall _ _) FA x J)) as F. destruct (get_key_state x now); cbn [state_facts] in F; auto; unfold tail0 in F; try contradiction; exfalso; lia.
  - exfalso. cbn in F1, LE. destruct ksk; [|lia]. destruct H as [-> |[-> _]]; lia.
Qed.
(** Of keys there were before the run *)
Lemma steps_waits : forall strict p now a c, 0 < now < 2 ^ 63 -> policy_ok p -> no_wrap p -> inv now a -> Forall (nofut now) a -> steps strict p now a c ->
  forall k', In k' c -> (exists k, In k a /\ wstep p now a k k') \/ cre k' = now.
Proof.
  intros strict p now a c Hn PO NW V NF H. induction H as [a|a b c ST H IH]; intros k' I; [left; exists k'; split; [exact I|apply wstep_refl]|]. pose proof (step_inv _ _ now _ _ ltac:(lia) V ST) as VB. pose proof (step_waits _ _ _ _ _ Hn PO NW V NF ST) as W.
  assert (NB : Forall (nofut now) b) by (destruct (step_keys _ _ _ _ _ Hn ltac:(apply PO) V NF ST) as [_ B]; apply Forall_forall; intros x X; apply B; exact X).
  destruct (IH VB NB k' I) as [(k1 & I1 & W1)|C]; [|auto]. destruct (W k1 I1) as [(k0 & I0 & W0)|(ksk & zsk & when & b0 & -> & _)].
  - left. exists k0. split; [exact I0|]. eapply wstep_trans; [apply (proj1 (Forall_forall _ _) (in_keys _ _ VB) k1 I1)| |exact W0|exact W1]. apply timeout_back; auto; [lia|apply V|apply VB].
  - right. destruct W1 as (L & _). pose proof (later_times _ _ L) as (_ & C & _). cbn in C. apply C. lia.
Qed.
(** Of new keys *)
Lemma steps_new_waits : forall p now a c, 0 < now < 2 ^ 63 -> policy_ok p -> no_wrap p -> inv now a -> Forall (nofut now) a -> sgn (pair p now) a -> steps True p now a c ->
  forall k', In k' c -> (exists k, In k a /\ wstep p now a k k') \/ exists g, cre g = now /\ rdy g = 0 /\ act g = 0 /\ tail0 g /\ wstep p now a g k'.
Proof.
  intros p now a c Hn PO NW V NF SG H. induction H as [a|a b c ST H IH]; intros k' I; [left; exists k'; split; [exact I|apply wstep_refl]|]. pose proof (step_inv _ _ now _ _ ltac:(lia) V ST) as VB. pose proof (step_waits _ _ _ _ _ Hn PO NW V NF ST) as W.
  assert (NB : Forall (nofut now) b) by (destruct (step_keys _ _ _ _ _ Hn ltac:(apply PO) V NF ST) as [_ B]; apply Forall_forall; intros x X; apply B; exact X). pose proof (step_sgn p now a b Hn ltac:(apply PO) V ST SG) as SB.
  assert (TB : timeout_over p now b -> timeout_over p now a) by (apply timeout_back; auto; [lia|apply V|apply VB]).
  assert (NG : ~ ksk_gone now a). { intros G. destruct SG as [(k & z & J & _ & L & _) _]. pose proof (proj1 (Forall_forall _ _) (in_keys _ _ V) k J) as K. assert (Q : k_ksk k = true) by (unfold livek in L; destruct (k_ksk k); auto). destruct (live_state now k ltac:(lia) K L) as [E|E]; rewrite (gone_spec now a ltac:(lia) (in_keys _ _ V) G k J Q) in E; discriminate. }
  destruct (IH VB NB SB k' I) as [(k1 & I1 & W1)|(g & G1 & G2 & G3 & G4 & W1)].
  - pose proof (proj1 (Forall_forall _ _) (in_keys _ _ VB) k1 I1) as K1. destruct (W k1 I1) as [(k0 & I0 & W0)|(ksk & zsk & when & b0 & -> & [-> |[_ G]])]; [|right|contradiction].
    + left. exists k0. split; [exact I0|]. eapply wstep_trans; eauto.
    + exists (newkey p now ksk zsk 0 b0). split; [reflexivity|]. split; [cbn; destruct ksk; reflexivity|]. split; [cbn; destruct ksk; reflexivity|]. split; [cbn; repeat split; auto|]. eapply wstep_trans; [exact K1|exact TB|apply wstep_refl|exact W1].
  - right. exists g. split; [exact G1|]. split; [exact G2|]. split; [exact G3|]. split; [exact G4|]. destruct W1 as (L & W1 & S). split; [exact L|]. split; [|exact S]. destruct W1 as (X1 & X2 & X3 & X4 & X5). cbv zeta in *. unfold waited. cbv zeta. split; [exact X1|]. split; [exact X2|]. split; [exact X3|]. split; [exact X4|]. intros. apply TB. auto.
Qed.
