(** Rollover runs are made of steps; all histories keep the invariant. *)
From Verif Require Import Base KeyModel KeySpec KeyProofs KeyProofs2 KeyProofs3 KeyProofs4.
From Coq Require Import Permutation.

(** At most one key is waiting for confirmation when another one is submitted *)
Definition readied (now : Z) (k : key) : key := if k_ksk k && in_state now KReady k then activated now k else k.
Lemma map_ready : forall now r, 0 < now -> Forall (kinv now) r -> zcount rdyk r <= 1 ->
  (map (readied now) r = r /\ zcount rdyk r = 0) \/
  exists q r', Permutation r (q :: r') /\ Permutation (map (readied now) r) (activated now q :: r') /\ k_ksk q = true /\ get_key_state q now = KReady /\ zcount rdyk r' = 0.
Proof.
  intros now r Hn FK. induction FK as [|k r K FK IH]; intros C; [left; auto|]. rewrite zcount_cons in C. cbn [map].
  assert (RD : readied now k = if k_ksk k && in_state now KReady k then activated now k else k) by reflexivity. rewrite RD. clear RD.
  assert (ID : zcount rdyk r = 0 -> map (readied now) r = r).
  { intros Z. clear IH C. induction FK as [|x r X FK IH]; [reflexivity|]. rewrite zcount_cons in Z. pose proof (zcount_nonneg rdyk r). assert (B : Z.b2z (rdyk x) = 0) by (destruct (rdyk x); cbn [Z.b2z] in *; lia). cbn [map]. rewrite IH by lia. unfold readied.
    destruct (k_ksk x) eqn:Q; [|reflexivity]. destruct (in_state now KReady x) eqn:E; [|reflexivity]. exfalso. apply in_state_spec in E. pose proof (ksk_class now x Hn X Q) as C. rewrite E in C. destruct C as (_ & _ & C). rewrite C in B. discriminate. }
  pose proof (zcount_nonneg rdyk r). destruct (k_ksk k && in_state now KReady k) eqn:E.
  - apply andb_true_iff in E. destruct E as [Q S]. apply in_state_spec in S. pose proof (ksk_class now k Hn K Q) as CK. rewrite S in CK. destruct CK as (_ & _ & CK). rewrite CK in C. cbn [Z.b2z] in C. right. exists k, r. rewrite ID by lia. split; [apply Permutation_refl|]. split; [apply Permutation_refl|]. split; [exact Q|]. split; [exact S|lia].
  - assert (RK : rdyk k = false). { destruct (k_ksk k) eqn:Q; [|apply (zsk_class now k Hn K Q)]. cbn [andb] in E. pose proof (ksk_class now k Hn K Q) as CK. destruct (get_key_state k now) eqn:S; try tauto. apply in_state_spec in S. congruence. }
    rewrite RK in C. cbn [Z.b2z] in C. destruct (IH ltac:(lia)) as [[M Z]|(q & r' & P1 & P2 & Q & S & Z)].
    + left. rewrite M. split; [reflexivity|]. rewrite zcount_cons, RK. cbn [Z.b2z]. lia.
    + right. exists q, (k :: r'). split; [rewrite P1; apply perm_swap|]. split; [rewrite P2; apply perm_swap|]. split; [exact Q|]. split; [exact S|]. rewrite zcount_cons, RK. cbn [Z.b2z]. lia.
Qed.
Lemma ready_class : forall now k, 0 < now -> kinv now k -> k_ksk k = true -> get_key_state k now = KPublished ->
  let k' := with_t k (fun t => set_ready t now) in pendk k' = false /\ livek k' = true /\ rdyk k' = true /\ pendz k' = false /\ tail0 k' /\ ~ leaving now k'.
Proof.
  intros now k Hn K Q E. cbv zeta. pose proof (kinv_ready now k Hn K Q E) as K'. pose proof (state_spec now k Hn K) as F. rewrite E in F. cbn [state_facts] in F. destruct F as (F1 & F2 & F3 & F4 & F5 & F6 & F7).
  assert (S : get_key_state (with_t k (fun t => set_ready t now)) now = KReady).
  { pose proof (state_spec now _ Hn K') as F'. revert F'. destruct (get_key_state (with_t k (fun t => set_ready t now)) now); auto; cbn [state_facts]; intros F'; kred; exfalso; first [tauto | lia]. }
  pose proof (ksk_class now _ Hn K' Q) as C. rewrite S in C. destruct C as (C1 & C2 & C3). repeat match goal with |- _ /\ _ => split end; auto; try (kred; auto; fail).
  - apply ksk_not_pendz. exact Q.
  - intros [_ [L|L]]; congruence.
Qed.

Lemma submit_inv : forall now k r ks', 0 < now -> inv now (k :: r) -> get_key_state k now = KPublished -> k_ksk k = true ->
  Permutation ks' (with_t k (fun t => set_ready t now) :: map (readied now) r) -> inv now ks'.
Proof.
  intros now k r ks' Hn V S Q P. pose proof (in_keys _ _ V) as FK. inversion FK as [|? ? K FR]; subst. pose proof (ksk_class now k Hn K Q) as CK. rewrite S in CK. destruct CK as (C1 & C2 & C3).
  destruct (ready_class now k Hn K Q S) as (B1 & B2 & B3 & B4 & B5 & B6). set (k' := with_t k (fun t => set_ready t now)) in *. pose proof (kinv_ready now k Hn K Q S) as K'. fold k' in K'.
  assert (TK : tail0 k). { pose proof (state_spec now k Hn K) as F. rewrite S in F. apply F. }
  assert (MAIN : forall r', inv now (k :: r') -> zcount rdyk r' = 0 -> inv now (k' :: r')).
  { intros r' [I1 I2 I3 I4 I5 I6 I7] Z. counts. rewrite C1, C2, C3 in *. cbn [Z.b2z] in *. inversion I1; subst. constructor; counts; rewrite ?B1, ?B2, ?B3, ?Z; cbn [Z.b2z]; auto; try lia.
    - intros (x & I & X). destruct I as [<- | I]; [contradiction|]. assert (T : exists k0, In k0 (k :: r') /\ leaving now k0) by (exists x; split; [right; exact I|exact X]). specialize (I5 T). lia.
    - intros z I QZ T. destruct I as [<- | I]; [change (k_ksk k = false) in QZ; congruence|]. destruct (I6 z (or_intror I) QZ T) as [(x & J & X1 & X2 & X3) O]. split.
      + destruct J as [<- | J]; [destruct TK; congruence|]. exists x. repeat split; auto. right. exact J.
      + clear J. intros y J Y. destruct J as [<- | J]; [congruence|]. apply O; auto. right. exact J.
    - intros x z I X J Y. destruct J as [<- | J]; [congruence|]. destruct I as [<- | I].
      + change (k_alg z = k_alg k /\ k_zsk k = false). apply I7; [left; reflexivity|left; exact C1|right; exact J|exact Y].
      + pose proof (zcount_zero pendk r' ltac:(lia) x I). pose proof (zcount_zero rdyk r' ltac:(lia) x I). destruct X as [X|[X _]]; congruence. }
  apply (inv_perm now (k' :: map (readied now) r)); [|symmetry; exact P]. pose proof (in_rdy _ _ V) as IR. rewrite zcount_cons, C3 in IR. cbn [Z.b2z] in IR.
  destruct (map_ready now r Hn FR ltac:(lia)) as [[M Z]|(q & r' & P1 & P2 & QQ & SQ & Z)].
  - rewrite M. apply MAIN; auto.
  - apply (inv_perm now (k' :: activated now q :: r')); [|constructor; symmetry; exact P2].
    assert (W : inv now (q :: k :: r')). { apply (inv_perm _ _ _ V). rewrite P1. apply perm_swap. }
    pose proof (in_keys _ _ W) as FW. inversion FW as [|? ? KQ ?]; subst.
    assert (SQ' : get_key_state q now = (if k_ksk q then KReady else KPublished)) by (rewrite QQ; exact SQ). destruct (act_class now q Hn KQ SQ') as (A1 & A2 & A3 & A4 & A5 & A6 & A7 & A8 & A9).
    pose proof (ksk_class now q Hn KQ QQ) as CQ. rewrite SQ in CQ. destruct CQ as (D1 & D2 & D3).
    apply MAIN; [|rewrite zcount_cons, A3; cbn [Z.b2z]; lia].
    apply (inv_perm now (activated now q :: k :: r')); [|apply perm_swap].
    destruct W as [I1 I2 I3 I4 I5 I6 I7]. inversion I1; subst. counts. rewrite D1, D2, D3, C1, C2, C3 in *. cbn [Z.b2z] in *. constructor; counts; rewrite ?A1, ?A2, ?A3, ?QQ, ?C1, ?C2, ?C3; cbn [Z.b2z]; auto; try lia.
    + constructor; auto. apply kinv_activate; auto.
    + intros (x & I & X). destruct I as [<- | I]; [contradiction|]. apply I5. exists x. split; [right; exact I|exact X].
    + intros z I QZ T. destruct I as [<- | I]; [change (k_ksk q = false) in QZ; congruence|]. destruct (I6 z (or_intror I) QZ T) as [(x & J & X1 & X2 & X3) O]. split.
      * destruct J as [<- | J]; [exfalso; pose proof (state_spec now q Hn KQ) as F; rewrite SQ in F; cbn [state_facts] in F; unfold tail0 in F; lia|]. exists x. repeat split; auto. right. exact J.
      * clear J. intros y J Y. destruct J as [<- | J]; [congruence|]. apply O; auto. right. exact J.
    + intros x z I X J Y. destruct J as [<- | J]; [congruence|]. destruct I as [<- | I]; [destruct X as [X|[X _]]; congruence|]. apply I7; [right; exact I| |right; exact J|exact Y]. exact X.
Qed.

Lemma step_inv : forall strict p now ks ks', 0 < now -> inv now ks -> step strict p now ks ks' -> inv now ks'.
Proof.
  intros strict p now ks ks' Hn V ST. pose proof (in_keys _ _ V) as FK. pose proof (proj1 (Forall_forall _ _) FK) as FA.
  assert (K1 : forall s b, kinv now (newkey p now true s 0 b)) by (intros; apply newkey_inv; auto; discriminate).
  assert (K2 : forall b, kinv now (newkey p now false true 0 b)) by (intros; apply newkey_inv; auto).
  assert (C1 : forall s b, pendk (newkey p now true s 0 b) = true /\ livek (newkey p now true s 0 b) = false /\ rdyk (newkey p now true s 0 b) = false /\ pendz (newkey p now true s 0 b) = false) by (intros s b; destruct (new_pend p now true s 0 b Hn ltac:(auto)) as (-> & -> & -> & ->); auto).
  assert (C2 : forall b, pendk (newkey p now false true 0 b) = false /\ livek (newkey p now false true 0 b) = false /\ rdyk (newkey p now false true 0 b) = false /\ pendz (newkey p now false true 0 b) = true) by (intros b; destruct (new_pend p now false true 0 b Hn ltac:(auto)) as (-> & -> & -> & ->); auto).
  assert (NEWK : forall s, running_rollover now ks = false -> inv now (ks ++ [newkey p now true s 0 false])).
  { intros s R. destruct (running_false now ks Hn FK R) as (S1 & S2 & S3 & S4 & _). destruct (C1 s false) as (E1 & E2 & E3 & E4). pose proof (leave_running now ks Hn FK R) as LR. pose proof (in_rdy _ _ V).
    apply inv_add; auto.
    - intros k [<- | []]. split; reflexivity.
    - rewrite !zcount_cons, E1, E2. cbn. lia.
    - rewrite !zcount_cons, E1. cbn. lia.
    - rewrite !zcount_cons, E3. cbn. lia.
    - intros k I L. apply LR. eauto.
    - intros z I Q T. eapply post_running; eauto.
    - intros k z I X J Y. exfalso. apply in_app_or in J. destruct J as [J|[<- | []]]; [rewrite (S4 z J) in Y; discriminate|congruence]. }
  destruct ST as [G E|R _ E|R E|R _ _ E|b R E|k r P S D P'|k r P S Q D P'|k I S D RP|k r P S D P'|k P S D KD].
  - subst ks'. pose proof (gone_spec now ks Hn FK G) as GS.
    assert (C0 : zcount pendk ks = 0 /\ zcount livek ks = 0 /\ zcount rdyk ks = 0).
    { repeat split; apply zcount_0; intros k I; (destruct (k_ksk k) eqn:Q; [pose proof (ksk_class now k Hn (FA k I) Q) as C; rewrite (GS k I Q) in C; tauto|apply (zsk_class now k Hn (FA k I) Q)]). } destruct C0 as (Z1 & Z2 & Z3).
    assert (KN : forall s, kinv now (newkey p now true s now false)) by (intros; apply newkey_inv; auto; discriminate). assert (KZ : kinv now (newkey p now false true now false)) by (apply newkey_inv; auto).
    assert (N1 : forall s, pendk (newkey p now true s now false) = false /\ livek (newkey p now true s now false) = true /\ rdyk (newkey p now true s now false) = true /\ pendz (newkey p now true s now false) = false).
    { intros s. destruct (new_pend p now true s now false Hn ltac:(auto)) as (-> & -> & -> & ->). replace (now =? 0) with false by lia. auto. }
    destruct (new_pend p now false true now false Hn ltac:(auto)) as (M1 & M2 & M3 & M4). replace (now =? 0) with false in M4 by lia. cbn [andb negb] in M1, M2, M3, M4.
    set (l := if p_sts p || key_present now ks false true then [] else [newkey p now false true now false]).
    assert (LL : l = [] \/ l = [newkey p now false true now false]) by (unfold l; destruct (p_sts p || _); auto). clearbody l.
    assert (CL : zcount pendk l = 0 /\ zcount livek l = 0 /\ zcount rdyk l = 0) by (destruct LL as [-> | ->]; [auto|]; rewrite !zcount_cons, M1, M2, M3; auto). destruct CL as (L1 & L2 & L3). destruct (N1 (p_sts p)) as (E1 & E2 & E3 & E4).
    apply inv_add; auto; rewrite ?zcount_cons, ?E1, ?E2, ?E3, ?L1, ?L2, ?L3; cbn [Z.b2z]; try lia.
    + constructor; auto. destruct LL as [-> | ->]; auto.
    + intros k [<- | I]; [split; reflexivity|]. destruct LL as [-> | ->]; [destruct I|]. destruct I as [<- | []]. split; reflexivity.
    + intros k I [Q [L|L]]; rewrite (GS k I Q) in L; discriminate.
    + intros z I Q T. destruct (in_post _ _ V z I Q T) as [(k & J & X1 & X2 & X3) _]. pose proof (GS k J X1) as X4. pose proof (state_spec now k Hn (FA k J)) as F. rewrite X4 in F. cbn [state_facts] in F. pose proof (ki_rem1 _ _ (FA k J)). lia.
    + intros k z I X J Y. exfalso. rewrite zcount_app, zcount_cons, E2, L2, Z2 in X. cbn [Z.b2z] in X. destruct X as [X|[_ X]]; [|lia]. apply in_app_or in I. destruct I as [I|[<- | I]].
      * rewrite (zcount_zero pendk ks ltac:(lia) k I) in X. discriminate.
      * congruence.
      * rewrite (zcount_zero pendk l ltac:(lia) k I) in X. discriminate.
  - subst. apply NEWK. exact R.
  - subst ks'. destruct (running_false now ks Hn FK R) as (S1 & S2 & S3 & S4 & _). destruct (C2 false) as (E1 & E2 & E3 & E4). pose proof (leave_running now ks Hn FK R) as LR. pose proof (in_rdy _ _ V).
    apply inv_add; auto; rewrite ?zcount_cons, ?E1, ?E2, ?E3; change (zcount pendk []) with 0; change (zcount livek []) with 0; change (zcount rdyk []) with 0; cbn [Z.b2z]; try lia.
    + intros k [<- | []]. split; reflexivity.
    + intros k I L. apply LR. eauto.
    + intros z I Q T. eapply post_running; eauto.
    + intros k z I X J Y. exfalso. rewrite zcount_app, zcount_cons, E2 in X. change (zcount livek []) with 0 in X. cbn [Z.b2z] in X. destruct X as [X|[_ X]]; [|lia]. apply in_app_or in I. destruct I as [I|[<- | []]]; [|congruence]. rewrite (zcount_zero pendk ks ltac:(lia) k I) in X. discriminate.
  - subst. apply NEWK. exact R.
  - subst ks'. destruct (running_false now ks Hn FK R) as (S1 & S2 & S3 & S4 & _). destruct (C1 (p_sts p) b) as (E1 & E2 & E3 & E4). destruct (C2 b) as (F1 & F2 & F3 & F4). pose proof (leave_running now ks Hn FK R) as LR. pose proof (in_rdy _ _ V).
    set (l := if p_sts p then [] else [newkey p now false true 0 b]).
    assert (CL : zcount pendk l = 0 /\ zcount livek l = 0 /\ zcount rdyk l = 0) by (unfold l; destruct (p_sts p); [auto|]; rewrite !zcount_cons, F1, F2, F3; auto). destruct CL as (L1 & L2 & L3).
    apply inv_add; auto; rewrite ?zcount_cons, ?E1, ?E2, ?E3, ?L1, ?L2, ?L3; cbn [Z.b2z]; try lia.
    + constructor; auto. unfold l. destruct (p_sts p); auto.
    + intros k [<- | I]; [split; reflexivity|]. unfold l in I. destruct (p_sts p); [destruct I|]. destruct I as [<- | []]. split; reflexivity.
    + intros k I L. apply LR. eauto.
    + intros z I Q T. eapply post_running; eauto.
    + intros k z I X J Y. apply in_app_or in J. destruct J as [J|[<- | J]]; [rewrite (S4 z J) in Y; discriminate|congruence|]. unfold l in J. destruct (p_sts p) eqn:PS; [destruct J|]. destruct J as [<- | []].
      rewrite zcount_app, zcount_cons, E2, L2 in X. cbn [Z.b2z] in X. destruct X as [X|[_ X]]; [|lia]. apply in_app_or in I. destruct I as [I|[<- | I]].
      * rewrite (zcount_zero pendk ks ltac:(lia) k I) in X. discriminate.
      * split; reflexivity.
      * rewrite (zcount_zero pendk l ltac:(lia) k I) in X. discriminate.
  - assert (K : kinv now k) by (apply FA; eapply Permutation_in; [symmetry; exact P|left; reflexivity]). pose proof (kinv_publish now k Hn K S) as K'. pose proof (state_spec now k Hn K) as F. rewrite S in F. cbn [state_facts] in F. destruct F as (F1 & F2 & F3 & F4 & F5 & F6 & F7 & F8).
    apply (inv_perm now (with_t k (fun t => set_publish t now) :: r)); [|symmetry; exact P']. apply (inv_change now k); auto; try reflexivity; try (kred; intros; congruence).
    + apply (inv_perm _ _ _ V P).
    + intros [_ L]. exfalso. pose proof (state_spec now _ Hn K') as F'. destruct L as [L|L]; rewrite L in F'; cbn [state_facts] in F'; kred; tauto.
  - eapply submit_inv; eauto. eapply inv_perm; eauto.
  - eapply replaced_inv; eauto; lia.
  - assert (K : kinv now k) by (apply FA; eapply Permutation_in; [symmetry; exact P|left; reflexivity]). pose proof (kinv_remove now k Hn K S) as K'. pose proof (state_spec now k Hn K) as F.
    apply (inv_perm now (with_t k (fun t => set_remove t now) :: r)); [|symmetry; exact P']. apply (inv_change now k); auto; try reflexivity.
    + apply (inv_perm _ _ _ V P).
    + intros [_ L]. exfalso. pose proof (state_spec now _ Hn K') as F'. destruct L as [L|L]; rewrite L in F'; cbn [state_facts] in F'; kred; lia.
  - apply (inv_delete now k); [apply (inv_perm _ _ _ V P)|]. intros Q. assert (K : kinv now k) by (apply FA; eapply Permutation_in; [symmetry; exact P|left; reflexivity]). pose proof (state_spec now k Hn K) as F. rewrite S in F. cbn [state_facts] in F. pose proof (ki_rem1 _ _ K). lia.
Qed.
