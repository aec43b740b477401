(** The zone stays signed: every step. *)
From Verif Require Import Base KeyModel KeySpec KeyProofs KeyProofs2 KeyProofs3 KeyProofs4 KeyProofs5 KeyProofs6 KeyProofs8.
From Coq Require Import Permutation.

Lemma zok_zsk : forall now z, 0 < now -> kinv now z -> zok z -> k_ksk z = true -> livek z = true.
Proof. intros now z Hn K [L|[Q _]] H; [exact L|congruence]. Qed.
Lemma needs_live : forall ks ks' k, zcount livek ks' = zcount livek ks -> needs ks' k -> needs ks k.
Proof. intros ks ks' k E (A & B & C). rewrite E in C. split; auto. Qed.

(** Publishing *)
Lemma sgn_publish : forall p now k r ks, 0 < now -> inv now (k :: r) -> get_key_state k now = KPreActive -> due p now ks k APublish -> sgn (pair p now) (k :: r) -> sgn (pair p now) (with_t k (fun t => set_publish t now) :: r).
Proof.
  intros p now k r ks Hn V S D [SG N]. set (k' := with_t k (fun t => set_publish t now)). pose proof (in_keys _ _ V) as FK. inversion FK as [|? ? K FR]; subst. pose proof (proj1 (Forall_forall _ _) FR) as FA.
  pose proof (state_spec now k Hn K) as F. rewrite S in F. cbn [state_facts] in F. destruct F as (F1 & F2 & F3 & F4 & F5). pose proof (due_pub _ _ _ _ S D) as DP.
  assert (C : pendk k' = pendk k /\ livek k' = livek k /\ rdyk k' = rdyk k /\ pub k' = now /\ pre k' = pre k /\ act k' = 0 /\ k_ksk k' = k_ksk k /\ k_zsk k' = k_zsk k /\ k_alg k' = k_alg k) by (unfold k'; kred; repeat split; auto).
  destruct C as (C1 & C2 & C3 & C4 & C5 & C6 & C7 & C8 & C9). split.
  - eapply signs_f2; [|exact SG]. constructor; [|apply f2_keeps]. split; [exact C9|]. split; [exact C8|]. split; [congruence|]. intros [L|(_ & A & _)]; [left; congruence|congruence].
  - intros x X M. apply (needs_live (k :: r)) in M; [|rewrite !zcount_cons, C2; reflexivity]. destruct X as [<- | X].
    + assert (M' : needs (k :: r) k) by (destruct M as (M1 & M2 & M3); rewrite C7, C8, C1, C3 in *; split; auto). destruct (N k ltac:(left; reflexivity) M') as (z & J & Q & A & P).
      assert (J' : In z r) by (destruct J as [<- | J]; auto; destruct M' as (M1 & _); congruence). exists z. split; [right; exact J'|]. split; [exact Q|]. split; [congruence|].
      destruct P as [P1 P2|P1 P2 P3 P4 P5|P1 P2 P3 P4|P1 P2 P3 P4 P5|P1 P2 P3 P4 P5|P1 P2 P3 P4 P5|P1 P2 P3 P4 P5 P6].
      * apply pa; auto.
      * apply pd; try congruence; unfold dueP in *; rewrite <- P5; exact DP.
      * congruence.
      * lia.
      * apply pc; try congruence; lia.
      * unfold rdyk in P1. rewrite F3 in P1. cbn in P1. rewrite andb_false_r in P1. discriminate.
      * unfold rdyk in P1. rewrite F3 in P1. cbn in P1. rewrite andb_false_r in P1. discriminate.
    + destruct (N x ltac:(right; exact X) M) as (z & J & Q & A & P). destruct J as [<- | J].
      * exists k'. split; [left; reflexivity|]. split; [congruence|]. split; [congruence|].
        destruct P as [P1 P2|P1 P2 P3 P4 P5|P1 P2 P3 P4|P1 P2 P3 P4 P5|P1 P2 P3 P4 P5|P1 P2 P3 P4 P5|P1 P2 P3 P4 P5 P6].
        -- congruence.
        -- apply pe; try congruence; unfold dueP in *; rewrite P5; exact DP.
        -- congruence.
        -- apply pc; try congruence; lia.
        -- lia.
        -- congruence.
        -- apply pf; try congruence; try lia; rewrite C4; exact P3.
      * exists z. split; [right; exact J|]. auto.
Qed.
(** A key whose classes and pairs are nothing goes away or changes *)
Lemma sgn_spare : forall p now k r l, inv now (k :: r) -> livek k = false -> pendk k = false -> rdyk k = false -> act k <> 0 -> ~ tail0 k -> ~ zok k ->
  (forall x, In x l -> livek x = false /\ pendk x = false /\ rdyk x = false) -> sgn (pair p now) (k :: r) -> sgn (pair p now) (l ++ r).
Proof.
  intros p now k r l V L P R A T ZK HL [(k0 & z0 & I & J & SG) N].
  assert (CL : zcount livek (l ++ r) = zcount livek (k :: r)). { rewrite zcount_app, zcount_cons, L. rewrite (zcount_0 livek l) by (intros; apply HL; auto). reflexivity. } split.
  - exists k0, z0. split; [|split; [|exact SG]]; apply in_or_app; right.
    + destruct I as [<- | I]; auto. destruct SG as (SG & _). congruence.
    + destruct J as [<- | J]; auto. destruct SG as (_ & _ & _ & SG). contradiction.
  - intros x X M. apply in_app_or in X. destruct X as [X|X]; [destruct (HL x X) as (_ & H1 & H2); destruct M as (_ & _ & [M|[M _]]); congruence|].
    apply (needs_live _ _ _ CL) in M. destruct (N x ltac:(right; exact X) M) as (z & JZ & Q & AZ & PR). destruct JZ as [<- | JZ]; [destruct PR; contradiction|]. exists z. split; [apply in_or_app; right; exact JZ|]. auto.
Qed.
(** Submission *)
Lemma activated_facts : forall now k, 0 < now -> kinv now k -> get_key_state k now = (if k_ksk k then KReady else KPublished) -> keeps k (activated now k).
Proof.
  intros now k Hn K S. destruct (act_class now k Hn K S) as (A1 & A2 & A3 & A4 & A5 & A6 & A7 & A8 & _). pose proof (state_spec now k Hn K) as F. split; [reflexivity|]. split; [reflexivity|]. split.
  - intros L. rewrite A2. unfold livek in L. destruct (k_ksk k); auto.
  - intros [L|(Q & A & _)]; [left; rewrite A2; unfold livek in L; destruct (k_ksk k); auto|]. right. repeat split; auto. cbn. lia.
Qed.
Lemma sgn_submit : forall p now k r ks, 0 < now -> inv now (k :: r) -> get_key_state k now = KPublished -> k_ksk k = true -> due p now ks k ASubmit -> sgn (pair p now) (k :: r) ->
  sgn (pair p now) (with_t k (fun t => set_ready t now) :: map (readied now) r).
Proof.
  intros p now k r ks Hn V S Q D [SG N]. set (k' := with_t k (fun t => set_ready t now)). pose proof (in_keys _ _ V) as FK. inversion FK as [|? ? K FR]; subst. pose proof (proj1 (Forall_forall _ _) FR) as FA.
  pose proof (ksk_class now k Hn K Q) as CK. rewrite S in CK. destruct CK as (CK1 & CK2 & CK3). destruct (ready_class now k Hn K Q S) as (R1 & R2 & R3 & R4 & R5 & _). fold k' in R1, R2, R3, R4, R5.
  pose proof (state_spec now k Hn K) as F. rewrite S in F. cbn [state_facts] in F. destruct F as (F1 & F2 & F3 & F4). pose proof (due_sub _ _ _ _ S Q D) as DR.
  assert (KR : forall x, In x r -> keeps x (readied now x)). { intros x I. unfold readied. destruct (k_ksk x && in_state now KReady x) eqn:E; [|apply keeps_refl]. apply andb_true_iff in E. destruct E as [E1 E2]. apply in_state_spec in E2. apply activated_facts; auto. rewrite E1. exact E2. }
  assert (ZR : forall x, k_ksk x = false -> readied now x = x) by (intros x E; unfold readied; rewrite E; reflexivity).
  split.
  - eapply signs_f2; [|exact SG]. constructor.
    + split; [reflexivity|]. split; [reflexivity|]. split; [congruence|]. intros [L|[L _]]; congruence.
    + clear - KR. induction r as [|x r IH]; cbn [map]; constructor; [apply KR; left; reflexivity|apply IH; intros; apply KR; right; auto].
  - intros x X M. destruct X as [<- | X].
    + destruct (N k ltac:(left; reflexivity)) as (z & J & QZ & A & P). { destruct M as (M1 & M2 & _). split; [exact Q|]. split; [exact M2|]. left. exact CK1. }
      assert (J' : In z r) by (destruct J as [<- | J]; auto; congruence). exists z. split; [right; rewrite <- (ZR z QZ); apply in_map; exact J'|]. split; [exact QZ|]. split; [exact A|].
      destruct P as [P1 P2|P1 P2 P3 P4 P5|P1 P2 P3 P4|P1 P2 P3 P4 P5|P1 P2 P3 P4 P5|P1 P2 P3 P4 P5|P1 P2 P3 P4 P5 P6]; try congruence.
      * apply pa; auto.
      * apply pf; try congruence; try reflexivity; rewrite P4; exact DR.
      * apply pg; auto. rewrite <- P2 at 2. exact DR.
    + exfalso. apply in_map_iff in X. destruct X as (y & <- & Y). destruct M as (M1 & M2 & M3). pose proof (in_pend _ _ V) as IP. rewrite zcount_cons, CK1 in IP. cbn [Z.b2z] in IP. assert (PY : pendk y = false) by (apply (zcount_zero pendk r); [lia|exact Y]).
      unfold readied in M1, M3. destruct (k_ksk y && in_state now KReady y) eqn:E.
      * apply andb_true_iff in E. destruct E as [E1 E2]. apply in_state_spec in E2. destruct (act_class now y Hn (FA y Y)) as (A1 & _ & A3 & _); [rewrite E1; exact E2|]. destruct M3 as [M3|[M3 _]]; congruence.
      * destruct M3 as [M3|[M3 _]]; [congruence|]. rewrite M1 in E. cbn [andb] in E. pose proof (ksk_class now y Hn (FA y Y) M1) as C. unfold in_state in E. destruct (get_key_state y now); cbn [kstate_eqb] in E; destruct C as (_ & _ & C); congruence.
Qed.

(** *** Taking over *)
Definition lasting (R : key -> key -> Prop) : Prop := (forall k z, act z <> 0 -> tail0 z -> R k z) /\ (forall k z, R k z -> act z <> 0 -> tail0 z).
Lemma lasting_pair : forall p now, lasting (pair p now).
Proof. intros p now. split; [intros; apply pa; auto|]. intros k z [] A; auto; congruence. Qed.
Lemma lasting_pair0 : lasting pair0.
Proof. split; [intros; left; auto|]. intros k z [[_ H]|[(_ & _ & H & _)|(_ & _ & H & _)]] A; auto; congruence. Qed.
Lemma sgn_ksk : forall R now fin new old r l, lasting R -> 0 < now -> inv now (new :: old :: r) -> k_ksk new = true -> get_key_state new now = KReady -> k_ksk old = true -> get_key_state old now = KActive ->
  (needs (new :: old :: r) new -> exists z, In z (new :: old :: r) /\ k_ksk z = false /\ k_alg z = k_alg new /\ act z <> 0 /\ tail0 z) ->
  (forall x, In x l -> pendk x = false /\ rdyk x = false) -> (forall z, In z r -> k_ksk z = false -> k_alg z = k_alg new -> k_zsk new = false -> In z l) ->
  sgn R (activated now new :: old_after now fin old new :: l).
Proof.
  intros R now fin new old r l HR Hn V QN SN QO SO NZ HL HZ. pose proof (in_keys _ _ V) as FK. inversion FK as [|? ? KN FK2]; subst. inversion FK2 as [|? ? KO FR]; subst. assert (SN' : get_key_state new now = (if k_ksk new then KReady else KPublished)) by (rewrite QN; exact SN).
  destruct (act_class now new Hn KN SN') as (A1 & A2 & A3 & A4 & _). rewrite QN in A2. pose proof (ksk_class now new Hn KN QN) as CN. rewrite SN in CN. destruct CN as (CN1 & CN2 & CN3). pose proof (ksk_class now old Hn KO QO) as CO. rewrite SO in CO. destruct CO as (CO1 & CO2 & CO3). split.
  - destruct (k_zsk new) eqn:ZN.
    + exists (activated now new), (activated now new). split; [left; reflexivity|]. split; [left; reflexivity|]. split; [exact A2|]. split; [exact ZN|]. split; [reflexivity|left; exact A2].
    + destruct NZ as (z & J & Q & A & ACT & T). { split; [exact QN|]. split; [exact ZN|]. right. split; [exact CN3|]. rewrite !zcount_cons, CN2, CO2. cbn [Z.b2z]. pose proof (zcount_nonneg livek r). lia. }
      assert (J' : In z r) by (destruct J as [<- |[<- | J]]; auto; congruence). exists (activated now new), z. split; [left; reflexivity|]. split; [right; right; apply HZ; auto|]. split; [exact A2|]. split; [apply (ki_role _ _ (proj1 (Forall_forall _ _) FR z J') Q)|]. split; [exact A|]. right. unfold tail0 in T. repeat split; auto; apply T.
  - intros x X (_ & _ & M). exfalso. destruct X as [<- |[<- | X]].
    + destruct M as [M|[M _]]; congruence.
    + assert (E : rdy (old_after now fin old new) = rdy old /\ act (old_after now fin old new) = act old /\ k_ksk (old_after now fin old new) = true). { unfold old_after. kcase old. kred. destruct (negb (alg =? k_alg new)), ksk, zsk; kred; auto. }
      destruct E as (E1 & E2 & E3). unfold pendk, rdyk in *. rewrite E1, E2, E3 in M. rewrite QO in CO1, CO3. destruct M as [M|[M _]]; congruence.
    + destruct (HL x X). destruct M as [M|[M _]]; congruence.
Qed.
Lemma sgn_replaced : forall R now fin new ks ks', lasting R -> 0 < now -> inv now ks -> In new ks -> get_key_state new now = (if k_ksk new then KReady else KPublished) ->
  (k_ksk new = true -> needs ks new -> exists z, In z ks /\ k_ksk z = false /\ k_alg z = k_alg new /\ act z <> 0 /\ tail0 z) ->
  replaced now fin new ks ks' -> sgn R ks -> sgn R ks'.
Proof.
  intros R now fin new ks ks' HR Hn V IN SN NZ RP SG.
  destruct RP as [r P P' AL|old r P P' Q A NE|old z r P P' QN QO A Z].
  - apply (sgn_perm R _ _ (Permutation_sym P')). apply (sgn_perm R _ _ P) in SG. apply (inv_perm _ _ _ V) in P. clear V NZ IN AL. pose proof (in_keys _ _ P) as FK. inversion FK as [|? ? KN FR]; subst. destruct SG as [S N].
    destruct (act_class now new Hn KN SN) as (A1 & A2 & A3 & A4 & A5 & A6 & A7 & A8 & _). assert (L : livek new = k_ksk new). { destruct (k_ksk new) eqn:Q; [pose proof (ksk_class now new Hn KN Q) as C; rewrite SN in C; tauto|apply (zsk_class now new Hn KN Q)]. }
    split; [eapply signs_f2; [|exact S]; constructor; [apply activated_facts; auto|apply f2_keeps]|]. intros x X M. destruct X as [<- | X]; [destruct M as (_ & _ & [M|[M _]]); congruence|].
    apply (needs_live (new :: r)) in M; [|rewrite !zcount_cons, A2, L; reflexivity]. destruct (N x ltac:(right; exact X) M) as (z & J & QZ & AZ & PR). destruct J as [<- | J].
    + exists (activated now new). split; [left; reflexivity|]. split; [exact QZ|]. split; [exact AZ|]. apply HR; [cbn; lia|]. unfold tail0. auto.
    + exists z. split; [right; exact J|]. auto.
  - apply (sgn_perm R _ _ (Permutation_sym P')). apply (sgn_perm R _ _ P) in SG. pose proof (inv_perm _ _ _ V P) as V'. destruct (k_ksk new) eqn:QN.
    + assert (NZ' : needs (new :: old :: r) new -> exists z, In z (new :: old :: r) /\ k_ksk z = false /\ k_alg z = k_alg new /\ act z <> 0 /\ tail0 z).
      { intros (M1 & M2 & M3). rewrite <- (zcount_perm _ _ _ P) in M3. destruct (NZ eq_refl (conj M1 (conj M2 M3))) as (z & J & H). exists z. split; [apply (Permutation_in _ P); exact J|exact H]. }
      destruct (two_live now new old r Hn V' QN SN Q A) as (T1 & T2 & T3 & _). eapply (sgn_ksk R now fin new old r r); eauto. intros x X. split; [apply (zcount_zero pendk r); [lia|exact X]|apply (zcount_zero rdyk r); [lia|exact X]].
    + destruct SG as [(k & z & I & J & LK & ZZ & AZ & OK) N]. pose proof (in_keys _ _ V') as FK. inversion FK as [|? ? KN FK2]; subst. inversion FK2 as [|? ? KO FR]; subst. assert (SN' : get_key_state new now = (if k_ksk new then KReady else KPublished)) by (rewrite QN; exact SN).
      destruct (act_class now new Hn KN SN') as (A1 & A2 & A3 & A4 & A5 & A6 & A7 & A8 & _). rewrite QN in A2. destruct (zsk_class now new Hn KN QN) as (CN1 & CN2 & CN3 & CN4 & _). rewrite SN in CN4. destruct (zsk_class now old Hn KO Q) as (CO1 & CO2 & CO3 & _).
      pose proof (state_spec now new Hn KN) as FN. rewrite SN in FN. cbn [state_facts] in FN. pose proof (state_spec now old Hn KO) as FO. rewrite A in FO. cbn [state_facts] in FO.
      assert (OA : k_alg old <> k_alg new -> k_ksk (old_after now fin old new) = false /\ act (old_after now fin old new) = act old /\ ret (old_after now fin old new) = ret old /\ post (old_after now fin old new) = post old /\ rem (old_after now fin old new) = rem old).
      { intros D. unfold old_after. replace (k_alg old =? k_alg new) with false by lia. rewrite Q. cbn. rewrite Q. auto. }
      assert (OK' : k_ksk (old_after now fin old new) = false /\ k_alg (old_after now fin old new) = k_alg old /\ k_zsk (old_after now fin old new) = k_zsk old) by (unfold old_after; cbn; auto). destruct OK' as (OQ & OAL & OZ).
      assert (ZN : zok (activated now new)) by (right; repeat split; auto; cbn; lia). split.
      * assert (I' : In k r). { destruct I as [<- |[<- | I]]; auto; congruence. } destruct J as [<- |[<- | J]].
        -- exfalso. destruct OK as [OK|(_ & OK & _)]; [congruence|lia].
        -- destruct (Z.eq_dec (k_alg old) (k_alg new)) as [E|E].
           ++ exists k, (activated now new). split; [right; right; exact I'|]. split; [left; reflexivity|]. split; [exact LK|]. split; [apply (ki_role _ _ KN QN)|]. split; [cbn; congruence|exact ZN].
           ++ exists k, (old_after now fin old new). split; [right; right; exact I'|]. split; [right; left; reflexivity|]. split; [exact LK|]. split; [congruence|]. split; [congruence|]. right. destruct (OA E) as (O1 & O2 & O3 & O4 & O5). rewrite O2, O3, O4, O5. destruct OK as [OK|(_ & OK)]; [congruence|]. split; [exact O1|exact OK].
        -- exists k, z. split; [right; right; exact I'|]. split; [right; right; exact J|]. auto.
      * intros x X M. assert (QX : k_ksk x = true) by apply M. assert (X' : In x r) by (destruct X as [<- |[<- | X]]; auto; [cbn in QX|]; congruence).
        assert (LL : livek (old_after now fin old new) = false) by (unfold livek; rewrite OQ; reflexivity).
        apply (needs_live (new :: old :: r)) in M; [|rewrite !zcount_cons, A2, CN2, CO2, LL; reflexivity]. destruct (N x ltac:(right; right; exact X') M) as (y & JY & QY & AY & PR). destruct JY as [<- |[<- | JY]].
        -- exists (activated now new). split; [left; reflexivity|]. split; [exact QN|]. split; [exact AY|]. apply HR; [cbn; lia|]. unfold tail0. auto.
        -- destruct (in_alg _ _ V' x new ltac:(right; right; exact X') ltac:(apply M) ltac:(left; reflexivity) CN4) as [E _]. exists (activated now new). split; [left; reflexivity|]. split; [exact QN|]. split; [exact E|]. apply HR; [cbn; lia|]. unfold tail0. auto.
        -- exists y. split; [right; right; exact JY|]. auto.
  - apply (sgn_perm R _ _ (Permutation_sym P')). pose proof (inv_perm _ _ _ V P) as V'. rewrite QN in SN.
    assert (NZ' : needs (new :: old :: z :: r) new -> exists z0, In z0 (new :: old :: z :: r) /\ k_ksk z0 = false /\ k_alg z0 = k_alg new /\ act z0 <> 0 /\ tail0 z0).
    { intros (M1 & M2 & M3). rewrite <- (zcount_perm _ _ _ P) in M3. destruct (NZ QN (conj M1 (conj M2 M3))) as (y & J & H). exists y. split; [apply (Permutation_in _ P); exact J|exact H]. }
    destruct (two_live now new old (z :: r) Hn V' QN SN QO A) as (T1 & T2 & T3 & _). destruct Z as (Z1 & Z2 & Z3 & Z4). eapply (sgn_ksk R now fin new old (z :: r)); eauto.
    + assert (ZA : k_ksk (zsk_after now fin z old new) = false) by (unfold zsk_after; cbn; exact Z2). intros x [<- | X]; [unfold pendk, rdyk; rewrite ZA; auto|]. split; [apply (zcount_zero pendk (z :: r)); [lia|right; exact X]|apply (zcount_zero rdyk (z :: r)); [lia|right; exact X]].
    + intros y [<- | Y] YQ YA YZ; [exfalso; destruct Z3; congruence|right; exact Y].
Qed.

(** *** Every step *)
Lemma step_sgn : forall p now ks ks', 0 < now < 2 ^ 63 -> is_u32 (p_sbm_timeout p) -> inv now ks -> step True p now ks ks' -> sgn (pair p now) ks -> sgn (pair p now) ks'.
Proof.
  intros p now ks ks' Hn HT V ST FN. pose proof (in_keys _ _ V) as FK. pose proof (proj1 (Forall_forall _ _) FK) as FA. assert (Hn' : 0 < now) by lia.
  assert (EMP : forall k, In k ks -> sgn (pair p now) ks) by auto.
  destruct ST as [G -> |R SB -> |R -> |R SC (k & I & Q & A & S) -> |b R -> |k r P S D P'|k r P S Q D P'|k I S D RP|k r P S D P'|k P S D KD].
  - exfalso. destruct FN as [(k & z & I & _ & L & _) _]. destruct (live_state now k Hn' (FA k I) L) as [E|E]; rewrite (gone_spec now ks Hn' FK G k I) in E; try discriminate; unfold livek in L; destruct (k_ksk k); auto.
  - destruct FN as [(k & z & I & J & L & ZZ & AZ & OK) N]. assert (QK : k_ksk k = true) by (unfold livek in L; destruct (k_ksk k); auto). destruct (SB Logic.I k I QK (live_state now k Hn' (FA k I) L)) as [B1 B2].
    apply (sgn_new_ksk p now ks k); auto; [exists k, z; auto 8|]. congruence.
  - destruct FN as [SG N]. split; [apply signs_app; exact SG|]. intros x X M. exfalso. apply in_app_or in X. destruct X as [X|[<- | []]]; [|destruct M as (M & _); discriminate]. revert M. eapply idle_needs; eauto.
  - destruct (EMP k I) as [SG _]. pose proof (ksk_class now k Hn' (FA k I) Q) as C. rewrite S in C. destruct C as (_ & L & _). eapply (sgn_new_ksk p now ks k); eauto. intros PS.
    unfold signing_scheme_present in SC. rewrite PS in SC. apply andb_true_iff in SC. destruct SC as [SC _]. unfold key_present in SC. apply existsb_exists in SC. destruct SC as (k2 & I2 & SC). rewrite !andb_true_iff in SC. destruct SC as (((C1 & C2) & _) & C3). apply eqb_prop in C1, C2. apply negb_true_iff in C3.
    destruct (running_false now ks Hn' FK R) as (NST & _ & L1 & _). destruct (NST k2 I2) as (S1 & S2 & S3 & S4). pose proof (ksk_class now k2 Hn' (FA k2 I2) C1) as CC. pose proof (state_spec now k2 Hn' (FA k2 I2)) as F2. unfold in_state in C3.
    assert (L2 : livek k2 = true). { destruct (get_key_state k2 now) eqn:E; try contradiction; try tauto; cbn [state_facts] in F2; [|discriminate C3]. exfalso. destruct F2 as (_ & F2 & _). pose proof (ki_ret1 _ _ (FA k2 I2) ltac:(lia)) as (_ & _ & _ & _ & X). congruence. }
    assert (k2 = k) by (eapply live_unique; eauto). congruence.
  - destruct FN as [SG N]. split; [apply signs_app; exact SG|]. intros x X M. apply in_app_or in X. destruct X as [X|[<- | X]].
    + exfalso. revert M. eapply idle_needs; eauto. destruct (new_pend p now true (p_sts p) 0 b Hn' ltac:(auto)) as (_ & NL & _). rewrite zcount_cons, NL. destruct (p_sts p); reflexivity.
    + assert (PS : p_sts p = false) by apply M. rewrite PS. destruct (new_pend p now true false 0 b Hn' ltac:(auto)) as (NP & _). exists (newkey p now false true 0 b). split; [apply in_or_app; right; right; left; reflexivity|]. split; [reflexivity|]. split; [reflexivity|].
      destruct b; [apply pb|apply pc]; try exact NP; try reflexivity. cbn. lia.
    + exfalso. destruct (p_sts p); [destruct X|]. destruct X as [<- | []]. destruct M as (M & _). discriminate.
  - assert (IK : In k ks) by (apply (Permutation_in _ (Permutation_sym P)); left; reflexivity). apply (sgn_perm _ _ _ (Permutation_sym P')). eapply sgn_publish; eauto; [apply (inv_perm _ _ _ V P)|]. apply (sgn_perm _ _ _ P). eauto.
  - assert (IK : In k ks) by (apply (Permutation_in _ (Permutation_sym P)); left; reflexivity). apply (sgn_perm _ _ _ (Permutation_sym P')). eapply sgn_submit; eauto; [apply (inv_perm _ _ _ V P)|]. apply (sgn_perm _ _ _ P). eauto.
  - eapply sgn_replaced; try exact RP; eauto using lasting_pair. intros Q M. destruct (EMP k I) as [_ N]. destruct (N k I M) as (z & J & QZ & AZ & PR). exists z. split; [exact J|]. split; [exact QZ|]. split; [exact AZ|]. rewrite Q in S. pose proof (due_rep p now ks k Hn HT S Q D) as DR. pose proof (ksk_class now k Hn' (FA k I) Q) as C. rewrite S in C. destruct C as (C & _). destruct PR; auto; congruence.
  - assert (IK : In k ks) by (apply (Permutation_in _ (Permutation_sym P)); left; reflexivity). apply (sgn_perm _ _ _ (Permutation_sym P')). pose proof (state_spec now k Hn' (FA k IK)) as F. change (with_t k (fun t => set_remove t now) :: r) with ([with_t k (fun t => set_remove t now)] ++ r).
    assert (CL : livek k = false /\ pendk k = false /\ rdyk k = false). { destruct (k_ksk k) eqn:Q; [pose proof (ksk_class now k Hn' (FA k IK) Q) as C; destruct S as [S|S]; rewrite S in C; tauto|destruct (zsk_class now k Hn' (FA k IK) Q); tauto]. } destruct CL as (C1 & C2 & C3).
    apply (sgn_spare p now k r); auto; try (apply (inv_perm _ _ _ V P)); try (apply (sgn_perm _ _ _ P); eauto).
    + destruct S as [S|S]; rewrite S in F; cbn in F; lia.
    + intros T. unfold tail0 in T. destruct S as [S|S]; rewrite S in F; cbn in F; lia.
    + intros [T|T]; [congruence|]. destruct S as [S|S]; rewrite S in F; cbn in F; lia.
    + intros x [<- | []]. split; [exact C1|]. split; [exact C2|exact C3].
  - assert (IK : In k ks) by (apply (Permutation_in _ (Permutation_sym P)); left; reflexivity). pose proof (state_spec now k Hn' (FA k IK)) as F. rewrite S in F. cbn [state_facts] in F.
    assert (CL : livek k = false /\ pendk k = false /\ rdyk k = false). { destruct (k_ksk k) eqn:Q; [pose proof (ksk_class now k Hn' (FA k IK) Q) as C; rewrite S in C; tauto|destruct (zsk_class now k Hn' (FA k IK) Q); tauto]. } destruct CL as (C1 & C2 & C3).
    apply (sgn_spare p now k ks' []); auto; try (apply (inv_perm _ _ _ V P)); try (apply (sgn_perm _ _ _ P); eauto).
    + lia.
    + intros T. unfold tail0 in T. lia.
    + intros [T|T]; [congruence|lia].
    + intros x [].
Qed.
Lemma steps_sgn : forall p now ks ks', 0 < now < 2 ^ 63 -> is_u32 (p_sbm_timeout p) -> inv now ks -> steps True p now ks ks' -> sgn (pair p now) ks -> sgn (pair p now) ks'.
Proof. intros p now ks ks' Hn HT V H. induction H as [ks|a b c ST H IH]; intros S; auto. apply IH; [eapply step_inv; eauto; lia|eapply step_sgn; eauto]. Qed.

(** *** The first run *)
Definition initial (p : policy) (now : Z) : list key := newkey p now true (p_sts p) now false :: (if p_sts p then [] else [newkey p now false true now false]).
Lemma initial_sgn : forall p now, 0 < now -> sgn pair0 (initial p now).
Proof.
  intros p now Hn'. unfold initial. destruct (new_pend p now true (p_sts p) now false Hn' ltac:(auto)) as (N1 & N2 & N3 & N4). replace (now =? 0) with false in * by lia. cbn [andb negb] in *. split.
  - destruct (p_sts p) eqn:PS.
    + exists (newkey p now true true now false), (newkey p now true true now false). split; [left; reflexivity|]. split; [left; reflexivity|]. split; [exact N2|]. split; [reflexivity|]. split; [reflexivity|left; exact N2].
    + exists (newkey p now true false now false), (newkey p now false true now false). split; [left; reflexivity|]. split; [right; left; reflexivity|]. split; [exact N2|]. split; [reflexivity|]. split; [reflexivity|]. right. cbn. repeat split; auto; lia.
  - intros x X (M0 & M1 & [M2|[_ M2]]).
    + exfalso. destruct X as [<- | X]; [congruence|]. destruct (p_sts p); [destruct X|]. destruct X as [<- | []]. discriminate.
    + exfalso. rewrite zcount_cons, N2 in M2. destruct (p_sts p); unfold zcount in M2; cbn in M2; lia.
Qed.
Lemma initial_inv : forall p now, 0 < now -> inv now (initial p now).
Proof.
  intros p now Hn. apply (step_inv False p now [] _ Hn (inv_nil now)). apply st_init; [split; reflexivity|]. unfold initial. cbn [key_present existsb app]. rewrite orb_false_r. reflexivity.
Qed.
Lemma initial_state : forall p now, 0 < now -> in_state now KRemoved (newkey p now true (p_sts p) now false) = false.
Proof.
  intros p now Hn. destruct (in_state now KRemoved _) eqn:E; auto. apply in_state_spec in E. pose proof (state_spec now _ Hn (newkey_inv p now true (p_sts p) now false Hn ltac:(discriminate) ltac:(auto))) as F. rewrite E in F. cbn in F. lia.
Qed.
Lemma first_gen : forall e p fl now, 0 < now -> allow_all fl ->
  match gen_initial e p fl now [] with Ok (ks, c) => ks = initial p now /\ c = true | Err _ => True | _ => False end /\ gen_initial e p fl now (initial p now) = Ok (initial p now, false).
Proof.
  intros e p fl now Hn HF. destruct HF as [F1 F2]. pose proof (initial_state p now Hn) as IS. split.
  - unfold gen_initial. rewrite F1, F2. cbn [key_present existsb negb andb orb]. unfold generate_ksk. pose proof (gen_spec e p now [] true (p_sts p) now false ltac:(discriminate)) as GS. destruct (generate_key e p now [] true (p_sts p) now false) as [ks1| | |] eqn:GE; cbn [rbind]; auto. subst ks1. cbn [app].
    replace (key_present now [newkey p now true (p_sts p) now false] false true) with false by reflexivity. unfold initial. destruct (p_sts p) eqn:PS; cbn [negb andb]; [cbn [rbind]; auto|].
    unfold generate_zsk. pose proof (gen_spec e p now [newkey p now true false now false] false true now false ltac:(discriminate)) as GZ. destruct (generate_key e p now [newkey p now true false now false] false true now false) as [ks2| | |]; cbn [rbind]; auto.
  - unfold gen_initial. rewrite F1, F2. cbn [negb andb]. rewrite orb_false_r. destruct (p_sts p) eqn:PS.
    + assert (KP : key_present now (initial p now) true true = true) by (unfold key_present, initial; cbn [existsb]; rewrite PS in *; rewrite IS; reflexivity). rewrite KP, andb_false_r. reflexivity.
    + assert (KP : key_present now (initial p now) true false = true) by (unfold key_present, initial; cbn [existsb]; rewrite PS in *; rewrite IS; reflexivity). rewrite KP. reflexivity.
Qed.
Lemma roll_first : forall fuel e p fl now ch, 0 < now -> allow_all fl -> p_manual p = false ->
  roll (S fuel) e p fl now [] ch = roll (S fuel) e p fl now (initial p now) true \/ exists x, roll (S fuel) e p fl now [] ch = Err x.
Proof.
  intros fuel e p fl now ch Hn HF MN. destruct (first_gen e p fl now Hn HF) as [A B]. cbn [roll]. rewrite MN, B. cbn [rbind]. destruct (gen_initial e p fl now []) as [[ks c]|x| |]; cbn [rbind]; try contradiction; [|right; eauto]. destruct A as [-> ->]. left. rewrite !orb_true_r. reflexivity.
Qed.
(** *** Histories *)
Theorem history_signs : forall now ks, history forced_as_before now ks -> ks = [] \/ sgn pair0 ks.
Proof.
  intros now ks H. induction H as [now B|now now' ks H IH T|now ks fuel e p fl ks' H IH PO HF OK R|now ks e delay ks' H IH D R]; auto.
  - destruct (history_inv _ _ _ H) as [B V]. destruct IH as [-> |S].
    + unfold key_rollover in R. destruct fuel as [|fuel]; [discriminate|]. destruct (p_manual p) eqn:MN; [cbn [roll] in R; rewrite MN in R; cbn [rbind] in R; left; congruence|].
      destruct (roll_first fuel e p fl now false ltac:(lia) HF MN) as [E|[x E]]; rewrite E in R; [|discriminate]. clear E. pose proof (initial_inv p now ltac:(lia)) as V1.
      assert (SB : True -> fl_force_ksk fl = true -> as_before p now (initial p now)). { intros _ _ k I Q _. destruct I as [<- | I]; [split; reflexivity|]. destruct (p_sts p); [destruct I|]. destruct I as [<- | []]. discriminate. }
      pose proof (roll_spec True (S fuel) e p fl now (initial p now) true B V1 HF SB) as RS. destruct (roll (S fuel) e p fl now (initial p now) true) as [[ks1 c]| | |]; cbn [rbind] in R; try discriminate. destruct RS as [[_ RS]|[RS QU]]; [congruence|].
      destruct c; [|left; congruence]. destruct (e_commit e); [|discriminate]. injection R as <-. right. pose proof (steps_inv _ _ now _ _ ltac:(lia) V1 RS) as V2. apply (sgn_quiet p now _ ltac:(lia) (in_keys _ _ V2) QU). eapply (steps_sgn p now); [exact B|apply PO| |exact RS|]; [assumption|]. apply sgn_run. apply initial_sgn. lia.
    + right. pose proof (rollover_spec True fuel e p fl now ks B V HF ltac:(auto)) as RS. rewrite R in RS. destruct RS as [-> |[RS QU]]; [exact S|]. pose proof (steps_inv _ _ now _ _ ltac:(lia) V RS) as V2. apply (sgn_quiet p now _ ltac:(lia) (in_keys _ _ V2) QU). eapply (steps_sgn p now); [exact B|apply PO| |exact RS|]; [assumption|]. apply sgn_run. exact S.
  - destruct (history_inv _ _ _ H) as [B V]. pose proof (confirm_spec e now delay ks B V D) as RS. rewrite R in RS. destruct RS as (k & I & Q & ST & RP). right. destruct IH as [-> |S]; [destruct I|]. apply (sgn_replaced pair0 now (now + delay) k ks ks' lasting_pair0 ltac:(lia) V I ltac:(rewrite Q; exact ST)); [|exact RP|exact S].
    intros _ M. destruct S as [_ N]. destruct (N k I M) as (z & J & QZ & AZ & PR). exists z. split; [exact J|]. split; [exact QZ|]. split; [exact AZ|]. pose proof (ksk_class now k ltac:(lia) (proj1 (Forall_forall _ _) (in_keys _ _ V) k I) Q) as C. rewrite ST in C. destruct C as (C & _). destruct PR as [PR|[(PR & _)|(PR & _)]]; [exact PR|congruence|congruence].
Qed.
(** *** Signing *)
Lemma past_pos : forall now x, 0 < now -> 0 < x <= now -> past x now = true.
Proof. intros. rewrite past_spec by lia. lia. Qed.
Lemma set_key_id : forall now b k, z_alg (set_key now b k) = k_alg k /\ z_ksk (set_key now b k) = k_ksk k /\ z_zsk (set_key now b k) = k_zsk k.
Proof. intros now b k. unfold set_key. destruct (k_pub_only k); auto. Qed.
Lemma live_signs : forall now b k, 0 < now -> kinv now k -> livek k = true -> let z := set_key now b k in z_public z = true /\ (z_active z || z_kplus z) = true /\ (b = false -> (z_active z || z_zplus z) = true).
Proof.
  intros now b k Hn K L. cbv zeta. unfold livek in L. rewrite !andb_true_iff in L. destruct L as [[Q L1] L2]. pose proof (ki_po _ _ K) as PO. pose proof (ki_rev _ _ K) as RV. assert (RD0 : rdy k <> 0) by (intros E; rewrite E in L1; discriminate). pose proof (ki_rdy1 _ _ K RD0) as (_ & PU & _). pose proof (ki_pub _ _ K). pose proof (ki_rdy _ _ K). pose proof (ki_act _ _ K).
  pose proof (ki_ksk1 _ _ K Q) as T. assert (RA : ra k = 0) by (apply Z.eqb_eq; exact L2). assert (RD : rdy k <> 0) by (intros E; rewrite E in L1; discriminate). assert (TL : ret k = 0 /\ post k = 0 /\ rem k = 0) by (destruct (Z.eq_dec (ret k) 0), (Z.eq_dec (post k) 0), (Z.eq_dec (rem k) 0); try (repeat split; assumption); exfalso; apply T; auto). destruct TL as (T1 & T2 & T3).
  unfold set_key, is_published, is_ready, is_active. cbv zeta. rewrite Q, PO, RV, T1, T2, T3, RA. rewrite !past_0 by lia. rewrite (past_pos now (pub k)) by lia. rewrite (past_pos now (rdy k)) by lia. cbn [negb andb orb]. rewrite ?andb_false_r, ?andb_true_r. cbn [z_public z_active z_kplus z_zplus].
  destruct (past (act k) now); cbn [negb andb orb]; repeat split; auto. intros ->. reflexivity.
Qed.
Lemma active_signs : forall now b k, kinv now k -> is_active (k_t k) now = true -> z_active (set_key now b k) = true.
Proof. intros now b k K A. pose proof (ki_cre _ _ K). unfold set_key. cbv zeta. rewrite (ki_po _ _ K), (ki_rev _ _ K), past_0, andb_false_r by lia. cbn [andb z_active]. exact A. Qed.
Lemma zok_signs : forall now k, 0 < now -> kinv now k -> k_ksk k = false -> act k <> 0 -> ret k = 0 -> post k = 0 -> rem k = 0 -> (z_active (set_key now false k) || z_zplus (set_key now false k)) = true.
Proof.
  intros now k Hn K Q A T1 T2 T3. pose proof (ki_po _ _ K) as PO. pose proof (ki_rev _ _ K) as RV. pose proof (ki_act _ _ K). pose proof (ki_act1 _ _ K A). pose proof (ki_pub _ _ K). pose proof (ki_ra _ _ K).
  unfold set_key, is_published, is_ready, is_active. cbv zeta. rewrite Q, PO, RV, T1, T2, T3. rewrite !past_0 by lia. rewrite (past_pos now (pub k)) by lia. rewrite (past_pos now (act k)) by lia. cbn [negb andb orb z_active z_zplus]. rewrite ?andb_false_r, ?andb_true_r.
  destruct (past (ra k) now); cbn [negb andb orb]; reflexivity.
Qed.
Theorem signs_signed : forall now ks, 0 < now -> Forall (kinv now) ks -> signs ks -> signed_at now ks.
Proof.
  intros now ks Hn FK (k & z & I & J & L & ZZ & A & OK). pose proof (proj1 (Forall_forall _ _) FK) as FA. set (sk := fun k => set_key now (alg_has_active_zsk now ks (k_alg k)) k). assert (IM : forall x, In x ks -> In (sk x) (zone_keys now ks)) by (intros x X; unfold zone_keys; apply (in_map sk); exact X).
  assert (QK : k_ksk k = true) by (unfold livek in L; destruct (k_ksk k); auto). destruct (live_signs now (alg_has_active_zsk now ks (k_alg k)) k Hn (FA k I) L) as (K1 & K2 & _). destruct (set_key_id now (alg_has_active_zsk now ks (k_alg k)) k) as (KA & KQ & _).
  destruct (alg_has_active_zsk now ks (k_alg z)) eqn:AH.
  - unfold alg_has_active_zsk in AH. apply existsb_exists in AH. destruct AH as (y & Y & AH). rewrite !andb_true_iff in AH. destruct AH as [[A1 A2] A3]. exists (sk k), (sk y). destruct (set_key_id now (alg_has_active_zsk now ks (k_alg y)) y) as (YA & _ & YZ).
    split; [apply IM; exact I|]. split; [apply IM; exact Y|]. unfold sk. split; [rewrite KA, YA; lia|]. split; [congruence|]. split; [exact K1|]. split; [exact K2|]. split; [congruence|]. rewrite (active_signs _ _ _ (FA y Y) A3). reflexivity.
  - exists (sk k), (sk z). destruct (set_key_id now (alg_has_active_zsk now ks (k_alg z)) z) as (YA & _ & YZ). split; [apply IM; exact I|]. split; [apply IM; exact J|]. unfold sk. split; [rewrite KA, YA; congruence|]. split; [congruence|]. split; [exact K1|]. split; [exact K2|]. split; [congruence|]. rewrite AH.
    destruct OK as [LZ|(Q & Z1 & Z2 & Z3 & Z4)]; [apply (live_signs now false z Hn (FA z J) LZ); reflexivity|apply zok_signs; auto].
Qed.
