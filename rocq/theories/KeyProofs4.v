(** Every step keeps the invariant. *)
From Verif Require Import Base KeyModel KeySpec KeyProofs KeyProofs2 KeyProofs3.
From Coq Require Import Permutation.

Ltac counts := rewrite ?zcount_cons, ?zcount_app in *.
(** One key changes and keeps its class *)
Lemma inv_change : forall now k k' r, 0 < now -> inv now (k :: r) -> kinv now k' -> k_ksk k' = k_ksk k -> k_zsk k' = k_zsk k -> k_alg k' = k_alg k ->
  pendk k' = pendk k -> livek k' = livek k -> rdyk k' = rdyk k -> (pendz k' = true -> pendz k = true) ->
  (leaving now k' -> leaving now k) -> (k_ksk k = true -> ra k <> 0 -> ra k' <> 0 /\ post k' = post k) -> (k_ksk k = false -> now < post k' -> post k' = post k) ->
  inv now (k' :: r).
Proof.
  intros now k k' r Hn [I1 I2 I3 I4 I5 I6 I7] K Q QS A P L R Z LV RP PP. inversion I1; subst. constructor; counts; rewrite ?P, ?L, ?R; auto.
  - intros (x & I & X). apply I5. destruct I as [<- | I]; [exists k; split; [left; reflexivity|auto]|exists x; split; [right; exact I|exact X]].
  - intros z I QZ T. assert (PZ : exists z0, In z0 (k :: r) /\ k_ksk z0 = false /\ now < post z0 /\ post z0 = post z /\ k_alg z0 = k_alg z).
    { destruct I as [<- | I]; [exists k; rewrite Q in QZ; specialize (PP QZ T); repeat split; auto; try (left; reflexivity); try lia; congruence|exists z; repeat split; auto; right; exact I]. }
    destruct PZ as (z0 & Z1 & Z2 & Z3 & Z4 & Z5). destruct (I6 z0 Z1 Z2 Z3) as [(x & J & X1 & X2 & X3) O]. split.
    + destruct J as [<- | J]; [|exists x; repeat split; auto; try (right; exact J); congruence]. destruct (RP X1 X2). exists k'. repeat split; auto; try (left; reflexivity); congruence.
    + clear J. intros y J Y. rewrite <- Z5. destruct J as [<- | J]; [rewrite A; apply O; auto; left; reflexivity|apply O; auto; right; exact J].
  - intros x z I X J Y.
    assert (PX : exists x0, In x0 (k :: r) /\ pendk x0 = pendk x /\ rdyk x0 = rdyk x /\ k_alg x0 = k_alg x /\ k_zsk x0 = k_zsk x) by (destruct I as [<- | I]; [exists k; repeat split; auto; left; reflexivity|exists x; repeat split; auto; right; exact I]).
    assert (PY : exists z0, In z0 (k :: r) /\ pendz z0 = true /\ k_alg z0 = k_alg z) by (destruct J as [<- | J]; [exists k; repeat split; auto; left; reflexivity|exists z; repeat split; auto; right; exact J]).
    destruct PX as (x0 & X1 & X2 & X3 & X4 & X5), PY as (z0 & Y1 & Y2 & Y3). rewrite <- X4, <- X5, <- Y3. apply I7; auto. rewrite X2, X3. exact X.
Qed.
Lemma inv_delete : forall now k r, inv now (k :: r) -> (k_ksk k = true -> post k <= now) -> inv now r.
Proof.
  intros now k r [I1 I2 I3 I4 I5 I6 I7] PK. counts. inversion I1; subst. assert (B : forall b, 0 <= Z.b2z b) by (intros []; cbn [Z.b2z]; lia).
  pose proof (B (pendk k)). pose proof (B (livek k)). pose proof (B (rdyk k)). constructor; auto; try lia.
  - intros (x & I & X). assert (T : exists k0, In k0 (k :: r) /\ leaving now k0) by (exists x; split; [right; exact I|exact X]). specialize (I5 T). lia.
  - intros z I Q T. destruct (I6 z (or_intror I) Q T) as [(x & J & X1 & X2 & X3) O]. split; [|intros y Y; apply O; right; exact Y]. destruct J as [<- | J]; [specialize (PK X1); lia|]. exists x. auto.
  - intros x z I X J Y. apply I7; try (right; assumption); auto. destruct X as [X|[X1 X2]]; [left; exact X|right; split; [exact X1|lia]].
Qed.

Lemma act_z : forall now k, 0 < now -> kinv now k -> get_key_state k now = KActive -> k_ksk k = true -> tail0 k /\ rdy k <> 0.
Proof. intros now k Hn K E Q. pose proof (state_spec now k Hn K) as F. rewrite E in F. destruct K. cbn [state_facts] in F. unfold tail0. repeat split; lia. Qed.

Ltac kdone2 := try lia; intros; repeat match goal with |- _ /\ _ => split end; try assumption; try congruence; try lia; auto.
Lemma kinv_old : forall now fin old new, 0 < now -> now <= fin -> kinv now old -> get_key_state old now = KActive ->
  (k_ksk old = false -> post old <> 0 -> k_alg old <> k_alg new) -> kinv now (old_after now fin old new).
Proof.
  intros now fin old new Hn HF K E PA. pose proof (state_spec now old Hn K) as F. rewrite E in F. cbn [state_facts] in F. destruct F as (F1 & F2 & F3 & F4 & F5 & F6).
  unfold old_after. kcase old. destruct K as [P1 P2 P3 P4 P5 P6 P7 P8 P9 P10 P11 P12 P13 P14 P15 P16 P17 P18 P19 P20 P21 P22 P23 P24 P25 P26]. kred. subst.
  assert (R1 : p3 <= p4) by lia. assert (R2 : p2 <= p4) by lia. clear P16 P18 P22 P23 P25 E.
  destruct ksk; [assert (p7 = 0) by (destruct F6 as [F6|[_ F6]]; [exact F6|discriminate]); subst; specialize (P14 F2 eq_refl); clear F6|specialize (PA eq_refl); specialize (P3 eq_refl)]; clear P24;
    destruct (alg =? k_alg new) eqn:AE; cbn [negb]; try (destruct zsk); constructor; kred; kdone2.
Qed.
Lemma kinv_zsk : forall now fin z old new, 0 < now -> now <= fin -> kinv now z -> z_eligible now new z -> post z = 0 -> kinv now (zsk_after now fin z old new).
Proof.
  intros now fin z old new Hn HF K (Z1 & Z2 & _ & ES) PZ. pose proof (state_spec now z Hn K) as F. unfold zsk_after.
  assert (F' : act z <> 0 /\ ret z = 0 /\ rem z = 0). { pose proof (ki_zsk _ _ K Z2). pose proof (ki_ret _ _ K). pose proof (ki_rem _ _ K). destruct ES as [E|E]; rewrite E in F; cbn [state_facts] in F; lia. }
  clear F ES. destruct F' as (F1 & F2 & F3). kcase z. destruct K as [P1 P2 P3 P4 P5 P6 P7 P8 P9 P10 P11 P12 P13 P14 P15 P16 P17 P18 P19 P20 P21 P22 P23 P24 P25 P26]. kred. subst.
  destruct (k_alg old =? k_alg new); cbn [negb]; constructor; kred; kdone2.
Qed.

(** What leaves the invariant when a KSK takes over from another one *)
Lemma two_live : forall now new old r, 0 < now -> inv now (new :: old :: r) -> k_ksk new = true -> get_key_state new now = KReady -> k_ksk old = true -> get_key_state old now = KActive ->
  zcount pendk r = 0 /\ zcount livek r = 0 /\ zcount rdyk r = 0 /\ (forall x, In x r -> ~ leaving now x) /\ (forall z, In z r -> k_ksk z = false -> post z <= now) /\
  (forall z, In z r -> pendz z = true -> k_alg z = k_alg new /\ k_zsk new = false).
Proof.
  intros now new old r Hn V QN SN QO SO. pose proof V as V0. destruct V as [I1 I2 I3 I4 I5 I6 I7]. inversion I1 as [|? ? KN I1']; subst. inversion I1' as [|? ? KO I1'']; subst.
  pose proof (ksk_class now new Hn KN QN) as CN. rewrite SN in CN. destruct CN as (N1 & N2 & N3). pose proof (ksk_class now old Hn KO QO) as CO. rewrite SO in CO. destruct CO as (O1 & O2 & O3).
  counts. rewrite N1, N2, N3, O1, O2, O3 in *. cbn [Z.b2z] in *. pose proof (zcount_nonneg pendk r). pose proof (zcount_nonneg livek r). pose proof (zcount_nonneg rdyk r).
  assert (NL : forall x, In x r -> ~ leaving now x). { intros x I L. assert (T : exists k0, In k0 (new :: old :: r) /\ leaving now k0) by (exists x; split; [right; right; exact I|exact L]). specialize (I5 T). lia. }
  repeat match goal with |- _ /\ _ => split end; auto; try lia.
  - intros z I Q. destruct (Z_lt_le_dec now (post z)) as [T|T]; [|exact T]. exfalso. destruct (I6 z (or_intror (or_intror I)) Q T) as [(k & J & X1 & X2 & X3) _].
    destruct J as [<- | [<- | J]].
    + pose proof (state_spec now new Hn KN) as F. rewrite SN in F. cbn [state_facts] in F. unfold tail0 in F. lia.
    + destruct (act_z now old Hn KO SO QO) as [F _]. unfold tail0 in F. lia.
    + apply (NL k J). split; [exact X1|]. left. pose proof (proj1 (Forall_forall _ _) I1'' k J) as K. pose proof (state_spec now k Hn K) as F. destruct K. destruct (get_key_state k now); cbn [state_facts] in F; unfold tail0 in F; try contradiction; auto; exfalso; lia.
  - intros z I PZ. apply I7; [left; reflexivity| |right; right; exact I|exact PZ]. right. split; [exact N3|lia].
Qed.

Lemma state_ext : forall now k k', k_t k = k_t k' -> get_key_state k now = get_key_state k' now.
Proof. intros now k k' H. unfold get_key_state. rewrite H. reflexivity. Qed.
Lemma act_class : forall now k, 0 < now -> kinv now k -> get_key_state k now = (if k_ksk k then KReady else KPublished) ->
  pendk (activated now k) = false /\ livek (activated now k) = k_ksk k /\ rdyk (activated now k) = false /\ pendz (activated now k) = false /\
  ra (activated now k) = 0 /\ ret (activated now k) = 0 /\ post (activated now k) = 0 /\ rem (activated now k) = 0 /\ ~ leaving now (activated now k).
Proof.
  intros now k Hn K E. pose proof (kinv_activate now k Hn K E) as K'. fold (activated now k) in K'. pose proof (state_spec now k Hn K) as F.
  assert (T : tail0 k /\ (k_ksk k = true -> rdy k <> 0)) by (rewrite E in F; destruct (k_ksk k); cbn [state_facts] in F; split; try tauto; discriminate). destruct T as [(T1 & T2 & T3 & T4) T5].
  assert (TT : ra (activated now k) = 0 /\ ret (activated now k) = 0 /\ post (activated now k) = 0 /\ rem (activated now k) = 0) by (unfold activated; kred; auto).
  assert (NL : ~ leaving now (activated now k)). { intros [_ L]. pose proof (state_spec now _ Hn K') as F'. destruct L as [L|L]; rewrite L in F'; cbn [state_facts] in F'; lia. }
  destruct TT as (U1 & U2 & U3 & U4). repeat match goal with |- _ /\ _ => split end; auto.
  - unfold pendk, activated. kred. destruct (k_ksk k); [|reflexivity]. specialize (T5 eq_refl). cbn [andb]. lia.
  - unfold livek, activated. kred. destruct (k_ksk k); [|reflexivity]. specialize (T5 eq_refl). rewrite T1. cbn [andb]. replace (rdy k =? 0) with false by lia. reflexivity.
  - unfold rdyk, activated. kred. replace (now =? 0) with false by lia. apply andb_false_r.
  - unfold pendz, activated. kred. replace (now =? 0) with false by lia. apply andb_false_r.
Qed.
Lemma replaced_inv : forall now fin new ks ks', 0 < now -> now <= fin -> inv now ks -> In new ks -> get_key_state new now = (if k_ksk new then KReady else KPublished) ->
  replaced now fin new ks ks' -> inv now ks'.
Proof.
  intros now fin new ks ks' Hn HF V IN SN RP. pose proof (proj1 (Forall_forall _ _) (in_keys _ _ V)) as FA. assert (KN : kinv now new) by auto.
  pose proof (kinv_activate now new Hn KN SN) as KN'. fold (activated now new) in KN'.
  destruct (act_class now new Hn KN SN) as (A1 & A2 & A3 & A4 & A5 & A6 & A7 & A8 & A9).
  assert (CN : pendk new = false /\ livek new = k_ksk new /\ rdyk new = k_ksk new /\ pendz new = negb (k_ksk new) /\ tail0 new \/ k_ksk new = false /\ livek new = false /\ pendk new = false /\ rdyk new = false /\ pendz new = true /\ tail0 new).
  { pose proof (state_spec now new Hn KN) as F. destruct (k_ksk new) eqn:Q; [left|right].
    - pose proof (ksk_class now new Hn KN Q) as C. rewrite SN in C, F. cbn [state_facts] in F. destruct C as (C1 & C2 & C3). rewrite C1, C2, C3, (ksk_not_pendz _ Q). repeat split; try apply F.
    - destruct (zsk_class now new Hn KN Q) as (C1 & C2 & C3 & C4 & _). rewrite SN in C4, F. cbn [state_facts] in F. rewrite C1, C2, C3, C4. repeat split; try apply F. }
  destruct RP as [r P P' N|old r P P' QO SO NZ|old z r P P' QN QO SO EZ].
  - apply (inv_perm now (activated now new :: r)); [|symmetry; exact P']. pose proof (inv_perm _ _ _ V P) as W.
    destruct (k_ksk new) eqn:Q.
    + destruct W as [I1 I2 I3 I4 I5 I6 I7]. destruct CN as [(C1 & C2 & C3 & C4 & C5)|(C1 & _)]; [|congruence]. counts. rewrite C1, C2, C3 in *. cbn [Z.b2z] in *. inversion I1; subst. pose proof (zcount_nonneg rdyk r) as NR.
      constructor; counts; rewrite ?A1, ?A2, ?A3; cbn [Z.b2z]; auto; try lia.
      * intros (x & I & X). apply I5. destruct I as [<- | I]; [contradiction|]. exists x. split; [right; exact I|exact X].
      * intros z I QZ T. destruct I as [<- | I]; [rewrite A7 in T; lia|]. destruct (I6 z (or_intror I) QZ T) as [(x & J & X1 & X2 & X3) O]. split.
        -- destruct J as [<- | J]; [destruct C5 as [C5 _]; congruence|]. exists x. repeat split; auto. right. exact J.
        -- clear J. intros y J Y. destruct J as [<- | J]; [congruence|]. apply O; auto. right. exact J.
      * intros x z I X J Y. destruct J as [<- | J]; [congruence|]. destruct I as [<- | I]; [destruct X as [X|[X _]]; congruence|].
        assert (RX : rdyk x = false) by (apply (zcount_zero rdyk r); [lia|exact I]). destruct X as [X|[X _]]; [|congruence]. apply I7; [right; exact I|left; exact X|right; exact J|exact Y].
    + assert (CN' : pendk new = false /\ livek new = false /\ rdyk new = false /\ pendz new = true /\ tail0 new) by (destruct CN as [(C1 & C2 & C3 & C4 & C5)|(C1 & C2 & C3 & C4 & C5 & C6)]; cbn [negb] in *; auto 10). destruct CN' as (C1 & C2 & C3 & C4 & C5).
      apply (inv_change now new); auto; try congruence; try (intros; contradiction); try (intros _ T; destruct C5 as (_ & _ & C5 & _); congruence).
  - pose proof (inv_perm _ _ _ V P) as W. apply (inv_perm now (activated now new :: old_after now fin old new :: r)); [|symmetry; exact P'].
    assert (IO : In old ks) by (eapply Permutation_in; [symmetry; exact P|right; left; reflexivity]). pose proof (FA old IO) as KO.
    destruct (k_ksk new) eqn:Q.
    + destruct (two_live now new old r Hn W Q ltac:(exact SN) QO SO) as (T1 & T2 & T3 & T4 & T5 & T6). destruct (act_z now old Hn KO SO QO) as [(O1 & O2 & O3 & O4) O5].
      assert (KO' : kinv now (old_after now fin old new)) by (apply kinv_old; auto; intros; congruence).
      assert (CO : pendk (old_after now fin old new) = false /\ livek (old_after now fin old new) = false /\ rdyk (old_after now fin old new) = false).
      { pose proof (state_spec now old Hn KO) as F. rewrite SO in F. cbn [state_facts] in F. unfold pendk, livek, rdyk, old_after, with_t. cbn [k_ksk k_t]. rewrite QO. destruct (negb (k_alg old =? k_alg new)), (k_zsk old); kred; replace (now =? 0) with false by lia; destruct (rdy old =? 0) eqn:?, (act old =? 0) eqn:?; cbn [negb andb]; auto; lia. }
      destruct CO as (B1 & B2 & B3). destruct W as [I1 I2 I3 I4 I5 I6 I7]. inversion I1 as [|? ? ? I1']; subst. inversion I1'; subst.
      constructor; counts; rewrite ?A1, ?A2, ?A3, ?B1, ?B2, ?B3, ?T1, ?T2, ?T3; cbn [Z.b2z]; auto; try lia.
      * intros z I QZ T. destruct I as [<- | [<- | I]]; [change (k_ksk new = false) in QZ; congruence|unfold old_after, with_t in QZ; cbn [k_ksk] in QZ; congruence|]. specialize (T5 z I QZ). lia.
      * intros x z I X J Y. destruct I as [<- | [<- | I]]; [destruct X as [X|[X _]]; congruence|destruct X as [X|[X _]]; congruence|].
        pose proof (zcount_zero pendk r ltac:(lia) x I). pose proof (zcount_zero rdyk r ltac:(lia) x I). destruct X as [X|[X _]]; congruence.
    + assert (CN' : pendk new = false /\ livek new = false /\ rdyk new = false /\ pendz new = true /\ tail0 new) by (destruct CN as [(C1 & C2 & C3 & C4 & C5)|(C1 & C2 & C3 & C4 & C5 & C6)]; cbn [negb] in *; auto 10). destruct CN' as (C1 & C2 & C3 & C4 & C5).
      assert (PA : post old <> 0 -> k_alg old <> k_alg new).
      { intros NP E. pose proof (state_spec now old Hn KO) as F. rewrite SO in F. cbn [state_facts] in F. destruct F as (_ & _ & _ & _ & _ & [F|[F _]]); [lia|]. destruct (in_post _ _ V old IO QO F) as [_ O]. apply (O new IN C4). congruence. }
      assert (KO' : kinv now (old_after now fin old new)) by (apply kinv_old; auto).
      assert (W1 : inv now (activated now new :: old :: r)). { apply (inv_change now new); auto; try congruence; try (intros; contradiction); try (intros _ T; destruct C5 as (_ & _ & C5 & _); congruence). }
      apply (inv_perm now (old_after now fin old new :: activated now new :: r)); [|apply perm_swap].
      apply (inv_change now old); auto; try (intros; congruence).
      * apply (inv_perm _ _ _ W1). apply perm_swap.
      * unfold pendk, old_after, with_t. cbn [k_ksk k_t]. rewrite QO. reflexivity.
      * unfold livek, old_after, with_t. cbn [k_ksk k_t]. rewrite QO. reflexivity.
      * unfold rdyk, old_after, with_t. cbn [k_ksk k_t]. rewrite QO. reflexivity.
      * unfold pendz, old_after, with_t. cbn [k_ksk k_t]. rewrite QO. cbn [negb andb]. destruct (negb (k_alg old =? k_alg new)); kred; auto.
      * intros [L _]. unfold old_after, with_t in L. cbn [k_ksk] in L. congruence.
      * intros _ T. unfold old_after, with_t in *. cbn [k_t] in *. rewrite QO in *. destruct (negb (k_alg old =? k_alg new)); kred; auto.
  - pose proof (inv_perm _ _ _ V P) as W. apply (inv_perm now (activated now new :: old_after now fin old new :: zsk_after now fin z old new :: r)); [|symmetry; exact P'].
    assert (IO : In old ks) by (eapply Permutation_in; [symmetry; exact P|right; left; reflexivity]). pose proof (FA old IO) as KO.
    assert (IZ : In z ks) by (eapply Permutation_in; [symmetry; exact P|right; right; left; reflexivity]). pose proof (FA z IZ) as KZ.
    rewrite QN in SN. destruct (two_live now new old (z :: r) Hn W QN SN QO SO) as (T1 & T2 & T3 & T4 & T5 & T6). destruct (act_z now old Hn KO SO QO) as [(O1 & O2 & O3 & O4) O5].
    assert (KO' : kinv now (old_after now fin old new)) by (apply kinv_old; auto; intros; congruence).
    assert (PZ : post z = 0). { destruct EZ as (E1 & E2 & _ & E4). specialize (T5 z (or_introl eq_refl) E2). pose proof (state_spec now z Hn KZ) as F. destruct KZ. destruct E4 as [E|E]; rewrite E in F; cbn [state_facts] in F; lia. }
    assert (KZ' : kinv now (zsk_after now fin z old new)) by (apply kinv_zsk; auto).
    assert (CO : pendk (old_after now fin old new) = false /\ livek (old_after now fin old new) = false /\ rdyk (old_after now fin old new) = false).
    { pose proof (state_spec now old Hn KO) as F. rewrite SO in F. cbn [state_facts] in F. unfold pendk, livek, rdyk, old_after, with_t. cbn [k_ksk k_t]. rewrite QO. destruct (negb (k_alg old =? k_alg new)), (k_zsk old); kred; replace (now =? 0) with false by lia; destruct (rdy old =? 0) eqn:?, (act old =? 0) eqn:?; cbn [negb andb]; auto; lia. }
    destruct CO as (B1 & B2 & B3). destruct EZ as (E1 & E2 & E3 & E4).
    assert (CZ : pendk (zsk_after now fin z old new) = false /\ livek (zsk_after now fin z old new) = false /\ rdyk (zsk_after now fin z old new) = false) by (unfold pendk, livek, rdyk, zsk_after, with_t; cbn [k_ksk k_t]; rewrite E2; auto). destruct CZ as (Z1 & Z2 & Z3).
    assert (AZ : act z <> 0). { pose proof (state_spec now z Hn KZ) as F. destruct E4 as [E|E]; rewrite E in F; cbn [state_facts] in F; tauto. }
    destruct W as [I1 I2 I3 I4 I5 I6 I7]. inversion I1 as [|? ? ? I1']; subst. inversion I1' as [|? ? ? I1'']; subst. inversion I1''; subst. counts.
    pose proof (zcount_nonneg pendk r). pose proof (zcount_nonneg livek r). pose proof (zcount_nonneg rdyk r). assert (BB : forall b, 0 <= Z.b2z b) by (intros []; cbn [Z.b2z]; lia).
    pose proof (BB (pendk z)). pose proof (BB (livek z)). pose proof (BB (rdyk z)).
    constructor; counts; rewrite ?A1, ?A2, ?A3, ?B1, ?B2, ?B3, ?Z1, ?Z2, ?Z3, ?QN; cbn [Z.b2z]; auto; try lia.
    + intros y I QY T. destruct I as [<- | [<- | [<- | I]]]; [change (k_ksk new = false) in QY; congruence|unfold old_after, with_t in QY; cbn [k_ksk] in QY; congruence| |specialize (T5 y (or_intror I) QY); lia].
      unfold zsk_after, with_t in T. cbn [k_t] in T. destruct (k_alg old =? k_alg new) eqn:AE; cbn [negb] in T; kred; [rewrite PZ in T; lia|]. split.
      * exists (old_after now fin old new). split; [right; left; reflexivity|]. unfold old_after, zsk_after, with_t. cbn [k_ksk k_t]. rewrite AE, QO. cbn [negb]. kred. repeat split; auto. lia.
      * intros y J Y. change (k_alg (zsk_after now fin z old new)) with (k_alg z).
        assert (AY : k_alg y = k_alg new /\ k_zsk new = false). { destruct J as [<- | [<- | [<- | J]]]; [congruence| | |apply T6; [right; exact J|exact Y]].
          - unfold pendz, old_after, with_t in Y. cbn [k_ksk] in Y. rewrite QO in Y. discriminate.
          - unfold pendz, zsk_after, with_t in Y. cbn [k_ksk k_t] in Y. rewrite E2, AE in Y. cbn [negb andb] in Y. kred. lia. }
        destruct AY as [AY AZS]. destruct E3 as [E3|E3]; congruence.
    + intros x y I X J Y. destruct I as [<- | [<- | [<- | I]]]; try (destruct X as [X|[X _]]; congruence).
      pose proof (zcount_zero pendk r ltac:(lia) x I). pose proof (zcount_zero rdyk r ltac:(lia) x I). destruct X as [X|[X _]]; congruence.
Qed.
