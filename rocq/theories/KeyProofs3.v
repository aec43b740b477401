(** The invariant of the set of keys in a history with any rollover runs. *)
From Verif Require Import Base KeyModel KeySpec KeyProofs KeyProofs2.
From Coq Require Import Permutation.

(** KSKs (or CSKs) not yet submitted, waiting for confirmation, and in use; ZSKs not yet in use *)
Definition pendk (k : key) : bool := k_ksk k && (rdy k =? 0).
Definition rdyk (k : key) : bool := k_ksk k && negb (rdy k =? 0) && (act k =? 0).
Definition livek (k : key) : bool := k_ksk k && negb (rdy k =? 0) && (ra k =? 0).
Definition pendz (k : key) : bool := negb (k_ksk k) && (act k =? 0).
Definition leaving (now : Z) (k : key) : Prop := k_ksk k = true /\ (get_key_state k now = KRetireActive \/ get_key_state k now = KPostActive).

Record inv (now : Z) (ks : list key) : Prop := mkinv {
  in_keys : Forall (kinv now) ks;
  in_two : zcount pendk ks + zcount livek ks <= 2;
  in_pend : zcount pendk ks <= 1;
  in_rdy : zcount rdyk ks <= 1;
  in_leave : (exists k, In k ks /\ leaving now k) -> zcount pendk ks + zcount livek ks <= 1;
  in_post : forall z, In z ks -> k_ksk z = false -> now < post z ->
    (exists k, In k ks /\ k_ksk k = true /\ ra k <> 0 /\ post k = post z) /\ (forall y, In y ks -> pendz y = true -> k_alg y <> k_alg z);
  in_alg : forall k z, In k ks -> (pendk k = true \/ rdyk k = true /\ 2 <= zcount livek ks) -> In z ks -> pendz z = true -> k_alg z = k_alg k /\ k_zsk k = false }.

(** *** Counting *)
Lemma zcount_cons : forall {A} (f : A -> bool) x l, zcount f (x :: l) = Z.b2z (f x) + zcount f l.
Proof. intros. unfold zcount. cbn [filter]. destruct (f x); [rewrite zlen_cons|]; cbn [Z.b2z]; lia. Qed.
Lemma zcount_app : forall {A} (f : A -> bool) a b, zcount f (a ++ b) = zcount f a + zcount f b.
Proof. intros. unfold zcount. rewrite filter_app, zlen_app. reflexivity. Qed.
Lemma zcount_perm : forall {A} (f : A -> bool) a b, Permutation a b -> zcount f a = zcount f b.
Proof. intros A f a b H. induction H; rewrite ?zcount_cons; lia. Qed.
Lemma zcount_nonneg : forall {A} (f : A -> bool) l, 0 <= zcount f l.
Proof. intros. apply zlen_nonneg. Qed.
Lemma zcount_in : forall {A} (f : A -> bool) l x, In x l -> f x = true -> 1 <= zcount f l.
Proof. intros A f l x I H. apply in_split in I. destruct I as (a & b & ->). rewrite zcount_app, zcount_cons, H. cbn [Z.b2z]. pose proof (zcount_nonneg f a). pose proof (zcount_nonneg f b). lia. Qed.
Lemma zcount_0 : forall {A} (f : A -> bool) l, (forall x, In x l -> f x = false) -> zcount f l = 0.
Proof. intros A f l. induction l as [|x l IH]; intros H; [reflexivity|]. rewrite zcount_cons, H by (left; reflexivity). rewrite IH; [reflexivity|]. intros y I. apply H. right. exact I. Qed.
Lemma zcount_zero : forall {A} (f : A -> bool) l, zcount f l <= 0 -> forall x, In x l -> f x = false.
Proof. intros A f l H x I. destruct (f x) eqn:E; auto. pose proof (zcount_in f l x I E). lia. Qed.
Lemma zcount_ext : forall {A} (f g : A -> bool) l, (forall x, In x l -> f x = g x) -> zcount f l = zcount g l.
Proof. intros A f g l. induction l as [|x l IH]; intros H; [reflexivity|]. rewrite !zcount_cons, H by (left; reflexivity). rewrite IH; [reflexivity|]. intros y I. apply H. right. exact I. Qed.

Lemma inv_perm : forall now a b, inv now a -> Permutation a b -> inv now b.
Proof.
  intros now a b [I1 I2 I3 I4 I5 I6 I7] P. pose proof (Permutation_sym P) as P'. constructor.
  - eapply Permutation_Forall; eauto.
  - rewrite <- !(zcount_perm _ _ _ P). exact I2.
  - rewrite <- !(zcount_perm _ _ _ P). exact I3.
  - rewrite <- !(zcount_perm _ _ _ P). exact I4.
  - rewrite <- !(zcount_perm _ _ _ P). intros (k & I & L). apply I5. exists k. split; [|exact L]. eapply Permutation_in; eauto.
  - intros z I Q T. destruct (I6 z (Permutation_in _ P' I) Q T) as [(k & J & R) O]. split; [exists k; split; [eapply Permutation_in; eauto|exact R]|]. intros y Y. apply O. eapply Permutation_in; eauto.
  - rewrite <- !(zcount_perm _ _ _ P). intros k z I H J. apply I7; auto; eapply Permutation_in; eauto.
Qed.

(** *** Classes and states *)
Lemma ksk_class : forall now k, 0 < now -> kinv now k -> k_ksk k = true ->
  match get_key_state k now with
  | KPreActive | KPublished => pendk k = true /\ livek k = false /\ rdyk k = false
  | KReady => pendk k = false /\ livek k = true /\ rdyk k = true
  | KActive => pendk k = false /\ livek k = true /\ rdyk k = false
  | _ => pendk k = false /\ livek k = false /\ rdyk k = false
  end.
Proof.
  intros now k Hn K Q. pose proof (state_spec now k Hn K) as F. destruct K. unfold pendk, livek, rdyk. rewrite Q. cbn [andb].
  destruct (get_key_state k now); cbn [state_facts] in F; unfold tail0 in F; try contradiction; destruct (rdy k =? 0) eqn:?, (act k =? 0) eqn:?, (ra k =? 0) eqn:?; cbn [negb andb]; auto; exfalso; lia.
Qed.
Lemma zsk_class : forall now k, 0 < now -> kinv now k -> k_ksk k = false ->
  pendk k = false /\ livek k = false /\ rdyk k = false /\
  pendz k = match get_key_state k now with KPreActive | KPublished => true | _ => false end /\ get_key_state k now <> KReady.
Proof.
  intros now k Hn K Q. pose proof (state_spec now k Hn K) as F. destruct K. unfold pendk, livek, rdyk, pendz. rewrite Q. cbn [andb negb]. repeat split; auto.
  - destruct (get_key_state k now); cbn [state_facts] in F; unfold tail0 in F; try contradiction; destruct (act k =? 0) eqn:?; auto; exfalso; try lia. destruct F as [F _]. congruence.
  - intros E. rewrite E in F. destruct F as [F _]. congruence.
Qed.
Lemma ksk_not_pendz : forall k, k_ksk k = true -> pendz k = false.
Proof. intros k Q. unfold pendz. rewrite Q. reflexivity. Qed.

Lemma running_false : forall now ks, 0 < now -> Forall (kinv now) ks -> running_rollover now ks = false ->
  (forall k, In k ks -> get_key_state k now <> KPreActive /\ get_key_state k now <> KPublished /\ get_key_state k now <> KRetireActive /\ get_key_state k now <> KPostActive) /\
  zcount pendk ks = 0 /\ zcount livek ks <= 1 /\ (forall k, In k ks -> pendz k = false) /\ zcount (fun k => in_state now KActive k && k_zsk k) ks <= 1.
Proof.
  intros now ks Hn FK H. pose proof (proj1 (Forall_forall _ _) FK) as FA. unfold running_rollover in H.
  assert (OWN : filter (fun k => negb (k_pub_only k)) ks = ks). { clear H FA. induction FK as [|k ks K FK IH]; [reflexivity|]. cbn [filter]. rewrite (ki_po _ _ K). cbn [negb]. rewrite IH. reflexivity. }
  cbv zeta in H. rewrite OWN in H. apply orb_false_iff in H. destruct H as [H H3]. apply orb_false_iff in H. destruct H as [H1 H2].
  assert (ST : forall k, In k ks -> get_key_state k now <> KPreActive /\ get_key_state k now <> KPublished /\ get_key_state k now <> KRetireActive /\ get_key_state k now <> KPostActive).
  { intros k I. assert (E : in_roll now k = false). { destruct (in_roll now k) eqn:E; auto. assert (X : existsb (in_roll now) ks = true) by (apply existsb_exists; eauto). congruence. }
    unfold in_roll in E. destruct (get_key_state k now); try discriminate; repeat split; discriminate. }
  split; [exact ST|]. split; [|split; [|split]].
  - apply zcount_0. intros k I. destruct (ST k I) as (S1 & S2 & _). destruct (k_ksk k) eqn:Q.
    + pose proof (ksk_class now k Hn (FA k I) Q) as C. destruct (get_key_state k now); try tauto; contradiction.
    + apply (zsk_class now k Hn (FA k I) Q).
  - assert (E : zcount livek ks = zcount (fun k => in_state now KReady k && k_ksk k) ks + zcount (fun k => in_state now KActive k && k_ksk k) ks).
    { clear - FA Hn. induction ks as [|k ks IH]; [reflexivity|]. rewrite !zcount_cons, IH by (intros; apply FA; right; auto). assert (K : kinv now k) by (apply FA; left; reflexivity). destruct (k_ksk k) eqn:Q.
      - pose proof (ksk_class now k Hn K Q) as C. unfold in_state. destruct (get_key_state k now); destruct C as (_ & -> & _); cbn [kstate_eqb andb Z.b2z]; lia.
      - destruct (zsk_class now k Hn K Q) as (_ & -> & _). rewrite !andb_false_r. cbn [Z.b2z]. lia. }
    lia.
  - intros k I. destruct (k_ksk k) eqn:Q; [apply ksk_not_pendz; exact Q|]. destruct (zsk_class now k Hn (FA k I) Q) as (_ & _ & _ & -> & _). destruct (ST k I) as (S1 & S2 & _). destruct (get_key_state k now); auto; contradiction.
  - lia.
Qed.

Lemma leaving_dec : forall now k, leaving now k \/ ~ leaving now k.
Proof. intros now k. unfold leaving. destruct (k_ksk k), (get_key_state k now); intuition congruence. Qed.
Lemma leave_running : forall now ks, 0 < now -> Forall (kinv now) ks -> running_rollover now ks = false -> ~ exists k, In k ks /\ leaving now k.
Proof. intros now ks Hn FK R (k & I & _ & L). destruct (running_false now ks Hn FK R) as (S & _). destruct (S k I) as (_ & _ & S1 & S2). destruct L; auto. Qed.
Lemma post_running : forall now ks z, 0 < now -> inv now ks -> running_rollover now ks = false -> In z ks -> k_ksk z = false -> now < post z -> False.
Proof.
  intros now ks z Hn V R I Q T. destruct (in_post _ _ V z I Q T) as [(k & J & QK & RA & PK) _]. pose proof (proj1 (Forall_forall _ _) (in_keys _ _ V)) as FA.
  apply (leave_running now ks Hn (in_keys _ _ V) R). exists k. split; [exact J|]. split; [exact QK|]. left.
  pose proof (state_spec now k Hn (FA k J)) as F. pose proof (FA k J) as K. destruct K. destruct (get_key_state k now); cbn [state_facts] in F; unfold tail0 in F; try contradiction; auto; exfalso; lia.
Qed.

(** *** Adding keys *)
Lemma newkey_inv : forall p now ksk zsk when b, 0 < now -> (ksk = false -> zsk = true) -> (when = 0 \/ when = now /\ b = false) -> kinv now (newkey p now ksk zsk when b).
Proof. intros. apply kinv_new; auto. Qed.
Lemma inv_add : forall now ks l, 0 < now -> inv now ks -> Forall (kinv now) l ->
  (forall k, In k l -> ra k = 0 /\ post k = 0) ->
  zcount pendk ks + zcount livek ks + zcount pendk l + zcount livek l <= 2 -> zcount pendk ks + zcount pendk l <= 1 -> zcount rdyk ks + zcount rdyk l <= 1 ->
  (forall k, In k ks -> ~ leaving now k) ->
  (forall z, In z ks -> k_ksk z = false -> now < post z -> False) ->
  (forall k z, In k (ks ++ l) -> (pendk k = true \/ rdyk k = true /\ 2 <= zcount livek (ks ++ l)) -> In z (ks ++ l) -> pendz z = true -> k_alg z = k_alg k /\ k_zsk k = false) ->
  inv now (ks ++ l).
Proof.
  intros now ks l Hn V FL RL C1 C2 C3 NL NP AL. destruct V. constructor; rewrite ?zcount_app; try lia.
  - apply Forall_app. auto.
  - intros (k & I & L). exfalso. apply in_app_or in I. destruct I as [I|I]; [exact (NL k I L)|]. destruct (RL k I) as [R0 P0]. pose proof (proj1 (Forall_forall _ _) FL k I) as K.
    pose proof (state_spec now k Hn K) as F. destruct K. destruct L as [_ [L|L]]; rewrite L in F; cbn [state_facts] in F; lia.
  - intros z I Q T. exfalso. apply in_app_or in I. destruct I as [I|I]; [eauto|]. destruct (RL z I). lia.
  - intros k z I H. rewrite <- zcount_app in H. apply AL; auto.
Qed.

Lemma new_pend : forall p now ksk zsk when b, 0 < now -> (when = 0 \/ when = now) ->
  pendk (newkey p now ksk zsk when b) = ksk && (when =? 0) /\ livek (newkey p now ksk zsk when b) = ksk && negb (when =? 0) /\
  rdyk (newkey p now ksk zsk when b) = ksk && negb (when =? 0) /\ pendz (newkey p now ksk zsk when b) = negb ksk && (when =? 0).
Proof. intros p now ksk zsk when b Hn H. unfold pendk, livek, rdyk, pendz, newkey. cbn [k_ksk k_t t_ready t_active t_retire_active]. destruct ksk; cbn [andb negb Z.eqb]; rewrite ?andb_true_r; auto. Qed.

(** All KSKs are removed when none is present *)
Lemma gone_spec : forall now ks, 0 < now -> Forall (kinv now) ks -> ksk_gone now ks -> forall k, In k ks -> k_ksk k = true -> get_key_state k now = KRemoved.
Proof.
  intros now ks Hn FK [G1 G2] k I Q. pose proof (proj1 (Forall_forall _ _) FK k I) as K. apply in_state_spec. destruct (in_state now KRemoved k) eqn:E; auto. exfalso.
  assert (X : key_present now ks true (k_zsk k) = true). { unfold key_present. apply existsb_exists. exists k. split; [exact I|]. rewrite Q, (ki_po _ _ K), E, !eqb_reflx. reflexivity. }
  destruct (k_zsk k); congruence.
Qed.
