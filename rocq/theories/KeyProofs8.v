(** The zone stays signed: the invariant and the steps. *)
From Verif Require Import Base KeyModel KeySpec KeyProofs KeyProofs2 KeyProofs3 KeyProofs4 KeyProofs5 KeyProofs6.
From Coq Require Import Permutation.

(** A key that signs the zone and will go on to *)
Definition zok (z : key) : Prop := livek z = true \/ k_ksk z = false /\ act z <> 0 /\ ret z = 0 /\ post z = 0 /\ rem z = 0.
Definition signs (ks : list key) : Prop :=
  exists k z, In k ks /\ In z ks /\ livek k = true /\ k_zsk z = true /\ k_alg z = k_alg k /\ zok z.
(** A KSK that will take over from another one needs a ZSK of its algorithm *)
Definition needs (ks : list key) (k : key) : Prop :=
  k_ksk k = true /\ k_zsk k = false /\ (pendk k = true \/ rdyk k = true /\ 2 <= zcount livek ks).
Definition dueP (p : policy) (now : Z) (k : key) : Prop := past (alg_publish_time p (pre k)) now = true.
Definition dueR (p : policy) (now t : Z) : Prop := past (ksk_ready_time p t) now = true.
Inductive pair (p : policy) (now : Z) (k z : key) : Prop :=
| pa : act z <> 0 -> tail0 z -> pair p now k z
| pb : pendk k = true -> pub k = 0 -> act z = 0 -> pub z = 0 -> pre k = pre z -> pair p now k z
| pc : pendk k = true -> pub k <> 0 -> act z = 0 -> pub z = pub k -> pair p now k z
| pd : pendk k = true -> pub k = now -> act z = 0 -> pub z = 0 -> dueP p now z -> pair p now k z
| pe : pendk k = true -> pub k = 0 -> dueP p now k -> act z = 0 -> pub z = now -> pair p now k z
| pf : rdyk k = true -> rdy k = now -> act z = 0 -> pub z <> 0 -> dueR p now (pub z) -> pair p now k z
| pg : rdyk k = true -> rdy k = now -> dueR p now now -> act z = 0 -> pub z = 0 -> dueP p now z -> pair p now k z.
(** the pairs between two runs *)
Definition pair0 (k z : key) : Prop :=
  act z <> 0 /\ tail0 z \/ pendk k = true /\ pub k = 0 /\ act z = 0 /\ pub z = 0 /\ pre k = pre z \/ pendk k = true /\ pub k <> 0 /\ act z = 0 /\ pub z = pub k.
Definition paired (R : key -> key -> Prop) (ks : list key) (k : key) : Prop := exists z, In z ks /\ k_ksk z = false /\ k_alg z = k_alg k /\ R k z.
Definition sgn (R : key -> key -> Prop) (ks : list key) : Prop := signs ks /\ forall k, In k ks -> needs ks k -> paired R ks k.

Lemma zcount_perm : forall {A} (f : A -> bool) a b, Permutation a b -> zcount f a = zcount f b.
Proof. intros A f a b P. induction P; rewrite ?zcount_cons; lia. Qed.
Lemma sgn_perm : forall R a b, Permutation a b -> sgn R a -> sgn R b.
Proof.
  intros R a b P [(k & z & I & J & H) N]. pose proof (Permutation_in (l:=a) (l':=b)) as PI. split.
  - exists k, z. split; [apply PI; auto|]. split; [apply PI; auto|exact H].
  - intros x X (Q1 & Q2 & Q3). apply (Permutation_in _ (Permutation_sym P)) in X. rewrite <- (zcount_perm _ _ _ P) in Q3. destruct (N x X (conj Q1 (conj Q2 Q3))) as (y & Y & G). exists y. split; [apply PI; auto|exact G].
Qed.
Lemma live_unique : forall ks a b, zcount livek ks <= 1 -> In a ks -> In b ks -> livek a = true -> livek b = true -> a = b.
Proof.
  intros ks a b C I J LA LB. apply in_split in I. destruct I as (x & y & ->). rewrite zcount_app, zcount_cons, LA in C. cbn [Z.b2z] in C. pose proof (zcount_nonneg livek x). pose proof (zcount_nonneg livek y).
  apply in_app_or in J. destruct J as [J|[J|J]]; [pose proof (zcount_in livek x b J LB); lia|exact J|pose proof (zcount_in livek y b J LB); lia].
Qed.
Lemma pair_run : forall p now k z, pair0 k z -> pair p now k z.
Proof. intros p now k z [[A B]|[(A & B & C & D & E)|(A & B & C & D)]]; [apply pa|apply pb|apply pc]; auto. Qed.
Lemma sgn_run : forall p now ks, sgn pair0 ks -> sgn (pair p now) ks.
Proof. intros p now ks [S N]. split; [exact S|]. intros k I Q. destruct (N k I Q) as (z & J & A & B & C). exists z. auto using pair_run. Qed.

(** *** Actions *)
Lemma due_pub : forall p now ks k, get_key_state k now = KPreActive -> due p now ks k APublish -> dueP p now k.
Proof. intros p now ks k S (tm & H & T). unfold key_action in H. rewrite S in H. unfold dueP. destruct (k_ksk k); injection H as <-; exact T. Qed.
Lemma due_sub : forall p now ks k, get_key_state k now = KPublished -> k_ksk k = true -> due p now ks k ASubmit -> dueR p now (pub k).
Proof. intros p now ks k S Q (tm & H & T). unfold key_action in H. rewrite S, Q in H. unfold dueR. injection H as <-. exact T. Qed.
Lemma due_rep : forall p now ks k, 0 < now < 2 ^ 63 -> is_u32 (p_sbm_timeout p) -> get_key_state k now = KReady -> k_ksk k = true -> due p now ks k AReplace -> rdy k <> now.
Proof.
  intros p now ks k Hn HT S Q (tm & H & T) E. unfold key_action in H. rewrite S, Q in H. injection H as <-. unfold ksk_sbm_max_time in T. rewrite E in T. unfold is_u32 in HT. replace (now <=? 0) with false in T by lia. cbn [orb] in T.
  destruct (p_sbm_timeout p =? 0) eqn:Z0; [rewrite past_0 in T by lia; discriminate|]. unfold knot_time_plus in T. rewrite Z0 in T. replace (now =? 0) with false in T by lia. cbn [negb andb] in T. unfold w64 in T. rewrite Z.mod_small in T by lia. rewrite past_spec in T by lia. lia.
Qed.
Lemma quiet_pub : forall p now ks k, quiet p now ks -> In k ks -> get_key_state k now = KPreActive -> dueP p now k -> False.
Proof. intros p now ks k Q I S D. apply (Q k APublish I). exists (alg_publish_time p (pre k)). split; [|exact D]. unfold key_action. rewrite S. destruct (k_ksk k); reflexivity. Qed.
Lemma quiet_rep : forall p now ks z, quiet p now ks -> In z ks -> get_key_state z now = KPublished -> k_ksk z = false -> dueR p now (pub z) -> False.
Proof. intros p now ks z Q I S K D. apply (Q z AReplace I). exists (zsk_active_time p (pub z)). split; [|exact D]. unfold key_action. rewrite S, K. reflexivity. Qed.
Lemma pend_state : forall now k, 0 < now -> kinv now k -> act k = 0 -> rdy k = 0 -> get_key_state k now = (if pub k =? 0 then KPreActive else KPublished).
Proof.
  intros now k Hn K A R. pose proof (state_spec now k Hn K) as F. destruct (get_key_state k now); cbn [state_facts] in F; unfold tail0 in F; try contradiction; try (exfalso; lia); destruct (pub k =? 0) eqn:E; auto; exfalso; lia.
Qed.
Lemma zsk_rdy0 : forall now k, kinv now k -> k_ksk k = false -> rdy k = 0.
Proof. intros now k K Q. destruct (Z.eq_dec (rdy k) 0) as [E|E]; auto. destruct (ki_rdy1 _ _ K E). congruence. Qed.
Lemma pendk_act : forall now k, kinv now k -> pendk k = true -> rdy k = 0 /\ act k = 0 /\ k_ksk k = true.
Proof. intros now k K P. unfold pendk in P. apply andb_true_iff in P. destruct P as [Q P]. pose proof (ki_act2 _ _ K). destruct (Z.eq_dec (act k) 0) as [E|E]; [repeat split; auto; lia|]. exfalso. specialize (H E Q). lia. Qed.
(** Nothing is left to do: only the pairs that last *)
Lemma sgn_quiet : forall p now ks, 0 < now -> Forall (kinv now) ks -> quiet p now ks -> sgn (pair p now) ks -> sgn pair0 ks.
Proof.
  intros p now ks Hn FK Q [S N]. pose proof (proj1 (Forall_forall _ _) FK) as FA. split; [exact S|]. intros k I M. destruct (N k I M) as (z & J & A & B & P). exists z. split; [exact J|]. split; [exact A|]. split; [exact B|].
  pose proof (zsk_rdy0 now z (FA z J) A) as RZ. destruct P as [P1 P2|P1 P2 P3 P4 P5|P1 P2 P3 P4|P1 P2 P3 P4 P5|P1 P2 P3 P4 P5|P1 P2 P3 P4 P5|P1 P2 P3 P4 P5 P6].
  - left. auto.
  - right. left. repeat split; auto.
  - right. right. repeat split; auto.
  - exfalso. eapply quiet_pub; eauto. rewrite pend_state by auto. rewrite P4. reflexivity.
  - exfalso. destruct (pendk_act now k (FA k I) P1) as (K1 & K2 & K3). eapply (quiet_pub p now ks k); eauto. rewrite pend_state by auto. rewrite P2. reflexivity.
  - exfalso. eapply (quiet_rep p now ks z); eauto. rewrite pend_state by auto. replace (pub z =? 0) with false by lia. reflexivity.
  - exfalso. eapply quiet_pub; eauto. rewrite pend_state by auto. rewrite P5. reflexivity.
Qed.

(** *** New keys *)
Lemma signs_app : forall ks l, signs ks -> signs (ks ++ l).
Proof. intros ks l (k & z & I & J & H). exists k, z. split; [apply in_or_app; auto|]. split; [apply in_or_app; auto|exact H]. Qed.
Lemma idle_needs : forall now ks l, 0 < now -> Forall (kinv now) ks -> running_rollover now ks = false -> zcount livek l = 0 -> forall k, In k ks -> ~ needs (ks ++ l) k.
Proof.
  intros now ks l Hn FK R L k I (_ & _ & [P|[_ P]]); destruct (running_false now ks Hn FK R) as (_ & P0 & L1 & _).
  - rewrite (zcount_zero pendk ks) in P; [discriminate|lia|exact I].
  - rewrite zcount_app in P. lia.
Qed.
(** When nothing is going on, the KSK has a ZSK *)
Lemma idle_zsk : forall now ks k, 0 < now -> Forall (kinv now) ks -> running_rollover now ks = false -> signs ks -> In k ks -> livek k = true -> k_zsk k = false ->
  exists z, In z ks /\ k_ksk z = false /\ k_alg z = k_alg k /\ act z <> 0 /\ tail0 z.
Proof.
  intros now ks k Hn FK R (k0 & z & I0 & J & L0 & Z & A & OK) I L Q. pose proof (proj1 (Forall_forall _ _) FK) as FA. destruct (running_false now ks Hn FK R) as (ST & _ & L1 & _). assert (k0 = k) as -> by (eapply live_unique; eauto).
  destruct OK as [LZ|(Z1 & Z2 & Z3 & Z4 & Z5)]; [assert (z = k) by (eapply live_unique; eauto); congruence|]. exists z. split; [exact J|]. split; [exact Z1|]. split; [exact A|]. split; [exact Z2|]. unfold tail0. repeat split; auto.
  destruct (Z.eq_dec (ra z) 0) as [E|E]; auto. exfalso. destruct (ST z J) as (_ & _ & S & _). pose proof (state_spec now z Hn (FA z J)) as F. pose proof (ki_ra _ _ (FA z J)).
  destruct (get_key_state z now); cbn [state_facts] in F; unfold tail0 in F; try contradiction; try congruence; lia.
Qed.
Lemma live_state : forall now k, 0 < now -> kinv now k -> livek k = true -> get_key_state k now = KReady \/ get_key_state k now = KActive.
Proof.
  intros now k Hn K L. assert (Q : k_ksk k = true) by (unfold livek in L; destruct (k_ksk k); auto). pose proof (ksk_class now k Hn K Q) as C. destruct (get_key_state k now); destruct C as (_ & C & _); auto; congruence.
Qed.
Lemma sgn_new_ksk : forall p now ks k, 0 < now -> Forall (kinv now) ks -> running_rollover now ks = false -> signs ks -> In k ks -> livek k = true -> k_alg k = p_alg p -> (p_sts p = false -> k_zsk k = false) ->
  sgn (pair p now) (ks ++ [newkey p now true (p_sts p) 0 false]).
Proof.
  intros p now ks k Hn FK R S I L A Z. split; [apply signs_app; exact S|]. destruct (new_pend p now true (p_sts p) 0 false Hn ltac:(auto)) as (_ & NL & _). intros x X M. apply in_app_or in X. destruct X as [X|[<- | []]].
  - exfalso. revert M. eapply idle_needs; eauto.
  - destruct M as (_ & M & _). cbn [newkey k_zsk] in M. destruct (idle_zsk now ks k Hn FK R S I L (Z M)) as (z & J & Q & AZ & ACT & T). exists z. split; [apply in_or_app; auto|]. split; [exact Q|]. split; [cbn [newkey k_alg]; congruence|]. apply pa; auto.
Qed.

(** *** Changes of single keys *)
(** A key changes and stays in its place for signing *)
Definition keeps (k k' : key) : Prop := k_alg k' = k_alg k /\ k_zsk k' = k_zsk k /\ (livek k = true -> livek k' = true) /\ (zok k -> zok k').
Lemma keeps_refl : forall k, keeps k k.
Proof. intros. repeat split; auto. Qed.
Lemma signs_f2 : forall a b, Forall2 keeps a b -> signs a -> signs b.
Proof.
  intros a b F (k & z & I & J & L & Z & A & OK). assert (X : forall x, In x a -> exists y, In y b /\ keeps x y).
  { clear - F. induction F; intros x0 I; [destruct I|]. destruct I as [<- | I]; [exists y; split; [left; reflexivity|exact H]|]. destruct (IHF x0 I) as (y0 & J & K). exists y0. split; [right; exact J|exact K]. }
  destruct (X k I) as (k' & I' & K1 & K2 & K3 & K4). destruct (X z J) as (z' & J' & Z1 & Z2 & Z3 & Z4). exists k', z'. split; [exact I'|]. split; [exact J'|]. split; [auto|]. split; [congruence|]. split; [congruence|auto].
Qed.
Lemma f2_keeps : forall r, Forall2 keeps r r.
Proof. induction r; constructor; auto using keeps_refl. Qed.
