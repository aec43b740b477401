(** The flag of wildcard children during the life of a zone. *)
From Verif Require Import Base RdatasetModel RdatasetSpec RdatasetProofs RdatasetProps NodeModel NodeProps ZoneModel ZoneProofs ZoneView ZoneFold ZoneTree ZoneTreeProps AnswerModel AnswerSpec AnswerSearch AnswerProofs.

(** A zone with the flags, after additions and removals. *)
Inductive history (a : name) : contents -> (name -> bool) -> Prop :=
| h_new : history a (contents_new a) (fun _ => false)
| h_add : forall z w s ret z', history a z w -> proper a s -> contents_add_rr z s = Ok (ret, z') -> history a z' (flag_add z z' w)
| h_remove : forall z w s z', history a z w -> proper a s -> contents_remove_rr z s = Ok z' -> history a z' (flag_del z z' w)
| h_apply_add : forall z w s strict z', history a z w -> proper a s -> apply_add_rr strict z s = Ok z' -> history a z' (flag_add z z' w)
| h_apply_remove : forall z w s strict z', history a z w -> proper a s -> apply_remove_rr strict z s = Ok z' -> history a z' (flag_del z z' w).
(** The same, where the wildcard below the apex never owns an NSEC3 record, a signature of one, or a name above one. *)
Inductive clean (a : name) : contents -> (name -> bool) -> Prop :=
| n_new : clean a (contents_new a) (fun _ => false)
| n_add : forall z w s ret z', clean a z w -> proper a s -> contents_add_rr z s = Ok (ret, z') -> ~ name_exists z' true (star_of a) -> clean a z' (flag_add z z' w)
| n_remove : forall z w s z', clean a z w -> proper a s -> contents_remove_rr z s = Ok z' -> clean a z' (flag_del z z' w)
| n_apply_add : forall z w s strict z', clean a z w -> proper a s -> apply_add_rr strict z s = Ok z' -> ~ name_exists z' true (star_of a) -> clean a z' (flag_add z z' w)
| n_apply_remove : forall z w s strict z', clean a z w -> proper a s -> apply_remove_rr strict z s = Ok z' -> clean a z' (flag_del z z' w).

Lemma here_ex : forall z k o, AnswerModel.here z k o = true <-> name_exists z k o.
Proof. intros z k o. unfold AnswerModel.here, name_exists. destruct (ZoneModel.zget z k o); split; congruence. Qed.
Lemma here_not : forall z k o, AnswerModel.here z k o = false <-> ~ name_exists z k o.
Proof. intros. rewrite <- here_ex. destruct (AnswerModel.here z k o); split; congruence. Qed.
Lemma mono : forall a z z', reachable a z -> reachable a z' -> (forall c x, crec z c x -> crec z' c x) -> forall k o, name_exists z k o -> name_exists z' k o.
Proof.
  intros a z z' R R' M k o H. destruct (name_dec o a) as [->|N]; [|apply (c55_exists a z' k o R' N); apply (c55_exists a z k o R N) in H; destruct H as (U & q & t & x & H); split; auto; exists q, t, x; apply (M (k, q ++ o, t) x H)].
  destruct (c55_apex a z R) as (_ & _ & N1). destruct (c55_apex a z' R') as (_ & E2 & _). destruct k; [contradiction|auto].
Qed.
Lemma add_mono : forall a z s ret z', reachable a z -> proper a s -> contents_add_rr z s = Ok (ret, z') -> forall k o, name_exists z k o -> name_exists z' k o.
Proof.
  intros a z s ret z' R P E. assert (R' : reachable a z') by (eapply r_add; eauto). apply (mono a); auto. destruct (reach_inv _ _ R) as (W & <- & _). destruct P as (c & b & G). destruct (contents_add_view _ _ _ _ _ _ W G E) as (_ & _ & V & _). intros c0 x H. apply V. auto.
Qed.
Lemma remove_mono : forall a z s z', reachable a z -> proper a s -> contents_remove_rr z s = Ok z' -> forall k o, name_exists z' k o -> name_exists z k o.
Proof.
  intros a z s z' R P E. assert (R' : reachable a z') by (eapply r_remove; eauto). apply (mono a); auto. destruct (reach_inv _ _ R) as (W & A & _). destruct P as (c & b & G). rewrite <- A in G. destruct s as [o r]. unfold contents_remove_rr in E. pose proof (good_empty _ _ _ _ G) as HEm. pose proof (rel_ok _ _ _ _ G) as HRl. cbn [snd] in *. rewrite HEm, HRl in E. destruct (negb _); [discriminate|]. cbn [rbind] in E. pose proof (proj1 (proj2 (proj2 G))) as HO. cbn [fst] in HO. rewrite <- HO in E. destruct (ZoneModel.zget z (ck c) (co c)) as [n|] eqn:GN; [|discriminate].
  destruct (remove_view _ _ _ _ _ W G GN _ E) as ((_ & _ & V & _) & _). intros c0 x H. apply V in H. tauto.
Qed.
Lemma apply_add_mono : forall a z s st z', reachable a z -> proper a s -> apply_add_rr st z s = Ok z' -> forall k o, name_exists z k o -> name_exists z' k o.
Proof.
  intros a z s st z' R P E. assert (R' : reachable a z') by (eapply r_apply_add; eauto). apply (mono a); auto. destruct (reach_inv _ _ R) as (W & A & _). destruct P as (c & b & G). rewrite <- A in G.
  assert (U : under (fst s) (z_apex z) = true). { destruct s as [o r]. unfold apply_add_rr in E. pose proof (rel_ok _ _ _ _ G) as HRl. cbn [snd] in HRl. rewrite HRl in E. cbn [rbind fst] in *. destruct (under o (z_apex z)) eqn:EU; auto. rewrite add_node_out in E by auto. discriminate. }
  destruct (apply_add_view z s c b st W G U) as [H1 H2]. destruct (can_add_spec z s c b W G) as (q & EQ & HQ). destruct q.
  - destruct (H1 (proj1 HQ eq_refl)) as [(z1 & E1 & (_ & _ & V & _))|(e & E1 & _)]; [|congruence]. rewrite E1 in E. injection E as <-. intros c0 x H. apply V. auto.
  - assert (NQ : ~ (forall x, In x b -> ~ crec z c x)) by (intros X; apply HQ in X; discriminate). specialize (H2 NQ). destruct st; [congruence|]. destruct H2 as (z1 & h & E1 & E2). rewrite E2 in E. injection E as <-. destruct (add_node_view _ _ _ _ _ W E1) as (_ & _ & V & _). intros c0 x H. apply V. auto.
Qed.
Lemma apply_remove_mono : forall a z s st z', reachable a z -> proper a s -> apply_remove_rr st z s = Ok z' -> forall k o, name_exists z' k o -> name_exists z k o.
Proof.
  intros a z s st z' R P E. assert (R' : reachable a z') by (eapply r_apply_remove; eauto). apply (mono a); auto. destruct (reach_inv _ _ R) as (W & A & _). destruct P as (c & b & G). rewrite <- A in G.
  destruct (apply_remove_view z s c b st W G) as [H1 H2]. destruct (can_remove_spec z s c b W G) as (q & EQ & HQ). destruct q.
  - destruct (H1 (proj1 HQ eq_refl)) as (z1 & E1 & (_ & _ & V & _)). rewrite E1 in E. injection E as <-. intros c0 x H. apply V in H. tauto.
  - rewrite H2 in E by (intros X; apply HQ in X; discriminate). destruct st; [discriminate|]. injection E as <-. auto.
Qed.
(** the state of the flag *)
Definition exact (a : name) (z : contents) (w : name -> bool) : Prop := forall o, w o = true <-> (name_exists z false (star_of o) /\ star_of o <> a).
Lemma parent_ex : forall a z l o, reachable a z -> name_exists z false (l :: o) -> l :: o <> a -> name_exists z false o.
Proof.
  intros a z l o R H N. destruct (name_dec o a) as [->|NO]; [apply (c55_apex a z R)|]. apply (c55_exists a z false _ R N) in H. destruct H as (U & q & t & x & H). apply (c55_exists a z false o R NO). split.
  - apply under_spec in U. destruct U as ([|l' p] & E); cbn [app] in E; [congruence|]. injection E as _ ->. apply under_spec. eauto.
  - exists (q ++ [l]), t, x. rewrite <- app_assoc. auto.
Qed.
Lemma star_apex : forall a, star_of a <> a.
Proof. intros a E. apply (f_equal (@length _)) in E. cbn in E. lia. Qed.
Lemma add_exact : forall a z z' w, reachable a z -> reachable a z' -> (forall k o, name_exists z k o -> name_exists z' k o) -> ~ name_exists z' true (star_of a) -> exact a z w -> exact a z' (flag_add z z' w).
Proof.
  intros a z z' w R R' M NS X o. unfold flag_add. rewrite !orb_true_iff, !andb_true_iff, !negb_true_iff, !here_ex, !here_not, (X o). change (star :: o) with (star_of o). split.
  - intros [[[H1 H2]|[H1 H2]]|[[H1 H2] H3]].
    + split; auto.
    + split; auto. intros E. apply H2. rewrite E. apply (c55_apex a z R).
    + apply neqb_spec in H1. pose proof (c55_apex a z R) as (A & _). rewrite A in H1. subst o. contradiction.
  - intros [H1 H2]. destruct (AnswerModel.here z false (star_of o)) eqn:E; [apply here_ex in E; tauto|apply here_not in E; tauto].
Qed.
Lemma del_exact : forall a z z' w, reachable a z -> reachable a z' -> (forall k o, name_exists z' k o -> name_exists z k o) -> ~ name_exists z true (star_of a) -> exact a z w -> exact a z' (flag_del z z' w).
Proof.
  intros a z z' w R R' M NS X o. unfold flag_del. rewrite !andb_true_iff, !negb_true_iff, (X o). change (star :: o) with (star_of o). rewrite here_ex. split.
  - intros [[[[H1 H2] H3] H4] H5]. split; auto. apply andb_false_iff in H4. rewrite negb_false_iff, here_ex, here_not in H4. tauto.
  - intros [H1 H2]. repeat split; auto.
    + eapply parent_ex; eauto.
    + apply here_ex in H1. rewrite H1. cbn [negb]. apply andb_false_r.
    + apply andb_false_iff. left. apply andb_false_iff. destruct (name_eqb o (z_apex z)) eqn:E; [|auto]. right. apply here_not. apply neqb_spec in E. pose proof (c55_apex a z R) as (A & _). rewrite A in E. subst o. auto.
Qed.
Lemma clean_exact : forall a z w, clean a z w -> reachable a z /\ ~ name_exists z true (star_of a) /\ exact a z w.
Proof.
  intros a z w H. induction H as [|z w s ret z' H (R & N & X) P E N'|z w s z' H (R & N & X) P E|z w s st z' H (R & N & X) P E N'|z w s st z' H (R & N & X) P E].
  - split; [constructor|]. split; [unfold name_exists; cbn; auto|]. intros o. split; [discriminate|]. intros [H1 H2]. exfalso. apply H1. unfold ZoneModel.zget. cbn [z_apex contents_new z_apexn z_nodes tget]. destruct (name_eqb (star_of o) a) eqn:E; auto. apply neqb_spec in E. contradiction.
  - assert (R' : reachable a z') by (eapply r_add; eauto). split; auto. split; auto. apply (add_exact a); auto. eapply add_mono; eauto.
  - assert (R' : reachable a z') by (eapply r_remove; eauto). pose proof (remove_mono a z s z' R P E) as M. split; auto. split; [intros Y; apply N; auto|]. apply (del_exact a); auto.
  - assert (R' : reachable a z') by (eapply r_apply_add; eauto). split; auto. split; auto. apply (add_exact a); auto. eapply apply_add_mono; eauto.
  - assert (R' : reachable a z') by (eapply r_apply_remove; eauto). pose proof (apply_remove_mono a z s st z' R P E) as M. split; auto. split; [intros Y; apply N; auto|]. apply (del_exact a); auto.
Qed.
Lemma clean_flagged : forall a z w, clean a z w -> flagged z w.
Proof.
  intros a z w H o HE. destruct (clean_exact a z w H) as (R & _ & X). rewrite (X o). split; [intros [Y _]; exact Y|]. intros Y. split; auto. intros E. destruct (reach_inv _ _ R) as (W & A & S). apply W in HE. apply under_spec in HE. destruct HE as (q & HE). rewrite A, <- E in HE. apply (f_equal (@length _)) in HE. unfold star_of in HE. rewrite app_length in HE. cbn [length] in HE. lia.
Qed.
