(** Lemmas on the database map, the cursor operations and the loops of LmdbModel.v. *)
From Verif Require Import Base WireModel WireProofs DnameModel LmdbModel.
From Coq Require Import Sorting.Sorted.

(** ** key order *)
Lemma kcmp_refl : forall a, kcmp a a = Eq.
Proof. induction a; cbn [kcmp]; auto. rewrite Z.compare_refl. auto. Qed.
Lemma kcmp_eq : forall a b, kcmp a b = Eq <-> a = b.
Proof.
  split; [|intros ->; apply kcmp_refl]. revert b. induction a as [|x a IH]; intros [|y b] H; cbn [kcmp] in H; try discriminate; auto.
  destruct (x ?= y) eqn:E; try discriminate. apply Z.compare_eq in E. f_equal; auto.
Qed.
Lemma kcmp_antisym : forall a b, kcmp b a = CompOpp (kcmp a b).
Proof.
  induction a as [|x a IH]; intros [|y b]; cbn [kcmp]; auto. rewrite (Z.compare_antisym x y). destruct (x ?= y); cbn [CompOpp]; auto.
Qed.
Lemma kcmp_lt_trans : forall a b c, kcmp a b = Lt -> kcmp b c = Lt -> kcmp a c = Lt.
Proof.
  induction a as [|x a IH]; intros [|y b] [|z c] H1 H2; cbn [kcmp] in *; try discriminate; auto.
  destruct (x ?= y) eqn:E1; destruct (y ?= z) eqn:E2; try discriminate.
  - apply Z.compare_eq in E1, E2. subst. rewrite Z.compare_refl. eauto.
  - apply Z.compare_eq in E1. subst. rewrite E2. auto.
  - apply Z.compare_eq in E2. subst. rewrite E1. auto.
  - replace (x ?= z) with Lt; auto. symmetry. rewrite Z.compare_lt_iff in *. lia.
Qed.
Lemma kcmp_gt_lt : forall a b, kcmp a b = Gt <-> kcmp b a = Lt.
Proof. intros. rewrite (kcmp_antisym a b). destruct (kcmp a b); cbn [CompOpp]; split; congruence. Qed.
Lemma kcmp_le_trans : forall a b c, kcmp a b <> Gt -> kcmp b c <> Gt -> kcmp a c <> Gt.
Proof.
  intros a b c H1 H2. destruct (kcmp a b) eqn:E1; try congruence; [apply kcmp_eq in E1; subst; auto|].
  destruct (kcmp b c) eqn:E2; try congruence; [apply kcmp_eq in E2; subst; congruence|].
  rewrite (kcmp_lt_trans _ _ _ E1 E2). congruence.
Qed.
Lemma kcmp_lt_irrefl : forall a, kcmp a a <> Lt.
Proof. intros. rewrite kcmp_refl. congruence. Qed.

(** ** the sorted map *)
Definition klt (a b : list Z * list Z) : Prop := kcmp (fst a) (fst b) = Lt.
Definition sorted (d : db) : Prop := StronglySorted klt d.
Lemma sorted_inv : forall k v d, sorted ((k, v) :: d) -> sorted d /\ (forall k' v', In (k', v') d -> kcmp k k' = Lt).
Proof.
  intros k v d H. inversion H; subst. split; auto. intros k' v' Hi. rewrite Forall_forall in H3. apply (H3 (k', v') Hi).
Qed.
Lemma sorted_cons : forall k v d, sorted d -> (forall k' v', In (k', v') d -> kcmp k k' = Lt) -> sorted ((k, v) :: d).
Proof. intros. constructor; auto. rewrite Forall_forall. intros [k' v'] Hi. unfold klt. cbn [fst]. eauto. Qed.
Lemma sorted_unique : forall d k v v', sorted d -> In (k, v) d -> In (k, v') d -> v = v'.
Proof.
  induction d as [|[k0 v0] d IH]; intros k v v' S H1 H2; [destruct H1|]. apply sorted_inv in S. destruct S as [S L].
  destruct H1 as [H1|H1], H2 as [H2|H2].
  - congruence.
  - injection H1 as -> ->. apply L in H2. apply kcmp_lt_irrefl in H2. tauto.
  - injection H2 as -> ->. apply L in H1. apply kcmp_lt_irrefl in H1. tauto.
  - eauto.
Qed.
Lemma db_get_in : forall d k v, sorted d -> (db_get d k = Some v <-> In (k, v) d).
Proof.
  induction d as [|[k0 v0] d IH]; intros k v S; cbn [db_get]; [split; [discriminate|intros []]|].
  apply sorted_inv in S. destruct S as [S L].
  destruct (kcmp k0 k) eqn:E.
  - apply kcmp_eq in E. subst. split; [intros H; injection H as ->; left; auto|]. intros [H|H]; [congruence|]. apply L in H. apply kcmp_lt_irrefl in H. tauto.
  - rewrite IH by auto. split; [right; auto|]. intros [H|H]; auto. injection H as -> ->. rewrite kcmp_refl in E. discriminate.
  - rewrite IH by auto. split; [right; auto|]. intros [H|H]; auto. injection H as -> ->. rewrite kcmp_refl in E. discriminate.
Qed.
Lemma db_get_none : forall d k, sorted d -> (db_get d k = None <-> forall v, ~ In (k, v) d).
Proof.
  intros d k S. split.
  - intros H v Hi. apply db_get_in in Hi; auto. congruence.
  - intros H. destruct (db_get d k) eqn:E; auto. apply db_get_in in E; auto. exfalso. eapply H; eauto.
Qed.
Lemma db_put_in : forall d k v k' v', sorted d -> (In (k', v') (db_put d k v) <-> (k' = k /\ v' = v) \/ (k' <> k /\ In (k', v') d)).
Proof.
  induction d as [|[k0 v0] d IH]; intros k v k' v' S; cbn [db_put].
  - cbn [In]. split; [intros [H|[]]; injection H as -> ->; auto|intros [[-> ->]|[_ []]]; auto].
  - apply sorted_inv in S. destruct S as [S L]. destruct (kcmp k k0) eqn:E; cbn [In].
    + apply kcmp_eq in E. subst. split; [intros [H|H]|intros [[-> ->]|[N [H|H]]]].
      * injection H as -> ->. auto. * right. split; auto. intros ->. apply L in H. apply kcmp_lt_irrefl in H. tauto.
      * auto. * injection H as -> ->. congruence. * auto.
    + split; [intros [H|[H|H]]|intros [[-> ->]|[N [H|H]]]]; auto.
      * injection H as -> ->. auto. * injection H as -> ->. right. split; auto. intros ->. rewrite kcmp_refl in E. discriminate.
      * right. split; auto. intros ->. apply L in H. eapply kcmp_lt_irrefl. eapply kcmp_lt_trans; eauto.
    + rewrite IH by auto. split; [intros [H|[H|H]]|intros [H|[N [H|H]]]]; auto; try tauto.
      injection H as -> ->. right. split; auto. intros ->. rewrite kcmp_refl in E. discriminate.
Qed.
Lemma db_put_sorted : forall d k v, sorted d -> sorted (db_put d k v).
Proof.
  induction d as [|[k0 v0] d IH]; intros k v S; cbn [db_put]; [apply sorted_cons; [constructor|intros k' v' []]|].
  pose proof S as S0. apply sorted_inv in S. destruct S as [S L]. destruct (kcmp k k0) eqn:E.
  - apply kcmp_eq in E. subst. apply sorted_cons; auto.
  - apply sorted_cons; auto. intros k' v' [H|H]; [injection H as -> ->; auto|]. eapply kcmp_lt_trans; eauto.
  - apply sorted_cons; auto. intros k' v' H. apply db_put_in in H; auto. destruct H as [[-> ->]|[_ H]]; eauto. apply kcmp_gt_lt; auto.
Qed.
Lemma db_del_in : forall d k k' v', sorted d -> (In (k', v') (db_del d k) <-> k' <> k /\ In (k', v') d).
Proof.
  induction d as [|[k0 v0] d IH]; intros k k' v' S; cbn [db_del]; [split; [intros []|intros [_ []]]|].
  apply sorted_inv in S. destruct S as [S L]. destruct (kcmp k0 k) eqn:E; cbn [In].
  - apply kcmp_eq in E. subst. split.
    + intros H. split; auto. intros ->. apply L in H. apply kcmp_lt_irrefl in H. tauto.
    + intros [N [H|H]]; auto. injection H as -> ->. congruence.
  - rewrite IH by auto. split; [intros [H|H]|intros [N [H|H]]]; auto; try tauto. injection H as -> ->. split; auto. intros ->. rewrite kcmp_refl in E. discriminate.
  - rewrite IH by auto. split; [intros [H|H]|intros [N [H|H]]]; auto; try tauto. injection H as -> ->. split; auto. intros ->. rewrite kcmp_refl in E. discriminate.
Qed.
Lemma db_del_sorted : forall d k, sorted d -> sorted (db_del d k).
Proof.
  induction d as [|[k0 v0] d IH]; intros k S; cbn [db_del]; auto. apply sorted_inv in S. destruct S as [S L].
  destruct (kcmp k0 k) eqn:E; auto; apply sorted_cons; auto; intros k' v' H; apply db_del_in in H; auto; apply (L _ v'); tauto.
Qed.
Lemma db_geq_some : forall d k s k' v', sorted d -> db_geq d k s = Some (k', v') ->
  In (k', v') d /\ kcmp k k' <> Gt /\ (s = true -> kcmp k k' = Lt) /\
  (forall k'' v'', In (k'', v'') d -> (if s then kcmp k k'' = Lt else kcmp k k'' <> Gt) -> kcmp k' k'' <> Gt).
Proof.
  induction d as [|[k0 v0] d IH]; intros k s k' v' S H; cbn [db_geq] in H; [discriminate|].
  apply sorted_inv in S. destruct S as [S L].
  assert (Hd : forall x, In x d -> kcmp k0 (fst x) <> Gt). { intros [x y] Hx. cbn [fst]. apply L in Hx. congruence. }
  destruct (kcmp k0 k) eqn:E.
  - apply kcmp_eq in E. subst. destruct s.
    + apply IH in H; auto. destruct H as (H1 & H2 & H3 & H4). split; [right; auto|]. split; auto. split; auto. intros k'' v'' [Hi|Hi] Hc; eauto.
      injection Hi as -> ->. exfalso. eapply kcmp_lt_irrefl; eauto.
    + injection H as -> ->. split; [left; auto|]. split; [rewrite kcmp_refl; congruence|]. split; [discriminate|]. intros; auto.
  - apply IH in H; auto. destruct H as (H1 & H2 & H3 & H4). split; [right; auto|]. split; auto. split; auto. intros k'' v'' [Hi|Hi] Hc; eauto.
    injection Hi as -> ->. apply kcmp_gt_lt in E. destruct s; congruence.
  - injection H as -> ->. apply kcmp_gt_lt in E. split; [left; auto|]. split; [congruence|]. split; auto. intros k'' v'' [Hi|Hi] Hc.
    + injection Hi as -> ->. rewrite kcmp_refl. congruence.
    + apply (Hd (k'', v'') Hi).
Qed.
Lemma db_geq_none : forall d k s, db_geq d k s = None -> forall k' v', In (k', v') d -> if s then kcmp k k' <> Lt else kcmp k k' = Gt.
Proof.
  induction d as [|[k0 v0] d IH]; intros k s H k' v' Hi; cbn [db_geq] in H; [destruct Hi|].
  destruct (kcmp k0 k) eqn:E; try discriminate.
  - destruct s; try discriminate. destruct Hi as [Hi|Hi]; [injection Hi as -> ->|eapply (IH _ true); eauto]. apply kcmp_eq in E. subst. rewrite kcmp_refl. congruence.
  - destruct Hi as [Hi|Hi]; [injection Hi as -> ->|eapply IH; eauto]. apply kcmp_gt_lt in E. rewrite E. destruct s; congruence.
Qed.
Lemma db_lt_spec : forall d k, sorted d -> match db_lt d k with
  | Some (k', v') => In (k', v') d /\ kcmp k' k = Lt /\ (forall k'' v'', In (k'', v'') d -> kcmp k'' k = Lt -> kcmp k'' k' <> Gt)
  | None => forall k'' v'', In (k'', v'') d -> kcmp k'' k <> Lt
  end.
Proof.
  induction d as [|[k0 v0] d IH]; intros k S; cbn [db_lt]; [intros k'' v'' []|].
  apply sorted_inv in S. destruct S as [S L]. specialize (IH k S). destruct (kcmp k0 k) eqn:E.
  - apply kcmp_eq in E. subst. intros k'' v'' [H|H]; [injection H as -> ->; apply kcmp_lt_irrefl|]. apply L in H. rewrite kcmp_antisym, H. cbn [CompOpp]. congruence.
  - destruct (db_lt d k) as [[k1 v1]|].
    + destruct IH as (I1 & I2 & I3). split; [right; auto|]. split; auto. intros k'' v'' [H|H] Hc; eauto. injection H as -> ->. apply L in I1. congruence.
    + split; [left; auto|]. split; auto. intros k'' v'' [H|H] Hc; [injection H as -> ->; rewrite kcmp_refl; congruence|]. apply IH in H. congruence.
  - intros k'' v'' [H|H]; [injection H as -> ->; congruence|]. apply L in H. apply kcmp_gt_lt in E. rewrite kcmp_antisym.
    rewrite (kcmp_lt_trans _ _ _ E H). cbn [CompOpp]. congruence.
Qed.
Lemma db_last_spec : forall d, sorted d -> match db_last d with
  | Some (k', v') => In (k', v') d /\ (forall k'' v'', In (k'', v'') d -> kcmp k'' k' <> Gt)
  | None => d = []
  end.
Proof.
  intros d S. unfold db_last. destruct (rev d) as [|[k v] l] eqn:E.
  - rewrite <- (rev_involutive d), E. reflexivity.
  - assert (D : d = rev l ++ [(k, v)]). { rewrite <- (rev_involutive d), E. reflexivity. }
    split; [rewrite D; apply in_or_app; right; left; auto|]. intros k'' v'' H. rewrite D in H, S. apply in_app_or in H. destruct H as [H|[H|[]]].
    + clear D E. induction (rev l) as [|[k1 v1] r IH]; [destruct H|]. cbn [app] in S. apply sorted_inv in S. destruct S as [S L]. destruct H as [H|H]; auto.
      injection H as -> ->. rewrite (L k v); [congruence|]. apply in_or_app. right. left. auto.
    + injection H as -> ->. rewrite kcmp_refl. congruence.
Qed.
Lemma db_ext : forall d1 d2, sorted d1 -> sorted d2 -> (forall k v, In (k, v) d1 <-> In (k, v) d2) -> d1 = d2.
Proof.
  induction d1 as [|[k1 v1] d1 IH]; intros [|[k2 v2] d2] S1 S2 H; auto.
  - destruct (proj2 (H k2 v2)); left; auto.
  - destruct (proj1 (H k1 v1)); left; auto.
  - apply sorted_inv in S1, S2. destruct S1 as [S1 L1], S2 as [S2 L2].
    assert (E : k1 = k2 /\ v1 = v2).
    { destruct (proj1 (H k1 v1) (or_introl eq_refl)) as [A|A]; [injection A as -> ->; auto|].
      destruct (proj2 (H k2 v2) (or_introl eq_refl)) as [B|B]; [injection B as -> ->; auto|].
      apply L2 in A. apply L1 in B. exfalso. eapply kcmp_lt_irrefl, kcmp_lt_trans; eauto. }
    destruct E as [-> ->]. f_equal. apply IH; auto. intros k v. specialize (H k v). split; intros Hi.
    + destruct (proj1 H (or_intror Hi)) as [A|A]; auto. injection A as -> ->. apply L1 in Hi. apply kcmp_lt_irrefl in Hi. tauto.
    + destruct (proj2 H (or_intror Hi)) as [A|A]; auto. injection A as -> ->. apply L2 in Hi. apply kcmp_lt_irrefl in Hi. tauto.
Qed.
Lemma sorted_filter : forall d f, sorted d -> sorted (filter f d).
Proof.
  induction d as [|[k v] d IH]; intros f S; cbn [filter]; auto. apply sorted_inv in S. destruct S as [S L].
  destruct (f (k, v)); auto. apply sorted_cons; auto. intros k' v' H. apply filter_In in H. destruct H. eauto.
Qed.

(** ** the prefix test *)
Lemma bytes_eqb_eq : forall a b, bytes_eqb a b = true <-> a = b.
Proof.
  induction a as [|x a IH]; intros [|y b]; cbn [bytes_eqb]; split; try discriminate; auto.
  - intros H. apply andb_true_iff in H. destruct H as [H1 H2]. apply IH in H2. f_equal; auto; lia.
  - intros H. injection H as -> ->. apply andb_true_iff. split; [lia|apply IH; auto].
Qed.
Lemma is_prefix_of_iff : forall p k, is_prefix_of p k = true <-> exists r, k = p ++ r.
Proof.
  intros p k. unfold is_prefix_of. rewrite andb_true_iff, bytes_eqb_eq. split.
  - intros [H1 H2]. exists (zskipn (zlen p) k). rewrite H2 at 1. symmetry. apply zfirstn_skipn.
  - intros [r ->]. rewrite zfirstn_app_exact, zlen_app. pose proof (zlen_nonneg r). split; [lia|auto].
Qed.
Lemma kcmp_app : forall p a b, kcmp (p ++ a) (p ++ b) = kcmp a b.
Proof. induction p; intros; cbn [app kcmp]; auto. rewrite Z.compare_refl. auto. Qed.
Lemma prefix_geq : forall p k, is_prefix_of p k = true -> kcmp p k <> Gt.
Proof.
  intros p k H. apply is_prefix_of_iff in H. destruct H as [r ->]. rewrite <- (app_nil_r p) at 1. rewrite kcmp_app. destruct r; cbn [kcmp]; congruence.
Qed.
(** the keys with a prefix form an interval *)
Lemma prefix_convex : forall p a b, kcmp p a <> Gt -> kcmp a b <> Gt -> is_prefix_of p b = true -> is_prefix_of p a = true.
Proof.
  intros p a b H1 H2 H3. apply is_prefix_of_iff in H3. destruct H3 as [r ->]. apply is_prefix_of_iff.
  revert a H1 H2. induction p as [|x p IH]; intros a H1 H2; [exists a; auto|].
  destruct a as [|y a]; cbn [kcmp app] in *; [congruence|].
  destruct (x ?= y) eqn:E; try congruence.
  - apply Z.compare_eq in E. subst. rewrite Z.compare_refl in H2. destruct (IH a H1 H2) as [s ->]. exists s. auto.
  - exfalso. rewrite (Z.compare_antisym x y), E in H2. cbn [CompOpp] in H2. congruence.
Qed.

(** ** database split at a position *)
Lemma db_geq_split : forall d k, sorted d -> exists lo hi, d = lo ++ hi /\
  (forall k' v', In (k', v') lo -> kcmp k' k <> Gt) /\ (forall k' v', In (k', v') hi -> kcmp k k' = Lt) /\
  db_geq d k true = match hi with [] => None | x :: _ => Some x end.
Proof.
  induction d as [|[k0 v0] d IH]; intros k S; cbn [db_geq].
  - exists [], []. split; [auto|]. split; [intros k' v' []|]. split; [intros k' v' []|]. auto.
  - apply sorted_inv in S. destruct S as [S L]. destruct (kcmp k0 k) eqn:E.
    + destruct (IH k S) as (lo & hi & D & H1 & H2 & H3). exists ((k0, v0) :: lo), hi. split; [cbn [app]; congruence|]. split; [|split; auto].
      intros k' v' [H|H]; [injection H as -> ->; congruence|eauto].
    + destruct (IH k S) as (lo & hi & D & H1 & H2 & H3). exists ((k0, v0) :: lo), hi. split; [cbn [app]; congruence|]. split; [|split; auto].
      intros k' v' [H|H]; [injection H as -> ->; congruence|eauto].
    + exists [], ((k0, v0) :: d). split; [auto|]. split; [intros k' v' []|]. split; [|auto]. intros k' v' [H|H]; apply kcmp_gt_lt in E; [injection H as -> ->; auto|].
      eapply kcmp_lt_trans; eauto.
Qed.
