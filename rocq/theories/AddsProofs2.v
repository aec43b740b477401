From Verif Require Import Base LmdbModel LmdbProofs AddsModel AddsSpec AddsProofs.

Lemma name_eqb_eq : forall a b, name_eqb a b = true <-> a = b.
Proof. intros. unfold name_eqb. destruct (list_eq_dec _ a b); split; congruence. Qed.
Lemma below_under : forall n a, below n a = true <-> under n a.
Proof.
  intros n a. unfold below, under, zlen. rewrite andb_true_iff, name_eqb_eq. split.
  - intros [H1 H2]. exists (firstn (Z.to_nat (Z.of_nat (length n) - Z.of_nat (length a))) n). split.
    + intros E. apply (f_equal (@length (list Z))) in E. rewrite firstn_length in E. simpl in E. lia.
    + pose proof (firstn_skipn (Z.to_nat (Z.of_nat (length n) - Z.of_nat (length a))) n) as E. rewrite H2 in E. symmetry. exact E.
  - intros (p & Hp & ->). rewrite app_length. assert (length p <> O) by (destruct p; simpl; congruence). split; [lia|].
    replace (Z.to_nat _) with (length p) by lia. rewrite skipn_app, skipn_all, Nat.sub_diag. reflexivity.
Qed.
Lemma split0 : forall (a b : list Z) x y, Forall (fun c => c <> 0) a -> Forall (fun c => c <> 0) b -> a ++ 0 :: x = b ++ 0 :: y -> a = b /\ x = y.
Proof.
  induction a as [|c a IH]; intros [|d b] x y HA HB H; simpl in H; inversion H; subst.
  - auto.
  - inversion HB; subst. congruence.
  - inversion HA; subst. congruence.
  - inversion HA; inversion HB; subst. destruct (IH b x y) as [-> ->]; auto.
Qed.
Definition lf (l : list (list Z)) : list Z := concat (map (fun l => l ++ [0]) l).
Lemma lf_prefix : forall a b r, null_free_name a -> null_free_name b -> lf a ++ r = lf b -> exists s, b = a ++ s /\ r = lf s.
Proof.
  unfold lf, null_free_name. induction a as [|l a IH]; intros b r HA HB H.
  - exists b. simpl in H. auto.
  - destruct b as [|m b]; cbn [map concat] in H.
    + rewrite <- !app_assoc in H. destruct l; discriminate.
    + rewrite <- !app_assoc in H. simpl in H. inversion HA; inversion HB; subst. apply split0 in H; auto. destruct H as [-> H].
      destruct (IH b r) as (s & -> & ->); auto. exists s. auto.
Qed.
Lemma null_free_rev : forall n, null_free_name n -> null_free_name (rev n).
Proof. intros n H. unfold null_free_name in *. apply Forall_forall. intros l Hl. rewrite <- in_rev in Hl. rewrite Forall_forall in H. auto. Qed.
Lemma key_prefix : forall a b, null_free_name a -> null_free_name b -> ((exists r, key b = key a ++ r) <-> exists p, b = p ++ a).
Proof.
  intros a b HA HB. split.
  - intros (r & H). destruct (lf_prefix (rev a) (rev b) r) as (s & E & _); [apply null_free_rev; auto|apply null_free_rev; auto|symmetry; exact H|].
    exists (rev s). rewrite <- (rev_involutive b), E, rev_app_distr, rev_involutive. auto.
  - intros (p & ->). exists (lf (rev p)). unfold key, lf. rewrite rev_app_distr, map_app, concat_app. auto.
Qed.
Lemma key_inj : forall a b, null_free_name a -> null_free_name b -> key a = key b -> a = b.
Proof.
  intros a b HA HB H. destruct (lf_prefix (rev a) (rev b) []) as (s & E & F); [apply null_free_rev; auto|apply null_free_rev; auto|rewrite app_nil_r; exact H|].
  destruct s as [|l s]; [|exfalso; unfold lf in F; cbn [map concat] in F; destruct l; discriminate].
  rewrite app_nil_r in E. rewrite <- (rev_involutive a), <- E, rev_involutive. auto.
Qed.
Lemma needed_iff : forall ty, additional_needed ty = true <-> with_additional ty.
Proof. intros ty. unfold additional_needed, with_additional. simpl. rewrite !orb_true_iff, !Z.eqb_eq. intuition. Qed.
Lemma targets_in : forall v apex n, In n (targets v apex) <->
  under n apex /\ exists r, In r (v_list v) /\ with_additional (rr_type r) /\ In n (rr_names r).
Proof.
  intros v apex n. unfold targets. rewrite in_flat_map. split.
  - intros (r & Hr & Hn). destruct (additional_needed (rr_type r)) eqn:E; [|destruct Hn]. apply filter_In in Hn.
    rewrite below_under in Hn. split; [tauto|]. exists r. rewrite <- needed_iff. tauto.
  - intros (Hu & r & Hr & Hw & Hn). exists r. split; auto. apply needed_iff in Hw. rewrite Hw. apply filter_In. rewrite below_under. auto.
Qed.

Definition uniq (v : version) : Prop := forall r r', In r (v_list v) -> In r' (v_list v) -> rr_type r = rr_type r' -> r = r'.
Lemma same_in_spec : forall a b apex n,
  (forall r r', In r (v_list a) -> In r' (v_list b) -> rr_type r = rr_type r' -> rr_ptr r = rr_ptr r' -> rr_names r = rr_names r') ->
  same_in a b = true -> In n (targets a apex) -> In n (targets b apex).
Proof.
  intros a b apex n Hsh H Hn. apply targets_in in Hn. destruct Hn as (Hu & r & Hr & Hw & Hn). apply targets_in. split; auto.
  unfold same_in in H. rewrite forallb_forall in H. specialize (H r Hr). apply needed_iff in Hw. rewrite Hw in H. simpl in H.
  destruct (rdataset b (rr_type r)) as [c|] eqn:E; [|discriminate]. unfold rdataset in E. apply find_some in E. destruct E as [E1 E2].
  exists c. split; auto. assert (T : rr_type c = rr_type r) by lia. split; [apply needed_iff; congruence|].
  rewrite <- (Hsh r c); auto. lia.
Qed.
(** What one node has in the index *)
Definition tkeys (v : version) (apex : name) (k : list Z) : Prop := v_deleted v = false /\ exists n, In n (targets v apex) /\ k = key n.
Definition hkey (v : version) (h : option (name -> name)) (k : list Z) : Prop := v_deleted v = false /\ exists f, h = Some f /\ k = key (f (v_owner v)).
Definition shares (o n : version) : Prop :=
  (v_rrs n = v_rrs o -> v_list n = v_list o) /\
  (forall r r', In r (v_list o) -> In r' (v_list n) -> rr_type r = rr_type r' -> rr_ptr r = rr_ptr r' -> rr_names r = rr_names r') /\
  (v_deleted o = true -> v_list o = []) /\ (v_deleted n = true -> v_list n = []) /\ v_owner n = v_owner o.

Lemma unchanged_targets : forall o n apex, shares o n -> additionals_unchanged (Some o) n = true -> forall m, In m (targets o apex) <-> In m (targets n apex).
Proof.
  intros o n apex (S1 & S2 & _) H m. unfold additionals_unchanged in H. apply orb_true_iff in H. destruct H as [H|H].
  - rewrite !targets_in. rewrite (S1 ltac:(lia)). tauto.
  - apply andb_true_iff in H. destruct H as [H1 H2]. split; intros Hm.
    + eapply same_in_spec; [|exact H1|exact Hm]. auto.
    + eapply same_in_spec; [|exact H2|exact Hm]. intros r r' A B C D. symmetry. apply S2; auto.
Qed.
Lemma tkeys_list : forall v apex k, (v_deleted v = true -> v_list v = []) -> (tkeys v apex k <-> exists n, In n (targets v apex) /\ k = key n).
Proof.
  intros v apex k H. unfold tkeys. split; [tauto|]. intros (n & Hn & ->). split; [|exists n; auto].
  destruct (v_deleted v); auto. apply targets_in in Hn. destruct Hn as (_ & r & Hr & _). rewrite H in Hr by auto. destruct Hr.
Qed.

Definition okeys (old : option version) (apex : name) (h : option (name -> name)) (k : list Z) : Prop :=
  match old with Some o => tkeys o apex k \/ hkey o h k | None => False end.
(** One node of an update: its mentions are replaced, nothing else changes *)
Lemma update_one : forall al t M apex h x old new, no_failure al -> inv t M ->
  (forall k, M k x <-> okeys old apex h k) ->
  (match old with Some o => shares o new /\ (forall k, tkeys o apex k -> hkey o h k -> False) | None => (v_deleted new = true -> v_list new = []) end) ->
  exists t1 t2, update_node al t apex x old new = (KNOT_EOK, t1) /\ update_nsec3 al t1 h x old new = (KNOT_EOK, t2) /\
    inv t2 (fun k y => if y =? x then tkeys new apex k \/ hkey new h k else M k y).
Proof.
  intros al t M apex h x old new HA HI HM HS.
  assert (HT : exists t1, update_node al t apex x old new = (KNOT_EOK, t1) /\
     inv t1 (fun k y => if y =? x then tkeys new apex k \/ match old with Some o => hkey o h k | None => False end else M k y)).
  { unfold update_node. destruct (additionals_unchanged old new) eqn:U.
    - destruct old as [o|]; [|discriminate]. destruct HS as [HS HD]. pose proof (unchanged_targets o new apex HS U) as E.
      destruct HS as (_ & _ & S3 & S4 & _). exists t. split; auto. eapply inv_ext; [exact HI|]. intros k y.
      destruct (Z.eqb_spec y x) as [->|]; [|tauto]. rewrite HM. simpl. rewrite (tkeys_list o), (tkeys_list new) by auto.
      split; (intros [(n & Hn & ->)|H]; [left; exists n; split; auto; apply E; auto|right; auto]).
    - set (t0 := match old with Some o => _ | None => t end).
      assert (H0 : inv t0 (fun k y => M k y /\ (y = x -> match old with Some o => hkey o h k | None => False end))).
      { unfold t0. destruct old as [o|].
        - destruct HS as [HS HD]. destruct (v_deleted o) eqn:D; simpl negb; cbv iota.
          + eapply inv_ext; [exact HI|]. intros k y. split; [|tauto]. intros H. split; auto. intros ->. apply HM in H. simpl in H. destruct H as [H|H]; auto. unfold tkeys in H. destruct H; congruence.
          + eapply inv_ext; [apply remove_all_inv; exact HI|]. intros k y. cbv beta. split.
            * intros [H1 H2]. split; auto. intros ->. apply HM in H1. simpl in H1. destruct H1 as [[_ (n & Hn & ->)]|H1]; auto. exfalso. apply H2. split; auto. exists n; auto.
            * intros [H1 H2]. split; auto. intros (-> & n & Hn & ->). apply (HD (key n)); [split; auto; exists n; auto|auto].
        - eapply inv_ext; [exact HI|]. intros k y. split; [|tauto]. intros H. split; auto. intros ->. apply HM in H. auto. }
      destruct (v_deleted new) eqn:D; simpl negb; cbv iota.
      + exists t0. split; auto. eapply inv_ext; [exact H0|]. intros k y. cbv beta. destruct (Z.eqb_spec y x) as [->|Hn].
        * rewrite HM. unfold tkeys at 1. rewrite D. destruct old as [o|]; simpl; [split; [tauto|intros [[? ?]|H]; [discriminate|split; auto]]|intuition discriminate].
        * tauto.
      + destruct (add_all_inv al (targets new apex) t0 _ x HA H0) as (t1 & -> & H1). exists t1. split; auto.
        eapply inv_ext; [exact H1|]. intros k y. cbv beta. destruct (Z.eqb_spec y x) as [->|Hn].
        * rewrite HM. unfold tkeys at 1. rewrite D. destruct old as [o|]; simpl.
          -- split; [intros [[_ H]|[_ H]]; [right; auto|left; auto]|intros [[_ H]|H]; [right; auto|left; split; auto]].
          -- split; [intros [[[] _]|[_ H]]; left; auto|intros [[_ H]|[]]; right; auto].
        * split; [intros [[H _]|[H _]]; [auto|congruence]|intros H; left; split; auto; congruence]. }
  destruct HT as (t1 & E1 & H1). exists t1. unfold update_nsec3.
  destruct h as [f|].
  2:{ exists t1. split; auto. split; auto. eapply inv_ext; [exact H1|]. intros k y. cbv beta. destruct (y =? x); [|tauto]. unfold hkey.
      split; [intros [H|H]; [auto|destruct old; [destruct H as (_ & f & F & _); discriminate|destruct H]]|intros [H|(_ & f & F & _)]; [auto|discriminate]]. }
  destruct old as [o|]; unfold exists_.
  - destruct HS as [HS HD]. destruct HS as (_ & _ & S3 & S4 & S5).
    destruct (v_deleted o) eqn:DO; destruct (v_deleted new) eqn:DN; cbn [negb andb].
    + exists t1. split; auto. split; auto. eapply inv_ext; [exact H1|]. intros k y. cbv beta. destruct (y =? x); [|tauto]. unfold tkeys, hkey. rewrite DO, DN. intuition discriminate.
    + destruct (add_inv al t1 _ (key (f (v_owner new))) x HA H1) as (t2 & -> & H2). exists t2. split; auto. split; auto.
      eapply inv_ext; [exact H2|]. intros k y. cbv beta. destruct (Z.eqb_spec y x) as [->|Hn].
      * unfold hkey. rewrite DO, DN. split.
        -- intros [[H|[H _]]|[-> _]]; [auto|discriminate|right; split; auto; exists f; auto].
        -- intros [H|(_ & f' & F & ->)]; [auto|inversion F; subst; right; auto].
      * split; [intros [H|[_ H]]; [auto|congruence]|auto].
    + eexists. split; auto. split; [reflexivity|]. eapply inv_ext; [apply remove_inv; exact H1|]. intros k y. cbv beta. destruct (Z.eqb_spec y x) as [->|Hn].
      * unfold tkeys, hkey. rewrite DO, DN. split.
        -- intros [[[? _]|(_ & f' & F & ->)] H2]; [discriminate|]. inversion F; subst. exfalso. apply H2. auto.
        -- intros [[? _]|[? _]]; discriminate.
      * split; [tauto|]. intros H. split; auto. intros [_ H']. congruence.
    + exists t1. split; auto. split; auto. eapply inv_ext; [exact H1|]. intros k y. cbv beta. destruct (y =? x); [|tauto]. unfold hkey. rewrite DO, DN, S5. tauto.
  - destruct (v_deleted new) eqn:DN; cbn [negb andb].
    + exists t1. split; auto. split; auto. eapply inv_ext; [exact H1|]. intros k y. cbv beta. destruct (y =? x); [|tauto]. unfold hkey. rewrite DN. intuition discriminate.
    + destruct (add_inv al t1 _ (key (f (v_owner new))) x HA H1) as (t2 & -> & H2). exists t2. split; auto. split; auto.
      eapply inv_ext; [exact H2|]. intros k y. cbv beta. destruct (Z.eqb_spec y x) as [->|Hn].
      * unfold hkey. rewrite DN. split.
        -- intros [[H|[]]|[-> _]]; [auto|right; split; auto; exists f; auto].
        -- intros [H|(_ & f' & F & ->)]; [auto|inversion F; subst; right; auto].
      * split; [intros [H|[_ H]]; [auto|congruence]|auto].
Qed.

Lemma update_list_inv : forall al apex h (fo : Z -> option version) (fn : Z -> version) l t M, no_failure al -> NoDup l -> inv t M ->
  (forall x, In x l -> forall k, M k x <-> okeys (fo x) apex h k) ->
  (forall x, In x l -> match fo x with Some o => shares o (fn x) /\ (forall k, tkeys o apex k -> hkey o h k -> False) | None => (v_deleted (fn x) = true -> v_list (fn x) = []) end) ->
  exists t', update_list al t apex h (map (fun x => (x, fo x, fn x)) l) = (KNOT_EOK, t') /\
    inv t' (fun k y => (In y l /\ (tkeys (fn y) apex k \/ hkey (fn y) h k)) \/ (~ In y l /\ M k y)).
Proof.
  intros al apex h fo fn. induction l as [|x l IH]; intros t M HA HN HI HM HS; cbn [map update_list].
  - exists t. split; auto. eapply inv_ext; [exact HI|]. intros k y. simpl. tauto.
  - inversion HN; subst.
    destruct (update_one al t M apex h x (fo x) (fn x) HA HI (HM x (or_introl eq_refl)) (HS x (or_introl eq_refl))) as (t1 & t2 & -> & E2 & H5).
    cbn [Z.eqb KNOT_EOK negb]. rewrite E2. cbn [Z.eqb KNOT_EOK negb].
    destruct (IH t2 _ HA H2 H5) as (t3 & E3 & H6).
    + intros y Hy k. cbv beta. assert (y <> x) by (intros ->; auto). replace (y =? x) with false by lia. apply HM. right; auto.
    + intros y Hy. apply HS. right; auto.
    + exists t3. split; [exact E3|]. eapply inv_ext; [exact H6|]. intros k y. cbv beta. simpl. destruct (Z.eqb_spec y x) as [->|Hne].
      * split; [intros [[H _]|[_ H]]; [tauto|left; auto]|intros [[_ H]|[H _]]; [right; auto|tauto]].
      * assert (x <> y) by congruence. tauto.
Qed.

Definition holds (c : contents) (k : list Z) (x : Z) : Prop := exists n, refers c x n /\ k = key n.
Lemma holds_iff : forall c k x, zone_ok c -> (holds c k x <-> tkeys (c_at c x) (c_apex c) k \/ hkey (c_at c x) (c_nsec3 c) k).
Proof.
  intros c k x (_ & Z2 & _). unfold holds, refers, mentions, hashed, tkeys, hkey. rewrite <- Z2. split.
  - intros (n & [(H1 & H2 & H3)|(H1 & h & H2 & H3)] & ->).
    + left. split; auto. exists n. split; auto. apply targets_in. auto.
    + right. split; auto. exists h. subst. auto.
  - intros [(H1 & n & H2 & ->)|(H1 & h & H2 & ->)].
    + apply targets_in in H2. exists n. split; [|reflexivity]. left. tauto.
    + exists (h (v_owner (c_at c x))). split; [|reflexivity]. right. split; [auto|]. exists h. auto.
Qed.
Lemma inv_nil : inv [] (fun _ _ => False).
Proof. split; [constructor|]. split; [intros ? ? []|]. intros k x. simpl. tauto. Qed.
Lemma from_zone_inv : forall al c, zone_ok c -> no_failure al -> exists t, from_zone al c = Ok t /\ inv t (holds c).
Proof.
  intros al c HZ HA. unfold from_zone. pose proof HZ as (Z1 & Z2 & Z3 & _).
  destruct (update_list_inv al (c_apex c) (c_nsec3 c) (fun _ => None) (c_at c) (c_nodes c) [] _ HA Z1 inv_nil) as (t & -> & H).
  - simpl. tauto.
  - simpl. auto.
  - exists t. split; auto. eapply inv_ext; [exact H|]. intros k x. cbv beta. rewrite holds_iff by auto. unfold tkeys, hkey. rewrite <- Z2. tauto.
Qed.
Lemma update_binodes_inv : forall al old new t ptrs, zone_ok old -> zone_ok new -> updated old new ptrs -> c_nsec3 new = c_nsec3 old ->
  no_failure al -> inv t (holds old) -> exists t', update_from_binodes al t ptrs old new = (KNOT_EOK, t') /\ inv t' (holds new).
Proof.
  intros al old new t ptrs HO HN (U1 & U2 & U3 & U4 & U5 & U6) Hh HA HI. unfold update_from_binodes.
  pose proof HO as (_ & O2 & O3 & _ & _ & O5 & _). pose proof HN as (_ & _ & N3 & _).
  destruct (update_list_inv al (c_apex new) (c_nsec3 new) (fun x => Some (c_at old x)) (c_at new) ptrs t _ HA U2 HI) as (t' & -> & H).
  - intros x Hx k. rewrite holds_iff by auto. rewrite U1, Hh. simpl. tauto.
  - intros x Hx. split; [unfold shares; repeat apply conj; [apply U5|apply U6|apply O3|apply N3|apply U4]|]. intros k (D & n & Hn & ->) (_ & f & Hf & E).
    pose proof HO as (_ & _ & _ & O4 & _). rewrite U1 in Hn. rewrite Hh in Hf. apply targets_in in Hn.
    assert (R1 : mentions old x n) by (split; [apply O2; auto|]; exact Hn).
    assert (R2 : hashed old x (f (v_owner (c_at old x)))) by (split; [apply O2; auto|]; exists f; auto).
    apply key_inj in E; [|eapply O4; left; exact R1|eapply O4; right; exact R2]. subst n. eapply O5; eauto.
  - exists t'. split; auto. eapply inv_ext; [exact H|]. intros k x. cbv beta. rewrite !holds_iff by auto. rewrite U1, Hh.
    destruct (in_dec Z.eq_dec x ptrs) as [Hi|Hi]; [tauto|]. rewrite (U3 x Hi). tauto.
Qed.
