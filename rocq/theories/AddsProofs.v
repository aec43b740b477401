From Verif Require Import Base LmdbModel LmdbProofs AddsModel AddsSpec.

Inductive tsorted : tree -> Prop :=
| ts_nil : tsorted []
| ts_cons : forall k e t, tsorted t -> (forall k' e', In (k', e') t -> kcmp k k' = Lt) -> tsorted ((k, e) :: t).
Definition good (e : entry) : Prop := match e with Arr l d => d = true -> NoDup l | _ => False end.
Definition elems (e : entry) : list Z := match e with Arr l _ => l | _ => [] end.
Definition at_ (t : tree) (k : list Z) : list Z := match get t k with Some e => elems e | None => [] end.
Definition inv (t : tree) (M : list Z -> Z -> Prop) : Prop :=
  tsorted t /\ (forall k e, In (k, e) t -> good e) /\ forall k x, In x (at_ t k) <-> M k x.

Lemma get_cons : forall k' e t k, get ((k', e) :: t) k = match kcmp k' k with Eq => Some e | _ => get t k end.
Proof. intros. unfold get. cbn [find fst]. destruct (kcmp k' k); auto. Qed.
Lemma get_in : forall t k e, get t k = Some e -> In (k, e) t.
Proof.
  induction t as [|[k' e'] t IH]; intros k e H; [discriminate|]. rewrite get_cons in H.
  destruct (kcmp k' k) eqn:E; try (right; apply IH; auto; fail). apply kcmp_eq in E. inversion H; subst. left; auto.
Qed.
Lemma get_lt : forall t k, (forall k' e', In (k', e') t -> kcmp k k' = Lt) -> get t k = None.
Proof.
  intros t k H. destruct (get t k) eqn:E; auto. apply get_in in E. apply H in E. pose proof (kcmp_refl k). congruence.
Qed.
Lemma in_get : forall t k e, tsorted t -> In (k, e) t -> get t k = Some e.
Proof.
  induction 1 as [|k' e' t Hs IH Hlt]; intros Hin; [destruct Hin|]. rewrite get_cons. destruct Hin as [E|Hin].
  - inversion E; subst. rewrite kcmp_refl. auto.
  - specialize (Hlt _ _ Hin). rewrite Hlt. auto.
Qed.
Lemma get_set : forall t k e k', tsorted t -> get (set t k e) k' = match kcmp k k' with Eq => Some e | _ => get t k' end.
Proof.
  induction t as [|[a b] t IH]; intros k e k' Hs.
  - cbn [set]. rewrite get_cons. reflexivity.
  - inversion Hs; subst. cbn [set]. destruct (kcmp k a) eqn:E; rewrite !get_cons.
    + apply kcmp_eq in E. subst. destruct (kcmp a k'); auto.
    + reflexivity.
    + rewrite IH by auto. destruct (kcmp a k') eqn:E1; auto. apply kcmp_eq in E1. subst. rewrite E. auto.
Qed.
Lemma in_set : forall t k e k' e', In (k', e') (set t k e) -> (k', e') = (k, e) \/ In (k', e') t.
Proof.
  induction t as [|[a b] t IH]; intros k e k' e' H; cbn [set] in H.
  - destruct H as [H|[]]. left; auto.
  - destruct (kcmp k a).
    + destruct H as [H|H]; [left; auto|right; right; auto].
    + destruct H as [H|H]; [left; auto|right; auto].
    + destruct H as [H|H]; [right; left; auto|]. apply IH in H. destruct H; [left; auto|right; right; auto].
Qed.
Lemma set_sorted : forall t k e, tsorted t -> tsorted (set t k e).
Proof.
  induction 1 as [|a b t Hs IH Hlt]; cbn [set].
  - constructor; [constructor|]. intros ? ? [].
  - destruct (kcmp k a) eqn:E.
    + apply kcmp_eq in E. subst. constructor; auto.
    + constructor; [constructor; auto|]. intros k' e' [H|H]; [inversion H; subst; auto|]. eapply kcmp_lt_trans; eauto.
    + constructor; auto. intros k' e' H. apply in_set in H. destruct H as [H|H]; [inversion H; subst; apply kcmp_gt_lt; auto|eauto].
Qed.
Lemma del_sorted : forall t k, tsorted t -> tsorted (del t k).
Proof.
  induction 1 as [|a b t Hs IH Hlt]; cbn [del filter fst]; [constructor|].
  destruct (kcmp a k); auto; (constructor; [exact IH|]; intros k' e' H; apply filter_In in H; eapply Hlt; apply H).
Qed.
Lemma get_del : forall t k k', get (del t k) k' = match kcmp k k' with Eq => None | _ => get t k' end.
Proof.
  induction t as [|[a b] t IH]; intros k k'; [destruct (kcmp k k'); auto|]. cbn [del filter fst].
  destruct (kcmp a k) eqn:E.
  - fold (del t k). rewrite IH. rewrite get_cons. apply kcmp_eq in E. subst. destruct (kcmp k k'); auto.
  - rewrite !get_cons. fold (del t k). rewrite IH. destruct (kcmp a k') eqn:E1; auto. apply kcmp_eq in E1. subst.
    rewrite kcmp_antisym, E. auto.
  - rewrite !get_cons. fold (del t k). rewrite IH. destruct (kcmp a k') eqn:E1; auto. apply kcmp_eq in E1. subst.
    rewrite kcmp_antisym, E. auto.
Qed.

Lemma dyn_remove_in : forall fuel l x y, (length l <= fuel)%nat -> (In y (dyn_remove fuel l x) <-> In y l /\ y <> x).
Proof.
  induction fuel as [|fuel IH]; intros l x y Hl.
  - destruct l; [simpl; tauto|simpl in Hl; lia].
  - destruct l as [|a r]; [simpl; tauto|]. cbn [dyn_remove]. destruct (Z.eqb_spec a x) as [->|Hne].
    + destruct r as [|b r]; [simpl; split; [tauto|intros [[H|[]] ?]; congruence]|].
      remember (b :: r) as s. assert (Hs : s <> []) by (subst; discriminate).
      rewrite IH.
      2:{ pose proof (app_removelast_last 0 Hs) as E. apply (f_equal (@length Z)) in E. rewrite app_length in E. simpl in *. lia. }
      pose proof (app_removelast_last 0 Hs) as E.
      assert (Hin : In y (last s 0 :: removelast s) <-> In y s).
      { rewrite E at 3. rewrite in_app_iff. simpl. tauto. }
      rewrite Hin. simpl. split; [tauto|]. intros [[H|H] ?]; [congruence|auto].
    + simpl. rewrite IH by (simpl in Hl; lia). split; [intros [H|H]; subst; tauto|intros [[H|H] ?]; subst; tauto].
Qed.
Lemma nodup_snoc : forall (l : list Z) z, NoDup (l ++ [z]) -> NoDup (z :: l).
Proof. intros l z H. apply NoDup_rev in H. rewrite rev_app_distr in H. simpl in H. inversion H; subst. constructor; [rewrite in_rev; auto|]. rewrite <- (rev_involutive l). apply NoDup_rev; auto. Qed.
Lemma dyn_remove_nodup : forall fuel l x, (length l <= fuel)%nat -> NoDup l -> NoDup (dyn_remove fuel l x).
Proof.
  induction fuel as [|fuel IH]; intros l x Hl HN; [constructor|]. destruct l as [|a r]; [constructor|]. cbn [dyn_remove].
  inversion HN; subst. destruct (Z.eqb_spec a x) as [->|Hne].
  - destruct r as [|b r]; [constructor|]. remember (b :: r) as s. assert (Hs : s <> []) by (subst; discriminate).
    pose proof (app_removelast_last 0 Hs) as E. apply IH.
    + apply (f_equal (@length Z)) in E. rewrite app_length in E. simpl in *. lia.
    + apply nodup_snoc. rewrite <- E. auto.
  - constructor; [|apply IH; auto; simpl in Hl; lia]. rewrite dyn_remove_in by (simpl in Hl; lia). tauto.
Qed.

Lemma ins_sorted_in : forall x l y, In y (ins_sorted x l) <-> y = x \/ In y l.
Proof. induction l as [|a r IH]; intros y; simpl; [intuition|]. destruct (x <=? a); simpl; [intuition|]. rewrite IH. intuition. Qed.
Lemma sort_in : forall l y, In y (sort l) <-> In y l.
Proof. induction l as [|a r IH]; intros y; simpl; [tauto|]. rewrite ins_sorted_in. fold (sort r). rewrite IH. intuition. Qed.
Inductive asc : list Z -> Prop :=
| asc_nil : asc []
| asc_cons : forall a l, asc l -> (forall y, In y l -> a <= y) -> asc (a :: l).
Lemma ins_sorted_asc : forall x l, asc l -> asc (ins_sorted x l).
Proof.
  induction 1 as [|a l Ha IH Hle]; simpl; [constructor; [constructor|intros ? []]|].
  destruct (x <=? a) eqn:E.
  - constructor; [constructor; auto|]. intros y [H|H]; [lia|]. specialize (Hle _ H). lia.
  - constructor; auto. intros y H. apply ins_sorted_in in H. destruct H as [->|H]; [lia|auto].
Qed.
Lemma sort_asc : forall l, asc (sort l).
Proof. induction l; simpl; [constructor|]. apply ins_sorted_asc; auto. Qed.
Lemma dedup_spec : forall l p, asc l -> (forall y, In y l -> p <= y) ->
  NoDup (dedup p l) /\ (forall y, In y (dedup p l) <-> In y l /\ y <> p).
Proof.
  induction l as [|a r IH]; intros p Ha Hp; simpl; [split; [constructor|tauto]|]. inversion Ha; subst.
  destruct (IH a H1 H2) as [I1 I2]. destruct (Z.eqb_spec p a) as [->|Hne].
  - split; [auto|]. intros y. rewrite I2. split; [tauto|]. intros [[H|H] ?]; [congruence|auto].
  - split; [constructor; auto; rewrite I2; tauto|]. intros y. simpl. rewrite I2. split.
    + intros [->|[H ?]]; [split; [auto|congruence]|]. split; [auto|]. specialize (H2 _ H). assert (p <= a) by (apply Hp; left; auto). lia.
    + intros [[->|H] ?]; [auto|]. destruct (Z.eq_dec y a); [left; auto|right; auto].
Qed.
Lemma sort_dedup_spec : forall l, NoDup (sort_dedup l) /\ (forall y, In y (sort_dedup l) <-> In y l).
Proof.
  intros l. destruct l as [|a [|b r]]; cbn [sort_dedup].
  - split; [constructor|tauto].
  - split; [constructor; [intros []|constructor]|tauto].
  - pose proof (sort_asc (a :: b :: r)) as Ha. pose proof (sort_in (a :: b :: r)) as Hin.
    destruct (sort (a :: b :: r)) as [|c s]; [exfalso; destruct (Hin a) as [_ H]; apply H; left; auto|].
    inversion Ha; subst. destruct (dedup_spec s c H1 H2) as [I1 I2]. split.
    + constructor; auto. rewrite I2. tauto.
    + intros y. rewrite <- Hin. simpl. rewrite I2. destruct (Z.eq_dec y c); [subst; tauto|]. intuition.
Qed.

Lemma at_set : forall t k e k', tsorted t -> at_ (set t k e) k' = match kcmp k k' with Eq => elems e | _ => at_ t k' end.
Proof. intros. unfold at_. rewrite get_set by auto. destruct (kcmp k k'); auto. Qed.
Lemma at_del : forall t k k', at_ (del t k) k' = match kcmp k k' with Eq => [] | _ => at_ t k' end.
Proof. intros. unfold at_. rewrite get_del. destruct (kcmp k k'); auto. Qed.
Lemma kcmp_case : forall a b, (kcmp a b = Eq /\ a = b) \/ (kcmp a b <> Eq /\ a <> b).
Proof. intros a b. destruct (kcmp a b) eqn:E; [left; split; auto; apply kcmp_eq; auto|right|right]; (split; [congruence|]; intros ->; rewrite kcmp_refl in E; discriminate). Qed.

Lemma inv_ext : forall t M M', inv t M -> (forall k x, M k x <-> M' k x) -> inv t M'.
Proof. intros t M M' (A & B & C) H. repeat apply conj; auto. intros k x. rewrite C. apply H. Qed.

Lemma add_inv : forall al t M k x, no_failure al -> inv t M ->
  exists t', add_node al t k x = (KNOT_EOK, t') /\ inv t' (fun k' y => M k' y \/ (k' = k /\ y = x)).
Proof.
  intros al t M k x [A1 A2] (Hs & Hg & HM). unfold add_node.
  assert (H : exists l d, (match get t k with Some e => e | None => Null end = Null /\ l = [x] /\ at_ t k = [] \/
     (match get t k with Some e => e | None => Null end = Arr (at_ t k) d /\ l = at_ t k ++ [x]))).
  { unfold at_. destruct (get t k) as [e|] eqn:E.
    - apply get_in in E. apply Hg in E. destruct e as [| |l d]; simpl in E; try tauto. exists (l ++ [x]), d. right. auto.
    - exists [x], false. left. auto. }
  destruct H as (l & d & H).
  assert (R : exists t', (match (match get t k with Some e => e | None => Null end) with
     | Null => if a_new al k then (KNOT_EOK, set t k (Arr [x] false)) else (KNOT_ENOMEM, set t k Null)
     | Broken => (KNOT_EOK, t)
     | Arr l _ => (KNOT_EOK, set t k (if a_grow al k x then Arr (l ++ [x]) false else Broken)) end) = (KNOT_EOK, t') /\ t' = set t k (Arr l false) /\
     (forall y, In y l <-> In y (at_ t k) \/ y = x)).
  { destruct H as [(-> & -> & E)|(-> & ->)].
    - rewrite A1. eexists; split; [reflexivity|]. split; auto. intros y. rewrite E. simpl. intuition.
    - rewrite A2. eexists; split; [reflexivity|]. split; auto. intros y. rewrite in_app_iff. simpl. intuition. }
  destruct R as (t' & -> & -> & Hl). eexists; split; [reflexivity|]. split; [apply set_sorted; auto|]. split.
  - intros k' e' Hin. apply in_set in Hin. destruct Hin as [E|Hin]; [inversion E; subst; simpl; discriminate|eauto].
  - intros k' y. rewrite at_set by auto. destruct (kcmp_case k k') as [[-> ->]|[N1 N2]].
    + simpl. rewrite Hl, HM. tauto.
    + assert (E : match kcmp k k' with Eq => elems (Arr l false) | _ => at_ t k' end = at_ t k') by (destruct (kcmp k k'); congruence).
      rewrite E, HM. split; [auto|intros [H'|[H' _]]; [auto|congruence]].
Qed.
Lemma remove_inv : forall t M k x, inv t M -> inv (remove_node t k x) (fun k' y => M k' y /\ ~ (k' = k /\ y = x)).
Proof.
  intros t M k x (Hs & Hg & HM). unfold remove_node. destruct (get t k) as [e|] eqn:E.
  - pose proof (Hg _ _ (get_in _ _ _ E)) as G. destruct e as [| |l d]; simpl in G; try tauto.
    assert (Ha : at_ t k = l) by (unfold at_; rewrite E; auto).
    pose proof (fun y => dyn_remove_in (length l) l x y (le_n _)) as D.
    destruct (dyn_remove (length l) l x) as [|a r] eqn:F.
    + split; [apply del_sorted; auto|]. split; [intros k' e' Hin; apply filter_In in Hin; eapply Hg; apply Hin|].
      intros k' y. rewrite at_del. destruct (kcmp_case k k') as [[-> ->]|[N1 N2]].
      * rewrite <- HM, Ha. specialize (D y). simpl in D. simpl. split; [tauto|]. intros [H1 H2]. apply D. split; auto.
      * assert (X : match kcmp k k' with Eq => [] | _ => at_ t k' end = at_ t k') by (destruct (kcmp k k'); congruence).
        rewrite X, HM. intuition congruence.
    + split; [apply set_sorted; auto|]. split.
      * intros k' e' Hin. apply in_set in Hin. destruct Hin as [X|Hin]; [|eauto]. inversion X; subst. simpl. intros Hd.
        rewrite <- F. apply dyn_remove_nodup; auto.
      * intros k' y. rewrite at_set by auto. destruct (kcmp_case k k') as [[-> ->]|[N1 N2]].
        -- simpl elems. rewrite <- HM, Ha, D. intuition.
        -- assert (X : match kcmp k k' with Eq => elems (Arr (a :: r) d) | _ => at_ t k' end = at_ t k') by (destruct (kcmp k k'); congruence).
           rewrite X, HM. intuition congruence.
  - split; auto. split; auto. intros k' y. rewrite HM. split; [|tauto]. intros H. split; auto. intros [-> ->].
    apply HM in H. unfold at_ in H. rewrite E in H. destruct H.
Qed.
Lemma add_all_inv : forall al ns t M x, no_failure al -> inv t M ->
  exists t', add_all al t ns x = (KNOT_EOK, t') /\ inv t' (fun k y => M k y \/ (y = x /\ exists n, In n ns /\ k = key n)).
Proof.
  induction ns as [|n ns IH]; intros t M x HA HI; cbn [add_all].
  - exists t. split; auto. eapply inv_ext; [exact HI|]. intros k y. split; [auto|intros [H|(_ & n & [] & _)]; auto].
  - destruct (add_inv al t M (key n) x HA HI) as (t1 & -> & H1). cbn [Z.eqb KNOT_EOK].
    destruct (IH t1 _ x HA H1) as (t2 & E2 & H2). exists t2. split; [exact E2|]. eapply inv_ext; [exact H2|]. intros k y. simpl. split.
    + intros [[H|[-> ->]]|(-> & m & Hm & ->)]; [auto|right; split; auto; exists n; auto|right; split; auto; exists m; auto].
    + intros [H|(-> & m & [->|Hm] & ->)]; [auto|left; right; auto|right; split; auto; exists m; auto].
Qed.
Lemma remove_all_inv : forall ns t M x, inv t M ->
  inv (fold_left (fun t n => remove_node t (key n) x) ns t) (fun k y => M k y /\ ~ (y = x /\ exists n, In n ns /\ k = key n)).
Proof.
  induction ns as [|n ns IH]; intros t M x HI; cbn [fold_left].
  - eapply inv_ext; [exact HI|]. intros k y. split; [intros H; split; auto; intros (_ & n & [] & _)|tauto].
  - eapply inv_ext; [apply IH; apply remove_inv; exact HI|]. intros k y. simpl. split.
    + intros [[H1 H2] H3]. split; auto. intros (-> & m & [->|Hm] & ->); [apply H2; auto|apply H3; split; auto; exists m; auto].
    + intros [H1 H2]. split; [split; auto|]; [intros [-> ->]; apply H2; split; auto; exists n; auto|intros (-> & m & Hm & ->); apply H2; split; auto; exists m; auto].
Qed.
