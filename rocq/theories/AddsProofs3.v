From Verif Require Import Base LmdbModel LmdbProofs AddsModel AddsSpec AddsProofs AddsProofs2.

(** Looking up leaves the index as it is *)
Lemma apply_nodes_spec : forall e l e', good e -> reverse_apply_nodes e = (l, e') -> good e' /\ elems e' = l /\ NoDup l /\ (forall x, In x l <-> In x (elems e)).
Proof.
  intros [| |l d] l' e' G H; simpl in G; try tauto. simpl in H. inversion H; subst. simpl. destruct d.
  - repeat apply conj; auto. intros; tauto.
  - destruct (sort_dedup_spec l) as [S1 S2]. repeat apply conj; auto.
Qed.
Lemma reverse_apply_inv : forall t M n l t', inv t M -> reverse_apply t n = (l, t') -> inv t' M /\ NoDup l /\ (forall x, In x l <-> M (key n) x).
Proof.
  intros t M n l t' (Hs & Hg & HM) H. unfold reverse_apply in H. destruct (get t (key n)) as [e|] eqn:E.
  - destruct (reverse_apply_nodes e) as [l1 e1] eqn:F. inversion H; subst. pose proof (Hg _ _ (get_in _ _ _ E)) as G.
    destruct (apply_nodes_spec _ _ _ G F) as (A & B & C & D). split; [|split; auto].
    + split; [apply set_sorted; auto|]. split.
      * intros k e' Hin. apply in_set in Hin. destruct Hin as [X|Hin]; [inversion X; subst; auto|eauto].
      * intros k x. rewrite at_set by auto. destruct (kcmp_case (key n) k) as [[-> <-]|[N1 N2]].
        -- rewrite B, D, <- HM. unfold at_. rewrite E. tauto.
        -- assert (X : match kcmp (key n) k with Eq => elems e1 | _ => at_ t k end = at_ t k) by (destruct (kcmp (key n) k); congruence).
           rewrite X. auto.
    + intros x. rewrite D, <- HM. unfold at_. rewrite E. tauto.
  - inversion H; subst. split; [repeat apply conj; auto|]. split; [constructor|]. intros x. rewrite <- HM. unfold at_. rewrite E. tauto.
Qed.

(** Two trees with the same keys and the same elements *)
Inductive similar : tree -> tree -> Prop :=
| sim_nil : similar [] []
| sim_cons : forall k e e' t t', good e' -> (forall x, In x (elems e) <-> In x (elems e')) -> similar t t' -> similar ((k, e) :: t) ((k, e') :: t').
Lemma similar_refl : forall t, (forall k e, In (k, e) t -> good e) -> similar t t.
Proof. induction t as [|[k e] t IH]; intros H; constructor; [eapply H; left; eauto|tauto|]. apply IH. intros. eapply H. right; eauto. Qed.
Lemma similar_keys : forall t t', similar t t' -> forall k e', In (k, e') t' -> good e' /\ exists e, In (k, e) t.
Proof.
  induction 1 as [|k e e' t t' G Hx Hs IH]; intros k0 e0 Hin; [destruct Hin|]. destruct Hin as [E|Hin].
  - inversion E; subst. split; auto. exists e. left; auto.
  - destruct (IH _ _ Hin) as (A & e1 & B). split; auto. exists e1. right; auto.
Qed.
Lemma similar_at : forall t t', similar t t' -> forall k x, In x (at_ t k) <-> In x (at_ t' k).
Proof.
  induction 1 as [|k e e' t t' G Hx Hs IH]; intros k0 x; [tauto|]. unfold at_. rewrite !get_cons. destruct (kcmp k k0); auto; apply IH.
Qed.
Lemma similar_inv : forall t t' M, similar t t' -> inv t M -> inv t' M.
Proof.
  intros t t' M HS (A & B & C). split; [|split].
  - clear B C. revert A. induction HS as [|k e e' t t' G Hx Hs IH]; intros A; [constructor|]. inversion A; subst. constructor; auto.
    intros k' e1 Hin. destruct (similar_keys _ _ Hs _ _ Hin) as (_ & e2 & H). eauto.
  - intros k e H. eapply similar_keys; eauto.
  - intros k x. rewrite <- C. symmetry. apply similar_at. auto.
Qed.

Lemma in_subtree_prefix : forall r k, in_subtree r k = is_prefix_of r k.
Proof.
  intros r k. apply eq_true_iff_eq. rewrite is_prefix_of_iff. revert k. induction r as [|a r IH]; intros k; simpl.
  - split; [exists k; auto|auto].
  - destruct k as [|b k]; [split; [discriminate|intros (s & H); discriminate]|]. rewrite andb_true_iff, IH, Z.eqb_eq. split.
    + intros (-> & s & ->). exists s. auto.
    + intros (s & H). inversion H; subst. split; auto. exists s. auto.
Qed.
Lemma walk_spec : forall t root l t', tsorted t -> (forall k e, In (k, e) t -> good e) -> (forall k e, In (k, e) t -> kcmp root k <> Gt) ->
  walk t root = (l, t') -> similar t t' /\ (forall x, In x l <-> exists k e, In (k, e) t /\ is_prefix_of root k = true /\ In x (elems e)).
Proof.
  induction t as [|[k e] t IH]; intros root l t' Hs Hg Hr H; cbn [walk] in H.
  - inversion H; subst. split; [constructor|]. intros x. split; [intros []|intros (k & e & [] & _)].
  - inversion Hs; subst. rewrite in_subtree_prefix in H. destruct (is_prefix_of root k) eqn:P.
    + destruct (reverse_apply_nodes e) as [l1 e1] eqn:F. destruct (walk t root) as [l2 t2] eqn:W. inversion H; subst.
      destruct (IH root l2 t2 H2 (fun k' e' Hi => Hg k' e' (or_intror Hi)) (fun k' e' Hi => Hr k' e' (or_intror Hi)) W) as [I1 I2].
      destruct (apply_nodes_spec _ _ _ (Hg k e (or_introl eq_refl)) F) as (A & B & C & D). split.
      * constructor; auto. intros x. rewrite B, D. tauto.
      * intros x. rewrite in_app_iff, D, I2. split.
        -- intros [X|(k' & e' & X & Y)]; [exists k, e; split; [left; auto|auto]|exists k', e'; split; [right; auto|auto]].
        -- intros (k' & e' & [X|X] & Y & Z); [inversion X; subst; left; auto|right; exists k', e'; auto].
    + inversion H; subst. split; [apply similar_refl; auto|]. intros x. split; [intros []|]. intros (k' & e' & [X|X] & Y & Z).
      * inversion X; subst. congruence.
      * exfalso. assert (is_prefix_of root k = true); [|congruence]. eapply prefix_convex; [apply (Hr k e (or_introl eq_refl))| |exact Y].
        rewrite (H4 _ _ X). discriminate.
Qed.
Lemma apply_subtree_spec : forall t root l t', tsorted t -> (forall k e, In (k, e) t -> good e) ->
  apply_subtree t root = (l, t') -> similar t t' /\ (forall x, In x l <-> exists k e, In (k, e) t /\ is_prefix_of root k = true /\ k <> root /\ In x (elems e)).
Proof.
  induction t as [|[k e] t IH]; intros root l t' Hs Hg H; cbn [apply_subtree] in H.
  - inversion H; subst. split; [constructor|]. intros x. split; [intros []|intros (k & e & [] & _)].
  - assert (R : (kcmp k root = Gt /\ walk ((k, e) :: t) root = (l, t')) \/
                (kcmp k root <> Gt /\ exists t2, apply_subtree t root = (l, t2) /\ t' = (k, e) :: t2)).
    { destruct (kcmp k root); [right|right|left; auto]; (split; [discriminate|]; destruct (apply_subtree t root) as [l2 t2]; inversion H; subst; exists t2; auto). }
    inversion Hs; subst. destruct R as [[G W]|[G (t2 & W & ->)]].
    + assert (LT : forall k' e', In (k', e') ((k, e) :: t) -> kcmp root k' = Lt).
      { apply kcmp_gt_lt in G. intros k' e' [X|X]; [inversion X; subst; auto|]. eapply kcmp_lt_trans; eauto. }
      destruct (walk_spec _ root l t' Hs Hg (fun k' e' Hi => ltac:(rewrite (LT k' e' Hi); discriminate)) W) as [I1 I2]. split; auto.
      intros x. rewrite I2. split; intros (k' & e' & X & Y & Z).
      * exists k', e'. repeat apply conj; auto. intros ->. specialize (LT _ _ X). rewrite kcmp_refl in LT. discriminate.
      * exists k', e'. tauto.
    + destruct (IH root l t2 H2 (fun k' e' Hi => Hg k' e' (or_intror Hi)) W) as [I1 I2]. split.
      * constructor; auto. eapply Hg; left; eauto. tauto.
      * intros x. rewrite I2. split; intros (k' & e' & X & Y & Z & V).
        -- exists k', e'. repeat apply conj; auto. right; auto.
        -- destruct X as [X|X]; [|exists k', e'; auto]. inversion X; subst. exfalso. apply prefix_geq in Y.
           apply Z. apply kcmp_eq. rewrite kcmp_antisym in Y. destruct (kcmp k' root); simpl in *; congruence.
Qed.
Lemma subtree_inv : forall t M root l t', inv t M -> apply_subtree t root = (l, t') ->
  inv t' M /\ (forall x, In x l <-> exists r, r <> [] /\ M (root ++ r) x).
Proof.
  intros t M root l t' HI H. pose proof HI as (Hs & Hg & HM). destruct (apply_subtree_spec t root l t' Hs Hg H) as [I1 I2].
  split; [eapply similar_inv; eauto|]. intros x. rewrite I2. split.
  - intros (k & e & X & Y & Z & V). apply is_prefix_of_iff in Y. destruct Y as (r & ->). exists r. split; [intros ->; apply Z; apply app_nil_r|].
    apply HM. unfold at_. rewrite (in_get _ _ _ Hs X). auto.
  - intros (r & Hr & X). apply HM in X. unfold at_ in X. destruct (get t (root ++ r)) as [e|] eqn:E; [|destruct X].
    exists (root ++ r), e. split; [apply get_in; auto|]. split; [apply is_prefix_of_iff; exists r; auto|]. split; auto.
    intros Y. apply Hr. rewrite <- (app_nil_r root) in Y at 2. apply app_inv_head in Y. auto.
Qed.
Definition hit (M : list Z -> Z -> Prop) (x : Z) (o : name) : Prop :=
  if is_wildcard o then exists r, r <> [] /\ M (key (tl o) ++ r) x else M (key o) x.
Lemma apply_multi_inv : forall owners t M l t', inv t M -> apply_multi t owners = (l, t') ->
  inv t' M /\ (forall x, In x l <-> exists o, In o owners /\ hit M x o).
Proof.
  induction owners as [|o owners IH]; intros t M l t' HI H; cbn [apply_multi] in H.
  - inversion H; subst. split; auto. intros x. split; [intros []|intros (o & [] & _)].
  - destruct (if is_wildcard o then apply_subtree t (key (tl o)) else reverse_apply t o) as [l1 t1] eqn:E.
    destruct (apply_multi t1 owners) as [l2 t2] eqn:F. inversion H; subst.
    assert (X : inv t1 M /\ forall x, In x l1 <-> hit M x o).
    { unfold hit. destruct (is_wildcard o); [eapply subtree_inv; eauto|]. destruct (reverse_apply_inv _ _ _ _ _ HI E) as (A & _ & B). auto. }
    destruct X as [X1 X2]. destruct (IH t1 M l2 t' X1 F) as [I1 I2]. split; auto. intros x. rewrite in_app_iff, X2, I2. split.
    + intros [Y|(o' & Y & Z)]; [exists o; split; [left; auto|auto]|exists o'; split; [right; auto|auto]].
    + intros (o' & [->|Y] & Z); [left; auto|right; exists o'; auto].
Qed.
Lemma no_null : forall t M, inv t M -> tree_free t = Ok tt.
Proof.
  intros t M (_ & G & _). unfold tree_free. assert (H : forallb (fun p => match snd p with Null => false | _ => true end) t = true); [|rewrite H; auto].
  apply forallb_forall. intros [k e] Hin. apply G in Hin. destruct e; simpl in *; tauto.
Qed.
Lemma incremental_inv : forall al old new t b ptrs, (forall t0, t = Some t0 -> inv t0 (holds old)) -> zone_ok old -> zone_ok new -> updated old new ptrs ->
  (b = false -> c_nsec3 new = c_nsec3 old) -> no_failure al ->
  exists vis t', incremental al t b old new ptrs = Ok (vis, t') /\ inv t' (holds new) /\
    (forall x, In x vis <-> exists p, In p ptrs /\ hit (holds new) x (v_owner (c_at new p))).
Proof.
  intros al old new t b ptrs Ht HO HN HU Hb HA. unfold incremental.
  assert (X : exists t1, (match t with
            | Some t =>
              if negb b then
                let (ret, t) := update_from_binodes al t ptrs old new in
                if ret =? KNOT_EOK then Ok t else let* _ := tree_free t in Err ret
              else let* _ := tree_free t in from_zone al new
            | None => from_zone al new
            end) = Ok t1 /\ inv t1 (holds new)).
  { destruct (from_zone_inv al new HN HA) as (tz & EZ & IZ). destruct t as [t0|]; [|exists tz; auto]. specialize (Ht t0 eq_refl).
    destruct b; cbn [negb].
    - rewrite (no_null _ _ Ht). simpl. exists tz; auto.
    - destruct (update_binodes_inv al old new t0 ptrs HO HN HU (Hb eq_refl) HA Ht) as (t1 & -> & I1). exists t1. auto. }
  destruct X as (t1 & -> & I1). cbn [rbind].
  destruct (apply_multi t1 (map (fun x => v_owner (c_at new x)) ptrs)) as [vis t'] eqn:E.
  destruct (apply_multi_inv _ _ _ _ _ I1 E) as [A B]. exists vis, t'. split; auto. split; auto. intros x. rewrite B. split.
  - intros (o & Ho & H). apply in_map_iff in Ho. destruct Ho as (p & <- & Hp). exists p; auto.
  - intros (p & Hp & H). exists (v_owner (c_at new p)). split; auto. apply in_map_iff. exists p; auto.
Qed.
Lemma history_inv : forall c t, history c t -> zone_ok c /\ (forall t0, t = Some t0 -> inv t0 (holds c)).
Proof.
  induction 1 as [al c t HZ HA E|al old new t b ptrs vis t' H IH HN HU Hb HA E|c t H IH].
  - split; auto. intros t0 T. inversion T; subst. destruct (from_zone_inv al c HZ HA) as (t1 & E1 & I1). congruence.
  - destruct IH as [HO Ht]. split; auto. intros t0 T. inversion T; subst.
    destruct (incremental_inv al old new t b ptrs Ht HO HN HU Hb HA) as (v & t1 & E1 & I1 & _). congruence.
  - destruct IH as [HO Ht]. split; auto. discriminate.
Qed.
