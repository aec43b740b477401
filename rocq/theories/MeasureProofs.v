(** What the measuring functions compute *)
From Verif Require Import Base MeasureModel MeasureSpec.
From Coq Require Import Permutation.

Lemma total_app a b : total (a ++ b) = total a + total b.
Proof. induction a as [|x a IH]; simpl; lia. Qed.
Definition sum (g : Z -> Z) (l : list Z) : Z := total (map g l).
Definition nsize (n : node) : Z := total (map fst (records n)).
Definition ttls (n : node) : list Z := map r_ttl n.
Definition lmax (a : Z) (l : list Z) : Z := fold_left Z.max l a.

Lemma lmax_app a l l' : lmax a (l ++ l') = lmax (lmax a l) l'.
Proof. apply fold_left_app. Qed.
Lemma lmax_spec l : forall a, a <= lmax a l /\ (forall t, In t l -> t <= lmax a l) /\ (lmax a l = a \/ In (lmax a l) l).
Proof.
  induction l as [|x l IH]; intros a; simpl.
  - unfold lmax. simpl. split; [lia|]. split; [intros t []|left; reflexivity].
  - change (lmax a (x :: l)) with (lmax (Z.max a x) l). destruct (IH (Z.max a x)) as (A & B & C). split; [lia|]. split.
    + intros t [<-|Ht]; [lia|exact (B t Ht)].
    + destruct C as [C|C]; [|right; right; exact C]. rewrite C. destruct (Z.max_spec a x) as [(H & ->)|(H & ->)]; auto.
Qed.
Lemma lmax_all_le a l : (forall t, In t l -> t <= a) -> lmax a l = a.
Proof. intros H. destruct (lmax_spec l a) as (A & B & [C|C]); [exact C|]. pose proof (H _ C). lia. Qed.

Lemma rrset_size_records r : rrset_size r = total (map fst (records [r])).
Proof.
  unfold rrset_size, records. simpl. rewrite app_nil_r, map_map. simpl.
  assert (forall l a, fold_left (fun t len => t + (len + 10)) l a = a + total (map (fun len => len + 10) l)) as HF.
  { induction l as [|x l IH]; intros a; simpl; [lia|]. rewrite IH. lia. }
  rewrite HF. unfold zlen. induction (r_lens r) as [|x l IH]; simpl length; simpl map; simpl total; [lia|].
  rewrite Nat2Z.inj_succ. lia.
Qed.
Lemma nsize_cons r n : nsize (r :: n) = rrset_size r + nsize n.
Proof. rewrite rrset_size_records. unfold nsize, records. simpl. rewrite app_nil_r, map_app, total_app. reflexivity. Qed.

Lemma fold_rrset n : forall m, fold_left measure_rrset n m =
  mkm (m_size m) (m_ttl m) (match m_size m with SIZE_NONE => zone_size m | _ => zone_size m + nsize n end)
      (match m_ttl m with TTL_NONE => max_ttl m | _ => lmax (max_ttl m) (ttls n) end) (rem_max_ttl m) (limit_max_ttl m).
Proof.
  induction n as [|r n IH]; intros [s t z x q l]; simpl.
  - unfold nsize, lmax. simpl. destruct s, t; f_equal; lia.
  - rewrite IH. simpl. rewrite nsize_cons. destruct s, t; simpl; unfold lmax; simpl; f_equal; lia.
Qed.
Lemma fold_counter n : forall m, fold_left measure_counter n m =
  mkm (m_size m) (m_ttl m) (match m_size m with SIZE_DIFF => zone_size m - nsize n | _ => zone_size m end) (max_ttl m)
      (match m_ttl m with TTL_DIFF => lmax (rem_max_ttl m) (ttls n) | _ => rem_max_ttl m end) (limit_max_ttl m).
Proof.
  induction n as [|r n IH]; intros [s t z x q l]; simpl.
  - unfold nsize, lmax. simpl. destruct s, t; f_equal; lia.
  - rewrite IH. simpl. rewrite nsize_cons. destruct s, t; simpl; unfold lmax; simpl; f_equal; lia.
Qed.

Lemma whole_nodes l : forall z x, measure_nodes l (mkm SIZE_WHOLE TTL_WHOLE z x 0 0) =
  mkm SIZE_WHOLE TTL_WHOLE (z + total (map (fun p => nsize (fst p)) l)) (lmax x (flat_map (fun p => ttls (fst p)) l)) 0 0.
Proof.
  unfold measure_nodes. induction l as [|[a b] l IH]; intros z x; simpl.
  - unfold lmax. simpl. f_equal; lia.
  - unfold measure_node. simpl enough. cbv iota. rewrite fold_rrset. simpl. rewrite IH. rewrite lmax_app. f_equal; lia.
Qed.
Lemma diff_nodes l : forall z x q, measure_nodes l (mkm SIZE_DIFF TTL_DIFF z x q 0) =
  mkm SIZE_DIFF TTL_DIFF (z + total (map (fun p => nsize (fst p) - nsize (snd p)) l))
      (lmax x (flat_map (fun p => ttls (fst p)) l)) (lmax q (flat_map (fun p => ttls (snd p)) l)) 0.
Proof.
  unfold measure_nodes. induction l as [|[a b] l IH]; intros z x q; simpl.
  - unfold lmax. simpl. f_equal; lia.
  - unfold measure_node. simpl enough. cbv iota. rewrite fold_rrset. simpl. rewrite fold_counter. simpl. rewrite IH. rewrite !lmax_app. f_equal; lia.
Qed.
Lemma limit_nodes l limit : forall x, (forall t, In t (flat_map ttls l) -> t <= limit) ->
  max_ttl (re_measure_loop l (mkm SIZE_NONE TTL_LIMIT 0 x 0 limit)) = lmax x (flat_map ttls l).
Proof.
  induction l as [|n l IH]; intros x H; [reflexivity|]. simpl. unfold measure_node. unfold enough. simpl.
  destruct (x >=? limit) eqn:E.
  - simpl. symmetry. apply lmax_all_le. intros t Ht. pose proof (H t Ht). lia.
  - rewrite fold_rrset. simpl. rewrite IH.
    + rewrite lmax_app. reflexivity.
    + intros t Ht. apply H. simpl. apply in_or_app. right. exact Ht.
Qed.

Lemma sum_perm g a b : Permutation a b -> sum g a = sum g b.
Proof. unfold sum. induction 1; simpl in *; lia. Qed.
Lemma sum_support g a : forall b, NoDup a -> NoDup b -> (forall k, In k a -> ~ In k b -> g k = 0) ->
  (forall k, In k b -> ~ In k a -> g k = 0) -> sum g a = sum g b.
Proof.
  induction a as [|k a IH]; intros b NA NB H1 H2.
  - assert (forall l, (forall k, In k l -> g k = 0) -> sum g l = 0) as HZ.
    { unfold sum. induction l as [|y l IHl]; simpl; intros H; [reflexivity|]. rewrite (H y) by (left; reflexivity).
      rewrite IHl; [lia|]. intros q Hq. apply H. right. exact Hq. }
    rewrite (HZ b); [reflexivity|]. intros q Hq. apply H2; [exact Hq|intros []].
  - inversion NA as [|? ? NI NA' E]; subst. destruct (in_dec Z.eq_dec k b) as [Hin|Hn].
    + destruct (in_split _ _ Hin) as (b1 & b2 & ->).
      assert (sum g (b1 ++ k :: b2) = g k + sum g (b1 ++ b2)) as ->.
      { transitivity (sum g (k :: b1 ++ b2)); [|reflexivity]. apply sum_perm. symmetry. apply Permutation_middle. }
      assert (sum g (k :: a) = g k + sum g a) as -> by reflexivity. f_equal.
      apply NoDup_remove in NB. destruct NB as (NB & NK). apply IH; [exact NA'|exact NB| |].
      * intros q Hq Hnq. apply H1; [right; exact Hq|]. intros Hin2. apply in_app_or in Hin2. apply Hnq.
        apply in_or_app. destruct Hin2 as [?|[->|?]]; auto. contradiction.
      * intros q Hq Hnq. apply H2; [apply in_app_or in Hq; apply in_or_app; destruct Hq; [left|right; right]; assumption|].
        intros [->|Hin2]; [exact (NK Hq)|exact (Hnq Hin2)].
    + assert (sum g (k :: a) = g k + sum g a) as -> by reflexivity. rewrite (H1 k (or_introl eq_refl) Hn). simpl.
      apply IH; [exact NA'|exact NB| |].
      * intros q Hq. apply H1. right. exact Hq.
      * intros q Hq Hnq. apply H2; [exact Hq|]. intros [->|Hin2]; [exact (Hn Hq)|exact (Hnq Hin2)].
Qed.
Lemma sum_sub f g l : sum (fun x => f x - g x) l = sum f l - sum g l.
Proof. unfold sum. induction l as [|x l IH]; simpl; lia. Qed.

Lemma zone_size_sum names at_ : total (map fst (zone_records names at_)) = sum (fun x => nsize (at_ x)) names.
Proof.
  unfold zone_records, sum. induction names as [|x l IH]; simpl; [reflexivity|]. rewrite map_app, total_app, IH. reflexivity.
Qed.
Definition zone_ttls (names : list Z) (at_ : Z -> node) : list Z := flat_map (fun x => ttls (at_ x)) names.
Lemma zone_ttls_in names at_ t : contents names at_ ->
  (In t (zone_ttls names at_) <-> In t (map snd (zone_records names at_))).
Proof.
  intros (_ & _ & HR). unfold zone_ttls, zone_records. rewrite in_map_iff. split.
  - intros H. apply in_flat_map in H. destruct H as (x & Hx & H). unfold ttls in H. apply in_map_iff in H.
    destruct H as (r & <- & Hr). destruct (HR x r Hr) as (HL & _). destruct (r_lens r) as [|len ls] eqn:EL; [congruence|].
    exists (r_owner r + 2 + 2 + 4 + 2 + len, r_ttl r). split; [reflexivity|]. apply in_flat_map. exists x. split; [exact Hx|].
    unfold records. apply in_flat_map. exists r. split; [exact Hr|]. rewrite EL. left. reflexivity.
  - intros ([s t'] & Et & H). simpl in Et. subst t'. apply in_flat_map in H. destruct H as (x & Hx & H).
    unfold records in H. apply in_flat_map in H. destruct H as (r & Hr & H). apply in_map_iff in H. destruct H as (len & E & _).
    injection E as _ <-. apply in_flat_map. exists x. split; [exact Hx|]. unfold ttls. apply in_map. exact Hr.
Qed.
Lemma zone_ttls_nonneg names at_ t : contents names at_ -> In t (zone_ttls names at_) -> 0 <= t.
Proof.
  intros (_ & _ & HR) H. apply in_flat_map in H. destruct H as (x & _ & H). apply in_map_iff in H. destruct H as (r & <- & Hr).
  exact (proj2 (HR x r Hr)).
Qed.
Lemma zone_ttls_some names at_ x t : contents names at_ -> In t (ttls (at_ x)) -> In t (zone_ttls names at_).
Proof.
  intros (_ & HN & _) H. apply in_flat_map. exists x. split; [|exact H]. destruct (in_dec Z.eq_dec x names) as [Hin|Hn]; [exact Hin|].
  rewrite (HN x Hn) in H. destruct H.
Qed.

Definition bound (z : zone) : Prop := forall t, In t (zone_ttls (z_names z) (z_at z)) -> t <= z_max_ttl z.
Definition tight (z : zone) : Prop := z_max_ttl z = 0 \/ In (z_max_ttl z) (zone_ttls (z_names z) (z_at z)).
Lemma bound_spec z : contents (z_names z) (z_at z) -> bound z -> ttl_bound z.
Proof.
  intros HC H. unfold ttl_bound. apply Forall_forall. intros t Ht. apply H. apply zone_ttls_in; assumption.
Qed.
Lemma tight_spec z : contents (z_names z) (z_at z) -> bound z -> tight z -> ttl_right z.
Proof.
  intros HC HB HT. split; [exact (bound_spec _ HC HB)|]. destruct HT as [H0|HT]; [|left; apply zone_ttls_in; assumption].
  destruct (zone_records (z_names z) (z_at z)) as [|[s t] l] eqn:E; [right; split; [exact H0|reflexivity]|]. left.
  assert (In t (zone_ttls (z_names z) (z_at z))) as Ht.
  { apply zone_ttls_in; [exact HC|]. rewrite E. left. reflexivity. }
  pose proof (HB t Ht). pose proof (zone_ttls_nonneg _ _ _ HC Ht). left. simpl. lia.
Qed.

Lemma flat_map_map {A B C} (f : A -> B) (g : B -> list C) l : flat_map g (map f l) = flat_map (fun x => g (f x)) l.
Proof. induction l as [|x l IH]; simpl; [reflexivity|]. rewrite IH. reflexivity. Qed.

Lemma full_right names at_ : contents names at_ -> exists z, adjust_full names at_ = Ok z /\ z_names z = names /\ z_at z = at_ /\
  z_size z = sum (fun x => nsize (at_ x)) names /\ bound z /\ tight z.
Proof.
  intros HC. unfold adjust_full, measure_init. simpl. rewrite whole_nodes. simpl. rewrite map_map, flat_map_map. simpl.
  eexists. split; [reflexivity|]. simpl. split; [reflexivity|]. split; [reflexivity|]. split; [reflexivity|].
  unfold bound, tight. simpl. fold (zone_ttls names at_). destruct (lmax_spec (zone_ttls names at_) 0) as (A & B & C). split; [exact B|exact C].
Qed.

Lemma update_right old touched names at_ mem : contents (z_names old) (z_at old) -> contents names at_ ->
  touches (z_at old) at_ touched -> z_size old = sum (fun x => nsize (z_at old x)) (z_names old) -> bound old ->
  exists z, adjust_update old touched names at_ mem = Ok z /\ z_names z = names /\ z_at z = at_ /\
    z_size z = sum (fun x => nsize (at_ x)) names /\ bound z /\ (tight old -> mem = true -> tight z).
Proof.
  intros HO HN (NT & HT) HS HB. unfold adjust_update, measure_init. simpl. rewrite diff_nodes. simpl.
  rewrite map_map, !flat_map_map. simpl. fold (zone_ttls touched at_) (zone_ttls touched (z_at old)).
  eexists. split; [reflexivity|]. unfold finish_update. simpl. split; [reflexivity|]. split; [reflexivity|]. split.
  - rewrite HS. change (total (map (fun x => nsize (at_ x) - nsize (z_at old x)) touched))
      with (sum (fun x => nsize (at_ x) - nsize (z_at old x)) touched).
    set (U := nodup Z.eq_dec (z_names old ++ names ++ touched)).
    assert (NoDup U) as NU by apply NoDup_nodup.
    assert (forall x, In x U <-> In x (z_names old ++ names ++ touched)) as IU by (intros x; apply nodup_In).
    assert (forall l g, NoDup l -> (forall x, In x l -> In x U) -> (forall x, ~ In x l -> g x = 0) -> sum g l = sum g U) as EXT.
    { intros l g NL IL HZ. apply sum_support; [exact NL|exact NU| |].
      - intros k Hk Hn. exfalso. exact (Hn (IL k Hk)).
      - intros k _ Hn. exact (HZ k Hn). }
    rewrite (EXT (z_names old)), (EXT touched), (EXT names).
    + rewrite sum_sub. lia.
    + exact (proj1 HN).
    + intros x Hx. apply IU. apply in_or_app. right. apply in_or_app. left. exact Hx.
    + intros x Hx. rewrite (proj1 (proj2 HN) x Hx). reflexivity.
    + exact NT.
    + intros x Hx. apply IU. apply in_or_app. right. apply in_or_app. right. exact Hx.
    + intros x Hx. rewrite (HT x Hx). lia.
    + exact (proj1 HO).
    + intros x Hx. apply IU. apply in_or_app. left. exact Hx.
    + intros x Hx. rewrite (proj1 (proj2 HO) x Hx). reflexivity.
  - set (N := lmax 0 (zone_ttls touched at_)). set (R := lmax 0 (zone_ttls touched (z_at old))). set (M := z_max_ttl old).
    destruct (lmax_spec (zone_ttls touched at_) 0) as (N1 & N2 & N3). fold N in N1, N2, N3.
    destruct (lmax_spec (zone_ttls touched (z_at old)) 0) as (R1 & R2 & R3). fold R in R1, R2, R3.
    assert (forall t, In t (zone_ttls names at_) -> t <= N \/ t <= M) as HNM.
    { intros t Ht. apply in_flat_map in Ht. destruct Ht as (x & Hx & Ht). destruct (in_dec Z.eq_dec x touched) as [Hin|Hn].
      - left. apply N2. apply in_flat_map. exists x. split; assumption.
      - right. apply HB. rewrite (HT x Hn) in Ht. exact (zone_ttls_some _ _ _ _ HO Ht). }
    unfold bound, tight. simpl. fold M. destruct (N >=? M) eqn:E1.
    + split.
      * intros t Ht. destruct (HNM t Ht); lia.
      * intros _ _. destruct N3 as [N3|N3]; [left; exact N3|right]. apply in_flat_map in N3. destruct N3 as (x & _ & N3).
        exact (zone_ttls_some _ _ _ _ HN N3).
    + destruct (M >? R) eqn:E2.
      * split.
        -- intros t Ht. destruct (HNM t Ht); lia.
        -- intros [H0|HM] _; [unfold M in *; lia|]. right. fold M in HM. apply in_flat_map in HM. destruct HM as (x & Hx & HM).
           destruct (in_dec Z.eq_dec x touched) as [Hin|Hn].
           ++ assert (M <= R); [|lia]. apply R2. apply in_flat_map. exists x. split; assumption.
           ++ rewrite <- (HT x Hn) in HM. exact (zone_ttls_some _ _ _ _ HN HM).
      * assert (forall t, In t (zone_ttls names at_) -> t <= M) as HM. { intros t Ht. destruct (HNM t Ht); lia. }
        unfold re_measure_max_ttl. destruct mem; simpl.
        -- rewrite limit_nodes by (rewrite flat_map_map; exact HM). rewrite flat_map_map. fold (zone_ttls names at_).
           destruct (lmax_spec (zone_ttls names at_) 0) as (A & B & C). split; [exact B|]. intros _ _. exact C.
        -- split; [exact HM|]. discriminate.
Qed.
