(** Names, sorted lists of names, zones as maps, and the creation of the NSEC chain. *)
From Verif Require Import Base BitmapModel BitmapProps DnameSpec DnameProofs3 NsecModel NsecSpec.
From Coq Require Import Sorting.Sorted.
Notation nm := (list label).

(** * Order of names *)
Lemma clt_irrefl : forall a, ~ canonical_lt a a.
Proof. intros a H. unfold canonical_lt in H. assert (canonical_cmp a a = Eq) by (apply canonical_cmp_eq; auto). congruence. Qed.
Lemma clt_trans : forall a b c, canonical_lt a b -> canonical_lt b c -> canonical_lt a c.
Proof. intros. eapply canonical_cmp_trans; eauto. Qed.
Lemma clt_total : forall a b, canonical_lt a b \/ a = b \/ canonical_lt b a.
Proof.
  intros a b. unfold canonical_lt. destruct (canonical_cmp a b) eqn:E; auto; [apply canonical_cmp_eq in E; auto|].
  right; right. rewrite canonical_cmp_antisym, E. auto.
Qed.
Lemma ltb_spec : forall a b, name_ltb a b = true <-> canonical_lt a b.
Proof. intros. unfold name_ltb, canonical_lt. destruct (canonical_cmp a b); split; congruence. Qed.
Lemma ltb_false : forall a b, name_ltb a b = false <-> ~ canonical_lt a b.
Proof. intros. rewrite <- ltb_spec. destruct (name_ltb a b); split; congruence. Qed.
Lemma eqb_spec : forall a b, name_eqb a b = true <-> a = b.
Proof. intros. unfold name_eqb. rewrite <- canonical_cmp_eq. destruct (canonical_cmp a b); split; congruence. Qed.
Lemma eqb_refl : forall a, name_eqb a a = true.
Proof. intros. apply eqb_spec. auto. Qed.
Lemma eqb_neq : forall a b, a <> b -> name_eqb a b = false.
Proof. intros. destruct (name_eqb a b) eqn:E; auto. apply eqb_spec in E. contradiction. Qed.
Lemma name_dec : forall a b : nm, a = b \/ a <> b.
Proof. intros. destruct (name_eqb a b) eqn:E; [left; apply eqb_spec; auto|right; intros ->; rewrite eqb_refl in E; discriminate]. Qed.
Lemma octets_eqb_spec : forall a b, octets_eqb a b = true <-> a = b.
Proof.
  induction a as [|x a IH]; destruct b as [|y b]; cbn [octets_eqb]; split; try congruence; try discriminate.
  - intros H. apply andb_true_iff in H. destruct H as [H1 H2]. apply IH in H2. f_equal; [lia|auto].
  - intros H. injection H as -> ->. rewrite Z.eqb_refl. cbn [andb]. apply IH. auto.
Qed.
Lemma nsec_eqb_spec : forall a b, nsec_eqb a b = true <-> a = b.
Proof.
  intros [a1 a2 a3] [b1 b2 b3]. unfold nsec_eqb. cbn [ns_next ns_bitmap ns_ttl]. rewrite !andb_true_iff, eqb_spec, octets_eqb_spec. split.
  - intros [[-> ->] H]. f_equal. lia.
  - intros H. injection H as -> -> ->. rewrite Z.eqb_refl. auto.
Qed.

(** * Sorted lists of names *)
Definition sorted (l : list nm) : Prop := StronglySorted canonical_lt l.
Lemma sorted_inv : forall x l, sorted (x :: l) -> sorted l /\ forall y, In y l -> canonical_lt x y.
Proof. intros x l H. apply StronglySorted_inv in H. destruct H as [H1 H2]. rewrite Forall_forall in H2. auto. Qed.
Lemma sorted_cons : forall x l, sorted l -> (forall y, In y l -> canonical_lt x y) -> sorted (x :: l).
Proof. intros x l H1 H2. constructor; auto. apply Forall_forall. auto. Qed.
Lemma sorted_nodup : forall l, sorted l -> NoDup l.
Proof. induction l as [|x l IH]; intros H; constructor; apply sorted_inv in H; destruct H as [H1 H2]; auto. intros HI. apply (clt_irrefl x). auto. Qed.
Lemma sorted_filter : forall f l, sorted l -> sorted (filter f l).
Proof.
  induction l as [|x l IH]; intros H; cbn [filter]; auto. apply sorted_inv in H. destruct H as [H1 H2]. destruct (f x); auto.
  apply sorted_cons; auto. intros y Hy. apply filter_In in Hy. apply H2. tauto.
Qed.
Lemma sorted_ext : forall a b, sorted a -> sorted b -> (forall x, In x a <-> In x b) -> a = b.
Proof.
  induction a as [|x a IH]; destruct b as [|y b]; intros SA SB H; auto.
  - exfalso. apply (H y). left; auto.
  - exfalso. apply (H x). left; auto.
  - apply sorted_inv in SA. destruct SA as [SA LA]. apply sorted_inv in SB. destruct SB as [SB LB].
    assert (x = y).
    { destruct (proj1 (H x) (or_introl eq_refl)) as [E|E]; auto. destruct (proj2 (H y) (or_introl eq_refl)) as [E2|E2]; auto.
      exfalso. apply (clt_irrefl x). eapply clt_trans; eauto. }
    subst y. f_equal. apply IH; auto. intros z. split; intros Hz.
    + destruct (proj1 (H z) (or_intror Hz)) as [E|E]; auto. subst z. exfalso. apply (clt_irrefl x). auto.
    + destruct (proj2 (H z) (or_intror Hz)) as [E|E]; auto. subst z. exfalso. apply (clt_irrefl x). auto.
Qed.
Lemma sorted_app : forall a b, sorted a -> sorted b -> (forall x y, In x a -> In y b -> canonical_lt x y) -> sorted (a ++ b).
Proof.
  induction a as [|x a IH]; intros b SA SB H; cbn [app]; auto. apply sorted_inv in SA. destruct SA as [SA LA]. apply sorted_cons.
  - apply IH; auto. intros. apply H; auto. right; auto.
  - intros y Hy. apply in_app_iff in Hy. destruct Hy; auto. apply H; auto. left; auto.
Qed.
Lemma sorted_app_inv : forall a b, sorted (a ++ b) -> sorted a /\ sorted b /\ (forall x y, In x a -> In y b -> canonical_lt x y).
Proof.
  induction a as [|x a IH]; intros b H; cbn [app] in H.
  - repeat split; auto; [constructor|intros x y []].
  - apply sorted_inv in H. destruct H as [H1 H2]. destruct (IH _ H1) as (A & B & C). repeat split; auto.
    + apply sorted_cons; auto. intros. apply H2. apply in_app_iff; auto.
    + intros u v [<- | Hu] Hv; auto. apply H2. apply in_app_iff; auto.
Qed.
(** Splitting at a downward closed set *)
Lemma sorted_split : forall f l, sorted l -> (forall x y, canonical_lt x y -> f y = true -> f x = true) -> l = filter f l ++ filter (fun x => negb (f x)) l.
Proof.
  intros f l S D. apply sorted_ext; auto.
  - apply sorted_app; try (apply sorted_filter; auto). intros x y Hx Hy. apply filter_In in Hx. apply filter_In in Hy.
    destruct (clt_total x y) as [H|[H|H]]; auto.
    + subst y. destruct Hx as [_ Hx]. destruct Hy as [_ Hy]. rewrite Hx in Hy. discriminate.
    + destruct Hx as [_ Hx]. destruct Hy as [_ Hy]. rewrite (D y x) in Hy by auto. discriminate.
  - intros x. rewrite in_app_iff, !filter_In. destruct (f x); cbn [negb]; intuition congruence.
Qed.
Lemma filter_ext2 : forall (f g : nm -> bool) l, (forall x, In x l -> f x = g x) -> filter f l = filter g l.
Proof. induction l as [|x l IH]; intros H; cbn [filter]; auto. rewrite (H x) by (left; auto). rewrite IH by (intros; apply H; right; auto). auto. Qed.
Lemma last_opt_app : forall {A} (l : list A) x, last_opt (l ++ [x]) = Some x.
Proof. induction l as [|y l IH]; intros x; auto. cbn [app last_opt]. destruct (l ++ [x]) eqn:E; [destruct l; discriminate|]. rewrite <- E. auto. Qed.
Lemma last_split : forall {A} (l : list A), l <> [] -> exists a x, l = a ++ [x].
Proof. intros A l H. destruct (exists_last H) as (a & x & E). eauto. Qed.

(** * Zones as maps *)
Lemma nget_in : forall z x n, sorted (map fst z) -> (In (x, n) z <-> nget z x = Some n).
Proof.
  induction z as [|[y m] z IH]; intros x n H; cbn [nget In]; [split; [tauto|discriminate]|]. cbn [map fst] in H. apply sorted_inv in H. destruct H as [H1 H2].
  destruct (name_eqb y x) eqn:E.
  - apply eqb_spec in E. subst y. split; [|intros H; injection H as ->; auto]. intros [H|H]; [injection H as ->; auto|]. exfalso. apply (clt_irrefl x), H2. change x with (fst (x, n)). apply in_map. auto.
  - rewrite <- IH by auto. split; [|auto]. intros [H|H]; auto. injection H as -> ->. rewrite eqb_refl in E. discriminate.
Qed.
Lemma nget_in1 : forall z x n, nget z x = Some n -> In (x, n) z.
Proof. induction z as [|[y m] z IH]; intros x n; cbn [nget]; [discriminate|]. destruct (name_eqb y x) eqn:E; intros H; [injection H as ->; apply eqb_spec in E; subst; left; auto|right; auto]. Qed.
Lemma nget_names : forall z x, nget z x <> None <-> In x (map fst z).
Proof.
  induction z as [|[y m] z IH]; intros x; cbn [nget map fst In]; [split; [congruence|tauto]|]. destruct (name_eqb y x) eqn:E.
  - apply eqb_spec in E. split; [auto|congruence].
  - rewrite IH. split; auto. intros [H|H]; auto. subst. rewrite eqb_refl in E. discriminate.
Qed.
Lemma names_nset : forall z x n, map fst (nset z x n) = map fst z.
Proof. induction z as [|[y m] z IH]; intros x n; cbn [nset]; auto. destruct (name_eqb y x); cbn [map fst]; auto. f_equal. auto. Qed.
Lemma nget_nset : forall z x n y, nget z x <> None -> nget (nset z x n) y = if name_eqb x y then Some n else nget z y.
Proof.
  induction z as [|[w m] z IH]; intros x n y H; cbn [nget nset] in *; [congruence|]. destruct (name_eqb w x) eqn:E.
  - apply eqb_spec in E. subst w. cbn [nget]. destruct (name_eqb x y); auto.
  - cbn [nget]. destruct (name_eqb w y) eqn:E2.
    + apply eqb_spec in E2. subst w. replace (name_eqb x y) with false; auto. symmetry. apply eqb_neq. intros ->. rewrite eqb_refl in E. discriminate.
    + auto.
Qed.
Lemma nget_nset_same : forall z x n, nget z x <> None -> nget (nset z x n) x = Some n.
Proof. intros. rewrite nget_nset by auto. rewrite eqb_refl. auto. Qed.
Lemma nget_nset_other : forall z x n y, x <> y -> nget (nset z x n) y = nget z y.
Proof.
  induction z as [|[w m] z IH]; intros x n y H; cbn [nset]; auto. destruct (name_eqb w x) eqn:E; cbn [nget].
  - apply eqb_spec in E. subst w. rewrite eqb_neq by auto. auto.
  - destruct (name_eqb w y); auto.
Qed.
(** Names of the nodes with a property *)
Definition fnames (P : node -> bool) (z : zone) : list nm := map fst (filter (fun e => P (snd e)) z).
Lemma fnames_in : forall P z x, sorted (map fst z) -> (In x (fnames P z) <-> exists n, nget z x = Some n /\ P n = true).
Proof.
  intros P z x H. unfold fnames. rewrite in_map_iff. split.
  - intros ([y n] & <- & Hf). apply filter_In in Hf. destruct Hf as [H1 H2]. cbn [fst]. exists n. split; auto. apply nget_in; auto.
  - intros (n & H1 & H2). exists (x, n). split; auto. apply filter_In. split; auto. apply nget_in1; auto.
Qed.
Lemma fnames_sorted : forall P z, sorted (map fst z) -> sorted (fnames P z).
Proof.
  intros P z. unfold fnames. induction z as [|[y m] z IH]; intros H; cbn [filter map fst]; [constructor|]. cbn [map fst] in H. apply sorted_inv in H. destruct H as [H1 H2]. cbn [snd]. destruct (P m); auto.
  cbn [map fst]. apply sorted_cons; auto. intros w Hw. apply H2. apply in_map_iff in Hw. destruct Hw as (e & <- & He). apply filter_In in He. apply in_map. tauto.
Qed.
Lemma members_eq : forall z, members z = fnames takes_part z.
Proof. reflexivity. Qed.

(** * Chains over lists *)
Fixpoint links (R : nm -> nm -> Prop) (l : list nm) (e : nm) : Prop :=
  match l with [] => True | x :: r => R x (hd e r) /\ links R r e end.
Lemma links_app : forall R a b e, links R (a ++ b) e <-> links R a (hd e b) /\ links R b e.
Proof.
  induction a as [|x a IH]; intros b e; cbn [app links]; [tauto|]. rewrite IH.
  replace (hd e (a ++ b)) with (hd (hd e b) a) by (destruct a; auto). tauto.
Qed.
Lemma links_ext : forall (R R' : nm -> nm -> Prop) l e, (forall x y, In x l -> R x y -> R' x y) -> links R l e -> links R' l e.
Proof. induction l as [|x l IH]; intros e H; cbn [links]; auto. intros [H1 H2]. split; [apply H; auto; left; auto|]. apply IH; auto. intros; apply H; auto. right; auto. Qed.
Lemma links_follows : forall (R : nm -> nm -> Prop) l e, (forall x y y', R x y -> R x y' -> y = y') -> hd e l = e -> links R l e -> forall x y, In x l -> R x y -> follows l x y.
Proof.
  intros R l e F He L x y Hx Hy. apply in_split in Hx. destruct Hx as (a & b & ->). apply links_app in L. destruct L as [_ L]. cbn [links] in L. destruct L as [L _].
  assert (y = hd e b) by (eapply F; eauto). subst y. destruct b as [|w b]; cbn [hd].
  - right. split; eauto. destruct a as [|v a]; cbn [app hd] in *; [subst; eauto|]. subst v. eauto.
  - left. eauto.
Qed.
