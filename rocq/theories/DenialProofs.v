(** Names below others in the canonical order, the search for a name and the previous members of the chain. *)
From Verif Require Import Base BitmapModel DnameSpec DnameProofs3 NsecModel NsecSpec NsecProofs NsecProofs2 NsecProofs3 NsecProofs5 NsecProofs6 NsecProps DenialSpec DenialModel.
From Coq Require Import Sorting.Sorted.

(** * Names *)
Definition cle (a b : list label) : Prop := a = b \/ canonical_lt a b.
Lemma below_refl : forall a, below a a.
Proof. intros; exists []; auto. Qed.
Lemma below_trans : forall a b c, below a b -> below b c -> below a c.
Proof. intros a b c (p & ->) (r & ->). exists (p ++ r). rewrite app_assoc. auto. Qed.
Lemma below_len : forall a b, below a b -> (length b <= length a)%nat.
Proof. intros a b (p & ->). rewrite app_length. lia. Qed.
Lemma below_eq : forall a b, below a b -> length a = length b -> a = b.
Proof. intros a b (p & ->) H. rewrite app_length in H. destruct p; [auto|cbn [length] in H; lia]. Qed.
Lemma below_antisym : forall a b, below a b -> below b a -> a = b.
Proof. intros a b H1 H2. apply below_eq; auto. apply below_len in H1. apply below_len in H2. lia. Qed.
Lemma below_cons : forall a l b, below a (l :: b) -> below a b.
Proof. intros a l b (p & ->). exists (p ++ [l]). rewrite <- app_assoc. auto. Qed.
Lemma below_tl : forall l a b, below (l :: a) b -> l :: a = b \/ below a b.
Proof. intros l a b ([|x p] & E); cbn [app] in E; [auto|]. injection E as -> ->. right. exists p. auto. Qed.
Lemma below_push : forall l a b, below a b -> below (l :: a) b.
Proof. intros l a b (p & ->). exists (l :: p). auto. Qed.
(** Two names above the same one are one above the other. *)
Lemma above_comp : forall q a b, below q a -> below q b -> below a b \/ below b a.
Proof.
  induction q as [|l q IH]; intros a b Ha Hb.
  - destruct Ha as (p & Ha), Hb as (r & Hb). symmetry in Ha, Hb. apply app_eq_nil in Ha, Hb. destruct Ha as [_ ->], Hb as [_ ->]. left. apply below_refl.
  - destruct (below_tl _ _ _ Ha) as [<-|Ha']; auto. destruct (below_tl _ _ _ Hb) as [<-|Hb']; auto.
Qed.
Lemma labels_cmp_app : forall b p, p <> [] -> labels_cmp b (b ++ p) = Lt.
Proof.
  induction b as [|x b IH]; intros p H; cbn [app labels_cmp]; [destruct p; congruence|]. rewrite (proj2 (octets_cmp_eq x x) eq_refl). auto.
Qed.
Lemma below_lt : forall a b, below a b -> a <> b -> canonical_lt b a.
Proof.
  intros a b (p & ->) H. unfold canonical_lt, canonical_cmp. rewrite rev_app_distr. apply labels_cmp_app. intros E. apply H.
  assert (p = []) as -> by (rewrite <- (rev_involutive p), E; auto). auto.
Qed.
Lemma below_cle : forall a b, below a b -> cle b a.
Proof. intros a b H. destruct (name_dec a b) as [->|N]; [left; auto|right; apply below_lt; auto]. Qed.
Lemma labels_between : forall b m p, labels_cmp b m <> Gt -> labels_cmp m (b ++ p) <> Gt -> exists r, m = b ++ r.
Proof.
  induction b as [|x b IH]; intros m p H1 H2; [exists m; auto|]. destruct m as [|y m]; [cbn [labels_cmp] in H1; congruence|].
  cbn [app labels_cmp] in *. rewrite (octets_cmp_antisym x y) in H2. destruct (octets_cmp x y) eqn:E; cbn [CompOpp] in H2; try congruence.
  apply octets_cmp_eq in E. subst y. destruct (IH m p H1 H2) as (r & ->). exists r. auto.
Qed.
Lemma cle_cmp : forall a b, cle a b -> canonical_cmp a b <> Gt.
Proof. intros a b [->|H]; [rewrite (proj2 (canonical_cmp_eq b b) eq_refl); congruence|unfold canonical_lt in H; congruence]. Qed.
(** Names between a name and a name below it are below it. *)
Lemma between_below : forall c m q, below q c -> cle c m -> cle m q -> below m c.
Proof.
  intros c m q (p & ->) H1 H2. apply cle_cmp in H1. apply cle_cmp in H2. unfold canonical_cmp in *. rewrite rev_app_distr in H2.
  destruct (labels_between _ _ _ H1 H2) as (r & E). exists (rev r). rewrite <- (rev_involutive m), E, rev_app_distr, !rev_involutive. auto.
Qed.
Lemma cle_trans : forall a b c, cle a b -> cle b c -> cle a c.
Proof. intros a b c [->|H1] [->|H2]; try (left; reflexivity); try (right; assumption). right. eapply clt_trans; eauto. Qed.
Lemma cle_lt : forall a b c, cle a b -> canonical_lt b c -> canonical_lt a c.
Proof. intros a b c [->|H1] H2; auto. eapply clt_trans; eauto. Qed.
Lemma lt_cle : forall a b c, canonical_lt a b -> cle b c -> canonical_lt a c.
Proof. intros a b c H1 [<-|H2]; auto. eapply clt_trans; eauto. Qed.
Lemma cle_total : forall a b, cle a b \/ canonical_lt b a.
Proof. intros a b. destruct (clt_total a b) as [H|[H|H]]; [left; right; auto|left; left; auto|auto]. Qed.
Lemma not_lt : forall a b, canonical_lt a b -> canonical_lt b a -> False.
Proof. intros a b H1 H2. eapply clt_irrefl, clt_trans; eauto. Qed.

(** * Labels in common *)
Lemma matched_prefix : forall a b, exists c a' b', a = c ++ a' /\ b = c ++ b' /\ matched_rev a b = length c /\
  (forall d r s, a = d ++ r -> b = d ++ s -> exists t, c = d ++ t).
Proof.
  induction a as [|x a IH]; intros b; cbn [matched_rev].
  - exists [], [], b. repeat match goal with |- _ /\ _ => split end; auto. intros d r s H _. symmetry in H. apply app_eq_nil in H. destruct H as [-> _]. exists []. auto.
  - destruct b as [|y b].
    + exists [], (x :: a), []. repeat match goal with |- _ /\ _ => split end; auto. intros d r s _ H. symmetry in H. apply app_eq_nil in H. destruct H as [-> _]. exists []. auto.
    + destruct (octets_eqb x y) eqn:E.
      * apply octets_eqb_spec in E. subst y. destruct (IH b) as (c & a' & b' & -> & -> & M & G). exists (x :: c), a', b'. repeat match goal with |- _ /\ _ => split end; auto; [cbn [length]; congruence|].
        intros [|w d] r s H1 H2; [exists (x :: c); auto|]. cbn [app] in H1, H2. injection H1 as -> H1. injection H2 as H2. destruct (G d r s H1 H2) as (t & ->). exists t. auto.
      * exists [], (x :: a), (y :: b). repeat match goal with |- _ /\ _ => split end; auto. intros [|w d] r s H1 H2; [exists []; auto|]. cbn [app] in H1, H2. injection H1 as -> _. injection H2 as H2 _. subst y. rewrite (proj2 (octets_eqb_spec w w) eq_refl) in E. discriminate.
Qed.
Lemma matched_spec : forall a b, exists c, below a c /\ below b c /\ matched_labels a b = length c /\ (forall d, below a d -> below b d -> below c d).
Proof.
  intros a b. unfold matched_labels. destruct (matched_prefix (rev a) (rev b)) as (c & a' & b' & Ea & Eb & M & G). exists (rev c). repeat match goal with |- _ /\ _ => split end.
  - exists (rev a'). rewrite <- rev_app_distr, <- Ea, rev_involutive. auto.
  - exists (rev b'). rewrite <- rev_app_distr, <- Eb, rev_involutive. auto.
  - rewrite rev_length. auto.
  - intros d (p & Hp) (r & Hr). destruct (G (rev d) (rev p) (rev r)) as (t & Ht); [rewrite Hp, rev_app_distr; auto|rewrite Hr, rev_app_distr; auto|].
    exists (rev t). rewrite Ht, rev_app_distr, rev_involutive. auto.
Qed.

(** * Served zones *)
Lemma filter_sorted_names : forall (k : list label * node -> bool) z, sorted (map fst z) -> sorted (map fst (filter k z)).
Proof.
  induction z as [|[y m] z IH]; intros H; cbn [filter map]; [constructor|]. cbn [map fst] in H. apply sorted_inv in H. destruct H as [H1 H2]. destruct (k (y, m)); auto.
  cbn [map fst]. apply sorted_cons; auto. intros w Hw. apply H2. apply in_map_iff in Hw. destruct Hw as (e & <- & He). apply filter_In in He. apply in_map. tauto.
Qed.
Lemma members_keep : forall k z, (forall e, In e z -> takes_part (snd e) = true -> k e = true) -> members (filter k z) = members z.
Proof.
  intros k z H. unfold members. induction z as [|e z IH]; auto. cbn [filter]. destruct (k e) eqn:K; cbn [filter].
  - destruct (takes_part (snd e)); cbn [map]; rewrite IH; auto; intros; apply H; auto; right; auto.
  - destruct (takes_part (snd e)) eqn:T; [rewrite H in K; [discriminate|left; auto|auto]|]. apply IH. intros; apply H; auto. right; auto.
Qed.
Lemma keep_ok : forall apex ttl zs k, signed_zone apex ttl zs -> (forall e, In e zs -> takes_part (snd e) = true -> k e = true) ->
  a_zone apex (filter k zs) /\ closed_chain ttl (filter k zs) /\ clean (filter k zs).
Proof.
  intros apex ttl zs k SZ K. destruct (c33_history _ _ _ SZ) as ((S & (n & rest & E & T) & TY) & (C1 & C2) & CL). split; [split; [|split]|split; [split|]].
  - apply filter_sorted_names; auto.
  - exists n, (filter k rest). split; auto. rewrite E. cbn [filter]. rewrite K; auto. rewrite E; left; auto.
  - rewrite Forall_forall in *. intros e He. apply filter_In in He. apply TY. tauto.
  - intros x m H1 H2. apply filter_In in H1. rewrite members_keep by auto. apply C1; tauto.
  - intros x m H1 H2. apply filter_In in H1. apply (C2 x m); tauto.
  - intros x m H1. apply filter_In in H1. apply (CL x m). tauto.
Qed.
Record ok_zone (apex : list label) (z : zone) : Prop := {
  oz_sorted : sorted (map fst z);
  oz_first : exists n rest, z = (apex, n) :: rest /\ takes_part n = true;
  oz_types : forall x n, nget z x = Some n -> types_ok n;
  oz_chain : forall x n, nget z x = Some n -> takes_part n = true -> exists s, n_nsec n = [s] /\ follows (members z) x (ns_next s) /\ lists (ns_bitmap s) (to_list n);
  oz_aside : forall x n, nget z x = Some n -> takes_part n = false -> aside n;
  oz_tree : tree apex z }.
Lemma served_ok : forall apex z, served apex z -> ok_zone apex z.
Proof.
  intros apex z (ttl & zs & k & SZ & K & -> & TR). destruct (keep_ok _ _ _ _ SZ K) as (AZ & (C1 & C2) & CL). destruct (a_zone_facts _ _ AZ) as (S & _ & _ & TY & _).
  split; auto; [apply AZ| |].
  - intros x n E T. apply nget_in1 in E. destruct (C1 x n E T) as (s & A & B & C & _). eauto.
  - intros x n E T. apply nget_in1 in E. split; [eapply C2; eauto|]. intros NA. destruct (takes_false _ T) as [X|X]; [congruence|]. eapply CL; eauto.
Qed.
Lemma there_get : forall z x, is_there z x <-> nget z x <> None.
Proof.
  intros z x. rewrite nget_names. unfold is_there. rewrite in_map_iff. split; [intros (n & H); exists (x, n); auto|intros ([y n] & <- & H); exists n; auto].
Qed.
Lemma there_names : forall z x, is_there z x <-> In x (map fst z).
Proof. intros. rewrite there_get. apply nget_names. Qed.
Lemma members_get : forall apex z x, ok_zone apex z -> (In x (members z) <-> exists n, nget z x = Some n /\ takes_part n = true).
Proof. intros apex z x Z. rewrite members_eq. apply fnames_in. apply (oz_sorted _ _ Z). Qed.
Lemma members_sorted : forall apex z, ok_zone apex z -> sorted (members z).
Proof. intros apex z Z. rewrite members_eq. apply fnames_sorted. apply (oz_sorted _ _ Z). Qed.
Lemma apex_get : forall apex z, ok_zone apex z -> exists n, nget z apex = Some n /\ takes_part n = true.
Proof. intros apex z Z. destruct (oz_first _ _ Z) as (n & rest & -> & T). exists n. cbn [nget]. rewrite eqb_refl. auto. Qed.
Lemma has_auth_eq : forall apex z x n, ok_zone apex z -> nget z x = Some n -> has_auth n = takes_part n.
Proof. intros apex z x n Z E. apply has_auth_takes. intros T. eapply oz_aside; eauto. Qed.
Lemma auth_names_eq : forall apex z, ok_zone apex z -> auth_names z = members z.
Proof. intros apex z Z. apply auth_members; [apply (oz_sorted _ _ Z)|apply (oz_aside _ _ Z)]. Qed.
Lemma there_below : forall apex z x, ok_zone apex z -> is_there z x -> below x apex.
Proof.
  intros apex z x Z (n & H). destruct (oz_tree _ _ Z) as (T1 & _). destruct (T1 x n H) as [->|(l & p & m & -> & _ & B & _)]; [apply below_refl|apply below_push; auto].
Qed.
(** Names above a name of the zone are in it. *)
Lemma above_there : forall apex z, ok_zone apex z -> forall x d, is_there z x -> below x d -> below d apex -> is_there z d.
Proof.
  intros apex z Z. induction x as [|l x IH]; intros d H Hd Ha.
  - destruct Hd as (p & Hd). symmetry in Hd. apply app_eq_nil in Hd. destruct Hd as [_ ->]. auto.
  - destruct (below_tl _ _ _ Hd) as [<-|Hd']; auto. destruct H as (n & H). destruct (oz_tree _ _ Z) as (T1 & _). destruct (T1 _ n H) as [E|(l' & p & m & E & Hp & _)].
    + assert (l :: x = d) as <- by (apply below_antisym; auto; rewrite E; auto). exists n. auto.
    + injection E as <- <-. apply IH; auto. exists m. auto.
Qed.
