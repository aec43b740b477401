(** Searching for names in a zone: the closest encloser. *)
From Verif Require Import Base RdatasetModel NodeModel ZoneModel ZoneProofs ZoneTree AnswerModel AnswerSpec.

(** Names as the zone has them: no empty labels, no null bytes. *)
Definition plain (n : name) : Prop := Forall (fun l : list Z => 1 <= zlen l <= 63 /\ Forall (fun b => b <> 0) l) n.

Lemma beqb_spec : forall a b, ZoneModel.bytes_eqb a b = true <-> a = b.
Proof. induction a as [|x a IH]; intros [|y b]; cbn [ZoneModel.bytes_eqb]; split; intros H; try discriminate; auto; [apply andb_true_iff in H; destruct H as [H1 H2]; apply IH in H2; f_equal; [lia|auto]|]. injection H as -> ->. apply andb_true_iff. split; [lia|apply IH; auto]. Qed.
Lemma below_refl : forall n, below n n. Proof. intros n. exists []. auto. Qed.
Lemma below_trans : forall a b c, below a b -> below b c -> below a c.
Proof. intros a b c (p & ->) (q & ->). exists (p ++ q). rewrite app_assoc. auto. Qed.
Lemma below_len : forall a b, below a b -> (length b <= length a)%nat.
Proof. intros a b (p & ->). rewrite app_length. lia. Qed.
Lemma below_anti : forall a b, below a b -> below b a -> a = b.
Proof. intros a b (p & ->) (q & E). assert (L : (length b = length q + (length p + length b))%nat) by (rewrite E at 1; rewrite !app_length; auto). destruct p; [auto|cbn [length] in L; lia]. Qed.
Lemma below_tail : forall l p a, below p a -> below (l :: p) a.
Proof. intros l p a (q & ->). exists (l :: q). auto. Qed.
Lemma below_cons : forall l p a, below (l :: p) a -> l :: p = a \/ below p a.
Proof. intros l p a ([|x q] & E); [left; auto|right]. injection E as _ ->. exists q. auto. Qed.
Lemma below_linear : forall n a b, below n a -> below n b -> below a b \/ below b a.
Proof.
  induction n as [|l n IH]; intros a b HA HB.
  - destruct HA as (p & E). symmetry in E. apply app_eq_nil in E. destruct E as [_ ->]. destruct HB as (q & E). symmetry in E. apply app_eq_nil in E. destruct E as [_ ->]. left. apply below_refl.
  - destruct (below_cons _ _ _ HA) as [<-|HA']; [left; auto|]. destruct (below_cons _ _ _ HB) as [<-|HB']; [right; auto|]. auto.
Qed.
Lemma under_below : forall o a, under o a = true <-> below o a.
Proof.
  induction o as [|l p IH]; intros a; cbn [under]; rewrite orb_true_iff, neqb_spec.
  - split; [intros [<-|H]; [apply below_refl|discriminate]|]. intros (q & E). symmetry in E. apply app_eq_nil in E. destruct E as [_ ->]. auto.
  - rewrite IH. split; [intros [<-|H]; [apply below_refl|apply below_tail; auto]|]. apply below_cons.
Qed.
Lemma plain_app : forall a b, plain (a ++ b) <-> plain a /\ plain b.
Proof. intros. unfold plain. apply Forall_app. Qed.
Lemma plain_below : forall a b, plain a -> below a b -> plain b.
Proof. intros a b H (p & ->). apply plain_app in H. apply H. Qed.

(** keys *)
Lemma key_app : forall p a, key (p ++ a) = key a ++ key p.
Proof. intros. unfold key. rewrite rev_app_distr, map_app, concat_app. auto. Qed.
Lemma leb_refl : forall a, key_leb a a = true.
Proof. induction a as [|x a IH]; cbn [key_leb]; auto. replace (x <? x) with false by lia. auto. Qed.
Lemma leb_trans : forall a b c, key_leb a b = true -> key_leb b c = true -> key_leb a c = true.
Proof.
  induction a as [|x a IH]; intros [|y b] [|w c] H1 H2; cbn [key_leb] in *; auto; try discriminate. destruct (x <? y) eqn:E1.
  - destruct (y <? w) eqn:E2; [replace (x <? w) with true by lia; auto|]. destruct (w <? y) eqn:E3; [discriminate|]. replace (x <? w) with true by lia. auto.
  - destruct (y <? x) eqn:E2; [discriminate|]. assert (x = y) by lia. subst y. destruct (x <? w); auto. destruct (w <? x); [discriminate|]. eauto.
Qed.
Lemma leb_total : forall a b, key_leb a b = false -> key_leb b a = true.
Proof. induction a as [|x a IH]; intros [|y b] H; cbn [key_leb] in *; auto; try discriminate. destruct (x <? y) eqn:E1; [discriminate|]. destruct (y <? x) eqn:E2; auto. Qed.
Lemma leb_prefix : forall a b, key_leb a (a ++ b) = true.
Proof. induction a as [|x a IH]; intros b; cbn [key_leb app]; auto. replace (x <? x) with false by lia. auto. Qed.
Lemma leb_between : forall s p x, key_leb s p = true -> key_leb p (s ++ x) = true -> exists y, p = s ++ y.
Proof.
  induction s as [|a s IH]; intros p x H1 H2; [exists p; auto|]. destruct p as [|b p]; [discriminate|]. cbn [key_leb app] in *. destruct (a <? b) eqn:E1.
  - replace (b <? a) with false in H2 by lia. discriminate.
  - destruct (b <? a) eqn:E2; [discriminate|]. assert (a = b) by lia. subst b. destruct (IH p x H1 H2) as (y & ->). exists y. auto.
Qed.
Lemma zero_split : forall a b x y, Forall (fun b : Z => b <> 0) a -> Forall (fun b : Z => b <> 0) b -> a ++ 0 :: x = b ++ 0 :: y -> a = b /\ x = y.
Proof.
  induction a as [|u a IH]; intros [|w b] x y HA HB E; cbn [app] in E.
  - injection E as E. auto.
  - injection E as E1 E2. exfalso. apply (Forall_inv HB). auto.
  - injection E as E1 E2. exfalso. apply (Forall_inv HA). auto.
  - injection E as E1 E2. destruct (IH b x y (Forall_inv_tail HA) (Forall_inv_tail HB) E2) as [-> ->]. subst. auto.
Qed.
Lemma key_rev : forall s p y, Forall (fun l : list Z => Forall (fun b => b <> 0) l) s -> Forall (fun l : list Z => Forall (fun b => b <> 0) l) p ->
  concat (map (fun l : list Z => l ++ [0]) p) = concat (map (fun l => l ++ [0]) s) ++ y -> exists r, p = s ++ r.
Proof.
  induction s as [|l s IH]; intros p y HS HP E; [exists p; auto|]. destruct p as [|m p]; cbn [map concat] in E.
  - exfalso. destruct l; discriminate.
  - rewrite <- !app_assoc in E. cbn [app] in E. destruct (zero_split m l _ _ (Forall_inv HP) (Forall_inv HS) E) as [-> E2]. destruct (IH p y (Forall_inv_tail HS) (Forall_inv_tail HP) E2) as (r & ->). exists r. auto.
Qed.
Lemma plain_rev : forall n, plain n -> Forall (fun l : list Z => Forall (fun b => b <> 0) l) (rev n).
Proof. intros n H. apply Forall_rev. eapply Forall_impl; [|exact H]. cbv beta. intros l [_ X]. auto. Qed.
Lemma key_below : forall p s y, plain p -> plain s -> key p = key s ++ y -> below p s.
Proof. intros p s y HP HS E. destruct (key_rev (rev s) (rev p) y (plain_rev _ HS) (plain_rev _ HP) E) as (r & ER). exists (rev r). rewrite <- (rev_involutive p), ER, rev_app_distr, rev_involutive. auto. Qed.
(** the greatest name that is not greater *)
Lemma get_leq_spec : forall l q, match get_leq l q with
  | Some p => In p l /\ key_leb (key p) (key q) = true /\ forall o, In o l -> key_leb (key o) (key q) = true -> key_leb (key o) (key p) = true
  | None => forall o, In o l -> key_leb (key o) (key q) = false end.
Proof.
  induction l as [|o l IH]; intros q; cbn [get_leq]; [intros o []|]. specialize (IH q). destruct (key_leb (key o) (key q)) eqn:EO.
  - destruct (get_leq l q) as [p|].
    + destruct IH as (I1 & I2 & I3). destruct (key_leb (key o) (key p)) eqn:EP.
      * split; [right; auto|]. split; auto. intros x [<-|HX] HQ; auto.
      * split; [left; auto|]. split; auto. intros x [<-|HX] HQ; [apply leb_refl|]. eapply leb_trans; [apply I3; auto|]. apply leb_total. auto.
    + split; [left; auto|]. split; auto. intros x [<-|HX] HQ; [apply leb_refl|]. rewrite IH in HQ by auto. discriminate.
  - destruct (get_leq l q) as [p|].
    + destruct IH as (I1 & I2 & I3). split; [right; auto|]. split; auto. intros x [<-|HX] HQ; [congruence|auto].
    + intros x [<-|HX]; auto.
Qed.
(** common labels *)
Lemma matched_spec : forall a b, exists c, (exists x, a = c ++ x) /\ (exists y, b = c ++ y) /\ zlen c = matched_rev a b /\ forall d, (exists x, a = d ++ x) -> (exists y, b = d ++ y) -> exists e, c = d ++ e.
Proof.
  induction a as [|x a IH]; intros b.
  - exists []. cbn [matched_rev]. split; [exists []; auto|]. split; [exists b; auto|]. split; [reflexivity|]. intros d (y & E) _. symmetry in E. apply app_eq_nil in E. destruct E as [-> _]. exists []. auto.
  - destruct b as [|y b].
    + exists []. cbn [matched_rev]. split; [exists (x :: a); auto|]. split; [exists []; auto|]. split; [reflexivity|]. intros d _ (y & E). symmetry in E. apply app_eq_nil in E. destruct E as [-> _]. exists []. auto.
    + cbn [matched_rev]. destruct (ZoneModel.bytes_eqb x y) eqn:E.
      * apply beqb_spec in E. subst y. destruct (IH b) as (c & (u & ->) & (w & ->) & L & H). exists (x :: c). split; [exists u; auto|]. split; [exists w; auto|]. rewrite zlen_cons. split; [lia|]. intros [|f d] (g & E1) (h & E2); [exists (x :: c); auto|]. cbn [app] in E1, E2. injection E1 as -> E1. injection E2 as E2. destruct (H d) as (e & ->); [eauto|eauto|]. exists e. auto.
      * exists []. split; [exists (x :: a); auto|]. split; [exists (y :: b); auto|]. split; [reflexivity|]. intros [|f d] (g & E1) (h & E2); [exists []; auto|]. cbn [app] in E1, E2. injection E1 as -> E1. injection E2 as -> E2. assert (ZoneModel.bytes_eqb f f = true) by (apply beqb_spec; auto). congruence.
Qed.
Lemma matched_labels_spec : forall a b, exists c, below a c /\ below b c /\ zlen c = matched_labels a b /\ forall d, below a d -> below b d -> below c d.
Proof.
  intros a b. destruct (matched_spec (rev a) (rev b)) as (c & (x & EA) & (y & EB) & L & H). exists (rev c).
  assert (R : forall u v w : name, rev u = v ++ w -> u = rev w ++ rev v) by (intros u v w E; rewrite <- (rev_involutive u), E, rev_app_distr; auto).
  split; [exists (rev x); auto|]. split; [exists (rev y); auto|]. split; [unfold zlen in *; rewrite rev_length; unfold matched_labels; auto|].
  intros d (p & ->) (q & ->). rewrite !rev_app_distr in *. destruct (H (rev d)) as (e & ->); [eauto|eauto|]. rewrite rev_app_distr, rev_involutive. exists (rev e). auto.
Qed.
Lemma climb_spec : forall z o c, below o c -> below c (z_apex z) -> climb z (zlen c) o = Ok c.
Proof.
  induction o as [|l p IH]; intros c HO HA; cbn [climb].
  - destruct HO as (q & E). symmetry in E. apply app_eq_nil in E. destruct E as [_ ->]. auto.
  - destruct (below_cons _ _ _ HO) as [<-|HP].
    + replace (zlen (l :: p) <? zlen (l :: p)) with false by lia. auto.
    + pose proof (below_len _ _ HP) as HL. replace (zlen c <? zlen (l :: p)) with true by (unfold zlen; cbn [length]; lia). destruct (name_eqb (l :: p) (z_apex z)) eqn:EA; [|auto].
      apply neqb_spec in EA. rewrite <- EA in HA. apply below_len in HA. cbn [length] in HA. lia.
Qed.
Lemma in_all : forall z o, In o (all_names z) <-> exists_ z o.
Proof. intros z o. unfold exists_. rewrite (ex_names z false o : _ <-> _). unfold all_names, names. cbn [In]. intuition congruence. Qed.
(** What the search gives *)
Lemma find_dname_spec : forall z q, (forall o, exists_ z o -> plain o /\ below o (z_apex z)) -> (forall l p, exists_ z (l :: p) -> l :: p <> z_apex z -> exists_ z p) ->
  plain q -> (below q (z_apex z) /\ ((exists_ z q /\ find_dname z q = Ok (Some (Some q, q))) \/ (~ exists_ z q /\ exists c, encloser z q c /\ find_dname z q = Ok (Some (None, c)))))
    \/ (~ below q (z_apex z) /\ find_dname z q = Ok None).
Proof.
  intros z q HN HP HQ. unfold find_dname. destruct (under q (z_apex z)) eqn:EU; cbn [negb].
  2:{ right. split; auto. intros X. apply under_below in X. congruence. }
  apply under_below in EU. left. split; auto. assert (HAp : exists_ z (z_apex z)) by (apply in_all; left; auto).
  pose proof (get_leq_spec (all_names z) q) as G. destruct (get_leq (all_names z) q) as [p|].
  2:{ exfalso. specialize (G (z_apex z) ltac:(left; auto)). destruct EU as (x & ->). rewrite key_app, leb_prefix in G. discriminate. }
  destruct G as (G1 & G2 & G3). apply in_all in G1. destruct (HN p G1) as [PP PA].
  assert (AB : forall a, exists_ z a -> below q a -> below p a). { intros a HE (x & E). assert (L : key_leb (key a) (key q) = true) by (rewrite E, key_app; apply leb_prefix). apply in_all in HE. specialize (G3 a HE L). rewrite E, key_app in G2. destruct (leb_between _ _ _ G3 G2) as (y & EY). apply in_all in HE. eapply key_below; eauto. apply HN. auto. }
  assert (ANC : forall o, exists_ z o -> forall c, below o c -> below c (z_apex z) -> exists_ z c). { intros o. induction o as [|l t IH]; intros HE c HO HC; [destruct HO as (x & E); symmetry in E; apply app_eq_nil in E; destruct E as [_ ->]; auto|]. destruct (below_cons _ _ _ HO) as [<-|HT]; auto. apply IH; auto. apply (HP l t HE). intros X. rewrite <- X in HC. apply below_len in HT. apply below_len in HC. cbn [length] in HC. lia. }
  destruct (name_eqb p q) eqn:EPQ.
  - apply neqb_spec in EPQ. subst p. left. auto.
  - right. assert (NE : ~ exists_ z q). { intros X. pose proof (AB q X (below_refl q)) as (y & E). assert (L : key_leb (key q) (key p) = true) by (apply G3; [apply in_all; auto|apply leb_refl]). rewrite E, key_app in G2. pose proof (leb_between (key q) (key q ++ key y) []) as Q. destruct y as [|l y]; [cbn [app] in E; subst; rewrite neqb_refl in EPQ; discriminate|].
      assert (G : forall a b, b <> [] -> key_leb (a ++ b) a = false) by (induction a as [|u a IHa]; intros [|w b] NB; cbn [app key_leb]; try contradiction; auto; replace (u <? u) with false by lia; apply IHa; auto). rewrite G in G2; [discriminate|]. unfold key. cbn [rev]. rewrite map_app, concat_app. cbn [map concat]. intros N. apply app_eq_nil in N. destruct N as [_ N]. apply app_eq_nil in N. destruct N as [N _]. apply app_eq_nil in N. destruct N as [_ N]. discriminate. }
    split; auto. destruct (matched_labels_spec p q) as (c & C1 & C2 & C3 & C4). assert (CA : below c (z_apex z)) by (apply C4; auto). exists c. split.
    + split; [apply (ANC p G1); auto|]. split; auto.
    + rewrite <- C3, (climb_spec z p c C1 CA). reflexivity.
Qed.
