(** What the records put prove to a validator. *)
From Verif Require Import Base BitmapModel DnameSpec DnameProofs3 NsecModel NsecSpec NsecProofs NsecProofs2 NsecProofs3 NsecProofs5 NsecProofs6 NsecProps DenialSpec DenialModel DenialProofs DenialProofs2.
From Coq Require Import Sorting.Sorted.

Lemma bit_iff : forall s P t, lists (ns_bitmap s) P -> 0 <= t < 65536 -> (bit s t <-> P t).
Proof.
  intros s P t L R. unfold bit. destruct (L t R) as (r & E & I). rewrite E. destruct r; split; intros H; try tauto; [discriminate|]. apply I in H. discriminate.
Qed.
(** No delegation and no DNAME above a name *)
Definition no_cut (z : zone) (q : list label) : Prop :=
  forall x n, nget z x = Some n -> takes_part n = true -> below q x -> x <> q -> n_deleg n = false /\ ~ In 39 (n_types n).
Lemma not_from_parent : forall apex z x n s, ok_zone apex z -> nget z x = Some n -> n_nonauth n = false -> n_deleg n = false -> lists (ns_bitmap s) (to_list n) -> ~ from_parent s.
Proof.
  intros apex z x n s Z E NA D L (B2 & B6). rewrite (bit_iff _ _ 2 L) in B2 by lia. rewrite (bit_iff _ _ 6 L) in B6 by lia. unfold to_list in B2, B6. rewrite D in B2, B6. destruct (oz_tree _ _ Z) as (_ & T2 & T3 & _). apply nget_in1 in E.
  destruct (name_dec x apex) as [->|N].
  - destruct (T2 n E) as (_ & _ & H6). apply B6. right; right. split; auto. discriminate.
  - destruct B2 as [B2|[B2|[B2 _]]]; try lia. assert (n_deleg n = true) by (apply (T3 x n E N); auto). congruence.
Qed.
Lemma spans_absent : forall apex z q r, ok_zone apex z -> below q apex -> ~ is_there z q -> no_cut z q -> spans apex z q r -> proves_absent apex r q.
Proof.
  intros apex z q r Z B N NC ((n & E & T & EN & L) & HN & LT & MX & C). split; auto. split; [destruct C as [[C _]|[C _]]; auto|]. split.
  - intros BN. apply N. eapply above_there; eauto.
  - intros BQ. destruct (NC (fst r) n E T BQ) as [D DN]; [intros X; rewrite X in LT; eapply clt_irrefl; eauto|]. destruct (takes_true _ T) as [NA _]. split; [eapply not_from_parent; eauto|].
    rewrite (bit_iff _ _ _ L) by lia. intros [X|[X|[X _]]]; try lia. auto.
Qed.
(** A member below a name *)
Lemma member_below : forall apex z c n, ok_zone apex z -> nget z c = Some n -> n_nonauth n = false -> exists m, In m (members z) /\ below m c.
Proof.
  intros apex z c n Z E NA. destruct (n_types n) as [|t ts] eqn:ET.
  - destruct (oz_tree _ _ Z) as (_ & _ & _ & _ & T5). destruct (T5 c n (nget_in1 _ _ _ E) NA ET) as (y & m & H1 & H2 & H3). exists y. split; auto. apply (members_get apex); auto. exists m. split; auto. apply nget_in; auto. apply (oz_sorted _ _ Z).
  - exists c. split; [|apply below_refl]. apply (members_get apex); auto. exists n. split; auto. unfold takes_part. rewrite NA, ET. auto.
Qed.
Lemma spans_encloser : forall apex z q c n r, ok_zone apex z -> below q apex -> ~ is_there z q -> encloser z q c -> nget z c = Some n -> n_nonauth n = false -> spans apex z q r -> shows_encloser r q c.
Proof.
  intros apex z q c n r Z B N (HC & QC & MAX) E NA ((nr & ER & T & EN & L) & HN & LT & MX & C). split; auto. split.
  - destruct (member_below apex z c n Z E NA) as (m & HM & MC). assert (m <> q) as MQ by (intros ->; apply N; rewrite (members_get apex) in HM by auto; destruct HM as (k & EK & _); apply there_get; congruence).
    pose proof (below_cle _ _ MC) as CM. pose proof (below_cle _ _ QC) as CQ. destruct (clt_total m q) as [X|[X|X]]; [|congruence|].
    + left. apply (between_below c (fst r) q); auto; [eapply cle_trans; [exact CM|auto]|right; auto].
    + destruct C as [[_ C]|[C1 C2]].
      * exfalso. specialize (C m HM). apply (clt_irrefl q). eapply clt_trans; [exact X|]. eapply cle_lt; eauto.
      * right. apply (between_below c (ns_next (snd r)) m); auto. eapply cle_trans; [exact CQ|right; auto].
  - intros d QD HD. assert (below d apex -> is_there z d) as G.
    { intros DA. destruct HD as [HD|HD]; [|eapply above_there; eauto]. apply (above_there apex z Z (fst r) d); auto. apply there_get. congruence. }
    destruct (above_comp q d apex QD B) as [DA|AD]; [apply MAX; auto|]. eapply below_trans; [|exact AD]. eapply there_below; eauto.
Qed.
Lemma spans_empty : forall apex z q n r, ok_zone apex z -> nget z q = Some n -> n_nonauth n = false -> n_types n = [] -> spans apex z q r -> proves_empty r q.
Proof.
  intros apex z q n r Z E NA ET ((nr & ER & T & EN & L) & HN & LT & MX & C). split; auto. destruct (member_below apex z q n Z E NA) as (m & HM & MC).
  assert (forall y, In y (members z) -> y <> q) as NQ.
  { intros y HY ->. rewrite (members_get apex) in HY by auto. destruct HY as (k & EK & TK). assert (k = n) by congruence. subst k. unfold takes_part in TK. rewrite ET, andb_false_r in TK. discriminate. }
  assert (canonical_lt q m) as QM by (apply below_lt; auto).
  destruct C as [[_ C]|[C1 C2]].
  - exfalso. specialize (C m HM). apply (clt_irrefl q). eapply clt_trans; [exact QM|]. eapply cle_lt; eauto.
  - split; [|intros X; apply (clt_irrefl q); exact (eq_ind _ (canonical_lt q) C1 _ X)]. apply (between_below q (ns_next (snd r)) m); auto. right; auto.
Qed.

(** * Delegations *)
Lemma cut_get : forall apex z d, ok_zone apex z -> (cut z d <-> exists n, nget z d = Some n /\ n_nonauth n = false /\ n_deleg n = true).
Proof.
  intros apex z d Z. unfold cut. split; intros (n & H & R); exists n; split; auto; [apply nget_in; auto; apply (oz_sorted _ _ Z)|apply nget_in1; auto].
Qed.
Lemma cut_takes : forall apex z d n, ok_zone apex z -> nget z d = Some n -> n_nonauth n = false -> n_deleg n = true -> takes_part n = true /\ In 2 (n_types n) /\ d <> apex.
Proof.
  intros apex z d n Z E NA D. destruct (oz_tree _ _ Z) as (_ & T2 & T3 & _). pose proof (nget_in1 _ _ _ E) as HI.
  assert (d <> apex) as N by (intros ->; destruct (T2 n HI) as (_ & X & _); congruence). destruct (proj1 (T3 d n HI N) D) as [_ H2]. split; auto. unfold takes_part. rewrite NA. destruct (n_types n); [destruct H2|auto].
Qed.
Lemma under_cut : forall apex z d n, ok_zone apex z -> nget z d = Some n -> n_nonauth n = false -> n_deleg n = true ->
  forall y m, nget z y = Some m -> below y d -> y <> d -> n_nonauth m = true.
Proof.
  intros apex z d n Z E NA D. destruct (cut_takes apex z d n Z E NA D) as (_ & _ & NAP). assert (below d apex) as DA by (eapply there_below; eauto; apply there_get; congruence).
  induction y as [|l y IH]; intros m EY BY NY.
  - destruct BY as (p & BY). symmetry in BY. apply app_eq_nil in BY. destruct BY as [_ ->]. congruence.
  - destruct (below_tl _ _ _ BY) as [X|BY']; [congruence|]. destruct (oz_tree _ _ Z) as (T1 & _). destruct (T1 _ m (nget_in1 _ _ _ EY)) as [X|(l' & p & k & X & HK & _ & NK)].
    + exfalso. apply NAP. apply below_antisym; auto. rewrite <- X. auto.
    + injection X as <- <-. apply nget_in in HK; [|apply (oz_sorted _ _ Z)]. rewrite NK. destruct (name_dec y d) as [->|N]; [assert (k = n) by congruence; subst; rewrite D; auto|rewrite (IH k); auto; apply orb_true_r].
Qed.
Lemma nonauth_cut : forall apex z, ok_zone apex z -> forall y m, nget z y = Some m -> n_nonauth m = true -> exists d n, nget z d = Some n /\ n_nonauth n = false /\ n_deleg n = true /\ below y d /\ y <> d.
Proof.
  intros apex z Z. destruct (oz_tree _ _ Z) as (T1 & T2 & T3 & _). induction y as [|l y IH]; intros m EY NA.
  - destruct (T1 _ m (nget_in1 _ _ _ EY)) as [X|(l' & p & k & X & _)]; [|discriminate]. rewrite X in EY. destruct (T2 m (nget_in1 _ _ _ EY)) as (Y & _). congruence.
  - destruct (T1 _ m (nget_in1 _ _ _ EY)) as [X|(l' & p & k & X & HK & _ & NK)]; [rewrite X in EY; destruct (T2 m (nget_in1 _ _ _ EY)) as (Y & _); congruence|].
    injection X as <- <-. apply nget_in in HK; [|apply (oz_sorted _ _ Z)]. assert (l :: y <> y) as NE by (intros X; apply (f_equal (@length _)) in X; cbn [length] in X; lia).
    destruct (n_nonauth k) eqn:NAK.
    + destruct (IH k HK NAK) as (d & n & A & B & C & D & NE2). exists d, n. repeat match goal with |- _ /\ _ => split end; auto; [apply below_push; auto|]. intros X. rewrite <- X in D. apply below_len in D. cbn [length] in D. lia.
    + exists y, k. rewrite NA in NK. symmetry in NK. rewrite orb_false_r in NK. repeat match goal with |- _ /\ _ => split end; auto. apply below_push, below_refl.
Qed.
Lemma auth_encloser_ok : forall apex z, ok_zone apex z -> forall x fuel, is_there z x -> (length x < fuel)%nat ->
  exists a n, auth_encloser fuel z x = Ok a /\ nget z a = Some n /\ has_auth n = true /\ below x a /\ (forall d m, nget z d = Some m -> has_auth m = true -> below x d -> below a d).
Proof.
  intros apex z Z. induction x as [|l x IH]; intros fuel H LF; (destruct fuel as [|fuel]; [lia|]); cbn [auth_encloser]; pose proof (proj1 (there_get _ _) H) as G; match goal with |- context [nget z ?y] => destruct (nget z y) as [n|] eqn:E end; try congruence.
  - destruct (oz_tree _ _ Z) as (T1 & _). destruct (T1 _ n (nget_in1 _ _ _ E)) as [X|(l' & p & k & X & _)]; [|discriminate]. destruct (apex_get _ _ Z) as (k & EK & TK). rewrite <- X in EK. assert (k = n) by congruence. subst k.
    assert (has_auth n = true) as HA by (rewrite (has_auth_eq apex z [] n Z E); auto). assert (no_rrsets n || n_nonauth n = false) as -> by (unfold has_auth in HA; apply andb_true_iff in HA; rewrite !negb_true_iff in HA; destruct HA as [-> ->]; auto).
    exists [], n. repeat match goal with |- _ /\ _ => split end; auto; [apply below_refl].
  - destruct (no_rrsets n || n_nonauth n) eqn:C.
    + assert (has_auth n = false) as HA by (unfold has_auth; rewrite <- negb_orb, orb_comm, C; auto).
      assert (l :: x <> apex) as NX by (intros X; destruct (apex_get _ _ Z) as (k & EK & TK); rewrite <- X in EK; assert (k = n) by congruence; subst k; rewrite (has_auth_eq apex z _ n Z E) in HA; congruence).
      destruct (oz_tree _ _ Z) as (T1 & _). destruct (T1 _ n (nget_in1 _ _ _ E)) as [X|(l' & p & k & X & HK & _)]; [congruence|]. injection X as <- <-. assert (is_there z x) as HX by (exists k; auto). rewrite parent_there by auto.
      cbn [length] in LF. destruct (IH fuel HX) as (a & na & A & B & D & F & G2); [lia|]. exists a, na. split; auto. split; auto. split; auto. split; [apply below_push; auto|].
      intros d m ED HD BD. destruct (below_tl _ _ _ BD) as [X|BD']; [rewrite <- X in ED; assert (m = n) by congruence; subst; congruence|eauto].
    + exists (l :: x), n. repeat match goal with |- _ /\ _ => split end; auto; [|apply below_refl]. unfold has_auth. rewrite <- negb_orb, orb_comm, C. auto.
Qed.
Lemma deleg_point_ok : forall apex z d n, ok_zone apex z -> nget z d = Some n -> n_nonauth n = false -> n_deleg n = true ->
  forall x fuel, is_there z x -> below x d -> (length x < fuel)%nat -> deleg_point fuel z x = Ok d.
Proof.
  intros apex z d n Z E NA D. induction x as [|l x IH]; intros fuel H BX LF; (destruct fuel as [|fuel]; [lia|]); cbn [deleg_point]; pose proof (proj1 (there_get _ _) H) as G; match goal with |- context [nget z ?y] => destruct (nget z y) as [m|] eqn:EX end; try congruence.
  - destruct BX as (p & BX). symmetry in BX. apply app_eq_nil in BX. destruct BX as [_ ->]. assert (m = n) by congruence. subst m. rewrite D. auto.
  - destruct (name_dec (l :: x) d) as [X|NX]; [rewrite X in EX; assert (m = n) by congruence; subst m; rewrite D, X; auto|].
    pose proof (under_cut apex z d n Z E NA D _ m EX BX NX) as NM. destruct (oz_tree _ _ Z) as (T1 & T2 & T3 & _). pose proof (nget_in1 _ _ _ EX) as HM.
    assert (l :: x <> apex) as NAP by (intros X; rewrite X in HM; destruct (T2 m HM) as (Y & _); congruence).
    destruct (n_deleg m) eqn:DM; [apply (T3 _ m HM NAP) in DM; destruct DM; congruence|].
    destruct (below_tl _ _ _ BX) as [X|BX']; [congruence|]. destruct (T1 _ m HM) as [X|(l' & p & k & X & HK & _)]; [congruence|]. injection X as <- <-. rewrite parent_there by (exists k; auto). apply IH; auto; [exists k; auto|cbn [length] in LF; lia].
Qed.
