From Verif Require Import Base DnameModel DnameSpec DnameProofs DnameProofs2 DnameProofs3 RdatasetModel RdatasetSpec.
From Coq Require Import Sorting.Sorted.

Definition enc (rs : list (list Z)) : list Z := flat_map rdata_init rs.
Definition holds (s : rdataset) (rs : list (list Z)) : Prop :=
  count s = zlen rs /\ raw s = enc rs /\ size s = zlen (enc rs) /\ canonical rs /\
  count s <= 65535 /\ size s < 2 ^ 32.

Lemma land1 : forall n, Z.land n 1 = n mod 2.
Proof. intros. change 1 with (Z.ones 1). rewrite Z.land_ones by lia. reflexivity. Qed.

Lemma zlen_init : forall r, zlen (rdata_init r) = rdata_size (zlen r).
Proof.
  intros. unfold rdata_init, rdata_size. rewrite !zlen_app, !zlen_cons, zlen_nil, land1.
  destruct (zlen r mod 2 =? 1) eqn:E; rewrite ?zlen_cons, ?zlen_nil; lia.
Qed.
Lemma rdata_size_bounds : forall n, 0 <= n -> 2 + n <= rdata_size n <= 3 + n.
Proof. intros. unfold rdata_size. rewrite land1. lia. Qed.
Lemma rdata_size_max : forall n, 0 <= n <= 65535 -> rdata_size n <= 65538.
Proof. intros. unfold rdata_size. rewrite land1. lia. Qed.

Lemma zlen_enc_pos : forall r, 2 <= zlen (rdata_init r).
Proof. intros. rewrite zlen_init. pose proof (rdata_size_bounds (zlen r) (zlen_nonneg r)). pose proof (zlen_nonneg r). lia. Qed.

Lemma enc_app : forall a b, enc (a ++ b) = enc a ++ enc b.
Proof. intros; apply flat_map_app. Qed.
Lemma enc_cons : forall a b, enc (a :: b) = rdata_init a ++ enc b.
Proof. reflexivity. Qed.

Lemma rd_app0 : forall p x q, rd (p ++ x :: q) (zlen p) = Ok x.
Proof.
  intros. unfold rd. rewrite zget_app_r by lia. rewrite Z.sub_diag, zget_0. auto.
Qed.
Lemma rdn_app : forall p x q, rdn (p ++ x ++ q) (zlen p) (zlen x) = Ok x.
Proof.
  intros. unfold rdn. pose proof (zlen_nonneg p). pose proof (zlen_nonneg x). pose proof (zlen_nonneg q).
  rewrite !zlen_app. replace ((zlen p <? 0) || (zlen x <? 0) || (zlen p + zlen x >? zlen p + (zlen x + zlen q))) with false by lia.
  rewrite zskipn_app_exact, zfirstn_app_exact. auto.
Qed.

Lemma rr_len_at : forall p r q, zlen r <= 65535 -> rr_len (p ++ rdata_init r ++ q) (zlen p) = Ok (zlen r).
Proof.
  intros p r q H. unfold rr_len, rdata_init. cbn [app]. rewrite rd_app0. cbn [rbind].
  pose proof (zlen_nonneg r).
  replace (p ++ zlen r mod 256 :: zlen r / 256 :: (r ++ (if Z.land (zlen r) 1 =? 1 then [0] else [])) ++ q)
     with ((p ++ [zlen r mod 256]) ++ zlen r / 256 :: (r ++ (if Z.land (zlen r) 1 =? 1 then [0] else [])) ++ q)
     by (rewrite <- app_assoc; reflexivity).
  replace (zlen p + 1) with (zlen (p ++ [zlen r mod 256])) by (rewrite zlen_app, zlen_cons, zlen_nil; lia).
  rewrite rd_app0. cbn [rbind]. f_equal. lia.
Qed.
Lemma rr_get_at : forall p r q, zlen r <= 65535 -> rr_get (p ++ rdata_init r ++ q) (zlen p) = Ok r.
Proof.
  intros p r q H. unfold rr_get. rewrite rr_len_at by auto. cbn [rbind]. unfold rdata_init.
  set (pad := if Z.land (zlen r) 1 =? 1 then [0] else []). set (l := [zlen r mod 256; zlen r / 256]).
  replace (p ++ (l ++ r ++ pad) ++ q) with ((p ++ l) ++ r ++ (pad ++ q)) by (rewrite <- !app_assoc; reflexivity).
  replace (zlen p + 2) with (zlen (p ++ l)) by (rewrite zlen_app; reflexivity).
  apply rdn_app.
Qed.
Lemma next_at : forall p r q, zlen r <= 65535 ->
  rdataset_next (p ++ rdata_init r ++ q) (zlen p) = Ok (zlen (p ++ rdata_init r)).
Proof. intros. unfold rdataset_next. rewrite rr_len_at by auto. cbn [rbind]. rewrite zlen_app, zlen_init. auto. Qed.

Lemma rdata_cmp_spec : forall a b, rdata_cmp a b = Ok (cmp_sign (octets_cmp a b)).
Proof.
  intros. unfold rdata_cmp.
  replace (Z.to_nat (if zlen a <=? zlen b then zlen a else zlen b)) with (Nat.min (length a) (length b))
    by (unfold zlen; destruct (_ <=? _) eqn:E; lia).
  destruct (memcmp_octets a b) as (r & -> & H1 & H2). cbn [rbind]. f_equal.
  destruct (r =? 0) eqn:E; cbn [andb].
  - rewrite H1 by lia. destruct (Z.compare_spec (zlen a) (zlen b)); cbn [cmp_sign].
    + replace (zlen a =? zlen b) with true by lia. cbn. lia.
    + replace (zlen a =? zlen b) with false by lia. replace (zlen a <? zlen b) with true by lia. auto.
    + replace (zlen a =? zlen b) with false by lia. replace (zlen a <? zlen b) with false by lia. auto.
  - rewrite H2 by lia. auto.
Qed.

Lemma canonical_app : forall a b, canonical (a ++ b) -> canonical a /\ canonical b /\
  (forall x y, In x a -> In y b -> rd_lt x y).
Proof.
  induction a as [|x a IH]; intros b [HS HF]; cbn [app] in *.
  - split; [split; constructor|]. split; [split; auto|]. intros ? ? [].
  - inversion HS as [|? ? HS' HA]; inversion HF as [|? ? HX HF']; subst.
    destruct (IH b (conj HS' HF')) as ([S1 F1] & C2 & HL). apply Forall_app in HA as [HA1 HA2].
    split; [split; constructor; auto|]. split; [auto|].
    intros u v [->|Hu] Hv; [|auto]. rewrite Forall_forall in HA2. auto.
Qed.
Lemma canonical_join : forall a b, canonical a -> canonical b ->
  (forall x y, In x a -> In y b -> rd_lt x y) -> canonical (a ++ b).
Proof.
  induction a as [|x a IH]; intros b [SA FA] HB HL; cbn [app]; [auto|].
  inversion SA as [|? ? SA' HA]; inversion FA; subst.
  destruct (IH b) as [S F]; [split; auto|auto|intros; apply HL; cbn; auto|].
  split; constructor; auto. apply Forall_app. split; auto.
  apply Forall_forall. intros y Hy. apply HL; cbn; auto.
Qed.
Lemma canonical_single : forall r, rdata_ok r -> canonical [r].
Proof. intros. split; repeat constructor; auto; apply H. Qed.

Lemma rd_lt_irrefl : forall a, ~ rd_lt a a.
Proof. intros a H. unfold rd_lt in H. rewrite (proj2 (octets_cmp_eq a a) eq_refl) in H. discriminate. Qed.
Lemma rd_lt_trans : forall a b c, rd_lt a b -> rd_lt b c -> rd_lt a c.
Proof. intros a b c. apply octets_cmp_trans. Qed.
Lemma rd_gt : forall a b, octets_cmp a b = Gt -> rd_lt b a.
Proof. intros. unfold rd_lt. rewrite octets_cmp_antisym, H. auto. Qed.

(** canonical lists with the same members are equal *)
Lemma canonical_ext : forall a b, canonical a -> canonical b -> (forall x, In x a <-> In x b) -> a = b.
Proof.
  induction a as [|x a IH]; intros b [SA FA] [SB FB] H.
  - destruct b as [|y b]; auto. exfalso. apply (H y). cbn; auto.
  - destruct b as [|y b]. { exfalso. apply (H x). cbn; auto. }
    inversion SA as [|? ? SA' HA]; inversion SB as [|? ? SB' HB]; inversion FA; inversion FB; subst.
    rewrite Forall_forall in HA, HB.
    assert (x = y).
    { destruct (proj1 (H x) (or_introl eq_refl)) as [|Hx]; [auto|].
      destruct (proj2 (H y) (or_introl eq_refl)) as [|Hy]; [auto|].
      exfalso. apply (rd_lt_irrefl x). eapply rd_lt_trans; eauto. }
    subst y. f_equal. apply IH; try (split; auto; fail). intros z. split; intros Hz.
    + destruct (proj1 (H z) (or_intror Hz)) as [->|]; auto. exfalso. apply (rd_lt_irrefl z); auto.
    + destruct (proj2 (H z) (or_intror Hz)) as [->|]; auto. exfalso. apply (rd_lt_irrefl z); auto.
Qed.

(** ** add_rr_at *)

Definition full (s : rdataset) : Prop := count s = 65535 \/ size s > 2 ^ 32 - 1 - 65538.

Lemma add_rr_at_spec : forall al s pre suf rr, holds s (pre ++ suf) -> rdata_ok rr ->
  (forall x, In x pre -> rd_lt x rr) -> (forall x, In x suf -> rd_lt rr x) ->
  (full s -> add_rr_at al s rr (zlen (enc pre)) = Err KNOT_ESPACE) /\
  (~ full s -> al (size s + rdata_size (zlen rr)) = false -> add_rr_at al s rr (zlen (enc pre)) = Err KNOT_ENOMEM) /\
  (~ full s -> al (size s + rdata_size (zlen rr)) = true ->
   exists s', add_rr_at al s rr (zlen (enc pre)) = Ok s' /\ holds s' (pre ++ rr :: suf)).
Proof.
  intros al s pre suf rr (Hc & Hr & Hs & HC & Hc2 & Hs2) Hrr H1 H2. unfold add_rr_at, full.
  change (rdata_size 65535) with 65538.
  assert (Hoff : zlen (enc pre) <= size s).
  { rewrite Hs, enc_app, zlen_app. pose proof (zlen_nonneg (enc suf)). lia. }
  replace (zlen (enc pre) >? size s) with false by lia.
  split; [|split].
  - intros [Hf|Hf].
    + replace (count s =? 65535) with true by lia. auto.
    + destruct (count s =? 65535); [auto|]. replace (size s >? _) with true by lia. auto.
  - intros Hf Ha. replace (count s =? 65535) with false by lia. replace (size s >? _) with false by lia.
    rewrite Ha. auto.
  - intros Hf Ha. replace (count s =? 65535) with false by lia. replace (size s >? _) with false by lia.
    rewrite Ha. cbn [negb].
    assert (E1 : rdn (raw s) 0 (zlen (enc pre)) = Ok (enc pre)).
    { rewrite Hr, enc_app. apply (rdn_app [] (enc pre) (enc suf)). }
    assert (E2 : rdn (raw s) (zlen (enc pre)) (size s - zlen (enc pre)) = Ok (enc suf)).
    { rewrite Hr, Hs, enc_app, zlen_app. replace (zlen (enc pre) + zlen (enc suf) - zlen (enc pre)) with (zlen (enc suf)) by lia.
      rewrite <- (app_nil_r (enc suf)) at 1. apply rdn_app. }
    rewrite E1, E2. cbn [rbind]. eexists. split; [reflexivity|].
    pose proof (rdata_size_max (zlen rr)). destruct Hrr as [Hb Hl]. pose proof (zlen_nonneg rr).
    pose proof (rdata_size_bounds (zlen rr) (zlen_nonneg rr)).
    assert (Hse : size s = zlen (enc pre) + zlen (enc suf)) by (rewrite Hs, enc_app, zlen_app; auto).
    pose proof (zlen_nonneg (enc pre)). pose proof (zlen_nonneg (enc suf)).
    assert (Hcz : count s = zlen pre + zlen suf) by (rewrite Hc, zlen_app; auto).
    pose proof (zlen_nonneg pre). pose proof (zlen_nonneg suf).
    unfold holds; cbn [count size raw]. unfold u16, u32. rewrite !Z.mod_small by lia.
    rewrite zlen_app, zlen_cons. rewrite enc_app, enc_cons, !zlen_app, zlen_init.
    destruct (canonical_app _ _ HC) as (C1 & C2 & HL).
    split; [lia|]. split; [auto|]. split; [lia|]. split; [|lia].
    apply canonical_join; auto.
    + change (rr :: suf) with ([rr] ++ suf). apply canonical_join; auto; [apply canonical_single; split; auto|].
      intros x y [<-|[]] Hy. auto.
    + intros x y Hx [<-|Hy]; auto.
Qed.

(** ** the insertion loop *)
Lemma add_loop_spec : forall suf al s pre rr, holds s (pre ++ suf) -> rdata_ok rr ->
  (forall x, In x pre -> rd_lt x rr) ->
  (In rr suf -> add_loop (length suf) al s rr (zlen (enc pre)) = Ok s) /\
  (~ In rr suf ->
    (full s -> add_loop (length suf) al s rr (zlen (enc pre)) = Err KNOT_ESPACE) /\
    (~ full s -> al (size s + rdata_size (zlen rr)) = false ->
       add_loop (length suf) al s rr (zlen (enc pre)) = Err KNOT_ENOMEM) /\
    (~ full s -> al (size s + rdata_size (zlen rr)) = true ->
     exists s' rs', add_loop (length suf) al s rr (zlen (enc pre)) = Ok s' /\ holds s' rs' /\
       forall x, In x rs' <-> x = rr \/ In x (pre ++ suf))).
Proof.
  induction suf as [|y suf IH]; intros al s pre rr H Hrr Hpre; cbn [length add_loop].
  - split; [intros []|]. intros _. pose proof H as (Hc & Hr & Hs & _). rewrite app_nil_r in Hs, Hr.
    replace (size s =? zlen (enc pre)) with true by lia. rewrite orb_true_r. cbn [negb].
    destruct (add_rr_at_spec al s pre [] rr H Hrr Hpre) as (A1 & A2 & A3); [intros ? []|].
    split; [auto|]. split; [auto|]. intros Hf Ha. destruct (A3 Hf Ha) as (s' & E & Hs').
    exists s', (pre ++ [rr]). split; [auto|]. split; [auto|]. intros x. rewrite app_nil_r, in_app_iff. cbn. intuition.
  - pose proof H as (Hc & Hr & Hs & HC & _). rewrite Hr, enc_app, enc_cons.
    destruct (canonical_app _ _ HC) as (C1 & [S2 F2] & HL).
    inversion S2 as [|? ? S2' HA]; inversion F2 as [|? ? Hy F2']; subst. rewrite Forall_forall in HA.
    rewrite rr_get_at by apply Hy. cbn [rbind]. rewrite rdata_cmp_spec. cbn [rbind].
    destruct (octets_cmp y rr) eqn:E; cbn [cmp_sign Z.eqb Z.gtb Z.compare].
    + apply octets_cmp_eq in E. subst y. split; [auto|]. intros Hn. exfalso. apply Hn. cbn; auto.
    + rewrite next_at by apply Hy. cbn [rbind].
      replace (enc pre ++ rdata_init y) with (enc (pre ++ [y])) by (rewrite enc_app, enc_cons, app_nil_r; auto).
      assert (H' : holds s ((pre ++ [y]) ++ suf)) by (rewrite <- app_assoc; auto).
      destruct (IH al s (pre ++ [y]) rr H' Hrr) as [I1 I2].
      { intros x Hx. apply in_app_or in Hx as [Hx|[<-|[]]]; auto. }
      split.
      * intros [->|Hi]; [exfalso; apply (rd_lt_irrefl rr); auto|auto].
      * intros Hn. destruct I2 as (J1 & J2 & J3); [intros Hi; apply Hn; cbn; auto|].
        split; [auto|]. split; [auto|]. intros Hf Ha. destruct (J3 Hf Ha) as (s' & rs' & E1 & E2 & E3).
        exists s', rs'. rewrite <- app_assoc in E3. cbn [app] in E3. auto.
    + apply rd_gt in E.
      destruct (add_rr_at_spec al s pre (y :: suf) rr H Hrr Hpre) as (A1 & A2 & A3).
      { intros x [<-|Hx]; auto. eapply rd_lt_trans; eauto. }
      split.
      * intros [->|Hi]; exfalso; [apply (rd_lt_irrefl rr); auto|].
        apply (rd_lt_irrefl y). eapply rd_lt_trans; [apply HA; exact Hi|auto].
      * intros Hn. split; [auto|]. split; [auto|]. intros Hf Ha. destruct (A3 Hf Ha) as (s' & E1 & Hs').
        exists s', (pre ++ rr :: y :: suf). split; [auto|]. split; [auto|].
        intros x. rewrite !in_app_iff. cbn. intuition.
Qed.

Lemma rr_seek_loop_spec : forall mid pre suf, Forall rdata_ok mid ->
  rr_seek_loop (length mid) (enc (pre ++ mid ++ suf)) (zlen (enc pre)) = Ok (zlen (enc (pre ++ mid))).
Proof.
  induction mid as [|y mid IH]; intros pre suf HF; cbn [length rr_seek_loop].
  - rewrite app_nil_r. auto.
  - inversion HF as [|? ? Hy HF']; subst.
    replace (enc (pre ++ (y :: mid) ++ suf)) with (enc pre ++ rdata_init y ++ enc (mid ++ suf))
      by (rewrite (enc_app pre); reflexivity).
    rewrite next_at by apply Hy. cbn [rbind].
    replace (enc pre ++ rdata_init y) with (enc (pre ++ [y])) by (rewrite enc_app, enc_cons, app_nil_r; auto).
    replace (enc pre ++ rdata_init y ++ enc (mid ++ suf)) with (enc ((pre ++ [y]) ++ mid ++ suf)).
    2: { rewrite <- app_assoc, (enc_app pre). reflexivity. }
    rewrite IH by auto. rewrite <- app_assoc. reflexivity.
Qed.
Lemma rr_seek_spec : forall s pre y suf, holds s (pre ++ y :: suf) ->
  rr_seek s (zlen pre) = Ok (zlen (enc pre)).
Proof.
  intros s pre y suf (Hc & Hr & Hs & [_ HF] & _). unfold rr_seek.
  rewrite zlen_app, zlen_cons in Hc. pose proof (zlen_nonneg pre). pose proof (zlen_nonneg suf).
  replace (0 <? count s) with true by lia. replace (zlen pre <? count s) with true by lia. cbn [negb orb].
  apply Forall_app in HF as [HF _]. unfold zlen at 1. rewrite Nat2Z.id, Hr.
  apply (rr_seek_loop_spec pre [] (y :: suf)); auto.
Qed.

Lemma holds_len : forall s rs, holds s rs -> Z.to_nat (count s) = length rs.
Proof. intros s rs (Hc & _). rewrite Hc. unfold zlen. lia. Qed.

Lemma rdataset_add_spec : forall al s rs rr, holds s rs -> rdata_ok rr ->
  (In rr rs -> rdataset_add al s rr = Ok s) /\
  (~ In rr rs ->
    (full s -> rdataset_add al s rr = Err KNOT_ESPACE) /\
    (~ full s -> al (size s + rdata_size (zlen rr)) = false -> rdataset_add al s rr = Err KNOT_ENOMEM) /\
    (~ full s -> al (size s + rdata_size (zlen rr)) = true ->
     exists s' rs', rdataset_add al s rr = Ok s' /\ holds s' rs' /\
       forall x, In x rs' <-> x = rr \/ In x rs)).
Proof.
  intros al s rs rr H Hrr. unfold rdataset_add. rewrite (holds_len _ _ H).
  pose proof (add_loop_spec rs al s [] rr H Hrr (fun x (Hx : In x []) => match Hx with end)) as HL.
  cbn [enc flat_map app] in HL. rewrite zlen_nil in HL.
  destruct (count s >? 4) eqn:E4; [|exact HL].
  destruct (exists_last (l := rs)) as (pre & y & E).
  { destruct H as (Hc & _). intros ->. rewrite zlen_nil in Hc. lia. }
  rewrite E in H. pose proof H as (Hc & Hr & Hs & HC & _).
  rewrite zlen_app, zlen_cons, zlen_nil in Hc.
  replace (count s - 1) with (zlen pre) by lia. rewrite (rr_seek_spec s pre y []) by auto. cbn [rbind].
  destruct (canonical_app _ _ HC) as (C1 & [S2 F2] & HLt). inversion F2 as [|? ? Hy _]; subst.
  assert (Hraw : raw s = enc pre ++ rdata_init y ++ []) by (rewrite Hr, enc_app, enc_cons; auto).
  rewrite Hraw. rewrite rr_get_at by apply Hy. cbn [rbind]. rewrite rdata_cmp_spec. cbn [rbind].
  destruct (octets_cmp y rr) eqn:E; cbn [cmp_sign Z.ltb Z.compare]; try exact HL.
  rewrite next_at by apply Hy. cbn [rbind].
  replace (enc pre ++ rdata_init y) with (enc (pre ++ [y])) by (rewrite enc_app, enc_cons, app_nil_r; auto).
  assert (Hall : forall x, In x (pre ++ [y]) -> rd_lt x rr).
  { intros x Hx. apply in_app_or in Hx as [Hx|[<-|[]]]; auto.
    eapply rd_lt_trans; [|exact E]. apply HLt; cbn; auto. }
  split; [intros Hi; exfalso; apply (rd_lt_irrefl rr); auto|]. intros Hn.
  assert (H' : holds s ((pre ++ [y]) ++ [])) by (rewrite app_nil_r; auto).
  destruct (add_rr_at_spec al s (pre ++ [y]) [] rr H' Hrr Hall) as (A1 & A2 & A3); [intros ? []|].
  split; [auto|]. split; [auto|]. intros Hf Ha. destruct (A3 Hf Ha) as (s' & E1 & Hs').
  exists s', ((pre ++ [y]) ++ [rr]). split; [auto|]. split; [auto|].
  intros x. rewrite !in_app_iff. cbn. intuition.
Qed.

(** ** membership and friends *)
Lemma member_loop_spec : forall suf pre rr, Forall rdata_ok suf -> StronglySorted rd_lt suf ->
  exists b, member_loop (length suf) (enc (pre ++ suf)) (zlen (enc pre)) rr = Ok b /\ (b = true <-> In rr suf).
Proof.
  induction suf as [|y suf IH]; intros pre rr HF HS; cbn [length member_loop].
  - exists false. cbn. intuition discriminate.
  - inversion HF as [|? ? Hy HF']; inversion HS as [|? ? HS' HA]; subst. rewrite Forall_forall in HA.
    replace (enc (pre ++ y :: suf)) with (enc pre ++ rdata_init y ++ enc suf) by (rewrite enc_app; auto).
    rewrite rr_get_at by apply Hy. cbn [rbind]. rewrite rdata_cmp_spec. cbn [rbind].
    destruct (octets_cmp y rr) eqn:E; cbn [cmp_sign Z.eqb Z.gtb Z.compare].
    + apply octets_cmp_eq in E. subst. exists true. cbn. intuition.
    + rewrite next_at by apply Hy. cbn [rbind].
      replace (enc pre ++ rdata_init y) with (enc (pre ++ [y])) by (rewrite enc_app, enc_cons, app_nil_r; auto).
      replace (enc pre ++ rdata_init y ++ enc suf) with (enc ((pre ++ [y]) ++ suf)) by (rewrite <- app_assoc, enc_app; auto).
      destruct (IH (pre ++ [y]) rr HF' HS') as (b & -> & Hb). exists b. split; [auto|].
      rewrite Hb. cbn. split; [auto|]. intros [->|]; auto. exfalso. apply (rd_lt_irrefl rr). auto.
    + apply rd_gt in E. exists false. split; [auto|]. split; [discriminate|].
      intros [->|Hi]; exfalso; [apply (rd_lt_irrefl rr); auto|].
      apply (rd_lt_irrefl y). eapply rd_lt_trans; [apply HA; exact Hi|auto].
Qed.
Lemma member_spec : forall s rs rr, holds s rs ->
  exists b, rdataset_member s rr = Ok b /\ (b = true <-> In rr rs).
Proof.
  intros s rs rr H. unfold rdataset_member. rewrite (holds_len _ _ H). pose proof H as (_ & -> & _ & [S F] & _).
  apply (member_loop_spec rs [] rr F S).
Qed.

Lemma eq_loop_spec : forall a b pa pb, Forall rdata_ok a -> Forall rdata_ok b -> length a = length b ->
  exists r, eq_loop (length a) (enc (pa ++ a)) (enc (pb ++ b)) (zlen (enc pa)) (zlen (enc pb)) = Ok r /\
   (r = true <-> a = b).
Proof.
  induction a as [|x a IH]; intros [|y b] pa pb HA HB Hl; cbn in Hl; try discriminate; cbn [length eq_loop].
  - exists true. intuition.
  - inversion HA as [|? ? Hx HA']; inversion HB as [|? ? Hy HB']; subst.
    replace (enc (pa ++ x :: a)) with (enc pa ++ rdata_init x ++ enc a) by (rewrite enc_app; auto).
    replace (enc (pb ++ y :: b)) with (enc pb ++ rdata_init y ++ enc b) by (rewrite enc_app; auto).
    rewrite !rr_get_at by (apply Hx || apply Hy). cbn [rbind]. rewrite rdata_cmp_spec. cbn [rbind].
    destruct (octets_cmp x y) eqn:E; cbn [cmp_sign Z.eqb negb].
    + apply octets_cmp_eq in E. subst y. rewrite !next_at by apply Hx. cbn [rbind].
      replace (enc pa ++ rdata_init x) with (enc (pa ++ [x])) by (rewrite enc_app, enc_cons, app_nil_r; auto).
      replace (enc pb ++ rdata_init x) with (enc (pb ++ [x])) by (rewrite enc_app, enc_cons, app_nil_r; auto).
      replace (enc pa ++ rdata_init x ++ enc a) with (enc ((pa ++ [x]) ++ a)) by (rewrite <- app_assoc, enc_app; auto).
      replace (enc pb ++ rdata_init x ++ enc b) with (enc ((pb ++ [x]) ++ b)) by (rewrite <- app_assoc, enc_app; auto).
      destruct (IH b (pa ++ [x]) (pb ++ [x]) HA' HB') as (r & -> & Hr); [congruence|].
      exists r. split; [auto|]. rewrite Hr. split; congruence.
    + exists false. split; [auto|]. split; [discriminate|]. intros [= -> _]. rewrite (proj2 (octets_cmp_eq y y) eq_refl) in E. discriminate.
    + exists false. split; [auto|]. split; [discriminate|]. intros [= -> _]. rewrite (proj2 (octets_cmp_eq y y) eq_refl) in E. discriminate.
Qed.
Lemma eq_spec : forall s1 s2 a b, holds s1 a -> holds s2 b ->
  exists r, rdataset_eq s1 s2 = Ok r /\ (r = true <-> a = b).
Proof.
  intros s1 s2 a b H1 H2. unfold rdataset_eq. rewrite (holds_len _ _ H1).
  pose proof H1 as (C1 & -> & _ & [_ F1] & _). pose proof H2 as (C2 & -> & _ & [_ F2] & _).
  destruct (count s1 =? count s2) eqn:E; cbn [negb].
  - apply (eq_loop_spec a b [] [] F1 F2). unfold zlen in *. lia.
  - exists false. split; [auto|]. split; [discriminate|]. intros ->. lia.
Qed.

Lemma subset_loop_spec : forall a pa s2 b, Forall rdata_ok a -> holds s2 b ->
  exists r, subset_loop (length a) (enc (pa ++ a)) (zlen (enc pa)) s2 = Ok r /\ (r = true <-> incl a b).
Proof.
  induction a as [|x a IH]; intros pa s2 b HA H2; cbn [length subset_loop].
  - exists true. split; [auto|]. split; [intros _ ? []|auto].
  - inversion HA as [|? ? Hx HA']; subst.
    replace (enc (pa ++ x :: a)) with (enc pa ++ rdata_init x ++ enc a) by (rewrite enc_app; auto).
    rewrite rr_get_at by apply Hx. cbn [rbind]. destruct (member_spec s2 b x H2) as (m & -> & Hm). cbn [rbind].
    destruct m; cbn [negb].
    + rewrite next_at by apply Hx. cbn [rbind].
      replace (enc pa ++ rdata_init x) with (enc (pa ++ [x])) by (rewrite enc_app, enc_cons, app_nil_r; auto).
      replace (enc pa ++ rdata_init x ++ enc a) with (enc ((pa ++ [x]) ++ a)) by (rewrite <- app_assoc, enc_app; auto).
      destruct (IH (pa ++ [x]) s2 b HA' H2) as (r & -> & Hr). exists r. split; [auto|]. rewrite Hr.
      split; intros HI y Hy; [destruct Hy as [<-|Hy]; [apply Hm; auto|auto]|apply HI; cbn; auto].
    + exists false. split; [auto|]. split; [discriminate|]. intros HI. apply Hm. apply HI. cbn; auto.
Qed.
Lemma subset_spec : forall s1 s2 a b, holds s1 a -> holds s2 b ->
  exists r, rdataset_subset false s1 s2 = Ok r /\ (r = true <-> incl a b).
Proof.
  intros s1 s2 a b H1 H2. unfold rdataset_subset. rewrite (holds_len _ _ H1).
  pose proof H1 as (_ & -> & _ & [_ F1] & _). apply (subset_loop_spec a [] s2 b F1 H2).
Qed.

Lemma at_spec : forall s rs pos, holds s rs -> 0 <= pos ->
  rdataset_at s pos = match zget rs pos with Some r => Ok r | None => Err RET_NULL end.
Proof.
  intros s rs pos H Hp. unfold rdataset_at. pose proof H as (Hc & Hr & _ & [_ HF] & _).
  destruct (zget rs pos) as [r|] eqn:E.
  - pose proof (zget_some _ _ _ E) as Hrange.
    replace (count s =? 0) with false by lia. replace (pos >=? count s) with false by lia. cbn [orb].
    unfold zget in E. destruct (pos <? 0) eqn:E0; [lia|].
    destruct (nth_error_split rs (Z.to_nat pos) E) as (pre & suf & E1 & E2).
    rewrite E1 in *. replace pos with (zlen pre) by (unfold zlen; lia).
    rewrite (rr_seek_spec s pre r suf) by auto. cbn [rbind]. rewrite Hr, enc_app, enc_cons.
    apply rr_get_at. apply Forall_app in HF as [_ HF]. inversion HF; subst. apply H2.
  - replace ((count s =? 0) || (pos >=? count s)) with true; auto.
    destruct (Z_lt_ge_dec pos (zlen rs)) as [Hl|]; [|lia].
    destruct (zget_in_range rs pos) as [x Hx]; [lia|]. congruence.
Qed.

Lemma copy_spec : forall al s rs, holds s rs ->
  rdataset_copy al s = if (0 <? count s) && negb (al (size s)) then Err KNOT_ENOMEM else Ok s.
Proof.
  intros al s rs (Hc & Hr & Hs & _). unfold rdataset_copy. destruct (0 <? count s) eqn:E; cbn [andb].
  - destruct (al (size s)); cbn [negb]; [|auto].
    pose proof (rdn_app [] (enc rs) []) as HX. cbn [app] in HX. rewrite app_nil_r, zlen_nil in HX.
    rewrite Hr, Hs, HX. cbn [rbind]. rewrite <- Hs, <- Hr. destruct s; auto.
  - assert (rs = []) by (destruct rs; auto; rewrite zlen_cons in Hc; pose proof (zlen_nonneg rs); lia). subst.
    cbn in Hs, Hr. rewrite Hs. cbn. rewrite <- Hs, <- Hr. destruct s; auto.
Qed.

(** ** merge *)
Lemma merge_loop_spec : forall b pb al s1 a, Forall rdata_ok b -> holds s1 a ->
  exists ret s' rs', merge_loop (length b) al s1 (enc (pb ++ b)) (zlen (enc pb)) = Ok (ret, s') /\ holds s' rs' /\
   ((ret = KNOT_EOK /\ forall x, In x rs' <-> In x a \/ In x b) \/
    ((ret = KNOT_ESPACE \/ ret = KNOT_ENOMEM) /\ (forall x, In x a -> In x rs') /\ forall x, In x rs' -> In x a \/ In x b)).
Proof.
  induction b as [|y b IH]; intros pb al s1 a HF H1; cbn [length merge_loop].
  - exists KNOT_EOK, s1, a. split; [auto|]. split; [auto|]. left. split; [auto|]. cbn. intuition.
  - inversion HF as [|? ? Hy HF']; subst.
    replace (enc (pb ++ y :: b)) with (enc pb ++ rdata_init y ++ enc b) by (rewrite enc_app; auto).
    rewrite rr_get_at by apply Hy. cbn [rbind].
    destruct (rdataset_add_spec al s1 a y H1 Hy) as [A1 A2].
    assert (Hstep : (exists s' rs', rdataset_add al s1 y = Ok s' /\ holds s' rs' /\ forall x, In x rs' <-> x = y \/ In x a) \/
       exists e, rdataset_add al s1 y = Err e /\ (e = KNOT_ESPACE \/ e = KNOT_ENOMEM)).
    { destruct (in_dec (list_eq_dec Z.eq_dec) y a) as [Hi|Hn].
      - left. exists s1, a. rewrite A1 by auto. split; [auto|]. split; [auto|]. intros x. split; [auto|]. intros [->|]; auto.
      - destruct (A2 Hn) as (B1 & B2 & B3).
        assert (full s1 \/ ~ full s1) as [Hf|Hf] by (unfold full; lia); [right; eauto|].
        destruct (al (size s1 + rdata_size (zlen y))) eqn:Ea; [left|right; eauto].
        destruct (B3 Hf eq_refl) as (s' & rs' & ? & ? & ?). eauto. }
    destruct Hstep as [(s' & rs' & -> & Hs' & HI)|(e & -> & He)].
    + rewrite next_at by apply Hy. cbn [rbind].
      replace (enc pb ++ rdata_init y) with (enc (pb ++ [y])) by (rewrite enc_app, enc_cons, app_nil_r; auto).
      replace (enc pb ++ rdata_init y ++ enc b) with (enc ((pb ++ [y]) ++ b)) by (rewrite <- app_assoc, enc_app; auto).
      destruct (IH (pb ++ [y]) al s' rs' HF' Hs') as (ret & s2 & rs2 & -> & H2 & Hor).
      exists ret, s2, rs2. split; [auto|]. split; [auto|]. destruct Hor as [[-> Hx]|(Hr & Hx1 & Hx2)].
      * left. split; [auto|]. intros x. rewrite Hx, HI. cbn. intuition.
      * right. split; [auto|]. split; intros x Hx.
        -- apply Hx1. apply HI. auto.
        -- apply Hx2 in Hx. rewrite HI in Hx. cbn. intuition.
    + exists e, s1, a. split; [auto|]. split; [auto|]. right. split; [auto|]. split; auto.
Qed.

(** ** removal *)
Lemma remove_rr_at_spec : forall al s pre y suf, holds s (pre ++ y :: suf) ->
  (exists s', remove_rr_at al s (zlen pre) = Ok (KNOT_EOK, s') /\ holds s' (pre ++ suf)) \/
  (al (size s - rdata_size (zlen y)) = false /\ 1 < count s /\
   exists s', remove_rr_at al s (zlen pre) = Ok (KNOT_ENOMEM, s')).
Proof.
  intros al s pre y suf H. pose proof H as (Hc & Hr & Hs & HC & Hc2 & Hs2). unfold remove_rr_at.
  pose proof (zlen_nonneg pre). pose proof (zlen_nonneg suf).
  rewrite zlen_app, zlen_cons in Hc.
  replace (0 <? count s) with true by lia. replace (zlen pre <? count s) with true by lia. cbn [negb orb].
  rewrite (rr_seek_spec s pre y suf H). cbn [rbind].
  destruct (canonical_app _ _ HC) as (C1 & C2 & HL). pose proof C2 as [S2 F2]. inversion F2 as [|? ? Hy F2']; subst.
  (* the last record *)
  destruct (exists_last (l := y :: suf)) as (mid & z & E); [congruence|].
  assert (Hz : rdata_ok z). { rewrite E in F2. apply Forall_app in F2 as [_ F2]. inversion F2; auto. }
  assert (Hlast : rr_seek s (count s - 1) = Ok (zlen (enc (pre ++ mid)))).
  { assert (H' : holds s ((pre ++ mid) ++ z :: [])) by (rewrite <- app_assoc, <- E; auto).
    replace (count s - 1) with (zlen (pre ++ mid)); [apply (rr_seek_spec s _ z []); auto|].
    assert (zlen (y :: suf) = zlen mid + 1) by (rewrite E, zlen_app, zlen_cons, zlen_nil; lia).
    rewrite zlen_cons in *. rewrite zlen_app. lia. }
  rewrite Hlast. cbn [rbind].
  assert (R1 : raw s = enc pre ++ rdata_init y ++ enc suf) by (rewrite Hr, enc_app; auto).
  assert (R2 : raw s = enc (pre ++ mid) ++ rdata_init z ++ []).
  { rewrite Hr, E, app_assoc, enc_app, enc_cons. auto. }
  assert (L1 : rr_len (raw s) (zlen (enc pre)) = Ok (zlen y)) by (rewrite R1; apply rr_len_at; apply Hy).
  assert (L2 : rr_len (raw s) (zlen (enc (pre ++ mid))) = Ok (zlen z)) by (rewrite R2; apply rr_len_at; apply Hz).
  rewrite L1, L2. cbn [rbind].
  assert (Hsz1 : size s = zlen (enc pre) + rdata_size (zlen y) + zlen (enc suf)).
  { rewrite Hs, enc_app, enc_cons, !zlen_app, zlen_init. lia. }
  assert (Hsz2 : size s = zlen (enc (pre ++ mid)) + rdata_size (zlen z)).
  { rewrite Hs, E, app_assoc, enc_app, zlen_app. cbn [enc flat_map]. rewrite app_nil_r, zlen_init. lia. }
  rewrite <- Hsz2. pose proof (zlen_nonneg (enc suf)). pose proof (zlen_nonneg (enc pre)).
  replace (_ >? size s) with false by lia.
  assert (D1 : rdn (raw s) 0 (zlen (enc pre)) = Ok (enc pre)).
  { rewrite R1. apply (rdn_app [] (enc pre)). }
  assert (D2 : rdn (raw s) (zlen (enc pre) + rdata_size (zlen y)) (size s - (zlen (enc pre) + rdata_size (zlen y))) = Ok (enc suf)).
  { replace (size s - _) with (zlen (enc suf)) by lia.
    replace (zlen (enc pre) + rdata_size (zlen y)) with (zlen (enc pre ++ rdata_init y)) by (rewrite zlen_app, zlen_init; lia).
    rewrite R1, app_assoc. rewrite <- (app_nil_r (enc suf)) at 1. apply rdn_app. }
  rewrite D1, D2. cbn [rbind].
  set (after := enc pre ++ enc suf ++ _).
  assert (D3 : rdn after 0 (size s - rdata_size (zlen y)) = Ok (enc (pre ++ suf))).
  { unfold after. rewrite app_assoc, <- enc_app.
    replace (size s - rdata_size (zlen y)) with (zlen (enc (pre ++ suf))) by (rewrite enc_app, zlen_app; lia).
    apply (rdn_app []). }
  pose proof (rdata_size_bounds (zlen y) (zlen_nonneg y)). pose proof (zlen_nonneg y).
  assert (HC' : canonical (pre ++ suf)).
  { inversion S2 as [|? ? S2' HA]; subst. apply canonical_join; auto; [split; auto|]. intros; apply HL; cbn; auto. }
  destruct (count s >? 1) eqn:E1.
  - destruct (al (size s - rdata_size (zlen y))) eqn:Ea; cbn [negb].
    + left. rewrite D3. cbn [rbind]. eexists. split; [reflexivity|]. unfold holds; cbn [count size raw].
      rewrite zlen_app. rewrite enc_app, zlen_app. repeat split; auto; try lia; apply HC'.
    + right. split; [auto|]. split; [lia|]. eexists. reflexivity.
  - left. assert (pre = [] /\ suf = []) as [-> ->].
    { split; [destruct pre; auto|destruct suf; auto]; rewrite zlen_cons in *; 
      match goal with |- context [_ :: ?l] => pose proof (zlen_nonneg l) end; lia. }
    eexists. split; [reflexivity|]. unfold holds; cbn [count size raw]. cbn [enc flat_map app] in *.
    rewrite !zlen_nil in *. repeat split; auto; try lia; apply HC'.
Qed.

Lemma find_rr_pos_loop_spec : forall suf pre rr, Forall rdata_ok suf -> StronglySorted rd_lt suf ->
  (forall p q, suf = p ++ rr :: q -> find_rr_pos_loop (length suf) (enc (pre ++ suf)) (zlen (enc pre)) (zlen pre) rr = Ok (zlen (pre ++ p))) /\
  (~ In rr suf -> find_rr_pos_loop (length suf) (enc (pre ++ suf)) (zlen (enc pre)) (zlen pre) rr = Err KNOT_ENOENT).
Proof.
  induction suf as [|y suf IH]; intros pre rr HF HS; cbn [length find_rr_pos_loop].
  - split; auto. intros [|? ?] q H; discriminate.
  - inversion HF as [|? ? Hy HF']; inversion HS as [|? ? HS' HA]; subst. rewrite Forall_forall in HA.
    replace (enc (pre ++ y :: suf)) with (enc pre ++ rdata_init y ++ enc suf) by (rewrite enc_app; auto).
    rewrite rr_get_at by apply Hy. cbn [rbind]. rewrite rdata_cmp_spec. cbn [rbind].
    destruct (list_eq_dec Z.eq_dec rr y) as [->|Hne].
    + rewrite (proj2 (octets_cmp_eq y y) eq_refl). cbn [cmp_sign Z.eqb]. split.
      * intros [|p0 p] q Hpq; cbn [app] in Hpq.
        -- rewrite app_nil_r. auto.
        -- exfalso. injection Hpq as -> Hpq. apply (rd_lt_irrefl p0). apply HA. rewrite Hpq. apply in_or_app. cbn; auto.
      * intros Hn. exfalso. apply Hn. cbn; auto.
    + assert ((cmp_sign (octets_cmp rr y) =? 0) = false) as ->.
      { destruct (octets_cmp rr y) eqn:E; cbn; auto. apply octets_cmp_eq in E. congruence. }
      rewrite next_at by apply Hy. cbn [rbind].
      replace (enc pre ++ rdata_init y) with (enc (pre ++ [y])) by (rewrite enc_app, enc_cons, app_nil_r; auto).
      replace (enc pre ++ rdata_init y ++ enc suf) with (enc ((pre ++ [y]) ++ suf)) by (rewrite <- app_assoc, enc_app; auto).
      replace (zlen pre + 1) with (zlen (pre ++ [y])) by (rewrite zlen_app, zlen_cons, zlen_nil; lia).
      destruct (IH (pre ++ [y]) rr HF' HS') as [I1 I2]. split.
      * intros [|p0 p] q Hpq; cbn [app] in Hpq; injection Hpq as -> Hpq; [congruence|].
        rewrite (I1 p q Hpq). rewrite <- app_assoc. auto.
      * intros Hn. apply I2. intros Hi. apply Hn. cbn; auto.
Qed.

Lemma in_canonical_mid : forall pre y suf x, canonical (pre ++ y :: suf) ->
  (In x (pre ++ suf) <-> In x (pre ++ y :: suf) /\ x <> y).
Proof.
  intros pre y suf x HC. destruct (canonical_app _ _ HC) as (_ & [S2 _] & HL).
  inversion S2 as [|? ? _ HA]; subst. rewrite Forall_forall in HA. rewrite !in_app_iff. cbn [In]. split.
  - intros [Hi|Hi]; (split; [auto|]); intros ->; apply (rd_lt_irrefl y); auto. apply HL; cbn; auto.
  - intros [[Hi|[Hi|Hi]] Hne]; auto. congruence.
Qed.

Lemma subtract_loop_spec : forall w pw al s rs, Forall rdata_ok w -> holds s rs ->
  exists ret s', subtract_loop (length w) al s (enc (pw ++ w)) (zlen (enc pw)) = Ok (ret, s') /\
   ((ret = KNOT_EOK /\ exists rs', holds s' rs' /\ forall x, In x rs' <-> In x rs /\ ~ In x w) \/
    (ret = KNOT_ENOMEM /\ exists n, al n = false)).
Proof.
  induction w as [|y w IH]; intros pw al s rs HF Hs; cbn [length subtract_loop].
  - exists KNOT_EOK, s. split; [auto|]. left. split; [auto|]. exists rs. split; [auto|]. cbn. intuition.
  - inversion HF as [|? ? Hy HF']; subst.
    replace (enc (pw ++ y :: w)) with (enc pw ++ rdata_init y ++ enc w) by (rewrite enc_app; auto).
    rewrite rr_get_at by apply Hy. cbn [rbind].
    pose proof Hs as (Hc & Hr & _ & [S F] & _).
    destruct (find_rr_pos_loop_spec rs [] y F S) as [F1 F2].
    assert (Hfind : find_rr_pos s y = find_rr_pos_loop (length rs) (enc rs) 0 0 y)
      by (unfold find_rr_pos; rewrite (holds_len _ _ Hs), Hr; auto).
    assert (F1' : forall p q, rs = p ++ y :: q -> find_rr_pos s y = Ok (zlen p)) by (intros p q Hpq; rewrite Hfind; exact (F1 p q Hpq)).
    assert (F2' : ~ In y rs -> find_rr_pos s y = Err KNOT_ENOENT) by (intros Hn; rewrite Hfind; exact (F2 Hn)).
    assert (Hcont : forall s' rs', holds s' rs' -> (forall x, In x rs' <-> In x rs /\ x <> y) ->
      exists ret s'', (let* off := rdataset_next (enc pw ++ rdata_init y ++ enc w) (zlen (enc pw)) in
         subtract_loop (length w) al s' (enc pw ++ rdata_init y ++ enc w) off) = Ok (ret, s'') /\
       ((ret = KNOT_EOK /\ exists rs', holds s'' rs' /\ forall x, In x rs' <-> In x rs /\ ~ In x (y :: w)) \/
        (ret = KNOT_ENOMEM /\ exists n, al n = false))).
    { intros s' rs' Hs' HI. rewrite next_at by apply Hy. cbn [rbind].
      replace (enc pw ++ rdata_init y) with (enc (pw ++ [y])) by (rewrite enc_app, enc_cons, app_nil_r; auto).
      replace (enc pw ++ rdata_init y ++ enc w) with (enc ((pw ++ [y]) ++ w)) by (rewrite <- app_assoc, enc_app; auto).
      destruct (IH (pw ++ [y]) al s' rs' HF' Hs') as (ret & s'' & -> & Hor). exists ret, s''. split; [auto|].
      destruct Hor as [(-> & rs2 & H2 & HI2)|]; [left|auto]. split; [auto|]. exists rs2. split; [auto|].
      intros x. rewrite HI2, HI. cbn [In]. intuition. }
    destruct (in_dec (list_eq_dec Z.eq_dec) y rs) as [Hi|Hn].
    + destruct (in_split _ _ Hi) as (p & q & E). rewrite (F1' p q E). cbn [rbind].
      rewrite E in Hs. destruct (remove_rr_at_spec al s p y q Hs) as [(s' & E1 & Hs')|(Ha & _ & s' & E1)];
        rewrite E1; cbn [rbind].
      * change (KNOT_EOK =? KNOT_EOK) with true. cbn [negb]. apply (Hcont s' (p ++ q)); auto.
        intros x. rewrite E. apply in_canonical_mid. apply Hs.
      * change (KNOT_ENOMEM =? KNOT_EOK) with false. cbn [negb]. exists KNOT_ENOMEM, s'. split; [auto|]. right. eauto.
    + rewrite (F2' Hn). cbn [rbind]. change (KNOT_EOK =? KNOT_EOK) with true. cbn [negb].
      apply (Hcont s rs); auto. intros x. split; [intros Hx; split; auto; intros ->; auto|tauto].
Qed.

Lemma intersect_loop_spec : forall a pa al s2 b out o, Forall rdata_ok a -> holds s2 b -> holds out o ->
  exists ret s', intersect_loop (length a) al (enc (pa ++ a)) (zlen (enc pa)) s2 out = Ok (ret, s') /\
   ((ret = KNOT_EOK /\ exists rs', holds s' rs' /\ forall x, In x rs' <-> In x o \/ (In x a /\ In x b)) \/
    ((ret = KNOT_ESPACE \/ ret = KNOT_ENOMEM) /\ s' = rdataset_init)).
Proof.
  induction a as [|y a IH]; intros pa al s2 b out o HF H2 Ho; cbn [length intersect_loop].
  - exists KNOT_EOK, out. split; [auto|]. left. split; [auto|]. exists o. split; [auto|]. cbn. intuition.
  - inversion HF as [|? ? Hy HF']; subst.
    replace (enc (pa ++ y :: a)) with (enc pa ++ rdata_init y ++ enc a) by (rewrite enc_app; auto).
    rewrite rr_get_at by apply Hy. cbn [rbind].
    destruct (member_spec s2 b y H2) as (m & -> & Hm). cbn [rbind].
    assert (Hcont : forall out' o', holds out' o' -> (forall x, In x o' <-> In x o \/ (x = y /\ In x b)) ->
      exists ret s'', (let* off := rdataset_next (enc pa ++ rdata_init y ++ enc a) (zlen (enc pa)) in
         intersect_loop (length a) al (enc pa ++ rdata_init y ++ enc a) off s2 out') = Ok (ret, s'') /\
       ((ret = KNOT_EOK /\ exists rs', holds s'' rs' /\ forall x, In x rs' <-> In x o \/ (In x (y :: a) /\ In x b)) \/
        ((ret = KNOT_ESPACE \/ ret = KNOT_ENOMEM) /\ s'' = rdataset_init))).
    { intros out' o' Ho' HI. rewrite next_at by apply Hy. cbn [rbind].
      replace (enc pa ++ rdata_init y) with (enc (pa ++ [y])) by (rewrite enc_app, enc_cons, app_nil_r; auto).
      replace (enc pa ++ rdata_init y ++ enc a) with (enc ((pa ++ [y]) ++ a)) by (rewrite <- app_assoc, enc_app; auto).
      destruct (IH (pa ++ [y]) al s2 b out' o' HF' H2 Ho') as (ret & s'' & -> & Hor). exists ret, s''. split; [auto|].
      destruct Hor as [(-> & rs2 & H3 & HI2)|]; [left|auto]. split; [auto|]. exists rs2. split; [auto|].
      intros x. rewrite HI2, HI. cbn [In]. intuition congruence. }
    destruct m.
    + destruct (rdataset_add_spec al out o y Ho Hy) as [A1 A2].
      destruct (in_dec (list_eq_dec Z.eq_dec) y o) as [Hi|Hn].
      * rewrite A1 by auto. cbn [rbind]. change (KNOT_EOK =? KNOT_EOK) with true. cbn [negb].
        apply (Hcont out o); auto. intros x. split; [auto|]. intros [|[-> _]]; auto.
      * destruct (A2 Hn) as (B1 & B2 & B3).
        assert (full out \/ ~ full out) as [Hf|Hf] by (unfold full; lia).
        { rewrite B1 by auto. cbn [rbind]. change (KNOT_ESPACE =? KNOT_EOK) with false. cbn [negb].
          do 2 eexists. split; [reflexivity|]. right. auto. }
        destruct (al (size out + rdata_size (zlen y))) eqn:Ea.
        2: { rewrite B2 by auto. cbn [rbind]. change (KNOT_ENOMEM =? KNOT_EOK) with false. cbn [negb].
          do 2 eexists. split; [reflexivity|]. right. auto. }
        destruct (B3 Hf eq_refl) as (s' & rs' & -> & Hs' & HI). cbn [rbind]. change (KNOT_EOK =? KNOT_EOK) with true. cbn [negb].
        apply (Hcont s' rs'); auto. intros x. rewrite HI. split; [|tauto].
        intros [->|]; auto. right. split; auto. apply Hm; auto.
    + cbn [rbind]. change (KNOT_EOK =? KNOT_EOK) with true. cbn [negb]. apply (Hcont out o); auto.
      intros x. split; [auto|]. intros [|[-> Hb]]; auto. apply Hm in Hb. discriminate.
Qed.

Lemma intersect2_loop_spec : forall suf pre al s w wl fuel, holds s (pre ++ suf) -> holds w wl ->
  (length suf <= fuel)%nat ->
  exists ret s', intersect2_loop fuel al s (zlen pre) (zlen (enc pre)) w = Ok (ret, s') /\
   ((ret = KNOT_EOK /\ exists rs', holds s' rs' /\ forall x, In x rs' <-> In x pre \/ (In x suf /\ In x wl)) \/
    (ret = KNOT_ENOMEM /\ exists n, al n = false)).
Proof.
  induction suf as [|y suf IH]; intros pre al s w wl fuel Hs Hw Hf.
  - pose proof Hs as (Hc & _). rewrite app_nil_r in Hc.
    assert (E : intersect2_loop fuel al s (zlen pre) (zlen (enc pre)) w = Ok (KNOT_EOK, s)).
    { destruct fuel; cbn [intersect2_loop]; replace (zlen pre <? count s) with false by lia; auto. }
    exists KNOT_EOK, s. split; [auto|]. left. split; [auto|]. exists pre. rewrite app_nil_r in Hs. split; [auto|]. cbn. intuition.
  - pose proof Hs as (Hc & Hr & _ & HC & _). rewrite zlen_app, zlen_cons in Hc.
    pose proof (zlen_nonneg suf). cbn [length] in Hf. destruct fuel as [|fuel]; [lia|]. cbn [intersect2_loop].
    replace (zlen pre <? count s) with true by lia.
    destruct (canonical_app _ _ HC) as (C1 & [S2 F2] & HL). inversion F2 as [|? ? Hy F2']; subst.
    rewrite Hr, enc_app, enc_cons, rr_get_at by apply Hy. cbn [rbind].
    destruct (member_spec w wl y Hw) as (m & -> & Hm). cbn [rbind]. destruct m; cbn [negb].
    + rewrite next_at by apply Hy. cbn [rbind].
      replace (enc pre ++ rdata_init y) with (enc (pre ++ [y])) by (rewrite enc_app, enc_cons, app_nil_r; auto).
      replace (zlen pre + 1) with (zlen (pre ++ [y])) by (rewrite zlen_app, zlen_cons, zlen_nil; lia).
      assert (Hs' : holds s ((pre ++ [y]) ++ suf)) by (rewrite <- app_assoc; auto).
      destruct (IH (pre ++ [y]) al s w wl fuel Hs' Hw) as (ret & s' & -> & Hor); [lia|].
      exists ret, s'. split; [auto|]. destruct Hor as [(-> & rs2 & H3 & HI2)|]; [left|auto].
      split; [auto|]. exists rs2. split; [auto|]. intros x. rewrite HI2, in_app_iff. cbn [In].
      assert (In y wl) by (apply Hm; auto). intuition congruence.
    + destruct (remove_rr_at_spec al s pre y suf Hs) as [(s' & E1 & Hs')|(Ha & _ & s' & E1)]; rewrite E1; cbn [rbind].
      * change (KNOT_EOK =? KNOT_EOK) with true. cbn [negb].
        assert (Hseek : exists r, (if zlen pre <? count s' then rr_seek s' (zlen pre) else Ok (zlen (enc pre))) = Ok r /\ r = zlen (enc pre)).
        { destruct suf as [|z suf].
          - pose proof Hs' as (Hc' & _). rewrite app_nil_r in Hc'. replace (zlen pre <? count s') with false by lia. eauto.
          - rewrite (rr_seek_spec s' pre z suf Hs'). destruct (_ <? _); eauto. }
        destruct Hseek as (r & -> & ->). cbn [rbind].
        destruct (IH pre al s' w wl fuel Hs' Hw) as (ret & s2 & -> & Hor); [lia|].
        exists ret, s2. split; [auto|]. destruct Hor as [(-> & rs2 & H3 & HI2)|]; [left|auto].
        split; [auto|]. exists rs2. split; [auto|]. intros x. rewrite HI2. cbn [In].
        assert (~ In y wl) by (intros Hi; apply Hm in Hi; discriminate). intuition congruence.
      * change (KNOT_ENOMEM =? KNOT_EOK) with false. cbn [negb]. exists KNOT_ENOMEM, s'. split; [auto|]. right. eauto.
Qed.

Lemma holds_init : holds rdataset_init [].
Proof. unfold holds, rdataset_init. cbn [count size raw]. repeat split; auto; try (cbv; congruence); constructor. Qed.

Lemma holds_ext : forall s1 s2 a b, holds s1 a -> holds s2 b -> (forall x, In x a <-> In x b) -> s1 = s2.
Proof.
  intros s1 s2 a b (C1 & R1 & S1 & K1 & _) (C2 & R2 & S2 & K2 & _) H.
  assert (a = b) by (apply canonical_ext; auto). subst. destruct s1, s2; cbn in *; congruence.
Qed.

Lemma enc_inj : forall a b, Forall rdata_ok a -> Forall rdata_ok b -> enc a = enc b -> a = b.
Proof.
  induction a as [|u a IH]; intros [|v b] HA HB E; auto.
  - apply (f_equal (@length Z)) in E; cbn in E; lia.
  - apply (f_equal (@length Z)) in E; cbn in E; lia.
  - inversion HA as [|? ? [Hu Hul] HA']; inversion HB as [|? ? [Hv Hvl] HB']; subst. rewrite !enc_cons in E.
    pose proof (rr_get_at [] u (enc a) Hul) as G1. pose proof (rr_get_at [] v (enc b) Hvl) as G2.
    cbn [app] in G1, G2. rewrite E, G2 in G1. injection G1 as ->. f_equal. apply IH; auto.
    apply app_inv_head in E. auto.
Qed.
