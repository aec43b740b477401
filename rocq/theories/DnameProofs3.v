From Verif Require Import Base DnameModel DnameSpec DnameProofs DnameProofs2.

(** ** Orders on octet strings and label lists *)
Lemma octets_cmp_eq : forall a b, octets_cmp a b = Eq <-> a = b.
Proof.
  induction a as [|x a IH]; intros [|y b]; cbn [octets_cmp]; split; intros H; try discriminate; auto.
  - destruct (Z.compare_spec x y); try discriminate. apply IH in H. congruence.
  - injection H as -> ->. rewrite Z.compare_refl. apply IH; auto.
Qed.
Lemma octets_cmp_antisym : forall a b, octets_cmp b a = CompOpp (octets_cmp a b).
Proof.
  induction a as [|x a IH]; intros [|y b]; cbn [octets_cmp CompOpp]; auto.
  rewrite Z.compare_antisym. destruct (x ?= y); cbn [CompOpp]; auto.
Qed.
Lemma octets_cmp_trans : forall a b c, octets_cmp a b = Lt -> octets_cmp b c = Lt -> octets_cmp a c = Lt.
Proof.
  induction a as [|x a IH]; intros [|y b] [|z c]; cbn [octets_cmp]; try discriminate; auto.
  destruct (Z.compare_spec x y); destruct (Z.compare_spec y z); subst; try discriminate; intros H1 H2.
  - rewrite Z.compare_refl. eauto.
  - rewrite (proj2 (Z.compare_lt_iff _ _)); auto.
  - rewrite (proj2 (Z.compare_lt_iff _ _)); auto.
  - rewrite (proj2 (Z.compare_lt_iff _ _)); auto; lia.
Qed.

Lemma labels_cmp_eq : forall a b, labels_cmp a b = Eq <-> a = b.
Proof.
  induction a as [|x a IH]; intros [|y b]; cbn [labels_cmp]; split; intros H; try discriminate; auto.
  - destruct (octets_cmp x y) eqn:E; try discriminate. apply octets_cmp_eq in E. apply IH in H. congruence.
  - injection H as -> ->. rewrite (proj2 (octets_cmp_eq y y) eq_refl). apply IH; auto.
Qed.
Lemma labels_cmp_antisym : forall a b, labels_cmp b a = CompOpp (labels_cmp a b).
Proof.
  induction a as [|x a IH]; intros [|y b]; cbn [labels_cmp CompOpp]; auto.
  rewrite octets_cmp_antisym. destruct (octets_cmp x y); cbn [CompOpp]; auto.
Qed.
Lemma labels_cmp_trans : forall a b c, labels_cmp a b = Lt -> labels_cmp b c = Lt -> labels_cmp a c = Lt.
Proof.
  induction a as [|x a IH]; intros [|y b] [|z c]; cbn [labels_cmp]; try discriminate; auto.
  destruct (octets_cmp x y) eqn:E1; destruct (octets_cmp y z) eqn:E2; try discriminate; intros H1 H2.
  - apply octets_cmp_eq in E1, E2. subst. rewrite (proj2 (octets_cmp_eq z z) eq_refl). eauto.
  - apply octets_cmp_eq in E1. subst. rewrite E2. auto.
  - apply octets_cmp_eq in E2. subst. rewrite E1. auto.
  - rewrite (octets_cmp_trans _ _ _ E1 E2). auto.
Qed.

Lemma canonical_cmp_eq : forall a b, canonical_cmp a b = Eq <-> a = b.
Proof.
  intros. unfold canonical_cmp. rewrite labels_cmp_eq. split; [|intros ->; auto].
  intros H. apply (f_equal (@rev label)) in H. rewrite !rev_involutive in H. auto.
Qed.
Lemma canonical_cmp_antisym : forall a b, canonical_cmp b a = CompOpp (canonical_cmp a b).
Proof. intros; apply labels_cmp_antisym. Qed.
Lemma canonical_cmp_trans : forall a b c, canonical_cmp a b = Lt -> canonical_cmp b c = Lt -> canonical_cmp a c = Lt.
Proof. intros a b c; apply labels_cmp_trans. Qed.

(** ** Lookup format *)
Definition lf_body (rls : list label) : list Z := flat_map (fun l => l ++ [0]) rls.

Lemma lf_body_app : forall a b, lf_body (a ++ b) = lf_body a ++ lf_body b.
Proof. intros; unfold lf_body; apply flat_map_app. Qed.

Lemma zlen_lf_body : forall ls, zlen (lf_body (rev ls)) = name_size ls - 1.
Proof.
  induction ls as [|l ls IH]; [reflexivity|]. cbn [rev name_size].
  rewrite lf_body_app, zlen_app, IH. cbn [lf_body flat_map]. rewrite app_nil_r, zlen_app, zlen_cons, zlen_nil. lia.
Qed.

Lemma advance1 : forall x d, advance (x :: d) 1 = Ok d.
Proof.
  intros. unfold advance. rewrite zlen_cons. pose proof (zlen_nonneg d).
  replace (1 >? 1 + zlen d) with false by lia. reflexivity.
Qed.

Lemma lf_loop_spec : forall ls j fuel dst acc, legal_labels ls -> (length ls < fuel)%nat ->
  name_size ls - 1 <= dst ->
  lf_loop fuel (wire ls ++ j) dst acc = Ok (dst - (name_size ls - 1), lf_body (rev ls) ++ acc).
Proof.
  induction ls as [|l ls IH]; intros j fuel dst acc HL Hf Hd; (destruct fuel; [lia|]); cbn [lf_loop].
  - rewrite nm_rd0_root. cbn [rbind Z.eqb name_size rev lf_body flat_map app]. do 2 f_equal. lia.
  - inversion HL as [|? ? Hl HL']; subst. rewrite nm_rd0. cbn [rbind]. rewrite (legal_nonzero _ Hl).
    rewrite nm_cons. cbn [app]. rewrite advance1. cbn [rbind].
    cbn [name_size] in *. pose proof (name_size_pos ls). pose proof (zlen_nonneg l).
    replace (dst <? 0) with false by lia. replace (dst - zlen l <? 0) with false by lia.
    rewrite take_app, advance_app. cbn [rbind].
    rewrite IH; [|auto|cbn [length] in Hf; lia|lia].
    cbn [rev]. rewrite lf_body_app. cbn [lf_body flat_map].
    rewrite app_nil_r, <- !app_assoc. cbn [app]. do 2 f_equal. lia.
Qed.

Lemma dname_lf_spec : forall ls j, legal_name ls ->
  dname_lf (wire ls ++ j) = Ok (zlen (lf_body (rev ls)) :: lf_body (rev ls)).
Proof.
  intros ls j [HL HS]. unfold dname_lf, KNOT_DNAME_MAXLEN.
  rewrite lf_loop_spec; [|auto|pose proof (wire_length ls j); lia|lia]. cbn [rbind].
  pose proof (name_size_pos ls). rewrite app_nil_r.
  replace (255 - 1 - (name_size ls - 1) <? 0) with false by lia. do 2 f_equal.
  rewrite zlen_lf_body. unfold u8. rewrite Z.mod_small; lia.
Qed.

Lemma memcmp_octets : forall a b,
  exists r, memcmp a b (Nat.min (length a) (length b)) = Ok r /\
   (r = 0 -> cmp_sign (octets_cmp a b) = cmp_sign (Z.compare (zlen a) (zlen b))) /\
   (r <> 0 -> cmp_sign (octets_cmp a b) = r).
Proof.
  induction a as [|x a IH]; intros [|y b]; cbn [length Nat.min memcmp octets_cmp].
  - exists 0. repeat split; auto; lia.
  - exists 0. split; [auto|]. split; [|lia]. rewrite zlen_cons, zlen_nil. pose proof (zlen_nonneg b).
    intros _. destruct (Z.compare_spec 0 (1 + zlen b)); cbn; auto; lia.
  - exists 0. split; [auto|]. split; [|lia]. rewrite zlen_cons, zlen_nil. pose proof (zlen_nonneg a).
    intros _. destruct (Z.compare_spec (1 + zlen a) 0); cbn; auto; lia.
  - destruct (Z.compare_spec x y) as [->|H|H].
    + rewrite Z.ltb_irrefl. destruct (IH b) as (r & Hr & H1 & H2). exists r. rewrite Hr.
      split; [auto|]. split; [|auto]. rewrite !zlen_cons. intros H0. rewrite H1 by auto.
      f_equal. destruct (Z.compare_spec (zlen a) (zlen b)); destruct (Z.compare_spec (1 + zlen a) (1 + zlen b)); auto; lia.
    + replace (x <? y) with true by lia. exists (-1). split; [auto|]. split; [lia|auto].
    + replace (x <? y) with false by lia. replace (y <? x) with true by lia.
      exists 1. split; [auto|]. split; [lia|auto].
Qed.

Lemma dname_cmp_octets : forall a b j j', legal_name a -> legal_name b ->
  dname_cmp (wire a ++ j) (wire b ++ j') =
  Ok (cmp_sign (octets_cmp (lf_body (rev a)) (lf_body (rev b)))).
Proof.
  intros a b j j' HA HB. unfold dname_cmp. rewrite !dname_lf_spec by auto. cbn [rbind rd0 tl].
  set (A := lf_body (rev a)). set (B := lf_body (rev b)).
  replace (Z.to_nat (if zlen A >? zlen B then zlen B else zlen A)) with (Nat.min (length A) (length B))
    by (unfold zlen; destruct (_ >? _) eqn:E; lia).
  destruct (memcmp_octets A B) as (r & -> & H1 & H2). cbn [rbind].
  destruct (r =? 0) eqn:E; cbn [negb].
  - rewrite H1 by lia. destruct (Z.compare_spec (zlen A) (zlen B)); cbn [cmp_sign].
    + replace (zlen A <? zlen B) with false by lia. replace (zlen A >? zlen B) with false by lia. auto.
    + replace (zlen A <? zlen B) with true by lia. auto.
    + replace (zlen A <? zlen B) with false by lia. replace (zlen A >? zlen B) with true by lia. auto.
  - rewrite H2 by lia. auto.
Qed.

Lemma octets_sep : forall a b s t, Forall (fun x => 0 < x) a -> Forall (fun x => 0 < x) b ->
  octets_cmp (a ++ 0 :: s) (b ++ 0 :: t) =
  match octets_cmp a b with Eq => octets_cmp s t | c => c end.
Proof.
  induction a as [|x a IH]; intros [|y b] s t HA HB; cbn [app octets_cmp]; auto.
  - inversion HB; subst. rewrite (proj2 (Z.compare_lt_iff 0 y)); auto.
  - inversion HA; subst. rewrite (proj2 (Z.compare_gt_iff x 0)); auto.
  - inversion HA; inversion HB; subst. destruct (x ?= y); auto.
Qed.

Definition pos_labels (ls : list label) : Prop := Forall (Forall (fun x => 0 < x)) ls.

Lemma lf_body_cmp : forall a b, pos_labels a -> pos_labels b ->
  octets_cmp (lf_body a) (lf_body b) = labels_cmp a b.
Proof.
  induction a as [|x a IH]; intros [|y b] HA HB; cbn [lf_body flat_map labels_cmp octets_cmp]; auto.
  - destruct y; reflexivity.
  - destruct x; reflexivity.
  - inversion HA; inversion HB; subst. rewrite <- !app_assoc. cbn [app].
    rewrite octets_sep by auto. destruct (octets_cmp x y); auto.
Qed.

Lemma pos_labels_of : forall ls, legal_labels ls -> null_free ls -> pos_labels (rev ls).
Proof.
  intros ls HL HN. apply Forall_rev. unfold legal_labels, null_free, pos_labels in *.
  rewrite !Forall_forall in *. intros l Hl. specialize (HL l Hl). specialize (HN l Hl).
  destruct HL as [_ HB]. unfold bytes in HB. rewrite Forall_forall in *. intros x Hx.
  specialize (HB x Hx). specialize (HN x Hx). unfold byte in HB. cbn in HN. lia.
Qed.

Lemma dname_cmp_canonical : forall a b j j', legal_name a -> legal_name b -> null_free a -> null_free b ->
  dname_cmp (wire a ++ j) (wire b ++ j') = Ok (cmp_sign (canonical_cmp a b)).
Proof.
  intros a b j j' HA HB Na Nb. rewrite dname_cmp_octets by auto.
  rewrite lf_body_cmp; [auto| |]; apply pos_labels_of; auto; [apply HA | apply HB].
Qed.

(** with_null *)
Lemma with_null_spec : forall ls j, legal_labels ls ->
  exists r, with_null (wire ls ++ j) = Ok r /\ (r = false <-> null_free ls).
Proof.
  intros ls j HL. unfold with_null. rewrite dname_size_spec by auto. cbn [rbind].
  rewrite <- (zlen_wire ls), take_app. cbn [rbind]. eexists. split; [reflexivity|].
  set (f := fix strnlen (l : list Z) : Z := match l with [] => 0 | b :: l => if b =? 0 then 0 else 1 + strnlen l end).
  assert (Happ : forall a s, Forall (fun x => x <> 0) a -> f (a ++ s) = zlen a + f s).
  { induction a as [|x a IH]; intros s Ha; [reflexivity|]. inversion Ha; subst. cbn [app f].
    replace (x =? 0) with false by lia. fold f. rewrite IH, zlen_cons by auto. lia. }
  assert (Hbound : forall s, 0 <= f s) by (induction s; cbn [f]; [lia|]; destruct (_ =? 0); fold f; lia).
  assert (Hz : forall a s, ~ Forall (fun x => x <> 0) a -> f (a ++ s) < zlen a).
  { induction a as [|x a IH]; intros s Ha; [exfalso; apply Ha; constructor|].
    cbn [app f]. rewrite zlen_cons. pose proof (zlen_nonneg a). destruct (x =? 0) eqn:E; [lia|]. fold f.
    assert (~ Forall (fun x => x <> 0) a) by (intros HF; apply Ha; constructor; [lia|auto]).
    specialize (IH s H0). lia. }
  assert (Hmain : forall ls, legal_labels ls ->
     (null_free ls -> f (wire ls) = name_size ls - 1) /\
     (~ null_free ls -> f (wire ls) < name_size ls - 1)).
  { clear - Happ Hz. induction ls as [|l ls IH]; intros HL.
    - split; [reflexivity|]. intros H; exfalso; apply H; constructor.
    - inversion HL as [|? ? Hl HL']; subst. destruct (IH HL') as [IH1 IH2]. cbn [wire name_size f].
      rewrite (legal_nonzero _ Hl). fold f. split.
      + intros HN. inversion HN; subst. rewrite Happ, IH1 by auto. lia.
      + intros HN. destruct (Forall_Exists_dec (fun x => x <> 0) (fun x => match Z.eq_dec x 0 with left e => right (fun n => n e) | right n => left n end) l) as [HF|HE].
        * rewrite Happ by auto. assert (~ null_free ls) by (intros H; apply HN; constructor; auto).
          specialize (IH2 H). lia.
        * assert (~ Forall (fun x => x <> 0) l).
          { intros HF. apply Exists_Forall_neg with (P := fun x => x <> 0) in HE; auto. intros x. destruct (Z.eq_dec x 0); tauto. }
          specialize (Hz l (wire ls) H). pose proof (name_size_pos ls). lia. }
  destruct (Hmain ls HL) as [H1 H2]. rewrite zlen_wire. split.
  - intros H. destruct (Forall_dec (Forall (fun x : Z => x <> 0)) (fun l => Forall_dec (fun x => x <> 0) (fun x => match Z.eq_dec x 0 with left e => right (fun n => n e) | right n => left n end) l) ls); auto.
    specialize (H2 n). lia.
  - intros H. rewrite H1 by auto. lia.
Qed.

(** ** Text *)
Definition esc (c : Z) : list Z :=
  if is_alnum c || (c =? 45) || (c =? 95) || (c =? 42) || (c =? 47) then [c]
  else if is_punct c && negb (c =? 35) then [92; c] else esc_ddd c.
Definition text (ls : list label) : list Z :=
  match ls with [] => [46] | _ => flat_map (fun l => flat_map esc l ++ [46]) ls end.

Definition esc_cls (c : Z) : Z :=
  if is_alnum c || (c =? 45) || (c =? 95) || (c =? 42) || (c =? 47) then 0
  else if is_punct c && negb (c =? 35) then 1 else 2.

Lemma esc_char_text : forall c, byte c -> char_text c (esc c).
Proof.
  intros c Hb. unfold esc. destruct (is_alnum c || _ || _ || _ || _) eqn:E.
  - constructor; unfold is_alnum, is_digit in E; lia.
  - destruct (is_punct c && _) eqn:E2; [|constructor].
    constructor; unfold is_alnum, is_digit, is_punct in *; lia.
Qed.

Lemma text_spec : forall ls, legal_labels ls -> name_text ls (text ls).
Proof.
  intros ls HL. unfold name_text, text. destruct ls as [|l0 ls0]; [auto|].
  generalize dependent (l0 :: ls0). clear. induction 1 as [|l ls [Hl Hb] _ IH]; cbn [flat_map]; [constructor|].
  rewrite <- app_assoc. cbn [app]. constructor; auto.
  clear - Hb. induction Hb; cbn [flat_map]; constructor; auto using esc_char_text.
Qed.

(** to_str, allocating variant *)
Lemma zlen_esc : forall c, 1 <= zlen (esc c) <= 4.
Proof. intros. unfold esc. destruct (_ || _); [|destruct (_ && _)]; unfold zlen, esc_ddd; cbn; lia. Qed.

Lemma putc_ok : forall alloc out cs, zlen out + zlen cs <= alloc -> putc alloc out cs = Ok (out ++ cs).
Proof. intros. unfold putc. replace (_ >? _) with false by lia. auto. Qed.

Lemma to_str_label_none : forall l rest size alloc out rem,
  zlen l + rem <= alloc - zlen out - 1 -> 0 <= rem ->
  exists alloc', to_str_loop (l ++ rest) size None alloc (zlen l) out =
    to_str_loop rest size None alloc' 0 (out ++ flat_map esc l) /\
    rem <= alloc' - zlen (out ++ flat_map esc l) - 1.
Proof.
  induction l as [|c l IH]; intros rest size alloc out rem H Hr.
  - exists alloc. cbn [app flat_map]. rewrite app_nil_r, zlen_nil in *. split; [auto|lia].
  - rewrite zlen_cons in *. cbn [app to_str_loop flat_map]. pose proof (zlen_nonneg l).
    replace (1 + zlen l =? 0) with false by lia. replace (1 + zlen l - 1) with (zlen l) by lia.
    destruct (is_alnum c || _ || _ || _ || _) eqn:E.
    + replace (alloc <=? zlen out + 1) with false by lia. rewrite putc_ok by (rewrite zlen_cons, zlen_nil; lia).
      cbn [rbind]. assert (He : esc c = [c]) by (unfold esc; rewrite E; reflexivity). rewrite He.
      destruct (IH rest size alloc (out ++ [c]) rem) as (al & H1 & H2);
        [rewrite zlen_app, zlen_cons, zlen_nil; lia|lia|].
      exists al. rewrite H1, app_assoc. rewrite <- app_assoc in H2. rewrite app_assoc in H2. auto.
    + destruct (is_punct c && negb (c =? 35)) eqn:E2; cbn [rbind].
      * rewrite putc_ok by (rewrite !zlen_cons, zlen_nil; lia). cbn [rbind].
        assert (He : esc c = [92; c]) by (unfold esc; rewrite E, E2; reflexivity). rewrite He.
        destruct (IH rest size (alloc + 1) (out ++ [92; c]) rem) as (al & H1 & H2);
          [rewrite zlen_app, !zlen_cons, zlen_nil; lia|lia|].
        exists al. rewrite H1, app_assoc. auto.
      * replace (alloc + 3 - zlen out <? 0) with false by lia.
        replace (4 >=? alloc + 3 - zlen out) with false by lia.
        rewrite putc_ok by (rewrite !zlen_cons, zlen_nil; lia). cbn [rbind].
        assert (He : esc c = esc_ddd c) by (unfold esc; rewrite E, E2; reflexivity). rewrite He.
        destruct (IH rest size (alloc + 3) (out ++ esc_ddd c) rem) as (al & H1 & H2);
          [rewrite zlen_app; unfold esc_ddd; rewrite !zlen_cons, zlen_nil; lia|lia|].
        exists al. fold (esc_ddd c). rewrite H1, app_assoc. auto.
Qed.

Definition labels_text_of (ls : list label) : list Z := flat_map (fun l => flat_map esc l ++ [46]) ls.

Lemma flat_esc_nonempty : forall l, legal_label l -> 0 < zlen (flat_map esc l).
Proof.
  intros [|c l] [H _]; [rewrite zlen_nil in H; lia|]. cbn [flat_map]. rewrite zlen_app.
  pose proof (zlen_esc c). pose proof (zlen_nonneg (flat_map esc l)). lia.
Qed.

Lemma to_str_loop_none : forall ls size alloc out, legal_labels ls -> 0 < zlen out ->
  name_size ls <= alloc - zlen out - 1 ->
  exists alloc', to_str_loop (wire ls) size None alloc 0 out =
    Ok (alloc', out ++ 46 :: labels_text_of ls) /\ zlen (out ++ 46 :: labels_text_of ls) < alloc'.
Proof.
  induction ls as [|l ls IH]; intros size alloc out HL Ho H.
  - cbn [wire to_str_loop Z.eqb name_size] in *. replace (zlen out >? 0) with true by lia. cbn [orb].
    replace (alloc <=? zlen out + 1) with false by lia.
    rewrite putc_ok by (rewrite zlen_cons, zlen_nil; lia). cbn [rbind].
    exists alloc. split; [reflexivity|]. rewrite zlen_app, zlen_cons. unfold zlen at 2. cbn. lia.
  - inversion HL as [|? ? Hl HL']; subst. cbn [wire to_str_loop Z.eqb name_size] in *.
    pose proof (name_size_pos ls). pose proof (zlen_nonneg l).
    replace (zlen out >? 0) with true by lia. cbn [orb].
    replace (alloc <=? zlen out + 1) with false by lia.
    rewrite putc_ok by (rewrite zlen_cons, zlen_nil; lia). cbn [rbind].
    destruct (to_str_label_none l (wire ls) size alloc (out ++ [46]) (name_size ls)) as (al & -> & H2);
      [rewrite zlen_app, zlen_cons, zlen_nil; lia|lia|].
    destruct (IH size al ((out ++ [46]) ++ flat_map esc l) HL') as (al' & H3 & H4).
    { rewrite !zlen_app, zlen_cons, zlen_nil. pose proof (zlen_nonneg (flat_map esc l)). lia. }
    { lia. }
    exists al'. rewrite H3. cbn [labels_text_of flat_map]. rewrite <- !app_assoc in *. cbn [app] in *.
    try (rewrite <- !app_assoc in *; cbn [app] in *). auto.
Qed.

Lemma dname_to_str_none : forall ls j, legal_labels ls ->
  dname_to_str (wire ls ++ j) None = Ok (text ls).
Proof.
  intros ls j HL. unfold dname_to_str. rewrite dname_size_spec by auto. cbn [rbind].
  replace (name_size ls + 1 <? name_size ls + 1) with false by lia.
  rewrite <- (zlen_wire ls) at 1. rewrite take_app. cbn [rbind].
  destruct ls as [|l ls].
  - reflexivity.
  - inversion HL as [|? ? Hl HL']; subst. cbn [wire to_str_loop Z.eqb name_size].
    pose proof (name_size_pos ls). pose proof (zlen_nonneg l).
    rewrite zlen_nil. replace (0 >? 0) with false by lia.
    replace (1 + zlen l + name_size ls =? 1) with false by (destruct Hl; lia). cbn [orb].
    destruct (to_str_label_none l (wire ls) (1 + zlen l + name_size ls) (1 + zlen l + name_size ls + 1) [] (name_size ls)) as (al & -> & H2);
      [rewrite zlen_nil; lia|lia|]. cbn [app] in *.
    destruct (to_str_loop_none ls (1 + zlen l + name_size ls) al (flat_map esc l) HL') as (al' & -> & H4).
    { apply flat_esc_nonempty; auto. }
    { lia. }
    cbn [rbind]. replace (_ <? al') with true by lia. cbn [negb text flat_map].
    rewrite <- app_assoc. reflexivity.
Qed.

(** to_str into a supplied buffer *)
Lemma to_str_label_some : forall l rest size mx out, zlen out < mx ->
  to_str_loop (l ++ rest) size (Some mx) mx (zlen l) out =
  if zlen (out ++ flat_map esc l) <? mx
  then to_str_loop rest size (Some mx) mx 0 (out ++ flat_map esc l) else Err RET_NULL.
Proof.
  induction l as [|c l IH]; intros rest size mx out H.
  - cbn [app flat_map]. rewrite app_nil_r, zlen_nil. replace (zlen out <? mx) with true by lia. auto.
  - rewrite zlen_cons in *. cbn [app to_str_loop flat_map]. pose proof (zlen_nonneg l).
    replace (1 + zlen l =? 0) with false by lia. replace (1 + zlen l - 1) with (zlen l) by lia.
    rewrite app_assoc.
    pose proof (zlen_nonneg (flat_map esc l)) as Hfl.
    destruct (is_alnum c || _ || _ || _ || _) eqn:E.
    + assert (He : esc c = [c]) by (unfold esc; rewrite E; reflexivity). rewrite He.
      destruct (mx <=? zlen out + 1) eqn:E3.
      { rewrite !zlen_app, zlen_cons, zlen_nil. replace (_ <? mx) with false by lia. auto. }
      rewrite putc_ok by (rewrite zlen_cons, zlen_nil; lia). cbn [rbind].
      rewrite IH by (rewrite zlen_app, zlen_cons, zlen_nil; lia). reflexivity.
    + destruct (is_punct c && negb (c =? 35)) eqn:E2; cbn [rbind].
      * assert (He : esc c = [92; c]) by (unfold esc; rewrite E, E2; reflexivity). rewrite He.
        destruct (mx <=? zlen out + 2) eqn:E3; cbn [rbind].
        { rewrite !zlen_app, !zlen_cons, zlen_nil. replace (_ <? mx) with false by lia. auto. }
        rewrite putc_ok by (rewrite !zlen_cons, zlen_nil; lia). cbn [rbind].
        rewrite IH by (rewrite zlen_app, !zlen_cons, zlen_nil; lia). reflexivity.
      * assert (He : esc c = esc_ddd c) by (unfold esc; rewrite E, E2; reflexivity). rewrite He.
        destruct (mx <=? zlen out + 4) eqn:E3; cbn [rbind].
        { rewrite !zlen_app. unfold esc_ddd. rewrite !zlen_cons, zlen_nil. replace (_ <? mx) with false by lia. auto. }
        replace (mx - zlen out <? 0) with false by lia.
        replace (4 >=? mx - zlen out) with false by lia.
        rewrite putc_ok by (rewrite !zlen_cons, zlen_nil; lia). cbn [rbind].
        fold (esc_ddd c).
        rewrite IH by (rewrite zlen_app; unfold esc_ddd; rewrite !zlen_cons, zlen_nil; lia). reflexivity.
Qed.

Lemma to_str_loop_some : forall ls size mx out, legal_labels ls -> 0 < zlen out < mx ->
  to_str_loop (wire ls) size (Some mx) mx 0 out =
    if zlen (out ++ 46 :: labels_text_of ls) <? mx then Ok (mx, out ++ 46 :: labels_text_of ls)
    else Err RET_NULL.
Proof.
  induction ls as [|l ls IH]; intros size mx out HL Ho.
  - cbn [wire to_str_loop Z.eqb name_size labels_text_of flat_map] in *. replace (zlen out >? 0) with true by lia. cbn [orb].
    rewrite zlen_app, zlen_cons, zlen_nil.
    destruct (mx <=? zlen out + 1) eqn:E.
    { replace (_ <? mx) with false by lia. auto. }
    rewrite putc_ok by (rewrite zlen_cons, zlen_nil; lia). cbn [rbind].
    replace (_ <? mx) with true by lia. auto.
  - inversion HL as [|? ? Hl HL']; subst. cbn [wire to_str_loop Z.eqb name_size] in *.
    pose proof (zlen_nonneg l). replace (zlen out >? 0) with true by lia. cbn [orb].
    replace (out ++ 46 :: labels_text_of (l :: ls)) with
       (((out ++ [46]) ++ flat_map esc l) ++ 46 :: labels_text_of ls).
    2: { cbn [labels_text_of flat_map]. rewrite <- !app_assoc. cbn [app]. reflexivity. }
    pose proof (zlen_nonneg (flat_map esc l)) as Hfl. pose proof (zlen_nonneg (labels_text_of ls)) as Hft.
    destruct (mx <=? zlen out + 1) eqn:E.
    { rewrite !zlen_app, !zlen_cons, zlen_nil. replace (_ <? mx) with false by lia. auto. }
    rewrite putc_ok by (rewrite zlen_cons, zlen_nil; lia). cbn [rbind].
    rewrite to_str_label_some by (rewrite zlen_app, zlen_cons, zlen_nil; lia).
    destruct (zlen ((out ++ [46]) ++ flat_map esc l) <? mx) eqn:E2.
    + rewrite IH; auto. rewrite !zlen_app, zlen_cons, zlen_nil in *. lia.
    + rewrite (zlen_app _ (46 :: _)). rewrite zlen_cons. replace (_ <? mx) with false by lia. auto.
Qed.

Lemma zlen_text_min : forall ls, legal_labels ls -> name_size ls - 1 <= zlen (labels_text_of ls).
Proof.
  induction 1 as [|l ls Hl _ IH]; [cbn; lia|]. cbn [name_size labels_text_of flat_map].
  rewrite !zlen_app, zlen_cons, zlen_nil. fold (labels_text_of ls).
  assert (zlen l <= zlen (flat_map esc l)).
  { clear. induction l as [|c l IH]; [cbn; lia|]. cbn [flat_map]. rewrite zlen_app, zlen_cons.
    pose proof (zlen_esc c). lia. }
  lia.
Qed.

Lemma text_labels : forall ls, ls <> [] -> text ls = labels_text_of ls.
Proof. intros [|l ls] H; [congruence|reflexivity]. Qed.

Lemma dname_to_str_some : forall ls j mx, legal_labels ls ->
  dname_to_str (wire ls ++ j) (Some mx) =
  if (name_size ls <? mx) && (zlen (text ls) <? mx) then Ok (text ls) else Err RET_NULL.
Proof.
  intros ls j mx HL. unfold dname_to_str. rewrite dname_size_spec by auto. cbn [rbind].
  destruct (mx <? name_size ls + 1) eqn:E.
  { replace (name_size ls <? mx) with false by lia. auto. }
  replace (name_size ls <? mx) with true by lia. cbn [andb].
  rewrite <- (zlen_wire ls) at 1. rewrite take_app. cbn [rbind].
  destruct ls as [|l ls].
  - cbn [name_size] in E. cbn [wire to_str_loop Z.eqb name_size text]. rewrite zlen_nil, zlen_cons, zlen_nil.
    cbn [Z.gtb Z.compare orb]. replace (mx <=? 0 + 1) with false by lia.
    rewrite putc_ok by (rewrite zlen_nil, zlen_cons, zlen_nil; lia). cbn [rbind app].
    cbn [Pos.eqb rbind]. replace (zlen [46] <? mx) with true by (unfold zlen; cbn; lia). replace (1 + 0 <? mx) with true by lia. auto.
  - inversion HL as [|? ? Hl HL']; subst. cbn [wire to_str_loop Z.eqb name_size] in *.
    pose proof (name_size_pos ls). pose proof (zlen_nonneg l). rewrite text_labels by congruence.
    rewrite zlen_nil. replace (0 >? 0) with false by lia.
    replace (1 + zlen l + name_size ls =? 1) with false by (destruct Hl; lia). cbn [orb].
    rewrite to_str_label_some by (rewrite zlen_nil; lia). cbn [app].
    replace (labels_text_of (l :: ls)) with (flat_map esc l ++ 46 :: labels_text_of ls).
    2: { cbn [labels_text_of flat_map]. rewrite <- app_assoc. reflexivity. }
    pose proof (zlen_nonneg (labels_text_of ls)).
    destruct (zlen (flat_map esc l) <? mx) eqn:E2.
    + rewrite to_str_loop_some; auto. 2: { pose proof (flat_esc_nonempty l Hl). lia. }
      destruct (zlen (flat_map esc l ++ 46 :: labels_text_of ls) <? mx) eqn:E3; auto.
      cbn [rbind]. rewrite E3. reflexivity.
    + cbn [rbind]. rewrite zlen_app, zlen_cons. replace (_ <? mx) with false by lia. auto.
Qed.

(** bound on the text length *)
Lemma zlen_flat_esc : forall l, zlen (flat_map esc l) <= 4 * zlen l.
Proof.
  induction l as [|c l IH]; [cbn; lia|]. cbn [flat_map]. rewrite zlen_app, zlen_cons.
  pose proof (zlen_esc c). lia.
Qed.
Lemma text_bound_aux : forall ls, legal_labels ls ->
  zlen (labels_text_of ls) <= 4 * (name_size ls - 1) - 3 * zlen ls /\
  zlen (labels_text_of ls) <= 253 * zlen ls.
Proof.
  induction 1 as [|l ls Hl _ [IH1 IH2]]; [cbn; lia|]. cbn [name_size labels_text_of flat_map].
  rewrite !zlen_app, !zlen_cons, zlen_nil. fold (labels_text_of ls).
  pose proof (zlen_flat_esc l). destruct Hl. lia.
Qed.
Lemma text_bound : forall ls, legal_name ls -> zlen (text ls) <= KNOT_DNAME_TXT_MAXLEN.
Proof.
  intros [|l ls] [HL HS]; [cbv; congruence|]. rewrite text_labels by congruence.
  destruct (text_bound_aux _ HL). unfold KNOT_DNAME_TXT_MAXLEN.
  destruct (Z_lt_ge_dec (zlen (l :: ls)) 4); lia.
Qed.
