(** C64: ECDSA signatures in the forms of DNSSEC and of X.509. *)
From Verif Require Import Base SerialModel DerModel DerSpec.

Lemma blen_app : forall a b, blen (a ++ b) = blen a + blen b.
Proof. intros. unfold blen. rewrite app_length. lia. Qed.
Lemma blen_pos : forall a, 0 <= blen a.
Proof. intros. unfold blen. lia. Qed.
Lemma number_acc : forall l acc, number acc l = acc * 256 ^ blen l + number 0 l.
Proof.
  induction l as [|b l IH]; intros acc; cbn [number]; [unfold blen; cbn [length Z.of_nat]; lia|].
  rewrite IH, (IH (0 * 256 + b)). assert (blen (b :: l) = blen l + 1) as -> by (unfold blen; cbn [length]; lia).
  rewrite Z.pow_add_r by (try apply blen_pos; lia). change (256 ^ 1) with 256. ring.
Qed.
Lemma number_cons : forall b l, number 0 (b :: l) = b * 256 ^ blen l + number 0 l.
Proof. intros. cbn [number]. rewrite number_acc. f_equal. Qed.
Lemma number_bound : forall l, octet_list l -> 0 <= number 0 l < 256 ^ blen l.
Proof.
  induction l as [|b l IH]; intros H; [cbn; lia|]. inversion H as [|? ? Hb Hl]; subst. specialize (IH Hl). rewrite number_cons.
  assert (blen (b :: l) = blen l + 1) as -> by (unfold blen; cbn [length]; lia). rewrite Z.pow_add_r by (try apply blen_pos; lia). change (256 ^ 1) with 256.
  set (P := 256 ^ blen l) in *. nia.
Qed.
Lemma number_inj : forall a b, octet_list a -> octet_list b -> length a = length b -> number 0 a = number 0 b -> a = b.
Proof.
  induction a as [|x a IH]; intros [|y b] Ha Hb Hl Hn; try discriminate; [reflexivity|]. cbn [length] in Hl. injection Hl as Hl.
  inversion Ha as [|? ? Hx Ha']; subst. inversion Hb as [|? ? Hy Hb']; subst. rewrite !number_cons in Hn.
  assert (E : blen a = blen b) by (unfold blen; rewrite Hl; reflexivity). rewrite E in Hn.
  pose proof (number_bound a Ha') as Ba. pose proof (number_bound b Hb') as Bb. rewrite E in Ba. set (P := 256 ^ blen b) in *.
  assert (x = y) by nia. subst y. f_equal. apply IH; auto. lia.
Qed.

(** Without leading zeroes *)
Lemma strip_number : forall v, number 0 (skip_leading_zeroes v) = number 0 v.
Proof. induction v as [|b v IH]; cbn [skip_leading_zeroes]; [reflexivity|]. destruct (b =? 0) eqn:E; [|reflexivity]. rewrite IH, number_cons. assert (b = 0) as -> by lia. lia. Qed.
Lemma strip_octets : forall v, octet_list v -> octet_list (skip_leading_zeroes v).
Proof. induction v as [|b v IH]; intros H; cbn [skip_leading_zeroes]; [constructor|]. inversion H; subst. destruct (b =? 0); [apply IH; assumption|exact H]. Qed.
Lemma strip_head : forall v, match skip_leading_zeroes v with [] => True | b :: _ => b <> 0 end.
Proof. induction v as [|b v IH]; cbn [skip_leading_zeroes]; [exact I|]. destruct (b =? 0) eqn:E; [exact IH|lia]. Qed.
Lemma strip_pad : forall v, v = repeat 0 (length v - length (skip_leading_zeroes v)) ++ skip_leading_zeroes v /\ (length (skip_leading_zeroes v) <= length v)%nat.
Proof.
  induction v as [|b v (IH & L)]; cbn [skip_leading_zeroes]; [split; [reflexivity|apply le_n]|]. destruct (b =? 0) eqn:E.
  - cbn [length]. rewrite Nat.sub_succ_l by exact L. cbn [repeat app]. assert (b = 0) as -> by lia. split; [rewrite <- IH; reflexivity|lia].
  - rewrite Nat.sub_diag. split; [reflexivity|apply le_n].
Qed.
Lemma strip_lower : forall v, octet_list v -> skip_leading_zeroes v <> [] -> 256 ^ (blen (skip_leading_zeroes v) - 1) <= number 0 v.
Proof.
  intros v H Hn. rewrite <- strip_number. pose proof (strip_head v) as Hh. pose proof (strip_octets v H) as Ho. destruct (skip_leading_zeroes v) as [|b l]; [congruence|].
  inversion Ho as [|? ? Hb Hl]; subst. rewrite number_cons. pose proof (number_bound l Hl). assert (blen (b :: l) - 1 = blen l) as -> by (unfold blen; cbn [length]; lia).
  assert (0 < 256 ^ blen l) by (apply Z.pow_pos_nonneg; [lia|apply blen_pos]). nia.
Qed.
Lemma strip_fits : forall v n, octet_list v -> 0 <= n -> blen (skip_leading_zeroes v) <= n <-> number 0 v < 256 ^ n.
Proof.
  intros v n H Hn. split.
  - intros L. pose proof (number_bound _ (strip_octets v H)) as B. rewrite strip_number in B. assert (256 ^ blen (skip_leading_zeroes v) <= 256 ^ n) by (apply Z.pow_le_mono_r; lia). lia.
  - intros L. destruct (skip_leading_zeroes v) as [|b l] eqn:E; [cbn; exact Hn|]. pose proof (strip_lower v H ltac:(rewrite E; discriminate)) as B. rewrite E in B.
    destruct (Z_le_dec (blen (b :: l)) n) as [|C]; [assumption|exfalso]. assert (256 ^ n <= 256 ^ (blen (b :: l) - 1)) by (apply Z.pow_le_mono_r; lia). lia.
Qed.
Lemma strip_unique : forall v v', octet_list v -> octet_list v' -> number 0 v = number 0 v' -> skip_leading_zeroes v = skip_leading_zeroes v'.
Proof.
  intros v v' H H' E. apply number_inj; [apply strip_octets; assumption|apply strip_octets; assumption| |rewrite !strip_number; exact E].
  pose proof (proj1 (strip_fits v (blen (skip_leading_zeroes v)) H (blen_pos _)) ltac:(lia)) as A. rewrite E in A. apply strip_fits in A; [|exact H'|apply blen_pos].
  pose proof (proj1 (strip_fits v' (blen (skip_leading_zeroes v')) H' (blen_pos _)) ltac:(lia)) as B. rewrite <- E in B. apply strip_fits in B; [|exact H|apply blen_pos]. unfold blen in *. lia.
Qed.
(** Written in a width *)
Definition padded (width : Z) (v : list Z) : list Z := repeat 0 (Z.to_nat (width - blen (skip_leading_zeroes v))) ++ skip_leading_zeroes v.
Lemma repeat_len : forall k, blen (repeat 0 k) = Z.of_nat k.
Proof. intros. unfold blen. rewrite repeat_length. reflexivity. Qed.
Lemma number_zeroes : forall k v, number 0 (repeat 0 k ++ v) = number 0 v.
Proof. induction k as [|k IH]; intros v; cbn [repeat app]; [reflexivity|]. rewrite number_cons, IH. lia. Qed.
Lemma padded_number : forall w v, number 0 (padded w v) = number 0 v.
Proof. intros. unfold padded. rewrite number_zeroes. apply strip_number. Qed.
Lemma padded_len : forall w v, blen (skip_leading_zeroes v) <= w -> blen (padded w v) = w.
Proof. intros. unfold padded. rewrite blen_app, repeat_len. lia. Qed.
Lemma padded_octets : forall w v, octet_list v -> octet_list (padded w v).
Proof. intros w v H. unfold padded. apply Forall_app. split; [|apply strip_octets; exact H]. apply Forall_forall. intros x Hx. apply repeat_spec in Hx. lia. Qed.
Lemma write_spec : forall o w v, blen (skip_leading_zeroes v) <= w -> w <= snd o -> bignum_write o w v = Ok (fst o ++ padded w v, snd o - w).
Proof.
  intros o w v Hv Hw. unfold bignum_write. cbv zeta. assert (w - blen (skip_leading_zeroes v) <? 0 = false) as -> by lia. unfold padded. pose proof (blen_pos (skip_leading_zeroes v)).
  destruct (w - blen (skip_leading_zeroes v) >? 0) eqn:E.
  - unfold out_write at 1. rewrite repeat_len. assert (Z.of_nat (Z.to_nat (w - blen (skip_leading_zeroes v))) <=? snd o = true) as -> by lia. cbn [rbind].
    unfold out_write. cbn [fst snd]. assert (blen (skip_leading_zeroes v) <=? snd o - Z.of_nat (Z.to_nat (w - blen (skip_leading_zeroes v))) = true) as -> by lia. rewrite <- app_assoc. f_equal. f_equal. lia.
  - cbn [rbind]. unfold out_write. assert (blen (skip_leading_zeroes v) <=? snd o = true) as -> by lia. replace (Z.to_nat (w - blen (skip_leading_zeroes v))) with 0%nat by lia. cbn [repeat app]. f_equal. f_equal. lia.
Qed.
Lemma land128 : forall b, 0 <= b < 256 -> (Z.land b 128 =? 0) = (b <? 128).
Proof.
  intros b Hb. assert (E : Z.land b 128 = if b <? 128 then 0 else 128).
  { change 128 with (2 ^ 7) at 1. apply Z.bits_inj'. intros i Hi. rewrite Z.land_spec, Z.pow2_bits_eqb by lia. destruct (7 =? i) eqn:Ei.
    - assert (i = 7) as -> by lia. rewrite andb_true_r. rewrite Z.testbit_eqb by lia. change (2 ^ 7) with 128. destruct (b <? 128) eqn:E1.
      + rewrite Z.div_small by lia. reflexivity.
      + assert (b / 128 = 1) as -> by lia. reflexivity.
    - rewrite andb_false_r. destruct (b <? 128); [rewrite Z.bits_0; reflexivity|]. change 128 with (2 ^ 7). rewrite Z.pow2_bits_eqb by lia. symmetry. exact Ei. }
  rewrite E. destruct (b <? 128); reflexivity.
Qed.
Lemma size_s_cases : forall v, octet_list v -> bignum_size_s v = match skip_leading_zeroes v with [] => 1 | b :: _ => if b <? 128 then blen (skip_leading_zeroes v) else blen (skip_leading_zeroes v) + 1 end.
Proof.
  intros v H. unfold bignum_size_s. pose proof (strip_octets v H) as Ho. destruct (skip_leading_zeroes v) as [|b l]; [reflexivity|]. inversion Ho as [|? ? Hb _]; subst. rewrite land128 by exact Hb. destruct (b <? 128); reflexivity.
Qed.
Lemma size_s_bounds : forall v, octet_list v -> blen (skip_leading_zeroes v) <= bignum_size_s v <= blen v + 1 /\ 1 <= bignum_size_s v.
Proof.
  intros v H. rewrite size_s_cases by exact H. pose proof (strip_pad v) as (_ & L). unfold blen in *. destruct (skip_leading_zeroes v) as [|b l]; cbn [length] in *; [lia|]. destruct (b <? 128); lia.
Qed.
Lemma padded_natural : forall v, octet_list v -> der_natural (padded (bignum_size_s v) v).
Proof.
  intros v H. split; [apply padded_octets; exact H|]. rewrite size_s_cases by exact H. unfold padded. pose proof (strip_head v) as Hh. pose proof (strip_octets v H) as Ho. destruct (skip_leading_zeroes v) as [|b l].
  - change (0 < 128). lia.
  - inversion Ho as [|? ? Hb _]; subst. destruct (b <? 128) eqn:E.
    + rewrite Z.sub_diag. cbn [Z.to_nat repeat app]. destruct l as [|b2 l]; lia.
    + replace (blen (b :: l) + 1 - blen (b :: l)) with 1 by lia. change (Z.to_nat 1) with 1%nat. cbn [repeat app]. lia.
Qed.
Lemma header_spec : forall o t n, n < 127 -> 2 <= snd o -> asn1_write_header o t n = Ok (fst o ++ [t; n], snd o - 2).
Proof.
  intros o t n Hn Ho. unfold asn1_write_header, ASN1_MAX_SIZE. assert (n <? 127 = true) as -> by lia. unfold out_write at 1. change (blen [t]) with 1. assert (1 <=? snd o = true) as -> by lia. cbn [rbind].
  unfold out_write. cbn [fst snd]. change (blen [n]) with 1. assert (1 <=? snd o - 1 = true) as -> by lia. rewrite <- app_assoc. f_equal. f_equal. lia.
Qed.
Lemma encode_spec : forall r s, octet_list r -> octet_list s -> bignum_size_s r + bignum_size_s s <= 122 ->
  dss_sig_value_encode r s = Ok (dss_sig (padded (bignum_size_s r) r) (padded (bignum_size_s s) s)).
Proof.
  intros r s Hr Hs Hl. pose proof (size_s_bounds r Hr) as (R1 & R2). pose proof (size_s_bounds s Hs) as (S1 & S2).
  unfold dss_sig_value_encode, ASN1_MAX_SIZE. cbv zeta. set (nr := bignum_size_s r) in *. set (ns := bignum_size_s s) in *.
  assert ((nr >? 127) || (ns >? 127) = false) as -> by lia. assert (2 + nr + 2 + ns >? 127 = false) as -> by lia.
  rewrite header_spec by (cbn [snd]; lia). cbn [rbind fst snd]. unfold asn1_write_integer. rewrite header_spec by (cbn [snd]; lia). cbn [rbind fst snd]. rewrite write_spec by (cbn [snd]; lia). cbn [rbind fst snd].
  rewrite header_spec by (cbn [snd]; lia). cbn [rbind fst snd]. rewrite write_spec by (cbn [snd]; lia). cbn [rbind fst snd].
  assert (2 + (2 + nr + 2 + ns) - 2 - 2 - nr - 2 - ns =? 0 = true) as -> by lia. f_equal.
  pose proof (padded_len nr r ltac:(lia)) as Lr. pose proof (padded_len ns s ltac:(lia)) as Ls. unfold dss_sig, der_object, ASN1_TYPE_INTEGER, ASN1_TYPE_SEQUENCE.
  cbn [app]. rewrite <- !app_assoc. cbn [app]. fold (blen (padded nr r)). fold (blen (padded ns s)). rewrite Lr, Ls. f_equal. f_equal.
  cbn [length]. rewrite app_length. cbn [length]. unfold blen in Lr, Ls. lia.
Qed.
Lemma skip_zeroes_number : forall c, number 0 (skip_zeroes c) = number 0 c.
Proof.
  induction c as [|b c IH]; [reflexivity|]. destruct c as [|b2 c]; [reflexivity|]. cbn [skip_zeroes] in *. destruct (b =? 0) eqn:E; [|reflexivity]. rewrite IH, (number_cons b). assert (b = 0) as -> by lia. lia.
Qed.
Lemma skip_zeroes_octets : forall c, octet_list c -> octet_list (skip_zeroes c).
Proof. induction c as [|b c IH]; intros H; [constructor|]. destruct c as [|b2 c]; [exact H|]. cbn [skip_zeroes] in *. inversion H; subst. destruct (b =? 0); [apply IH; assumption|exact H]. Qed.
Lemma decode_integer_ok : forall w v rest, octet_list w -> asn1_decode_integer w = Ok (v, rest) <-> exists c, w = der_object 2 c ++ rest /\ c <> [] /\ blen c < 128 /\ v = skip_zeroes c.
Proof.
  intros w v rest H. unfold asn1_decode_integer, asn1_expect_type, ASN1_TYPE_INTEGER. split.
  - intros E. destruct w as [|t w]; [discriminate|]. destruct (t =? 2) eqn:Et; [|discriminate]. unfold asn1_decode_size in E. destruct w as [|n w]; [discriminate|].
    inversion H as [|? ? _ H1]; subst. inversion H1 as [|? ? Hn Hw]; subst. rewrite land128 in E by exact Hn. destruct (n <? 128) eqn:En; cbn [negb rbind] in E; [|discriminate].
    destruct ((n =? 0) || (n >? blen w)) eqn:G; [discriminate|]. injection E as <- <-. exists (firstn (Z.to_nat n) w).
    assert (L : length (firstn (Z.to_nat n) w) = Z.to_nat n) by (apply firstn_length_le; unfold blen in G; lia).
    split; [|split; [intros C; rewrite C in L; cbn in L; lia|split; [unfold blen; rewrite L; lia|reflexivity]]].
    unfold der_object. cbn [app]. rewrite L. rewrite firstn_skipn. f_equal; [lia|]. f_equal. lia.
  - intros (c & -> & Hc & Hl & ->). unfold der_object. cbn [app]. change (2 =? 2) with true. cbv iota. cbn [asn1_decode_size]. unfold blen in Hl.
    rewrite land128 by lia. assert (Z.of_nat (length c) <? 128 = true) as -> by lia. cbn [negb rbind].
    assert (length c <> 0%nat) by (destruct c; [congruence|discriminate]). rewrite blen_app. pose proof (blen_pos rest). fold (blen c).
    assert ((blen c =? 0) || (blen c >? blen c + blen rest) = false) as -> by (unfold blen in *; lia). unfold blen. rewrite Nat2Z.id. rewrite firstn_app, firstn_all, Nat.sub_diag, skipn_app, skipn_all, Nat.sub_diag. cbn [firstn skipn app]. rewrite app_nil_r. reflexivity.
Qed.
Lemma decode_integer_total : forall w, octet_list w -> match asn1_decode_integer w with Ok _ | Err _ => True | _ => False end.
Proof.
  intros w H. unfold asn1_decode_integer. destruct (asn1_expect_type w ASN1_TYPE_INTEGER) as [w1|]; [|exact I]. destruct w1 as [|b w1]; cbn [asn1_decode_size rbind]; [exact I|].
  destruct (negb (Z.land b 128 =? 0)); cbn [rbind]; [exact I|]. destruct ((b =? 0) || (b >? blen w1)); exact I.
Qed.
Lemma object_octets : forall t c rest, octet_list (der_object t c ++ rest) -> octet_list c /\ octet_list rest.
Proof. intros t c rest H. unfold der_object in H. cbn [app] in H. inversion H as [|? ? _ H1]; subst. inversion H1 as [|? ? _ H2]; subst. apply Forall_app in H2. exact H2. Qed.
Lemma decode_spec : forall x r s, octet_list x -> dss_sig_value_decode x = Ok (r, s) <->
  exists cr cs, x = dss_sig cr cs /\ cr <> [] /\ cs <> [] /\ blen cr + blen cs < 124 /\ r = skip_zeroes cr /\ s = skip_zeroes cs.
Proof.
  intros x r s H. unfold dss_sig_value_decode, asn1_expect_type, ASN1_TYPE_SEQUENCE. split.
  - intros E. destruct x as [|t w]; [discriminate|]. destruct (t =? 48) eqn:Et; [|discriminate]. unfold asn1_decode_size in E. destruct w as [|n w]; [discriminate|].
    inversion H as [|? ? _ H1]; subst. inversion H1 as [|? ? Hn Hw]; subst. rewrite land128 in E by exact Hn. destruct (n <? 128) eqn:En; cbn [negb rbind] in E; [|discriminate].
    destruct (n =? blen w) eqn:Eq; cbn [negb] in E; [|discriminate].
    destruct (asn1_decode_integer w) as [[v1 w1]|?| |] eqn:E1; cbn [rbind] in E; try discriminate. apply decode_integer_ok in E1; [|exact Hw]. destruct E1 as (cr & -> & Cr & Lr & ->).
    apply object_octets in Hw. destruct Hw as (_ & Hw1).
    destruct (asn1_decode_integer w1) as [[v2 w2]|?| |] eqn:E2; cbn [rbind] in E; try discriminate. apply decode_integer_ok in E2; [|exact Hw1]. destruct E2 as (cs & -> & Cs & Ls & ->).
    destruct (blen w2 =? 0) eqn:E3; cbn [negb] in E; [|discriminate]. injection E as <- <-. assert (w2 = []) as -> by (destruct w2; [reflexivity|unfold blen in E3; cbn in E3; lia]). rewrite app_nil_r in *.
    exists cr, cs. split; [assert (t = 48) as -> by lia; assert (n = blen (der_object 2 cr ++ der_object 2 cs)) as -> by lia; reflexivity|]. split; [exact Cr|]. split; [exact Cs|].
    split; [|split; reflexivity]. rewrite blen_app in Eq. unfold der_object, blen in Eq. cbn [length] in Eq. unfold blen. lia.
  - intros (cr & cs & -> & Cr & Cs & L & -> & ->). pose proof (blen_pos cr). pose proof (blen_pos cs). unfold dss_sig, der_object at 1. change (48 =? 48) with true. cbv iota. cbn [asn1_decode_size].
    assert (LL : Z.of_nat (length (der_object 2 cr ++ der_object 2 cs)) = blen cr + blen cs + 4) by (rewrite app_length; unfold der_object, blen; cbn [length]; lia).
    rewrite LL. rewrite land128 by lia. assert (blen cr + blen cs + 4 <? 128 = true) as -> by lia. cbn [negb rbind]. unfold blen at 3. rewrite LL. rewrite Z.eqb_refl. cbn [negb].
    assert (Ho : octet_list (der_object 2 cr ++ der_object 2 cs ++ [])).
    { rewrite app_nil_r. unfold dss_sig, der_object at 1 in H. inversion H as [|? ? _ H8]; subst. inversion H8; subst; assumption. }
    assert (E1 : asn1_decode_integer (der_object 2 cr ++ der_object 2 cs) = Ok (skip_zeroes cr, der_object 2 cs)).
    { apply decode_integer_ok; [rewrite app_nil_r in Ho; exact Ho|]. exists cr. repeat split; auto; lia. }
    rewrite E1. cbn [rbind]. apply object_octets in Ho. destruct Ho as (_ & Ho).
    assert (E2 : asn1_decode_integer (der_object 2 cs) = Ok (skip_zeroes cs, [])).
    { apply decode_integer_ok; [rewrite app_nil_r in Ho; exact Ho|]. exists cs. rewrite app_nil_r. repeat split; auto; lia. }
    rewrite E2. cbn [rbind]. reflexivity.
Qed.
Lemma size_u_fits : forall v n, octet_list v -> 1 <= n -> (bignum_size_u v >? n) = (256 ^ n <=? number 0 v).
Proof.
  intros v n H Hn. pose proof (strip_fits v n H ltac:(lia)) as F. unfold bignum_size_u. cbv zeta. pose proof (blen_pos (skip_leading_zeroes v)). destruct (blen (skip_leading_zeroes v) =? 0) eqn:E; lia.
Qed.

(** The algorithms 13 and 14 have numbers of 32 and 48 octets. *)
Definition ecdsa (alg n : Z) : Prop := (alg = 13 /\ n = 32) \/ (alg = 14 /\ n = 48).
Lemma ecdsa_size : forall alg n, ecdsa alg n -> ecdsa_sign_integer_size alg = n /\ (n = 32 \/ n = 48).
Proof. intros alg n [(-> & ->)|(-> & ->)]; split; try reflexivity; lia. Qed.
Lemma to_dnssec_spec : forall alg n cr cs, ecdsa alg n -> octet_list (dss_sig cr cs) -> cr <> [] -> cs <> [] -> blen cr + blen cs < 124 ->
  ecdsa_x509_to_dnssec alg (dss_sig cr cs) = if (256 ^ n <=? number 0 cr) || (256 ^ n <=? number 0 cs) then Err DNSSEC_MALFORMED_DATA else Ok (padded n (skip_zeroes cr) ++ padded n (skip_zeroes cs)).
Proof.
  intros alg n cr cs Ha Ho Cr Cs L. destruct (ecdsa_size alg n Ha) as (Es & Hn). unfold ecdsa_x509_to_dnssec.
  assert (E : dss_sig_value_decode (dss_sig cr cs) = Ok (skip_zeroes cr, skip_zeroes cs)) by (apply decode_spec; [exact Ho|]; exists cr, cs; repeat split; auto). rewrite E. cbn [rbind]. rewrite Es.
  assert (Hw : octet_list cr /\ octet_list cs). { unfold dss_sig, der_object at 1 in Ho. inversion Ho as [|? ? _ H1]; subst. inversion H1 as [|? ? _ H2]; subst. apply object_octets in H2. destruct H2 as (A & B). split; [exact A|]. rewrite <- (app_nil_r (der_object 2 cs)) in B. apply object_octets in B. tauto. }
  destruct Hw as (Or & Os). rewrite !size_u_fits, !skip_zeroes_number by (try apply skip_zeroes_octets; auto; lia).
  destruct ((256 ^ n <=? number 0 cr) || (256 ^ n <=? number 0 cs)) eqn:G; [reflexivity|].
  assert (Fr : blen (skip_leading_zeroes (skip_zeroes cr)) <= n) by (apply strip_fits; [apply skip_zeroes_octets; exact Or|lia|rewrite skip_zeroes_number; lia]).
  assert (Fs : blen (skip_leading_zeroes (skip_zeroes cs)) <= n) by (apply strip_fits; [apply skip_zeroes_octets; exact Os|lia|rewrite skip_zeroes_number; lia]).
  rewrite write_spec by (cbn [snd]; lia). cbn [rbind fst snd]. rewrite write_spec by (cbn [snd]; lia). cbn [rbind fst snd app]. assert (2 * n - n - n =? 0 = true) as -> by lia. reflexivity.
Qed.
Lemma dss_octets : forall cr cs, octet_list cr -> octet_list cs -> blen cr + blen cs < 124 -> octet_list (dss_sig cr cs).
Proof.
  intros cr cs Hr Hs L. pose proof (blen_pos cr). pose proof (blen_pos cs). unfold dss_sig, der_object. unfold blen in *. repeat (constructor; [rewrite ?app_length; cbn [length]; lia|]). apply Forall_app. split; [exact Hr|].
  constructor; [lia|]. constructor; [lia|]. exact Hs.
Qed.
Lemma octets_of_dss : forall cr cs, octet_list (dss_sig cr cs) -> octet_list cr /\ octet_list cs.
Proof.
  intros cr cs Ho. unfold dss_sig, der_object at 1 in Ho. inversion Ho as [|? ? _ H1]; subst. inversion H1 as [|? ? _ H2]; subst. apply object_octets in H2. destruct H2 as (A & B). split; [exact A|].
  rewrite <- (app_nil_r (der_object 2 cs)) in B. apply object_octets in B. tauto.
Qed.
(** What the server signs with, in X.509 form, is the DER encoding of the two numbers. *)
Theorem c64_encoded : forall alg n d, ecdsa alg n -> octet_list d -> Z.of_nat (length d) = 2 * n ->
  exists cr cs, ecdsa_dnssec_to_x509 alg d = Ok (dss_sig cr cs) /\ der_natural cr /\ der_natural cs /\ rfc6605 (Z.to_nat n) d (number 0 cr) (number 0 cs) /\ Z.of_nat (length cr) + Z.of_nat (length cs) < 124.
Proof.
  intros alg n d Ha Ho Hl. destruct (ecdsa_size alg n Ha) as (Es & Hn). unfold ecdsa_dnssec_to_x509. rewrite Es. unfold blen. rewrite Hl, Z.eqb_refl. cbn [negb].
  set (r := firstn (Z.to_nat n) d). set (s := skipn (Z.to_nat n) d). assert (Ed : d = r ++ s) by (symmetry; apply firstn_skipn).
  assert (Lr : length r = Z.to_nat n) by (apply firstn_length_le; lia). assert (Ls : length s = Z.to_nat n) by (unfold s; rewrite skipn_length; lia).
  assert (Or : octet_list r /\ octet_list s) by (rewrite Ed in Ho; apply Forall_app in Ho; exact Ho). destruct Or as (Or & Os).
  pose proof (size_s_bounds r Or) as (Br & _). pose proof (size_s_bounds s Os) as (Bs & _). unfold blen at 2 in Br. unfold blen at 2 in Bs.
  exists (padded (bignum_size_s r) r), (padded (bignum_size_s s) s). split; [apply encode_spec; auto; lia|]. split; [apply padded_natural; exact Or|]. split; [apply padded_natural; exact Os|].
  split; [|fold (blen (padded (bignum_size_s r) r)); fold (blen (padded (bignum_size_s s) s)); rewrite !padded_len by lia; lia].
  split; [exact Ho|]. exists r, s. rewrite !padded_number. repeat split; auto.
Qed.
(** A signature in X.509 form is accepted exactly if it encodes two numbers that fit, and gives these numbers. *)
Theorem c64_decoded : forall alg n x, ecdsa alg n -> octet_list x ->
  (forall d, ecdsa_x509_to_dnssec alg x = Ok d <-> exists cr cs, x = dss_sig cr cs /\ cr <> [] /\ cs <> [] /\ Z.of_nat (length cr) + Z.of_nat (length cs) < 124 /\
     number 0 cr < 256 ^ n /\ number 0 cs < 256 ^ n /\ rfc6605 (Z.to_nat n) d (number 0 cr) (number 0 cs)) /\
  match ecdsa_x509_to_dnssec alg x with Ok _ | Err _ => True | _ => False end.
Proof.
  intros alg n x Ha Ho. destruct (ecdsa_size alg n Ha) as (Es & Hn).
  assert (Pr : forall c, octet_list c -> number 0 c < 256 ^ n -> length (padded n (skip_zeroes c)) = Z.to_nat n /\ number 0 (padded n (skip_zeroes c)) = number 0 c /\ octet_list (padded n (skip_zeroes c))).
  { intros c Oc Hc. assert (F : blen (skip_leading_zeroes (skip_zeroes c)) <= n) by (apply strip_fits; [apply skip_zeroes_octets; exact Oc|lia|rewrite skip_zeroes_number; exact Hc]).
    pose proof (padded_len n (skip_zeroes c) F) as L. split; [unfold blen in L; lia|]. split; [rewrite padded_number; apply skip_zeroes_number|apply padded_octets, skip_zeroes_octets; exact Oc]. }
  split.
  - intros d. split.
    + intros E. pose proof E as E0. unfold ecdsa_x509_to_dnssec in E0. destruct (dss_sig_value_decode x) as [[r s]|?| |] eqn:D; try discriminate. clear E0. apply decode_spec in D; [|exact Ho].
      destruct D as (cr & cs & -> & Cr & Cs & L & _). rewrite (to_dnssec_spec alg n cr cs Ha Ho Cr Cs L) in E. destruct ((256 ^ n <=? number 0 cr) || (256 ^ n <=? number 0 cs)) eqn:G; [discriminate|]. injection E as <-.
      destruct (octets_of_dss cr cs Ho) as (Or & Os). destruct (Pr cr Or ltac:(lia)) as (A1 & A2 & A3). destruct (Pr cs Os ltac:(lia)) as (B1 & B2 & B3).
      exists cr, cs. repeat match goal with |- _ /\ _ => split end; auto; try lia. split; [apply Forall_app; split; assumption|]. eexists _, _. split; [reflexivity|]. repeat split; auto.
    + intros (cr & cs & -> & Cr & Cs & L & Fr & Fs & (Od & lr & ls & -> & L1 & L2 & N1 & N2)). rewrite (to_dnssec_spec alg n cr cs Ha Ho Cr Cs L). assert ((256 ^ n <=? number 0 cr) || (256 ^ n <=? number 0 cs) = false) as -> by lia.
      destruct (octets_of_dss cr cs Ho) as (Or & Os). destruct (Pr cr Or Fr) as (A1 & A2 & A3). destruct (Pr cs Os Fs) as (B1 & B2 & B3). apply Forall_app in Od. destruct Od as (O1 & O2).
      f_equal. f_equal; apply number_inj; auto; lia.
  - destruct (ecdsa_x509_to_dnssec alg x) eqn:E; try exact I; exfalso.
    all: pose proof E as E0; unfold ecdsa_x509_to_dnssec in E0; destruct (dss_sig_value_decode x) as [[r s]|?| |] eqn:D; try discriminate.
    all: try (apply decode_spec in D; [|exact Ho]; destruct D as (cr & cs & -> & Cr & Cs & L & _); rewrite (to_dnssec_spec alg n cr cs Ha Ho Cr Cs L) in E; destruct ((256 ^ n <=? number 0 cr) || (256 ^ n <=? number 0 cs)); discriminate).
    all: clear E E0; unfold dss_sig_value_decode in D; destruct x as [|t w]; cbn [asn1_expect_type] in D; try discriminate; destruct (t =? ASN1_TYPE_SEQUENCE); try discriminate; destruct w as [|m w]; cbn [asn1_decode_size rbind] in D; try discriminate; destruct (negb (Z.land m 128 =? 0)); cbn [rbind] in D; try discriminate; destruct (negb (m =? blen w)); try discriminate.
    all: inversion Ho as [|? ? _ H1]; subst; inversion H1 as [|? ? _ H2]; subst; pose proof (decode_integer_total w H2) as T1; destruct (asn1_decode_integer w) as [[v1 w1]|?| |] eqn:E1; try contradiction; cbn [rbind] in D; try discriminate.
    all: apply decode_integer_ok in E1; [|exact H2]; destruct E1 as (c1 & -> & _); apply object_octets in H2; destruct H2 as (_ & H2); pose proof (decode_integer_total w1 H2) as T2; destruct (asn1_decode_integer w1) as [[v2 w2]|?| |]; try contradiction; cbn [rbind] in D; try discriminate; destruct (negb (blen w2 =? 0)); discriminate.
Qed.
(** There and back again *)
Lemma natural_nonempty : forall c, der_natural c -> c <> [].
Proof. intros c (_ & H) ->. exact H. Qed.
Theorem c64_round_trip : forall alg n d, ecdsa alg n -> octet_list d -> Z.of_nat (length d) = 2 * n -> exists x, ecdsa_dnssec_to_x509 alg d = Ok x /\ ecdsa_x509_to_dnssec alg x = Ok d.
Proof.
  intros alg n d Ha Ho Hl. destruct (c64_encoded alg n d Ha Ho Hl) as (cr & cs & E & Nr & Ns & R & L). exists (dss_sig cr cs). split; [exact E|].
  pose proof Nr as (Or & _). pose proof Ns as (Os & _). assert (Ox : octet_list (dss_sig cr cs)) by (apply dss_octets; auto).
  apply (c64_decoded alg n _ Ha Ox). exists cr, cs. pose proof R as (Od & lr & ls & Ed & L1 & L2 & N1 & N2). rewrite Ed in Od. apply Forall_app in Od. destruct Od as (O1 & O2).
  pose proof (number_bound lr O1) as B1. pose proof (number_bound ls O2) as B2. destruct (ecdsa_size alg n Ha) as (_ & Hn).
  assert (E1 : blen lr = n) by (unfold blen; lia). assert (E2 : blen ls = n) by (unfold blen; lia). rewrite E1 in B1. rewrite E2 in B2.
  repeat match goal with |- _ /\ _ => split end; auto; try apply natural_nonempty; auto; lia.
Qed.
Lemma natural_padded : forall c, der_natural c -> forall v, octet_list v -> number 0 v = number 0 c -> padded (bignum_size_s v) v = c.
Proof.
  intros c (Oc & Hc) v Ov E. pose proof (strip_unique v c Ov Oc E) as S. apply number_inj; [apply padded_octets; exact Ov|exact Oc| |rewrite padded_number; exact E].
  pose proof (size_s_bounds v Ov) as (B & _). pose proof (padded_len (bignum_size_s v) v ltac:(lia)) as L. enough (bignum_size_s v = blen c) by (unfold blen in *; lia).
  rewrite size_s_cases by exact Ov. rewrite S. destruct c as [|b [|b2 c]]; [contradiction| |].
  - cbn [skip_leading_zeroes]. destruct (b =? 0) eqn:E0; [reflexivity|]. assert (b <? 128 = true) as -> by lia. reflexivity.
  - cbn [skip_leading_zeroes]. destruct (b =? 0) eqn:E0.
    + assert (b2 =? 0 = false) as -> by lia. assert (b2 <? 128 = false) as -> by lia. unfold blen. cbn [length]. lia.
    + assert (b <? 128 = true) as -> by lia. reflexivity.
Qed.
Theorem c64_round_trip_x509 : forall alg n cr cs, ecdsa alg n -> der_natural cr -> der_natural cs -> number 0 cr < 256 ^ n -> number 0 cs < 256 ^ n ->
  exists d, ecdsa_x509_to_dnssec alg (dss_sig cr cs) = Ok d /\ ecdsa_dnssec_to_x509 alg d = Ok (dss_sig cr cs).
Proof.
  intros alg n cr cs Ha Nr Ns Fr Fs. destruct (ecdsa_size alg n Ha) as (Es & Hn). pose proof Nr as (Or & _). pose proof Ns as (Os & _).
  assert (Len : forall c, der_natural c -> number 0 c < 256 ^ n -> blen c <= n + 1).
  { intros c Nc Fc. pose proof Nc as (Oc & _). pose proof (natural_padded c Nc c Oc eq_refl) as P. pose proof (size_s_bounds c Oc) as (B & _). pose proof (padded_len (bignum_size_s c) c ltac:(lia)) as L. rewrite P in L. apply strip_fits in Fc; [|exact Oc|lia].
    rewrite L, size_s_cases by exact Oc. destruct (skip_leading_zeroes c) as [|b l]; [lia|]. destruct (b <? 128); lia. }
  pose proof (Len cr Nr Fr) as Lr. pose proof (Len cs Ns Fs) as Ls. assert (Ox : octet_list (dss_sig cr cs)) by (apply dss_octets; auto; lia).
  pose proof (to_dnssec_spec alg n cr cs Ha Ox (natural_nonempty cr Nr) (natural_nonempty cs Ns) ltac:(lia)) as E. assert ((256 ^ n <=? number 0 cr) || (256 ^ n <=? number 0 cs) = false) as G by lia. rewrite G in E.
  exists (padded n (skip_zeroes cr) ++ padded n (skip_zeroes cs)). split; [exact E|].
  assert (Fr' : blen (skip_leading_zeroes (skip_zeroes cr)) <= n) by (apply strip_fits; [apply skip_zeroes_octets; exact Or|lia|rewrite skip_zeroes_number; lia]).
  assert (Fs' : blen (skip_leading_zeroes (skip_zeroes cs)) <= n) by (apply strip_fits; [apply skip_zeroes_octets; exact Os|lia|rewrite skip_zeroes_number; lia]).
  pose proof (padded_len n _ Fr') as L1. pose proof (padded_len n _ Fs') as L2. unfold ecdsa_dnssec_to_x509. rewrite Es, blen_app, L1, L2. assert (n + n =? 2 * n = true) as -> by lia. cbn [negb].
  set (p := padded n (skip_zeroes cr)) in *. set (q := padded n (skip_zeroes cs)) in *. assert (Lp : Z.to_nat n = length p) by (unfold blen in L1; lia).
  rewrite Lp, firstn_app, firstn_all, Nat.sub_diag, skipn_app, skipn_all, Nat.sub_diag. cbn [firstn skipn app]. rewrite app_nil_r.
  assert (Op : octet_list p) by (apply padded_octets, skip_zeroes_octets; exact Or). assert (Oq : octet_list q) by (apply padded_octets, skip_zeroes_octets; exact Os).
  assert (Np : number 0 p = number 0 cr) by (unfold p; rewrite padded_number; apply skip_zeroes_number). assert (Nq : number 0 q = number 0 cs) by (unfold q; rewrite padded_number; apply skip_zeroes_number).
  pose proof (natural_padded cr Nr p Op Np) as Pp. pose proof (natural_padded cs Ns q Oq Nq) as Pq. pose proof (size_s_bounds p Op) as (Bp & _). pose proof (size_s_bounds q Oq) as (Bq & _).
  rewrite encode_spec by (auto; lia). rewrite Pp, Pq. reflexivity.
Qed.
(** A signature of another length is refused. *)
Theorem c64_wrong_length : forall alg n d, ecdsa alg n -> Z.of_nat (length d) <> 2 * n -> ecdsa_dnssec_to_x509 alg d = Err (-1481).
Proof.
  intros alg n d Ha Hl. destruct (ecdsa_size alg n Ha) as (Es & _). unfold ecdsa_dnssec_to_x509, blen. rewrite Es. assert (Z.of_nat (length d) =? 2 * n = false) as -> by lia. reflexivity.
Qed.
(** A small r and an s with its high bit set *)
Example c64_example : let d := repeat 0 31 ++ [5] ++ [200] ++ repeat 1 31 in
  ecdsa_dnssec_to_x509 13 d = Ok (dss_sig [5] ([0; 200] ++ repeat 1 31)) /\ ecdsa_x509_to_dnssec 13 (dss_sig [5] ([0; 200] ++ repeat 1 31)) = Ok d.
Proof. split; vm_compute; reflexivity. Qed.
(** Signatures that are not DER are accepted as well: a needless zero, or a number that X.690 reads as negative. *)
Theorem c64_only_der_refuted : exists cr cs d, ~ der_natural cr /\ ~ der_natural cs /\ octet_list (dss_sig cr cs) /\ ecdsa_x509_to_dnssec 13 (dss_sig cr cs) = Ok d.
Proof.
  exists [0; 5], [200], (repeat 0 31 ++ [5] ++ repeat 0 31 ++ [200]). repeat match goal with |- _ /\ _ => split end.
  - intros (_ & H). cbn in H. lia.
  - intros (_ & H). cbn in H. lia.
  - apply dss_octets; [repeat constructor; lia|repeat constructor; lia|vm_compute; reflexivity].
  - vm_compute. reflexivity.
Qed.
(** The function for pairs of any size lets a sequence of 127 octets pass its checks and then fails its assertion. *)
Theorem c64_longest_refuted : exists r s, octet_list r /\ octet_list s /\ bignum_size_s r <= ASN1_MAX_SIZE /\ bignum_size_s s <= ASN1_MAX_SIZE /\ 2 + bignum_size_s r + 2 + bignum_size_s s <= ASN1_MAX_SIZE /\ dss_sig_value_encode r s = UB.
Proof.
  exists (repeat 1 61), (repeat 1 62). repeat match goal with |- _ /\ _ => split end; try (vm_compute; congruence).
  - apply Forall_forall. intros x Hx. apply repeat_spec in Hx. lia.
  - apply Forall_forall. intros x Hx. apply repeat_spec in Hx. lia.
Qed.

Print Assumptions c64_encoded.
Print Assumptions c64_decoded.
Print Assumptions c64_round_trip.
Print Assumptions c64_round_trip_x509.
Print Assumptions c64_wrong_length.
Print Assumptions c64_only_der_refuted.
Print Assumptions c64_longest_refuted.
