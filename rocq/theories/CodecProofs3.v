From Verif Require Import Base DnameSpec CodecModel CodecSpec CodecProofs.

Lemma b32_lower_enc_ok : enc_table base32hex_enc 32 b32hex_lower.
Proof. enc_sweep base32hex_enc 32 b32hex_lower. Qed.
Lemma lower_digit : forall c d, b32hex_lower c = Some d -> b32hex_digit c = Some d.
Proof.
  intros c d. unfold b32hex_lower, b32hex_digit.
  destruct ((48 <=? c) && (c <=? 57)) eqn:E1; auto. destruct ((65 <=? c) && (c <=? 86)) eqn:E2; auto.
  destruct ((97 <=? c) && (c <=? 118)) eqn:E3; [lia|discriminate].
Qed.
Lemma lower_mono : forall c1 c2 d1 d2, b32hex_lower c1 = Some d1 -> b32hex_lower c2 = Some d2 ->
  (c1 ?= c2) = (d1 ?= d2) /\ 0 <= d1 < 32.
Proof.
  intros c1 c2 d1 d2. unfold b32hex_lower.
  destruct ((48 <=? c1) && (c1 <=? 57)) eqn:E1; [intros [= <-]|destruct ((97 <=? c1) && (c1 <=? 118)) eqn:E1'; [intros [= <-]|discriminate]];
  (destruct ((48 <=? c2) && (c2 <=? 57)) eqn:E2; [intros [= <-]|destruct ((97 <=? c2) && (c2 <=? 118)) eqn:E2'; [intros [= <-]|discriminate]]);
  (split; [|lia]); match goal with |- (?a ?= ?b) = (?c ?= ?d) => destruct (Z.compare_spec a b), (Z.compare_spec c d); auto; lia end.
Qed.

Lemma digits_weaken : forall (f g : Z -> option Z) cs ds, (forall c d, f c = Some d -> g c = Some d) -> digits_of f cs ds -> digits_of g cs ds.
Proof. unfold digits_of. induction 2; constructor; auto. Qed.
Lemma b32_text_weaken : forall (f g : Z -> option Z) t bs, (forall c d, f c = Some d -> g c = Some d) ->
  b32_text strict_group f t bs -> b32_text strict_group g t bs.
Proof.
  intros f g t bs Hfg. assert (HG : forall b u cs bs, strict_group f b u cs bs -> strict_group g b u cs bs).
  { intros b u cs bs' (ds & H1 & H2). exists ds. split; [|auto]. eapply digits_weaken; eauto. }
  induction 1; econstructor; eauto.
Qed.

(** ** encoding *)
Lemma list_ind5 : forall (P : list Z -> Prop), P [] -> (forall a, P [a]) -> (forall a b, P [a; b]) -> (forall a b c, P [a; b; c]) ->
  (forall a b c d, P [a; b; c; d]) ->
  (forall a b c d e l, P l -> P (a :: b :: c :: d :: e :: l)) -> forall l, P l.
Proof.
  intros P H0 H1 H2 H3 H4 H5. assert (G : forall n l, (length l <= n)%nat -> P l).
  { induction n; intros l Hl; [destruct l; [auto|cbn in Hl; lia]|].
    destruct l as [|a [|b [|c [|d [|e l]]]]]; auto. apply H5. apply IHn. cbn in Hl. lia. }
  intros l. apply (G (length l)). lia.
Qed.

Ltac etab := match goal with
  |- context [tab base32hex_enc ?x] =>
    let c := fresh "t" in let E := fresh "E" in let D := fresh "D" in
    destruct (b32_lower_enc_ok x) as (c & E & D & _); [lia|]; rewrite E; clear E; cbn [rbind] end.
Ltac prep := rewrite ?lor_add by (rewrite ?sr by lia; lia); rewrite ?land62, ?land124 by auto; rewrite ?land7, ?land1', ?land15, ?land3, ?land31, ?sr, ?sl by lia.

Lemma b32_encode_loop_spec : forall inp out_len text, bytes inp ->
  zlen text + ((zlen inp + 4) / 5) * 8 <= out_len ->
  exists t, b32_encode_loop inp out_len text = Ok (text ++ t) /\
    zlen t = ((zlen inp + 4) / 5) * 8 /\ b32_text strict_group b32hex_lower t inp.
Proof.
  intros inp out_len. induction inp as [|a|a b|a b c|a b c d|a b c d e l IH] using list_ind5; intros text HB Hl; cbn [b32_encode_loop]; cbv zeta.
  - exists []. rewrite app_nil_r. split; [auto|]. split; [reflexivity|constructor].
  - inversion HB as [|? ? Ba _]; subst. pose proof Ba as Ba'; unfold byte in Ba'. prep. repeat etab.
    exists ([t; t0] ++ [61;61;61;61;61;61]). zl. rewrite put_ok by (zl; lia). split; [auto|]. split; [lia|]. apply b32_one; auto.
    eexists. split; [repeat constructor; eauto|]. split; [repeat constructor; apply Ba|]. unfold value; cbn [fold_left]. lia.
  - inversion HB as [|? ? Ba HB1]; inversion HB1 as [|? ? Bb HB2]; subst. pose proof Ba as Ba'; pose proof Bb as Bb'; unfold byte in Ba', Bb'. prep. repeat etab.
    exists ([t; t0; t1; t2] ++ [61;61;61;61]). zl. rewrite put_ok by (zl; lia). split; [auto|]. split; [lia|]. apply b32_two; auto.
    eexists. split; [repeat constructor; eauto|]. split; [repeat constructor; apply Ba || apply Bb|]. unfold value; cbn [fold_left]. lia.
  - inversion HB as [|? ? Ba HB1]; inversion HB1 as [|? ? Bb HB2]; inversion HB2 as [|? ? Bc HB3]; subst.
    pose proof Ba as Ba'; pose proof Bb as Bb'; pose proof Bc as Bc'; unfold byte in Ba', Bb', Bc'. prep. repeat etab.
    exists ([t; t0; t1; t2; t3] ++ [61;61;61]). zl. rewrite put_ok by (zl; lia). split; [auto|]. split; [lia|]. apply b32_three; auto.
    eexists. split; [repeat constructor; eauto|]. split; [auto|]. unfold value; cbn [fold_left]. lia.
  - inversion HB as [|? ? Ba HB1]; inversion HB1 as [|? ? Bb HB2]; inversion HB2 as [|? ? Bc HB3]; inversion HB3 as [|? ? Bd HB4]; subst.
    pose proof Ba as Ba'; pose proof Bb as Bb'; pose proof Bc as Bc'; pose proof Bd as Bd'; unfold byte in Ba', Bb', Bc', Bd'. prep. repeat etab.
    exists ([t; t0; t1; t2; t3; t4; t5] ++ [61]). zl. rewrite put_ok by (zl; lia). split; [auto|]. split; [lia|]. apply b32_four; auto.
    eexists. split; [repeat constructor; eauto|]. split; [auto|]. unfold value; cbn [fold_left]. lia.
  - inversion HB as [|? ? Ba HB1]; inversion HB1 as [|? ? Bb HB2]; inversion HB2 as [|? ? Bc HB3]; inversion HB3 as [|? ? Bd HB4]; inversion HB4 as [|? ? Be HB5]; subst.
    pose proof Ba as Ba'; pose proof Bb as Bb'; pose proof Bc as Bc'; pose proof Bd as Bd'; pose proof Be as Be'; unfold byte in Ba', Bb', Bc', Bd', Be'. prep. repeat etab.
    zl. pose proof (zlen_nonneg l). rewrite put_ok by (zl; lia). cbn [rbind].
    destruct (IH (text ++ [t; t0; t1; t2; t3; t4; t5; t6])) as (r & -> & Hr & HT); auto; [zl; lia|].
    exists ([t; t0; t1; t2; t3; t4; t5; t6] ++ r). rewrite app_assoc. split; [auto|]. split; [zl; lia|].
    apply (b32_full _ _ [t; t0; t1; t2; t3; t4; t5; t6] [a;b;c;d;e]); auto.
    eexists. split; [repeat constructor; eauto|]. split; [repeat constructor; lia|]. unfold value; cbn [fold_left]. lia.
Qed.

(** ** order *)
Lemma octets_cmp_app : forall a b x y, length a = length b ->
  octets_cmp (a ++ x) (b ++ y) = match octets_cmp a b with Eq => octets_cmp x y | c => c end.
Proof.
  induction a as [|u a IH]; intros [|v b] x y H; try discriminate; cbn [app octets_cmp]; auto.
  destruct (u ?= v); auto.
Qed.
Lemma value_cmp_acc : forall B d1 d2, 0 < B -> length d1 = length d2 -> Forall (fun d => 0 <= d < B) d1 -> Forall (fun d => 0 <= d < B) d2 ->
  forall a1 a2, (fold_left (fun acc d => acc * B + d) d1 a1 ?= fold_left (fun acc d => acc * B + d) d2 a2) =
   match a1 ?= a2 with Eq => octets_cmp d1 d2 | c => c end.
Proof.
  intros B d1. induction d1 as [|x d1 IH]; intros [|y d2] HB Hl F1 F2 a1 a2; try discriminate; cbn [fold_left octets_cmp].
  - destruct (a1 ?= a2); auto.
  - inversion F1; inversion F2; subst. rewrite IH by auto.
    destruct (Z.compare_spec a1 a2).
    + subst. destruct (Z.compare_spec (a2 * B + x) (a2 * B + y)), (Z.compare_spec x y); auto; lia.
    + destruct (Z.compare_spec (a1 * B + x) (a2 * B + y)); auto; nia.
    + destruct (Z.compare_spec (a1 * B + x) (a2 * B + y)); auto; nia.
Qed.
Lemma value_cmp : forall B d1 d2, 0 < B -> length d1 = length d2 -> Forall (fun d => 0 <= d < B) d1 -> Forall (fun d => 0 <= d < B) d2 ->
  (value B d1 ?= value B d2) = octets_cmp d1 d2.
Proof. intros. unfold value. rewrite value_cmp_acc by auto. reflexivity. Qed.

Lemma digits_len : forall dig cs ds, digits_of dig cs ds -> length cs = length ds.
Proof. unfold digits_of. induction 1; cbn; auto. Qed.
Lemma digits_range : forall cs ds, digits_of b32hex_lower cs ds -> Forall (fun d => 0 <= d < 32) ds.
Proof. unfold digits_of. induction 1; constructor; auto. eapply lower_mono; eauto. Qed.
Lemma digits_cmp : forall cs1 ds1, digits_of b32hex_lower cs1 ds1 -> forall cs2 ds2, digits_of b32hex_lower cs2 ds2 ->
  octets_cmp cs1 cs2 = octets_cmp ds1 ds2.
Proof.
  unfold digits_of. induction 1; intros cs2 ds2 H2; inversion H2; subst; cbn [octets_cmp]; auto.
  destruct (lower_mono _ _ _ _ H H1) as [-> _]. destruct (_ ?= _); auto.
Qed.
Lemma group_cmp : forall u cs1 bs1 cs2 bs2, 0 <= u -> length cs1 = length cs2 -> length bs1 = length bs2 ->
  strict_group b32hex_lower 32 u cs1 bs1 -> strict_group b32hex_lower 32 u cs2 bs2 ->
  octets_cmp cs1 cs2 = octets_cmp bs1 bs2.
Proof.
  intros u cs1 bs1 cs2 bs2 Hu L1 L2 (d1 & D1 & B1 & V1) (d2 & D2 & B2 & V2).
  rewrite (digits_cmp _ _ D1 _ _ D2).
  assert (length d1 = length d2) by (rewrite <- (digits_len _ _ _ D1), <- (digits_len _ _ _ D2); auto).
  rewrite <- (value_cmp 32) by (eauto using digits_range; lia).
  rewrite <- (value_cmp 256) by (auto; lia). rewrite V1, V2.
  assert (0 < 2 ^ u) by (apply Z.pow_pos_nonneg; lia).
  destruct (Z.compare_spec (value 256 bs1) (value 256 bs2)), (Z.compare_spec (value 256 bs1 * 2 ^ u) (value 256 bs2 * 2 ^ u)); auto; nia.
Qed.
Lemma octets_cmp_refl : forall a, octets_cmp a a = Eq.
Proof. induction a; cbn; rewrite ?Z.compare_refl; auto. Qed.

Ltac lcontra := exfalso; repeat rewrite app_length in *; cbn [length] in *; lia.
Lemma b32_text_cmp : forall t1 b1, b32_text strict_group b32hex_lower t1 b1 -> forall t2 b2,
  b32_text strict_group b32hex_lower t2 b2 -> length b1 = length b2 -> octets_cmp t1 t2 = octets_cmp b1 b2.
Proof.
  induction 1 as [|cs bs t r L1 L2 HG HT IH|cs bs L1 L2 HG|cs bs L1 L2 HG|cs bs L1 L2 HG|cs bs L1 L2 HG];
  intros t2 b2 H2 HL; destruct H2 as [|cs2 bs2 t2 r2 K1 K2 KG KT|cs2 bs2 K1 K2 KG|cs2 bs2 K1 K2 KG|cs2 bs2 K1 K2 KG|cs2 bs2 K1 K2 KG]; try lcontra; auto.
  - rewrite !octets_cmp_app by lia. rewrite (group_cmp 0 cs bs cs2 bs2) by (auto; lia).
    rewrite (IH t2 r2) by (auto; rewrite !app_length in HL; lia). auto.
  - rewrite octets_cmp_app by lia. rewrite (group_cmp 3 cs bs cs2 bs2) by (auto; lia). rewrite octets_cmp_refl. destruct (octets_cmp bs bs2); auto.
  - rewrite octets_cmp_app by lia. rewrite (group_cmp 1 cs bs cs2 bs2) by (auto; lia). rewrite octets_cmp_refl. destruct (octets_cmp bs bs2); auto.
  - rewrite octets_cmp_app by lia. rewrite (group_cmp 4 cs bs cs2 bs2) by (auto; lia). rewrite octets_cmp_refl. destruct (octets_cmp bs bs2); auto.
  - rewrite octets_cmp_app by lia. rewrite (group_cmp 2 cs bs cs2 bs2) by (auto; lia). rewrite octets_cmp_refl. destruct (octets_cmp bs bs2); auto.
Qed.

(** ** decoding *)
Ltac bin32 := unfold byte in *; unfold b32_bin; cbn [Z.eqb Pos.eqb]; unfold u8, value in *; cbn [fold_left] in *; rewrite ?sl, ?sr by lia.
Ltac inv_bytes := repeat match goal with H : bytes (_ :: _) |- _ => inversion H; clear H; subst | H : Forall byte (_ :: _) |- _ => inversion H; clear H; subst end.

Lemma b32bin0 : forall d1 d2 d3 d4 d5 d6 d7 d8, 0 <= d1 < 32 -> 0 <= d2 < 32 -> 0 <= d3 < 32 -> 0 <= d4 < 32 -> 0 <= d5 < 32 -> 0 <= d6 < 32 -> 0 <= d7 < 32 -> 0 <= d8 < 32 ->
  bytes (b32_bin 0 d1 d2 d3 d4 d5 d6 d7 d8) /\ value 32 [d1; d2; d3; d4; d5; d6; d7; d8] / 2 ^ 0 = value 256 (b32_bin 0 d1 d2 d3 d4 d5 d6 d7 d8).
Proof. intros. bin32. split; [repeat constructor; lia|lia]. Qed.
Lemma b32bin1 : forall d1 d2 d3 d4 d5 d6 d7 d8, 0 <= d1 < 32 -> 0 <= d2 < 32 -> 0 <= d3 < 32 -> 0 <= d4 < 32 -> 0 <= d5 < 32 -> 0 <= d6 < 32 -> 0 <= d7 < 32 ->
  bytes (b32_bin 1 d1 d2 d3 d4 d5 d6 d7 d8) /\ value 32 [d1; d2; d3; d4; d5; d6; d7] / 2 ^ 3 = value 256 (b32_bin 1 d1 d2 d3 d4 d5 d6 d7 d8).
Proof. intros. bin32. split; [repeat constructor; lia|lia]. Qed.
Lemma b32bin3 : forall d1 d2 d3 d4 d5 d6 d7 d8, 0 <= d1 < 32 -> 0 <= d2 < 32 -> 0 <= d3 < 32 -> 0 <= d4 < 32 -> 0 <= d5 < 32 ->
  bytes (b32_bin 3 d1 d2 d3 d4 d5 d6 d7 d8) /\ value 32 [d1; d2; d3; d4; d5] / 2 ^ 1 = value 256 (b32_bin 3 d1 d2 d3 d4 d5 d6 d7 d8).
Proof. intros. bin32. split; [repeat constructor; lia|lia]. Qed.
Lemma b32bin4 : forall d1 d2 d3 d4 d5 d6 d7 d8, 0 <= d1 < 32 -> 0 <= d2 < 32 -> 0 <= d3 < 32 -> 0 <= d4 < 32 ->
  bytes (b32_bin 4 d1 d2 d3 d4 d5 d6 d7 d8) /\ value 32 [d1; d2; d3; d4] / 2 ^ 4 = value 256 (b32_bin 4 d1 d2 d3 d4 d5 d6 d7 d8).
Proof. intros. bin32. split; [repeat constructor; lia|lia]. Qed.
Lemma b32bin6 : forall d1 d2 d3 d4 d5 d6 d7 d8, 0 <= d1 < 32 -> 0 <= d2 < 32 ->
  bytes (b32_bin 6 d1 d2 d3 d4 d5 d6 d7 d8) /\ value 32 [d1; d2] / 2 ^ 2 = value 256 (b32_bin 6 d1 d2 d3 d4 d5 d6 d7 d8).
Proof. intros. bin32. split; [repeat constructor; lia|lia]. Qed.

(** byte strings of the same length with the same value are equal *)
Lemma value_inj : forall a b, bytes a -> bytes b -> length a = length b -> value 256 a = value 256 b -> a = b.
Proof.
  intros a b Ha Hb Hl Hv. pose proof (value_cmp 256 a b ltac:(lia) Hl Ha Hb) as H. rewrite Hv, Z.compare_refl in H.
  clear Ha Hb Hv. revert b Hl H. induction a as [|x a IH]; intros [|y b] Hl H; try discriminate; auto.
  cbn [octets_cmp] in H. destruct (Z.compare_spec x y); try discriminate. subst. f_equal. apply IH; auto.
Qed.

Lemma b32_decode_complete : forall t bs, b32_text group b32hex_digit t bs -> forall out_len bin,
  zlen bin + zlen t / 8 * 5 <= out_len ->
  b32_decode_loop t out_len 0 bin = Ok (bin ++ bs).
Proof.
  induction 1 as [|cs bs t r L1 L2 HG HT IH|cs bs L1 L2 HG|cs bs L1 L2 HG|cs bs L1 L2 HG|cs bs L1 L2 HG]; intros out_len bin Hl.
  1: { cbn. rewrite app_nil_r. auto. }
  all: destruct HG as (ds & HD & HB & HV); lens; f2; cbn [app b32_decode_loop]; lookup b32_dec_ok b32hex_digit_byte; change (tab base32hex_dec 61) with (@Ok Z 32); cbn [rbind];
    unfold b32_pads, B32_PD; cbv zeta; change (32 >=? 32) with true; change (32 =? 32) with true; repeat (replace (_ >=? 32) with false by lia);
    cbn [rbind orb andb negb Z.eqb Pos.eqb].
  - match goal with |- context [b32_bin 0 ?a ?b ?c ?d ?e ?f ?g ?h] =>
      destruct (b32bin0 a b c d e f g h) as [W1 W2]; try lia; match type of HB with bytes ?x => replace (b32_bin 0 a b c d e f g h) with x by (apply value_inj; auto; congruence) end end.
    cbn [app] in Hl. zl. pose proof (zlen_nonneg t). rewrite put_ok by (zl; lia). cbn [rbind]. rewrite IH by (zl; lia). rewrite <- app_assoc. auto.
  - match goal with |- context [b32_bin 1 ?a ?b ?c ?d ?e ?f ?g ?h] =>
      destruct (b32bin1 a b c d e f g h) as [W1 W2]; try lia; match type of HB with bytes ?x => replace (b32_bin 1 a b c d e f g h) with x by (apply value_inj; auto; congruence) end end.
    cbn [app] in Hl. zl. rewrite put_ok by (zl; lia). auto.
  - match goal with |- context [b32_bin 3 ?a ?b ?c ?d ?e ?f ?g ?h] =>
      destruct (b32bin3 a b c d e f g h) as [W1 W2]; try lia; match type of HB with bytes ?x => replace (b32_bin 3 a b c d e f g h) with x by (apply value_inj; auto; congruence) end end.
    cbn [app] in Hl. zl. rewrite put_ok by (zl; lia). auto.
  - match goal with |- context [b32_bin 4 ?a ?b ?c ?d ?e ?f ?g ?h] =>
      destruct (b32bin4 a b c d e f g h) as [W1 W2]; try lia; match type of HB with bytes ?x => replace (b32_bin 4 a b c d e f g h) with x by (apply value_inj; auto; congruence) end end.
    cbn [app] in Hl. zl. rewrite put_ok by (zl; lia). auto.
  - match goal with |- context [b32_bin 6 ?a ?b ?c ?d ?e ?f ?g ?h] =>
      destruct (b32bin6 a b c d e f g h) as [W1 W2]; try lia; match type of HB with bytes ?x => replace (b32_bin 6 a b c d e f g h) with x by (apply value_inj; auto; congruence) end end.
    cbn [app] in Hl. zl. rewrite put_ok by (zl; lia). auto.
Qed.
