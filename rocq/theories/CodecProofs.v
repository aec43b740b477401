From Verif Require Import Base CodecModel CodecSpec.

(** ** bits *)
Lemma lor_add : forall a b k, 0 <= k -> 0 <= b < 2 ^ k -> Z.lor (Z.shiftl a k) b = a * 2 ^ k + b.
Proof.
  intros a b k Hk Hb.
  assert (Hl : Z.land (Z.shiftl a k) b = 0).
  { apply Z.bits_inj_0. intros n. rewrite Z.land_spec. destruct (Z_lt_ge_dec n 0) as [|Hn].
    { rewrite Z.testbit_neg_r by lia. auto. }
    destruct (Z_lt_ge_dec n k).
    - rewrite Z.shiftl_spec_low by lia. auto.
    - replace (Z.testbit b n) with false; [apply andb_false_r|]. symmetry.
      rewrite <- (Z.mod_small b (2 ^ k)) by lia. apply Z.mod_pow2_bits_high. lia. }
  rewrite <- Z.lxor_lor by auto. rewrite <- Z.add_nocarry_lxor by auto. rewrite Z.shiftl_mul_pow2 by lia. auto.
Qed.
Lemma sl : forall a k, 0 <= k -> Z.shiftl a k = a * 2 ^ k.
Proof. intros. apply Z.shiftl_mul_pow2; auto. Qed.
Lemma sr : forall a k, 0 <= k -> Z.shiftr a k = a / 2 ^ k.
Proof. intros. apply Z.shiftr_div_pow2; auto. Qed.
Lemma land3 : forall a, Z.land a 3 = a mod 4. Proof. intros. apply (Z.land_ones a 2). lia. Qed.
Lemma land7 : forall a, Z.land a 7 = a mod 8. Proof. intros. apply (Z.land_ones a 3). lia. Qed.
Lemma land15 : forall a, Z.land a 15 = a mod 16. Proof. intros. apply (Z.land_ones a 4). lia. Qed.
Lemma land31 : forall a, Z.land a 31 = a mod 32. Proof. intros. apply (Z.land_ones a 5). lia. Qed.
Lemma land63 : forall a, Z.land a 63 = a mod 64. Proof. intros. apply (Z.land_ones a 6). lia. Qed.
Lemma land1' : forall a, Z.land a 1 = a mod 2. Proof. intros. apply (Z.land_ones a 1). lia. Qed.
Lemma land62 : forall a, byte a -> Z.shiftr (Z.land a 62) 1 = (a / 2) mod 32.
Proof. intros a H. apply Z.eqb_eq. apply (byte_sweep (fun a => Z.shiftr (Z.land a 62) 1 =? (a / 2) mod 32)); [vm_compute; reflexivity|auto]. Qed.
Lemma land124 : forall a, byte a -> Z.shiftr (Z.land a 124) 2 = (a / 4) mod 32.
Proof. intros a H. apply Z.eqb_eq. apply (byte_sweep (fun a => Z.shiftr (Z.land a 124) 2 =? (a / 4) mod 32)); [vm_compute; reflexivity|auto]. Qed.

(** ** tables *)
Definition enc_table (e : list Z) (base : Z) (dig : Z -> option Z) : Prop :=
  forall d, 0 <= d < base -> exists c, tab e d = Ok c /\ dig c = Some d /\ byte c.
Definition dec_table (t : list Z) (base : Z) (dig : Z -> option Z) (pad : Z) : Prop :=
  forall c, byte c -> exists v, tab t c = Ok v /\ 0 <= v /\
   match dig c with Some d => v = d /\ d < base | None => if c =? pad then v = base else v > base end.

Ltac enc_sweep e base dig :=
  let P := constr:(fun d => if d <? base then match zget e d with Some c => match dig c with Some x => (x =? d) && (0 <=? c) && (c <? 256) | None => false end | None => false end else true) in
  let H := fresh in
  intros d Hd; assert (H : P d = true) by (apply (byte_sweep P); [vm_compute; reflexivity|unfold byte; lia]);
  cbv beta in H; replace (d <? base) with true in H by lia; unfold tab; destruct (zget e d) as [c|]; [|discriminate];
  exists c; destruct (dig c) as [x|]; [|discriminate]; unfold byte; repeat split; try lia; f_equal; lia.
Lemma b64_enc_ok : enc_table base64_enc 64 b64_digit.
Proof. enc_sweep base64_enc 64 b64_digit. Qed.
Lemma b64u_enc_ok : enc_table base64url_enc 64 b64url_digit.
Proof. enc_sweep base64url_enc 64 b64url_digit. Qed.
Lemma b32_enc_ok : enc_table base32hex_enc 32 b32hex_digit.
Proof. enc_sweep base32hex_enc 32 b32hex_digit. Qed.

Ltac dec_sweep t base dig pad :=
  let P := constr:(fun c => match zget t c with Some v => (0 <=? v) && match dig c with Some d => (v =? d) && (d <? base) | None => if c =? pad then v =? base else v >? base end | None => false end) in
  let H := fresh in
  intros c Hc; assert (H : P c = true) by (apply (byte_sweep P); [vm_compute; reflexivity|auto]);
  cbv beta in H; unfold tab; destruct (zget t c) as [v|]; [|discriminate];
  exists v; split; [auto|]; destruct (dig c) as [x|]; [lia|]; destruct (c =? pad); lia.
Lemma b64_dec_ok : dec_table base64_dec 64 b64_digit 61.
Proof. dec_sweep base64_dec 64 b64_digit 61. Qed.
Lemma b64u_dec_ok : dec_table base64url_dec 64 b64url_digit 0.
Proof. dec_sweep base64url_dec 64 b64url_digit 0. Qed.
Lemma b32_dec_ok : dec_table base32hex_dec 32 b32hex_digit 61.
Proof. dec_sweep base32hex_dec 32 b32hex_digit 61. Qed.

Lemma dec_digit : forall t base dig pad c d, dec_table t base dig pad -> byte c -> dig c = Some d ->
  tab t c = Ok d /\ 0 <= d < base.
Proof. intros t base dig pad c d H Hc Hd. destruct (H c Hc) as (v & E & H0 & Hm). rewrite Hd in Hm. destruct Hm as [-> Hl]. auto. Qed.

Lemma digit_byte : forall (dig : Z -> option Z), (forall c, dig c <> None -> 0 <= c < 256) -> forall c d, dig c = Some d -> byte c.
Proof. intros dig H c d E. apply H. congruence. Qed.
Ltac dig_byte := intros c H; unfold b64_digit, b64url_digit, b32hex_digit in H;
  repeat match type of H with context [if ?b then _ else _] => destruct b eqn:? end; try lia; congruence.
Lemma b64_digit_byte : forall c d, b64_digit c = Some d -> byte c.
Proof. apply digit_byte. dig_byte. Qed.
Lemma b64url_digit_byte : forall c d, b64url_digit c = Some d -> byte c.
Proof. apply digit_byte. dig_byte. Qed.
Lemma b32hex_digit_byte : forall c d, b32hex_digit c = Some d -> byte c.
Proof. apply digit_byte. dig_byte. Qed.

Lemma put_ok : forall n d c x, zlen d + zlen c + x <= n -> put n d c x = Ok (d ++ c).
Proof. intros. unfold put. replace (_ >? _) with false by lia. auto. Qed.

Ltac zl := rewrite ?zlen_app, ?zlen_cons, ?zlen_nil in *.

(** ** encoding one group *)
Lemma enc3 : forall e dig i0 i1 i2, enc_table e 64 dig -> byte i0 -> byte i1 -> byte i2 ->
  exists t0 t1 t2 t3,
   tab e (Z.shiftr i0 2) = Ok t0 /\ tab e (Z.lor (Z.shiftl (Z.land i0 3) 4) (Z.shiftr i1 4)) = Ok t1 /\
   tab e (Z.lor (Z.shiftl (Z.land i1 15) 2) (Z.shiftr i2 6)) = Ok t2 /\ tab e (Z.land i2 63) = Ok t3 /\
   strict_group dig 64 0 [t0; t1; t2; t3] [i0; i1; i2].
Proof.
  intros e dig i0 i1 i2 He H0 H1 H2. unfold byte in *. rewrite !lor_add by (rewrite ?sr by lia; lia).
  rewrite land3, land15, land63, !sr by lia.
  destruct (He (i0 / 2 ^ 2)) as (t0 & E0 & D0 & _); [lia|].
  destruct (He (i0 mod 4 * 2 ^ 4 + i1 / 2 ^ 4)) as (t1 & E1 & D1 & _); [lia|].
  destruct (He (i1 mod 16 * 2 ^ 2 + i2 / 2 ^ 6)) as (t2 & E2 & D2 & _); [lia|].
  destruct (He (i2 mod 64)) as (t3 & E3 & D3 & _); [lia|].
  exists t0, t1, t2, t3. repeat (split; [auto|]).
  eexists. split; [repeat constructor; eauto|]. split; [repeat constructor; lia|]. unfold value; cbn [fold_left]. lia.
Qed.
Lemma enc2 : forall e dig i0 i1, enc_table e 64 dig -> byte i0 -> byte i1 ->
  exists t0 t1 t2,
   tab e (Z.shiftr i0 2) = Ok t0 /\ tab e (Z.lor (Z.shiftl (Z.land i0 3) 4) (Z.shiftr i1 4)) = Ok t1 /\
   tab e (Z.shiftl (Z.land i1 15) 2) = Ok t2 /\ strict_group dig 64 2 [t0; t1; t2] [i0; i1].
Proof.
  intros e dig i0 i1 He H0 H1. unfold byte in *. rewrite !lor_add by (rewrite ?sr by lia; lia).
  rewrite land3, land15, !sr, sl by lia.
  destruct (He (i0 / 2 ^ 2)) as (t0 & E0 & D0 & _); [lia|].
  destruct (He (i0 mod 4 * 2 ^ 4 + i1 / 2 ^ 4)) as (t1 & E1 & D1 & _); [lia|].
  destruct (He (i1 mod 16 * 2 ^ 2)) as (t2 & E2 & D2 & _); [lia|].
  exists t0, t1, t2. repeat (split; [auto|]).
  eexists. split; [repeat constructor; eauto|]. split; [repeat constructor; lia|]. unfold value; cbn [fold_left]. lia.
Qed.
Lemma enc1 : forall e dig i0, enc_table e 64 dig -> byte i0 ->
  exists t0 t1, tab e (Z.shiftr i0 2) = Ok t0 /\ tab e (Z.shiftl (Z.land i0 3) 4) = Ok t1 /\
   strict_group dig 64 4 [t0; t1] [i0].
Proof.
  intros e dig i0 He H0. unfold byte in *. rewrite land3, !sr, sl by lia.
  destruct (He (i0 / 2 ^ 2)) as (t0 & E0 & D0 & _); [lia|].
  destruct (He (i0 mod 4 * 2 ^ 4)) as (t1 & E1 & D1 & _); [lia|].
  exists t0, t1. repeat (split; [auto|]).
  eexists. split; [repeat constructor; eauto|]. split; [repeat constructor; lia|]. unfold value; cbn [fold_left]. lia.
Qed.

Lemma list_ind3 : forall (P : list Z -> Prop), P [] -> (forall a, P [a]) -> (forall a b, P [a; b]) ->
  (forall a b c l, P l -> P (a :: b :: c :: l)) -> forall l, P l.
Proof.
  intros P H0 H1 H2 H3. assert (G : forall n l, (length l <= n)%nat -> P l).
  { induction n; intros l Hl; [destruct l; [auto|cbn in Hl; lia]|].
    destruct l as [|a [|b [|c l]]]; auto. apply H3. apply IHn. cbn in Hl. lia. }
  intros l. apply (G (length l)). lia.
Qed.

Lemma b64_encode_loop_spec : forall inp out_len text, bytes inp ->
  zlen text + ((zlen inp + 2) / 3) * 4 <= out_len ->
  exists t, b64_encode_loop base64_enc b64_pad 0 0 inp out_len text = Ok (text ++ t) /\
    zlen t = ((zlen inp + 2) / 3) * 4 /\ b64_text strict_group b64_digit t inp.
Proof.
  intros inp out_len. induction inp as [|a|a b|a b c l IH] using list_ind3; intros text HB Hl; cbn [b64_encode_loop].
  - exists []. rewrite app_nil_r. split; [auto|]. split; [reflexivity|constructor].
  - inversion HB; subst. destruct (enc1 _ _ a b64_enc_ok) as (t0 & t1 & -> & -> & HG); auto. cbn [rbind].
    change (zfirstn (4 - 0) [t0; t1; b64_pad; b64_pad]) with ([t0; t1] ++ [61; 61]).
    exists ([t0; t1] ++ [61; 61]). zl. rewrite put_ok by (zl; lia). split; [auto|]. split; [lia|]. apply b64_one; auto.
  - inversion HB as [|? ? ? HB']; inversion HB'; subst. destruct (enc2 _ _ a b b64_enc_ok) as (t0 & t1 & t2 & -> & -> & -> & HG); auto. cbn [rbind].
    change (zfirstn (4 - 0) [t0; t1; t2; b64_pad]) with ([t0; t1; t2] ++ [61]).
    exists ([t0; t1; t2] ++ [61]). zl. rewrite put_ok by (zl; lia). split; [auto|]. split; [lia|]. apply b64_two; auto.
  - inversion HB as [|? ? ? HB1]; inversion HB1 as [|? ? ? HB2]; inversion HB2; subst.
    destruct (enc3 _ _ a b c b64_enc_ok) as (t0 & t1 & t2 & t3 & -> & -> & -> & -> & HG); auto. cbn [rbind].
    zl. pose proof (zlen_nonneg l). rewrite put_ok by (zl; lia). cbn [rbind].
    destruct (IH (text ++ [t0; t1; t2; t3])) as (t & -> & Ht & HT); auto; [zl; lia|].
    exists ([t0; t1; t2; t3] ++ t). rewrite app_assoc. split; [auto|]. split; [zl; lia|].
    apply (b64_full _ _ [t0;t1;t2;t3] [a;b;c]); auto.
Qed.

Lemma b64u_encode_loop_spec : forall inp out_len text, bytes inp ->
  zlen text + ((zlen inp + 2) / 3) * 4 <= out_len ->
  exists t n, b64_encode_loop base64url_enc b64u_pad 1 2 inp out_len text = Ok (text ++ t) /\
    zlen t = (zlen inp * 4 + 2) / 3 /\ b64_unpadded strict_group b64url_digit t inp n.
Proof.
  intros inp out_len. induction inp as [|a|a b|a b c l IH] using list_ind3; intros text HB Hl; cbn [b64_encode_loop].
  - exists [], 0. rewrite app_nil_r. split; [auto|]. split; [reflexivity|constructor].
  - inversion HB; subst. destruct (enc1 _ _ a b64u_enc_ok) as (t0 & t1 & -> & -> & HG); auto. cbn [rbind].
    change (zfirstn (4 - 2) [t0; t1; b64u_pad; b64u_pad]) with [t0; t1].
    exists [t0; t1], 2. zl. rewrite put_ok by (zl; lia). split; [auto|]. split; [lia|]. apply b64u_one; auto.
  - inversion HB as [|? ? ? HB']; inversion HB'; subst. destruct (enc2 _ _ a b b64u_enc_ok) as (t0 & t1 & t2 & -> & -> & -> & HG); auto. cbn [rbind].
    change (zfirstn (4 - 1) [t0; t1; t2; b64u_pad]) with [t0; t1; t2].
    exists [t0; t1; t2], 1. zl. rewrite put_ok by (zl; lia). split; [auto|]. split; [lia|]. apply b64u_two; auto.
  - inversion HB as [|? ? ? HB1]; inversion HB1 as [|? ? ? HB2]; inversion HB2; subst.
    destruct (enc3 _ _ a b c b64u_enc_ok) as (t0 & t1 & t2 & t3 & -> & -> & -> & -> & HG); auto. cbn [rbind].
    zl. pose proof (zlen_nonneg l). rewrite put_ok by (zl; lia). cbn [rbind].
    destruct (IH (text ++ [t0; t1; t2; t3])) as (t & n & -> & Ht & HT); auto; [zl; lia|].
    exists ([t0; t1; t2; t3] ++ t), n. rewrite app_assoc. split; [auto|]. split; [zl; lia|].
    apply (b64u_full _ _ [t0;t1;t2;t3] [a;b;c]); auto.
Qed.

(** strict implies loose *)
Lemma strict_loose : forall dig base u cs bs, 0 <= u -> strict_group dig base u cs bs -> group dig base u cs bs.
Proof.
  intros dig base u cs bs Hu (ds & H1 & H2 & H3). exists ds. repeat (split; [auto|]). rewrite H3.
  apply Z.div_mul. lia.
Qed.
Lemma b64_text_loose : forall dig t bs, b64_text strict_group dig t bs -> b64_text group dig t bs.
Proof. induction 1; econstructor; eauto; apply strict_loose; auto; lia. Qed.
Lemma b64u_text_loose : forall dig t bs n, b64_unpadded strict_group dig t bs n -> b64_unpadded group dig t bs n.
Proof. induction 1; econstructor; eauto; apply strict_loose; auto; lia. Qed.
Lemma b32_text_loose : forall dig t bs, b32_text strict_group dig t bs -> b32_text group dig t bs.
Proof. induction 1; econstructor; eauto; apply strict_loose; auto; lia. Qed.

(** ** decoding one group *)
Lemma bin0 : forall d1 d2 d3 d4 b0 b1 b2, 0 <= d1 < 64 -> 0 <= d2 < 64 -> 0 <= d3 < 64 -> 0 <= d4 < 64 ->
  bytes [b0; b1; b2] -> value 64 [d1; d2; d3; d4] / 2 ^ 0 = value 256 [b0; b1; b2] ->
  b64_bin 0 d1 d2 d3 d4 = [b0; b1; b2].
Proof.
  intros d1 d2 d3 d4 b0 b1 b2 H1 H2 H3 H4 HB HV. inversion HB as [|? ? B0 HB1]; inversion HB1 as [|? ? B1 HB2]; inversion HB2 as [|? ? B2 _]; subst.
  unfold byte in *. unfold value in HV; cbn [fold_left] in HV. unfold b64_bin. cbn [Z.eqb Pos.eqb]. unfold u8. rewrite !sl, !sr by lia.
  f_equal; [lia|f_equal; [lia|f_equal; lia]].
Qed.
Lemma bin1 : forall d1 d2 d3 d4 b0 b1, 0 <= d1 < 64 -> 0 <= d2 < 64 -> 0 <= d3 < 64 ->
  bytes [b0; b1] -> value 64 [d1; d2; d3] / 2 ^ 2 = value 256 [b0; b1] ->
  b64_bin 1 d1 d2 d3 d4 = [b0; b1].
Proof.
  intros d1 d2 d3 d4 b0 b1 H1 H2 H3 HB HV. inversion HB as [|? ? B0 HB1]; inversion HB1 as [|? ? B1 HB2]; subst.
  unfold byte in *. unfold value in HV; cbn [fold_left] in HV. unfold b64_bin. cbn [Z.eqb Pos.eqb]. unfold u8. rewrite !sl, !sr by lia.
  f_equal; [lia|f_equal; lia].
Qed.
Lemma bin2 : forall d1 d2 d3 d4 b0, 0 <= d1 < 64 -> 0 <= d2 < 64 ->
  bytes [b0] -> value 64 [d1; d2] / 2 ^ 4 = value 256 [b0] ->
  b64_bin 2 d1 d2 d3 d4 = [b0].
Proof.
  intros d1 d2 d3 d4 b0 H1 H2 HB HV. inversion HB as [|? ? B0 HB1]; subst.
  unfold byte in *. unfold value in HV; cbn [fold_left] in HV. unfold b64_bin. cbn [Z.eqb Pos.eqb]. unfold u8. rewrite !sl, !sr by lia.
  f_equal; lia.
Qed.
(** and the converse: any digits give bytes *)
Lemma bin0_val : forall d1 d2 d3 d4, 0 <= d1 < 64 -> 0 <= d2 < 64 -> 0 <= d3 < 64 -> 0 <= d4 < 64 ->
  bytes (b64_bin 0 d1 d2 d3 d4) /\ value 64 [d1; d2; d3; d4] / 2 ^ 0 = value 256 (b64_bin 0 d1 d2 d3 d4).
Proof.
  intros. unfold b64_bin; cbn [Z.eqb Pos.eqb]. unfold u8, value; cbn [fold_left]. rewrite !sl, !sr by lia.
  split; [repeat constructor; lia|lia].
Qed.
Lemma bin1_val : forall d1 d2 d3 d4, 0 <= d1 < 64 -> 0 <= d2 < 64 -> 0 <= d3 < 64 ->
  bytes (b64_bin 1 d1 d2 d3 d4) /\ value 64 [d1; d2; d3] / 2 ^ 2 = value 256 (b64_bin 1 d1 d2 d3 d4).
Proof.
  intros. unfold b64_bin; cbn [Z.eqb Pos.eqb]. unfold u8, value; cbn [fold_left]. rewrite !sl, !sr by lia.
  split; [repeat constructor; lia|lia].
Qed.
Lemma bin2_val : forall d1 d2 d3 d4, 0 <= d1 < 64 -> 0 <= d2 < 64 ->
  bytes (b64_bin 2 d1 d2 d3 d4) /\ value 64 [d1; d2] / 2 ^ 4 = value 256 (b64_bin 2 d1 d2 d3 d4).
Proof.
  intros. unfold b64_bin; cbn [Z.eqb Pos.eqb]. unfold u8, value; cbn [fold_left]. rewrite !sl, !sr by lia.
  split; [repeat constructor; lia|lia].
Qed.

Ltac lens := repeat match goal with
  | H : length ?l = S _ |- _ => destruct l; [discriminate|cbn [length] in H; injection H as H]
  | H : length ?l = O |- _ => destruct l; [clear H|discriminate]
  end.
Ltac f2 := repeat match goal with
  | H : digits_of _ (_ :: _) _ |- _ => inversion H; clear H; subst
  | H : digits_of _ [] _ |- _ => inversion H; clear H; subst
  | H : Forall2 _ (_ :: _) _ |- _ => inversion H; clear H; subst
  | H : Forall2 _ [] _ |- _ => inversion H; clear H; subst
  end.
Ltac lookup T B := repeat match goal with
  | H : _ ?c = Some ?d |- context [tab _ ?c] =>
     let E := fresh "E" in let R := fresh "R" in
     destruct (dec_digit _ _ _ _ c d T (B c d H) H) as [E R]; rewrite E; clear E; cbn [rbind]
  end.

Lemma b64_decode_complete : forall t bs, b64_text group b64_digit t bs -> forall out_len bin,
  zlen bin + zlen t / 4 * 3 <= out_len ->
  b64_decode_loop t out_len 0 bin = Ok (bin ++ bs).
Proof.
  induction 1 as [|cs bs t r L1 L2 HG HT IH|cs bs L1 L2 HG|cs bs L1 L2 HG]; intros out_len bin Hl.
  - cbn. rewrite app_nil_r. auto.
  - destruct HG as (ds & HD & HB & HV). lens. f2. cbn [app b64_decode_loop]. lookup b64_dec_ok b64_digit_byte.
    unfold B64_PD in *. repeat (replace (_ >=? 64) with false by lia). cbn [rbind orb].
    erewrite bin0 by eauto. cbn [app] in Hl. zl. pose proof (zlen_nonneg t).
    rewrite put_ok by (zl; lia). cbn [rbind]. rewrite IH by (zl; lia). rewrite <- app_assoc. auto.
  - destruct HG as (ds & HD & HB & HV). lens. f2. cbn [app b64_decode_loop]. lookup b64_dec_ok b64_digit_byte.
    change (tab base64_dec 61) with (@Ok Z 64). cbn [rbind]. unfold B64_PD. cbn [Z.geb Z.eqb Z.compare Pos.compare Pos.compare_cont Pos.eqb andb rbind].
    repeat (replace (_ >=? 64) with false by lia). cbn [rbind orb].
    erewrite bin1 by eauto. cbn [app] in Hl. zl. rewrite put_ok by (zl; lia). auto.
  - destruct HG as (ds & HD & HB & HV). lens. f2. cbn [app b64_decode_loop]. lookup b64_dec_ok b64_digit_byte.
    change (tab base64_dec 61) with (@Ok Z 64). cbn [rbind]. unfold B64_PD. cbn [Z.geb Z.eqb Z.compare Pos.compare Pos.compare_cont Pos.eqb andb rbind].
    repeat (replace (_ >=? 64) with false by lia). cbn [rbind orb].
    erewrite bin2 by eauto. cbn [app] in Hl. zl. rewrite put_ok by (zl; lia). auto.
Qed.

Lemma list_ind4 : forall (P : list Z -> Prop), P [] -> (forall a, P [a]) -> (forall a b, P [a; b]) -> (forall a b c, P [a; b; c]) ->
  (forall a b c d l, P l -> P (a :: b :: c :: d :: l)) -> forall l, P l.
Proof.
  intros P H0 H1 H2 H3 H4. assert (G : forall n l, (length l <= n)%nat -> P l).
  { induction n; intros l Hl; [destruct l; [auto|cbn in Hl; lia]|].
    destruct l as [|a [|b [|c [|d l]]]]; auto. apply H4. apply IHn. cbn in Hl. lia. }
  intros l. apply (G (length l)). lia.
Qed.

Lemma zlen_bin : forall p a b c d, 0 <= p -> zlen (b64_bin p a b c d) <= 3.
Proof. intros. unfold b64_bin. destruct (p =? 0), (p =? 1), (p =? 2); cbv; congruence. Qed.

(** whatever the text: defined, and within the buffer *)
Lemma b64_decode_safe : forall inp out_len pad bin, bytes inp -> 0 <= pad -> zlen inp mod 4 = 0 ->
  zlen bin + zlen inp / 4 * 3 <= out_len ->
  (exists bs, b64_decode_loop inp out_len pad bin = Ok (bin ++ bs) /\ zlen bs <= zlen inp / 4 * 3) \/
  b64_decode_loop inp out_len pad bin = Err KNOT_BASE64_ECHAR.
Proof.
  intros inp out_len. induction inp as [|a|a b|a b c|a b c d l IH] using list_ind4; intros pad bin HB Hp Hm Hl;
    try (rewrite ?zlen_cons, ?zlen_nil in Hm; cbv in Hm; discriminate); cbn [b64_decode_loop].
  - left. exists []. rewrite app_nil_r. auto. split; [auto|]. cbv. congruence.
  - inversion HB as [|? ? Ba HB1]; inversion HB1 as [|? ? Bb HB2]; inversion HB2 as [|? ? Bc HB3]; inversion HB3 as [|? ? Bd HB4]; subst.
    destruct (b64_dec_ok a Ba) as (va & -> & _), (b64_dec_ok b Bb) as (vb & -> & _), (b64_dec_ok c Bc) as (vc & -> & _), (b64_dec_ok d Bd) as (vd & -> & _). cbn [rbind].
    assert (G1 : (exists p1, (if vd >=? B64_PD then if (vd =? B64_PD) && (pad =? 0) then Ok 1 else Err KNOT_BASE64_ECHAR else Ok pad) = Ok p1 /\ 0 <= p1) \/ (if vd >=? B64_PD then if (vd =? B64_PD) && (pad =? 0) then Ok 1 else Err KNOT_BASE64_ECHAR else Ok pad) = Err KNOT_BASE64_ECHAR).
    { destruct (_ >=? _); [destruct (_ && _)|]; auto; left; eexists; (split; [reflexivity|lia]). }
    destruct G1 as [[p1 [-> Hp1]]| ->]; cbn [rbind]; [|auto].
    assert (G2 : (exists p2, (if vc >=? B64_PD then if (vc =? B64_PD) && (p1 =? 1) then Ok 2 else Err KNOT_BASE64_ECHAR else Ok p1) = Ok p2 /\ 0 <= p2) \/ (if vc >=? B64_PD then if (vc =? B64_PD) && (p1 =? 1) then Ok 2 else Err KNOT_BASE64_ECHAR else Ok p1) = Err KNOT_BASE64_ECHAR).
    { destruct (_ >=? _); [destruct (_ && _)|]; auto; left; eexists; (split; [reflexivity|lia]). }
    destruct G2 as [[p2 [-> Hp2]]| ->]; cbn [rbind]; [|auto].
    destruct (_ || _); [auto|]. pose proof (zlen_bin p2 va vb vc vd Hp2). zl. pose proof (zlen_nonneg l).
    rewrite put_ok by lia. cbn [rbind].
    destruct (IH p2 (bin ++ b64_bin p2 va vb vc vd)) as [(bs & -> & Hbs)|E]; auto; try (zl; lia).
    left. exists (b64_bin p2 va vb vc vd ++ bs). rewrite app_assoc. split; [auto|]. zl. lia.
Qed.

(** padding only in the last two places: the accepted texts are the legal ones *)
Lemma b64_decode_sound : forall inp out_len bin r, bytes inp -> zlen inp mod 4 = 0 ->
  (forall i, zget inp i = Some 61 -> zlen inp - 2 <= i) ->
  b64_decode_loop inp out_len 0 bin = Ok r -> exists bs, r = bin ++ bs /\ b64_text group b64_digit inp bs.
Proof.
  intros inp out_len. induction inp as [|a|a b|a b c|a b c d l IH] using list_ind4; intros bin r HB Hm HP E;
    try (rewrite ?zlen_cons, ?zlen_nil in Hm; cbv in Hm; discriminate); cbn [b64_decode_loop] in E.
  - injection E as <-. exists []. rewrite app_nil_r. split; [auto|constructor].
  - inversion HB as [|? ? Ba HB1]; inversion HB1 as [|? ? Bb HB2]; inversion HB2 as [|? ? Bc HB3]; inversion HB3 as [|? ? Bd HB4]; subst.
    destruct (b64_dec_ok a Ba) as (va & Ea & Pa & Va), (b64_dec_ok b Bb) as (vb & Eb & Pb & Vb), (b64_dec_ok c Bc) as (vc & Ec & Pc & Vc), (b64_dec_ok d Bd) as (vd & Ed & Pd & Vd).
    rewrite Ea, Eb, Ec, Ed in E. cbn [rbind] in E.
    assert (HP' : forall i, zget l i = Some 61 -> zlen l - 2 <= i).
    { intros i Hi. pose proof (zget_some _ _ _ Hi). specialize (HP (i + 4)). rewrite !zget_cons in HP by lia.
      replace (i + 4 - 1 - 1 - 1 - 1) with i in HP by lia. zl. specialize (HP Hi). lia. }
    assert (Hfirst : l <> [] -> c <> 61 /\ d <> 61).
    { intros Hl. assert (zlen l >= 4). { zl. destruct l as [|? [|? [|? [|? l]]]]; [congruence| | | |]; zl; try lia. pose proof (zlen_nonneg l). lia. }
      split; intros ->; [specialize (HP 2 eq_refl)|specialize (HP 3 eq_refl)]; zl; lia. }
    unfold B64_PD in E. destruct (b64_digit d) as [x4|] eqn:D4.
    + destruct Vd as [-> Vd]. replace (x4 >=? 64) with false in E by lia. cbn [rbind] in E.
      destruct (b64_digit c) as [x3|] eqn:D3.
      * destruct Vc as [-> Vc]. replace (x3 >=? 64) with false in E by lia. cbn [rbind] in E.
        destruct ((vb >=? 64) || (va >=? 64)) eqn:Eab; [discriminate|].
        destruct (b64_digit a) as [x1|] eqn:D1; [|destruct (a =? 61); lia]. destruct Va as [-> Va].
        destruct (b64_digit b) as [x2|] eqn:D2; [|destruct (b =? 61); lia]. destruct Vb as [-> Vb].
        unfold put in E. destruct (_ >? out_len); [discriminate|]. cbn [rbind] in E.
        destruct (bin0_val x1 x2 x3 x4) as [W1 W2]; try lia.
        apply IH in E; auto; [|zl; lia]. destruct E as (bs & -> & HT).
        exists (b64_bin 0 x1 x2 x3 x4 ++ bs). split; [rewrite app_assoc; auto|].
        apply (b64_full _ _ [a;b;c;d]); auto. exists [x1;x2;x3;x4]. split; [repeat constructor; auto|]. auto.
      * replace (vc >=? 64) with true in E by (destruct (c =? 61); lia). rewrite andb_false_r in E. discriminate.
    + replace (vd >=? 64) with true in E by (destruct (d =? 61); lia). cbn [andb Z.eqb] in E.
      destruct (d =? 61) eqn:Ed61. 2: { replace (vd =? 64) with false in E by lia. discriminate. }
      subst vd. cbn [Z.eqb Pos.eqb andb rbind] in E.
      assert (d = 61) by lia. subst d. destruct l as [|? ?]; [|exfalso; destruct Hfirst; congruence].
      destruct (b64_digit c) as [x3|] eqn:D3.
      * destruct Vc as [-> Vc]. replace (x3 >=? 64) with false in E by lia. cbn [rbind] in E.
        destruct ((vb >=? 64) || (va >=? 64)) eqn:Eab; [discriminate|].
        destruct (b64_digit a) as [x1|] eqn:D1; [|destruct (a =? 61); lia]. destruct Va as [-> Va].
        destruct (b64_digit b) as [x2|] eqn:D2; [|destruct (b =? 61); lia]. destruct Vb as [-> Vb].
        unfold put in E. destruct (_ >? out_len); [discriminate|]. cbn [rbind b64_decode_loop] in E. injection E as <-.
        destruct (bin1_val x1 x2 x3 64) as [W1 W2]; try lia.
        exists (b64_bin 1 x1 x2 x3 64). split; [auto|].
        apply (b64_two _ _ [a;b;c]); auto. exists [x1;x2;x3]. split; [repeat constructor; auto|]. auto.
      * replace (vc >=? 64) with true in E by (destruct (c =? 61); lia).
        destruct (c =? 61) eqn:Ec61. 2: { replace (vc =? 64) with false in E by lia. discriminate. }
        subst vc. cbn [Z.eqb Pos.eqb andb rbind] in E. assert (c = 61) by lia. subst c.
        destruct ((vb >=? 64) || (va >=? 64)) eqn:Eab; [discriminate|].
        destruct (b64_digit a) as [x1|] eqn:D1; [|destruct (a =? 61); lia]. destruct Va as [-> Va].
        destruct (b64_digit b) as [x2|] eqn:D2; [|destruct (b =? 61); lia]. destruct Vb as [-> Vb].
        unfold put in E. destruct (_ >? out_len); [discriminate|]. cbn [rbind b64_decode_loop] in E. injection E as <-.
        destruct (bin2_val x1 x2 64 64) as [W1 W2]; try lia.
        exists (b64_bin 2 x1 x2 64 64). split; [auto|].
        apply (b64_one _ _ [a;b]); auto. exists [x1;x2]. split; [repeat constructor; auto|]. auto.
Qed.
