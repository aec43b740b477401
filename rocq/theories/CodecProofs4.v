From Verif Require Import Base DnameSpec CodecModel CodecSpec CodecProofs CodecProofs3.

Ltac brk E := repeat match type of E with
  | context [if ?b then _ else _] => destruct b eqn:?; cbn [rbind] in E
  end.
Lemma b32_pads_zero : forall v1 v2 v3 v4 v5 v6 v7 v8 p, b32_pads 0 v1 v2 v3 v4 v5 v6 v7 v8 = Ok p ->
  v1 < 32 /\ v2 < 32 /\
  ((p = 0 /\ v3 < 32 /\ v4 < 32 /\ v5 < 32 /\ v6 < 32 /\ v7 < 32 /\ v8 < 32) \/
   (p = 1 /\ v3 < 32 /\ v4 < 32 /\ v5 < 32 /\ v6 < 32 /\ v7 < 32 /\ v8 = 32) \/
   (p = 3 /\ v3 < 32 /\ v4 < 32 /\ v5 < 32 /\ v6 = 32 /\ v7 = 32 /\ v8 = 32) \/
   (p = 4 /\ v3 < 32 /\ v4 < 32 /\ v5 = 32 /\ v6 = 32 /\ v7 = 32 /\ v8 = 32) \/
   (p = 6 /\ v3 = 32 /\ v4 = 32 /\ v5 = 32 /\ v6 = 32 /\ v7 = 32 /\ v8 = 32)).
Proof.
  intros v1 v2 v3 v4 v5 v6 v7 v8 p E. unfold b32_pads, B32_PD in E. cbv zeta in E.
  brk E; try discriminate; injection E as <-; lia.
Qed.
Lemma b32_pads_def : forall q v1 v2 v3 v4 v5 v6 v7 v8, 0 <= q ->
  (exists p, b32_pads q v1 v2 v3 v4 v5 v6 v7 v8 = Ok p /\ 0 <= p) \/ b32_pads q v1 v2 v3 v4 v5 v6 v7 v8 = Err KNOT_BASE32HEX_ECHAR.
Proof.
  intros q v1 v2 v3 v4 v5 v6 v7 v8 Hq. unfold b32_pads. cbv zeta.
  repeat match goal with |- context [if ?b then _ else _] => destruct b eqn:?; cbn [rbind] end; auto; left; eexists; (split; [reflexivity|lia]).
Qed.
Lemma b32_bin_len : forall p a b c d e f g h, zlen (b32_bin p a b c d e f g h) <= 5.
Proof. intros. unfold b32_bin. destruct (p =? 0), (p =? 1), (p =? 3), (p =? 4), (p =? 6); cbv; congruence. Qed.

Lemma list_ind8 : forall (P : list Z -> Prop), (forall l, (length l < 8)%nat -> P l) ->
  (forall a b c d e f g h l, P l -> P (a :: b :: c :: d :: e :: f :: g :: h :: l)) -> forall l, P l.
Proof.
  intros P H0 H1. assert (G : forall n l, (length l <= n)%nat -> P l).
  { induction n; intros l Hl; [apply H0; lia|].
    destruct l as [|a [|b [|c [|d [|e [|f [|g [|h l]]]]]]]]; try (apply H0; cbn; lia). apply H1. apply IHn. cbn in Hl. lia. }
  intros l. apply (G (length l)). lia.
Qed.
Lemma short_mod8 : forall (l : list Z), (length l < 8)%nat -> zlen l mod 8 = 0 -> l = [].
Proof. intros l H1 H2. unfold zlen in H2. destruct l; auto. cbn [length] in *. lia. Qed.

Lemma b32_decode_safe : forall inp out_len pad bin, bytes inp -> 0 <= pad -> zlen inp mod 8 = 0 ->
  zlen bin + zlen inp / 8 * 5 <= out_len ->
  (exists bs, b32_decode_loop inp out_len pad bin = Ok (bin ++ bs) /\ zlen bs <= zlen inp / 8 * 5) \/
  b32_decode_loop inp out_len pad bin = Err KNOT_BASE32HEX_ECHAR.
Proof.
  intros inp out_len. induction inp as [l Hs|a b c d e f g h l IH] using list_ind8; intros pad bin HB Hp Hm Hl.
  - rewrite (short_mod8 l Hs Hm). cbn [b32_decode_loop]. left. exists []. rewrite app_nil_r. split; [auto|]. cbv; congruence.
  - cbn [b32_decode_loop].
    inversion HB as [|? ? Ba HB1]; inversion HB1 as [|? ? Bb HB2]; inversion HB2 as [|? ? Bc HB3]; inversion HB3 as [|? ? Bd HB4];
    inversion HB4 as [|? ? Be HB5]; inversion HB5 as [|? ? Bf HB6]; inversion HB6 as [|? ? Bg HB7]; inversion HB7 as [|? ? Bh HB8]; subst.
    destruct (b32_dec_ok a Ba) as (va & -> & _), (b32_dec_ok b Bb) as (vb & -> & _), (b32_dec_ok c Bc) as (vc & -> & _), (b32_dec_ok d Bd) as (vd & -> & _),
      (b32_dec_ok e Be) as (ve & -> & _), (b32_dec_ok f Bf) as (vf & -> & _), (b32_dec_ok g Bg) as (vg & -> & _), (b32_dec_ok h Bh) as (vh & -> & _). cbn [rbind].
    destruct (b32_pads_def pad va vb vc vd ve vf vg vh Hp) as [(p & -> & Hp')| ->]; cbn [rbind]; [|auto].
    pose proof (b32_bin_len p va vb vc vd ve vf vg vh). zl. pose proof (zlen_nonneg l). rewrite put_ok by lia. cbn [rbind].
    destruct (IH p (bin ++ b32_bin p va vb vc vd ve vf vg vh)) as [(bs & -> & Hbs)|E]; auto; try (zl; lia).
    left. exists (b32_bin p va vb vc vd ve vf vg vh ++ bs). rewrite app_assoc. split; [auto|]. zl. lia.
Qed.

Lemma dec_lt : forall t base dig pad c v, dec_table t base dig pad -> byte c -> tab t c = Ok v -> v < base -> dig c = Some v /\ 0 <= v.
Proof.
  intros t base dig pad c v H Hc E Hl. destruct (H c Hc) as (w & E2 & H0 & Hm). rewrite E in E2. injection E2 as <-.
  destruct (dig c); [destruct Hm; subst; auto|]. destruct (c =? pad); lia.
Qed.
Lemma dec_pad : forall t base dig pad c, dec_table t base dig pad -> byte c -> tab t c = Ok base -> c = pad.
Proof.
  intros t base dig pad c H Hc E. destruct (H c Hc) as (w & E2 & H0 & Hm). rewrite E in E2. injection E2 as <-.
  destruct (dig c); [lia|]. destruct (c =? pad) eqn:Ep; lia.
Qed.

Lemma b32_decode_sound : forall inp out_len bin r, bytes inp -> zlen inp mod 8 = 0 ->
  (forall i, zget inp i = Some 61 -> zlen inp - 6 <= i) ->
  b32_decode_loop inp out_len 0 bin = Ok r -> exists bs, r = bin ++ bs /\ b32_text group b32hex_digit inp bs.
Proof.
  intros inp out_len. induction inp as [l Hs|a b c d e f g h l IH] using list_ind8; intros bin r HB Hm HP E.
  - rewrite (short_mod8 l Hs Hm) in *. cbn [b32_decode_loop] in E. injection E as <-. exists []. rewrite app_nil_r. split; [auto|constructor].
  - cbn [b32_decode_loop] in E.
    inversion HB as [|? ? Ba HB1]; inversion HB1 as [|? ? Bb HB2]; inversion HB2 as [|? ? Bc HB3]; inversion HB3 as [|? ? Bd HB4];
    inversion HB4 as [|? ? Be HB5]; inversion HB5 as [|? ? Bf HB6]; inversion HB6 as [|? ? Bg HB7]; inversion HB7 as [|? ? Bh HB8]; subst.
    destruct (b32_dec_ok a Ba) as (va & Ea & _), (b32_dec_ok b Bb) as (vb & Eb & _), (b32_dec_ok c Bc) as (vc & Ec & _), (b32_dec_ok d Bd) as (vd & Ed & _),
      (b32_dec_ok e Be) as (ve & Ee & _), (b32_dec_ok f Bf) as (vf & Ef & _), (b32_dec_ok g Bg) as (vg & Eg & _), (b32_dec_ok h Bh) as (vh & Eh & _).
    rewrite Ea, Eb, Ec, Ed, Ee, Ef, Eg, Eh in E. cbn [rbind] in E.
    destruct (b32_pads 0 va vb vc vd ve vf vg vh) as [p| | |] eqn:Ep; cbn [rbind] in E; try discriminate.
    apply b32_pads_zero in Ep. destruct Ep as (La & Lb & Ep).
    assert (HP' : forall i, zget l i = Some 61 -> zlen l - 6 <= i).
    { intros i Hi. pose proof (zget_some _ _ _ Hi). specialize (HP (i + 8)). rewrite !zget_cons in HP by lia.
      replace (i + 8 - 1 - 1 - 1 - 1 - 1 - 1 - 1 - 1) with i in HP by lia. zl. specialize (HP Hi). lia. }
    assert (Hlast : vh = 32 -> l = []).
    { intros ->. apply (dec_pad _ _ _ _ _ b32_dec_ok Bh) in Eh. subst h. specialize (HP 7 eq_refl). zl.
      destruct l; auto. exfalso. zl. pose proof (zlen_nonneg l). lia. }
    unfold put in E. destruct (_ >? out_len); [discriminate|]. cbn [rbind] in E.
    pose proof (dec_lt _ _ _ _ _ _ b32_dec_ok Ba Ea La) as [Da Na]. pose proof (dec_lt _ _ _ _ _ _ b32_dec_ok Bb Eb Lb) as [Db Nb].
    destruct Ep as [(-> & Lc & Ld & Le & Lf & Lg & Lh)|[(-> & Lc & Ld & Le & Lf & Lg & Lh)|[(-> & Lc & Ld & Le & Lf & Lg & Lh)|[(-> & Lc & Ld & Le & Lf & Lg & Lh)|(-> & Lc & Ld & Le & Lf & Lg & Lh)]]]].
    + pose proof (dec_lt _ _ _ _ _ _ b32_dec_ok Bc Ec Lc) as [Dc Nc]. pose proof (dec_lt _ _ _ _ _ _ b32_dec_ok Bd Ed Ld) as [Dd Nd].
      pose proof (dec_lt _ _ _ _ _ _ b32_dec_ok Be Ee Le) as [De Ne]. pose proof (dec_lt _ _ _ _ _ _ b32_dec_ok Bf Ef Lf) as [Df Nf].
      pose proof (dec_lt _ _ _ _ _ _ b32_dec_ok Bg Eg Lg) as [Dg Ng]. pose proof (dec_lt _ _ _ _ _ _ b32_dec_ok Bh Eh Lh) as [Dh Nh].
      apply IH in E; auto; [|zl; lia]. destruct E as (bs & -> & HT).
      exists (b32_bin 0 va vb vc vd ve vf vg vh ++ bs). split; [rewrite app_assoc; auto|].
      apply (b32_full _ _ [a;b;c;d;e;f;g;h]); auto. destruct (b32bin0 va vb vc vd ve vf vg vh) as [W1 W2]; try lia.
      exists [va;vb;vc;vd;ve;vf;vg;vh]. split; [repeat constructor; auto|auto].
    + rewrite (Hlast Lh) in *. cbn [b32_decode_loop] in E. injection E as <-. subst vh. apply (dec_pad _ _ _ _ _ b32_dec_ok Bh) in Eh. subst h.
      pose proof (dec_lt _ _ _ _ _ _ b32_dec_ok Bc Ec Lc) as [Dc Nc]. pose proof (dec_lt _ _ _ _ _ _ b32_dec_ok Bd Ed Ld) as [Dd Nd].
      pose proof (dec_lt _ _ _ _ _ _ b32_dec_ok Be Ee Le) as [De Ne]. pose proof (dec_lt _ _ _ _ _ _ b32_dec_ok Bf Ef Lf) as [Df Nf].
      pose proof (dec_lt _ _ _ _ _ _ b32_dec_ok Bg Eg Lg) as [Dg Ng].
      eexists. split; [reflexivity|]. apply (b32_four _ _ [a;b;c;d;e;f;g]); auto. destruct (b32bin1 va vb vc vd ve vf vg 32) as [W1 W2]; try lia.
      exists [va;vb;vc;vd;ve;vf;vg]. split; [repeat constructor; auto|auto].
    + rewrite (Hlast Lh) in *. cbn [b32_decode_loop] in E. injection E as <-. subst vh vg vf.
      apply (dec_pad _ _ _ _ _ b32_dec_ok Bh) in Eh. apply (dec_pad _ _ _ _ _ b32_dec_ok Bg) in Eg. apply (dec_pad _ _ _ _ _ b32_dec_ok Bf) in Ef. subst h g f.
      pose proof (dec_lt _ _ _ _ _ _ b32_dec_ok Bc Ec Lc) as [Dc Nc]. pose proof (dec_lt _ _ _ _ _ _ b32_dec_ok Bd Ed Ld) as [Dd Nd].
      pose proof (dec_lt _ _ _ _ _ _ b32_dec_ok Be Ee Le) as [De Ne].
      eexists. split; [reflexivity|]. apply (b32_three _ _ [a;b;c;d;e]); auto. destruct (b32bin3 va vb vc vd ve 32 32 32) as [W1 W2]; try lia.
      exists [va;vb;vc;vd;ve]. split; [repeat constructor; auto|auto].
    + rewrite (Hlast Lh) in *. cbn [b32_decode_loop] in E. injection E as <-. subst vh vg vf ve.
      apply (dec_pad _ _ _ _ _ b32_dec_ok Bh) in Eh. apply (dec_pad _ _ _ _ _ b32_dec_ok Bg) in Eg. apply (dec_pad _ _ _ _ _ b32_dec_ok Bf) in Ef. apply (dec_pad _ _ _ _ _ b32_dec_ok Be) in Ee. subst h g f e.
      pose proof (dec_lt _ _ _ _ _ _ b32_dec_ok Bc Ec Lc) as [Dc Nc]. pose proof (dec_lt _ _ _ _ _ _ b32_dec_ok Bd Ed Ld) as [Dd Nd].
      eexists. split; [reflexivity|]. apply (b32_two _ _ [a;b;c;d]); auto. destruct (b32bin4 va vb vc vd 32 32 32 32) as [W1 W2]; try lia.
      exists [va;vb;vc;vd]. split; [repeat constructor; auto|auto].
    + rewrite (Hlast Lh) in *. cbn [b32_decode_loop] in E. injection E as <-. subst vh vg vf ve vd vc.
      apply (dec_pad _ _ _ _ _ b32_dec_ok Bh) in Eh. apply (dec_pad _ _ _ _ _ b32_dec_ok Bg) in Eg. apply (dec_pad _ _ _ _ _ b32_dec_ok Bf) in Ef. apply (dec_pad _ _ _ _ _ b32_dec_ok Be) in Ee.
      apply (dec_pad _ _ _ _ _ b32_dec_ok Bd) in Ed. apply (dec_pad _ _ _ _ _ b32_dec_ok Bc) in Ec. subst h g f e d c.
      eexists. split; [reflexivity|]. apply (b32_one _ _ [a;b]); auto. destruct (b32bin6 va vb 32 32 32 32 32 32) as [W1 W2]; try lia.
      exists [va;vb]. split; [repeat constructor; auto|auto].
Qed.

(** lengths of texts *)
Lemma b64_text_len : forall G dig t bs, b64_text G dig t bs -> zlen t = (zlen bs + 2) / 3 * 4 /\ zlen t mod 4 = 0.
Proof.
  induction 1 as [|cs bs t r L1 L2 HG HT IH|cs bs L1 L2 HG|cs bs L1 L2 HG]; zl; unfold zlen in *; try (cbn [length] in *; lia).
Qed.
Lemma b32_text_len : forall G dig t bs, b32_text G dig t bs -> zlen t = (zlen bs + 4) / 5 * 8 /\ zlen t mod 8 = 0.
Proof.
  induction 1; zl; unfold zlen in *; try (cbn [length] in *; lia).
Qed.
