From Verif Require Import Base DnameSpec CodecModel CodecSpec CodecProofs.

(** ** Base64url *)
Lemma b64u_decode_complete : forall t bs n, b64_unpadded group b64url_digit t bs n -> forall after out_len bin,
  zlen bin + (zlen t + 3) / 4 * 3 <= out_len ->
  b64u_decode_loop t after out_len bin = Ok (n, bin ++ bs).
Proof.
  induction 1 as [|cs bs t r n L1 L2 HG HT IH|cs bs L1 L2 HG|cs bs L1 L2 HG]; intros after out_len bin Hl.
  - cbn. rewrite app_nil_r. auto.
  - destruct HG as (ds & HD & HB & HV). lens. f2. cbn [app b64u_decode_loop]. lookup b64u_dec_ok b64url_digit_byte.
    unfold B64_PD in *. repeat (replace (_ >=? 64) with false by lia). cbn [rbind orb Z.gtb Z.compare].
    erewrite bin0 by eauto. cbn [app] in Hl. zl. pose proof (zlen_nonneg t).
    rewrite put_ok by (zl; lia). cbn [rbind]. rewrite IH by (zl; lia). rewrite <- app_assoc. auto.
  - destruct HG as (ds & HD & HB & HV). lens. f2. cbn [app b64u_decode_loop]. lookup b64u_dec_ok b64url_digit_byte.
    unfold B64_PD in *. repeat (replace (_ >=? 64) with false by lia). 
    change (64 >=? 64) with true. change (64 =? 64) with true. cbn [rbind orb].
    erewrite bin1 by eauto. zl. rewrite put_ok by (zl; lia). auto.
  - destruct HG as (ds & HD & HB & HV). lens. f2. cbn [app b64u_decode_loop]. lookup b64u_dec_ok b64url_digit_byte.
    unfold B64_PD in *. repeat (replace (_ >=? 64) with false by lia). 
    change (64 >=? 64) with true. change (64 =? 64) with true. cbn [rbind orb].
    erewrite bin2 by eauto. zl. rewrite put_ok by (zl; lia). auto.
Qed.

Lemma tab_byte : forall t base dig pad c, dec_table t base dig pad -> byte c -> exists v, tab t c = Ok v.
Proof. intros t base dig pad c H Hc. destruct (H c Hc) as (v & E & _). eauto. Qed.

Lemma b64u_decode_safe : forall inp out_len after bin, bytes inp -> bytes after -> after <> [] ->
  zlen bin + (zlen inp + 3) / 4 * 3 <= out_len ->
  (exists n bs, b64u_decode_loop inp after out_len bin = Ok (n, bin ++ bs) /\ zlen bs <= (zlen inp + 3) / 4 * 3) \/
  b64u_decode_loop inp after out_len bin = Err KNOT_BASE64_ECHAR.
Proof.
  intros inp out_len. induction inp as [|a|a b|a b c|a b c d l IH] using list_ind4; intros after bin HB HA Hn Hl; cbn [b64u_decode_loop].
  - left. exists 0, []. rewrite app_nil_r. split; [auto|]. cbv; congruence.
  - inversion HB as [|? ? Ba HB1]; subst. destruct after as [|x after]; [congruence|]. inversion HA as [|? ? Bx HA']; subst.
    destruct (tab_byte _ _ _ _ _ b64u_dec_ok Ba) as [va ->]. destruct (tab_byte _ _ _ _ _ b64u_dec_ok Bx) as [vx ->]. cbn [rbind].
    destruct (_ || _); cbn [rbind]; [auto|]. change (B64_PD >=? B64_PD) with true. change (B64_PD =? B64_PD) with true. cbn [rbind].
    pose proof (zlen_bin 2 va vx B64_PD B64_PD). zl. rewrite put_ok by lia. cbn [rbind]. left. do 2 eexists. split; [reflexivity|]. lia.
  - inversion HB as [|? ? Ba HB1]; inversion HB1 as [|? ? Bb HB2]; subst.
    destruct (tab_byte _ _ _ _ _ b64u_dec_ok Ba) as [va ->]. destruct (tab_byte _ _ _ _ _ b64u_dec_ok Bb) as [vx ->]. cbn [rbind].
    destruct (_ || _); cbn [rbind]; [auto|]. change (B64_PD >=? B64_PD) with true. change (B64_PD =? B64_PD) with true. cbn [rbind].
    pose proof (zlen_bin 2 va vx B64_PD B64_PD). zl. rewrite put_ok by lia. cbn [rbind]. left. do 2 eexists. split; [reflexivity|]. lia.
  - inversion HB as [|? ? Ba HB1]; inversion HB1 as [|? ? Bb HB2]; inversion HB2 as [|? ? Bc HB3]; subst.
    destruct (tab_byte _ _ _ _ _ b64u_dec_ok Ba) as [va ->]. destruct (tab_byte _ _ _ _ _ b64u_dec_ok Bb) as [vb ->].
    destruct (tab_byte _ _ _ _ _ b64u_dec_ok Bc) as [vc ->]. cbn [rbind].
    destruct (_ || _); cbn [rbind]; [auto|]. change (B64_PD >=? B64_PD) with true. change (B64_PD =? B64_PD) with true.
    zl. destruct (vc >=? B64_PD); [destruct (vc =? B64_PD)|]; cbn [rbind]; auto.
    + pose proof (zlen_bin 2 va vb vc B64_PD). rewrite put_ok by lia. cbn [rbind]. left. do 2 eexists. split; [reflexivity|]. lia.
    + pose proof (zlen_bin 1 va vb vc B64_PD). rewrite put_ok by lia. cbn [rbind]. left. do 2 eexists. split; [reflexivity|]. lia.
  - inversion HB as [|? ? Ba HB1]; inversion HB1 as [|? ? Bb HB2]; inversion HB2 as [|? ? Bc HB3]; inversion HB3 as [|? ? Bd HB4]; subst.
    destruct (tab_byte _ _ _ _ _ b64u_dec_ok Ba) as [va ->]. destruct (tab_byte _ _ _ _ _ b64u_dec_ok Bb) as [vb ->].
    destruct (tab_byte _ _ _ _ _ b64u_dec_ok Bc) as [vc ->]. destruct (tab_byte _ _ _ _ _ b64u_dec_ok Bd) as [vd ->]. cbn [rbind].
    destruct (_ || _); cbn [rbind]; [auto|].
    destruct (vc >=? B64_PD); [destruct (vc =? B64_PD); cbn; auto|].
    destruct (vd >=? B64_PD); [destruct (vd =? B64_PD); cbn; auto|]. cbn [rbind Z.gtb Z.compare].
    pose proof (zlen_bin 0 va vb vc vd). zl. pose proof (zlen_nonneg l). rewrite put_ok by lia. cbn [rbind].
    destruct (IH after (bin ++ b64_bin 0 va vb vc vd)) as [(n & bs & -> & Hb)| ->]; auto; [zl; lia|].
    left. exists n, (b64_bin 0 va vb vc vd ++ bs). rewrite app_assoc. split; [auto|]. zl. lia.
Qed.

Lemma b64u_decode_sound : forall inp out_len after bin n r, bytes inp -> ~ In 0 inp ->
  (exists x rest, after = x :: rest /\ byte x /\ b64url_digit x = None) ->
  b64u_decode_loop inp after out_len bin = Ok (n, r) ->
  exists bs, r = bin ++ bs /\ b64_unpadded group b64url_digit inp bs n.
Proof.
  intros inp out_len. induction inp as [|a|a b|a b c|a b c d l IH] using list_ind4; intros after bin n r HB HN HA E; cbn [b64u_decode_loop] in E.
  - injection E as <- <-. exists []. rewrite app_nil_r. split; [auto|constructor].
  - destruct HA as (x & rest & -> & Bx & Dx). inversion HB as [|? ? Ba _]; subst.
    destruct (b64u_dec_ok a Ba) as (va & Ea & Pa & Va), (b64u_dec_ok x Bx) as (vx & Ex & Px & Vx).
    rewrite Ea, Ex, Dx in *. cbn [rbind] in E. unfold B64_PD in E.
    replace (vx >=? 64) with true in E by (destruct (x =? 0); lia). rewrite orb_true_r in E. discriminate.
  - inversion HB as [|? ? Ba HB1]; inversion HB1 as [|? ? Bb HB2]; subst.
    destruct (b64u_dec_ok a Ba) as (va & Ea & Pa & Va), (b64u_dec_ok b Bb) as (vb & Eb & Pb & Vb).
    rewrite Ea, Eb in *. cbn [rbind] in E. unfold B64_PD in E. change (64 >=? 64) with true in E. change (64 =? 64) with true in E.
    destruct ((va >=? 64) || (vb >=? 64)) eqn:Eab; [discriminate|]. cbn [rbind] in E.
    destruct (b64url_digit a) as [x1|] eqn:D1; [|destruct (a =? 0); lia]. destruct Va as [-> Va].
    destruct (b64url_digit b) as [x2|] eqn:D2; [|destruct (b =? 0); lia]. destruct Vb as [-> Vb].
    unfold put in E. destruct (_ >? out_len); [discriminate|]. cbn [rbind] in E. injection E as <- <-.
    destruct (bin2_val x1 x2 64 64) as [W1 W2]; try lia.
    exists (b64_bin 2 x1 x2 64 64). split; [auto|].
    apply b64u_one; auto. exists [x1;x2]. split; [repeat constructor; auto|]. auto.
  - inversion HB as [|? ? Ba HB1]; inversion HB1 as [|? ? Bb HB2]; inversion HB2 as [|? ? Bc HB3]; subst.
    destruct (b64u_dec_ok a Ba) as (va & Ea & Pa & Va), (b64u_dec_ok b Bb) as (vb & Eb & Pb & Vb), (b64u_dec_ok c Bc) as (vc & Ec & Pc & Vc).
    rewrite Ea, Eb, Ec in *. cbn [rbind] in E. unfold B64_PD in E. change (64 >=? 64) with true in E. change (64 =? 64) with true in E.
    destruct ((va >=? 64) || (vb >=? 64)) eqn:Eab; [discriminate|]. cbn [rbind] in E.
    destruct (b64url_digit a) as [x1|] eqn:D1; [|destruct (a =? 0); lia]. destruct Va as [-> Va].
    destruct (b64url_digit b) as [x2|] eqn:D2; [|destruct (b =? 0); lia]. destruct Vb as [-> Vb].
    destruct (b64url_digit c) as [x3|] eqn:D3.
    2: { destruct (c =? 0) eqn:E0; [exfalso; apply HN; cbn; right; right; left; lia|].
         replace (vc >=? 64) with true in E by lia. replace (vc =? 64) with false in E by lia. discriminate. }
    destruct Vc as [-> Vc]. replace (x3 >=? 64) with false in E by lia. cbn [rbind] in E.
    unfold put in E. destruct (_ >? out_len); [discriminate|]. cbn [rbind] in E. injection E as <- <-.
    destruct (bin1_val x1 x2 x3 64) as [W1 W2]; try lia.
    exists (b64_bin 1 x1 x2 x3 64). split; [auto|].
    apply b64u_two; auto. exists [x1;x2;x3]. split; [repeat constructor; auto|]. auto.
  - inversion HB as [|? ? Ba HB1]; inversion HB1 as [|? ? Bb HB2]; inversion HB2 as [|? ? Bc HB3]; inversion HB3 as [|? ? Bd HB4]; subst.
    destruct (b64u_dec_ok a Ba) as (va & Ea & Pa & Va), (b64u_dec_ok b Bb) as (vb & Eb & Pb & Vb), (b64u_dec_ok c Bc) as (vc & Ec & Pc & Vc), (b64u_dec_ok d Bd) as (vd & Ed & Pd & Vd).
    rewrite Ea, Eb, Ec, Ed in *. cbn [rbind] in E. unfold B64_PD in E.
    destruct ((va >=? 64) || (vb >=? 64)) eqn:Eab; [discriminate|]. cbn [rbind] in E.
    destruct (b64url_digit a) as [x1|] eqn:D1; [|destruct (a =? 0); lia]. destruct Va as [-> Va].
    destruct (b64url_digit b) as [x2|] eqn:D2; [|destruct (b =? 0); lia]. destruct Vb as [-> Vb].
    destruct (vc >=? 64) eqn:E3. { destruct (vc =? 64); cbn in E; discriminate. }
    destruct (vd >=? 64) eqn:E4. { destruct (vd =? 64); cbn in E; discriminate. }
    cbn [rbind Z.gtb Z.compare] in E.
    destruct (b64url_digit c) as [x3|] eqn:D3; [|destruct (c =? 0); lia]. destruct Vc as [-> Vc].
    destruct (b64url_digit d) as [x4|] eqn:D4; [|destruct (d =? 0); lia]. destruct Vd as [-> Vd].
    unfold put in E. destruct (_ >? out_len); [discriminate|]. cbn [rbind] in E.
    destruct (bin0_val x1 x2 x3 x4) as [W1 W2]; try lia.
    apply IH in E; auto; [|intros Hi; apply HN; cbn; auto]. destruct E as (bs & -> & HT).
    exists (b64_bin 0 x1 x2 x3 x4 ++ bs). split; [rewrite app_assoc; auto|].
    apply (b64u_full _ _ [a;b;c;d]); auto. exists [x1;x2;x3;x4]. split; [repeat constructor; auto|]. auto.
Qed.

(** the "%3d" suffixes *)
Lemma cut_none : forall l pat p, ~ In 37 l -> cut_3d l pat p = p.
Proof.
  induction l as [|e l IH]; intros [|q pat] p H; cbn [cut_3d]; auto.
  destruct (tolower_c e =? q) eqn:E; [|auto]. replace (q =? 37) with false; [apply IH; intros Hi; apply H; cbn; auto|].
  destruct (q =? 37) eqn:E2; auto. exfalso. apply H. cbn. left. unfold tolower_c in E. destruct (_ && _) eqn:E3; lia.
Qed.
(** "%3d" or "%3D" *)
Definition is_3d (s : list Z) : Prop := s = [37; 51; 100] \/ s = [37; 51; 68].
Lemma cut_sound : forall inp, (exists t, cut_3d (rev inp) pattern_3d 0 = 0 /\ inp = t) \/
  (exists t s, inp = t ++ s /\ is_3d s /\ cut_3d (rev inp) pattern_3d 0 = 1) \/
  (exists t s1 s2, inp = t ++ s1 ++ s2 /\ is_3d s1 /\ is_3d s2 /\ cut_3d (rev inp) pattern_3d 0 = 2).
Proof.
  intros inp. rewrite <- (rev_involutive inp). generalize (rev inp). clear inp. intros l. rewrite (rev_involutive l).
  change pattern_3d with [100; 51; 37; 100; 51; 37].
  assert (HL : forall x y, (tolower_c x =? y) = true -> y = 100 /\ (x = 100 \/ x = 68) \/ y <> 100 /\ (x = y \/ 65 <= x <= 90)).
  { intros x y Hxy. unfold tolower_c in Hxy. destruct (_ && _) eqn:E; lia. }
  destruct l as [|x1 l]; [left; exists (rev []); auto|]. cbn [cut_3d].
  destruct (tolower_c x1 =? 100) eqn:E1; [|left; eauto].
  destruct l as [|x2 l]; [left; eauto|]. cbn [cut_3d]. destruct (tolower_c x2 =? 51) eqn:E2; [|left; eauto].
  destruct l as [|x3 l]; [left; eauto|]. cbn [cut_3d]. destruct (tolower_c x3 =? 37) eqn:E3; [|left; eauto].
  assert (H1 : x1 = 100 \/ x1 = 68) by (unfold tolower_c in E1; destruct (_ && _) eqn:E; lia).
  assert (H2 : x2 = 51) by (unfold tolower_c in E2; destruct (_ && _) eqn:E; lia).
  assert (H3 : x3 = 37) by (unfold tolower_c in E3; destruct (_ && _) eqn:E; lia).
  assert (T1 : is_3d [x3; x2; x1]) by (subst x2 x3; destruct H1; subst; [left|right]; auto).
  cbn [Z.eqb Pos.eqb].
  assert (R1 : forall l, rev (x1 :: x2 :: x3 :: l) = rev l ++ [x3; x2; x1]) by (intros k; cbn [rev]; rewrite <- !app_assoc; reflexivity).
  destruct l as [|x4 l]; [right; left; exists (rev []), [x3;x2;x1]; rewrite R1; auto|]. cbn [cut_3d].
  destruct (tolower_c x4 =? 100) eqn:E4; [|right; left; exists (rev (x4 :: l)), [x3;x2;x1]; rewrite R1; auto].
  destruct l as [|x5 l]; [right; left; exists (rev [x4]), [x3;x2;x1]; rewrite R1; auto|]. cbn [cut_3d].
  destruct (tolower_c x5 =? 51) eqn:E5; [|right; left; exists (rev (x4 :: x5 :: l)), [x3;x2;x1]; rewrite R1; auto].
  destruct l as [|x6 l]; [right; left; exists (rev [x4;x5]), [x3;x2;x1]; rewrite R1; auto|]. cbn [cut_3d].
  destruct (tolower_c x6 =? 37) eqn:E6; [|right; left; exists (rev (x4 :: x5 :: x6 :: l)), [x3;x2;x1]; rewrite R1; auto].
  assert (H4 : x4 = 100 \/ x4 = 68) by (unfold tolower_c in E4; destruct (_ && _) eqn:E; lia).
  assert (H5 : x5 = 51) by (unfold tolower_c in E5; destruct (_ && _) eqn:E; lia).
  assert (H6 : x6 = 37) by (unfold tolower_c in E6; destruct (_ && _) eqn:E; lia).
  assert (T2 : is_3d [x6; x5; x4]) by (subst x5 x6; destruct H4; subst; [left|right]; auto).
  right; right. exists (rev l), [x6;x5;x4], [x3;x2;x1]. rewrite R1. cbn [rev]. rewrite <- !app_assoc. cbn [app].
  split; [auto|]. split; [auto|]. split; [auto|]. destruct l; auto.
Qed.
Lemma cut_complete : forall t ss, ~ In 37 t -> Forall is_3d ss -> (length ss <= 2)%nat ->
  cut_3d (rev (t ++ concat ss)) pattern_3d 0 = zlen ss.
Proof.
  intros t ss Ht HF Hl. change pattern_3d with [100; 51; 37; 100; 51; 37].
  assert (Ht' : ~ In 37 (rev t)) by (rewrite <- in_rev; auto).
  destruct ss as [|s1 [|s2 [|? ?]]]; [| | |cbn in Hl; lia]; cbn [concat]; rewrite ?app_nil_r.
  - apply cut_none; auto.
  - inversion HF as [|? ? [->| ->] _]; subst; rewrite rev_app_distr; cbn [rev app cut_3d tolower_c Z.eqb Pos.eqb];
    cbn; apply cut_none; auto.
  - inversion HF as [|? ? H1 HF']; inversion HF' as [|? ? H2 _]; subst.
    destruct H1 as [-> | ->], H2 as [-> | ->]; rewrite app_assoc, !rev_app_distr; cbn [rev app]; cbn; destruct (rev t); auto.
Qed.
