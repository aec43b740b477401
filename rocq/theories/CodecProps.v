(** C43-C45: Base64, Base32hex, Base64url. [b64_text strict_group] etc.: CodecSpec.v. *)
From Coq Require Import String.
From Verif Require Import Base DnameSpec CodecModel CodecSpec CodecProofs CodecProofs2 CodecProofs3 CodecProofs4.

(** *** C43 Base64 *)
(** The encoder: exact length, canonical RFC 4648 text, refusal otherwise. *)
Theorem c43_encode : forall bs out_len, bytes bs ->
  (zlen bs <= 1610612733 /\ (zlen bs + 2) / 3 * 4 <= out_len /\
   exists t, base64_encode bs out_len = Ok t /\ zlen t = (zlen bs + 2) / 3 * 4 /\ b64_text strict_group b64_digit t bs) \/
  ((zlen bs > 1610612733 \/ out_len < (zlen bs + 2) / 3 * 4) /\ base64_encode bs out_len = Err KNOT_ERANGE).
Proof.
  intros bs out_len HB. unfold base64_encode. change B64_MAX_BIN with 1610612733.
  destruct ((zlen bs >? 1610612733) || (out_len <? (zlen bs + 2) / 3 * 4)) eqn:E; [right; split; [lia|auto]|left].
  split; [lia|]. split; [lia|]. destruct (b64_encode_loop_spec bs out_len [] HB) as (t & E1 & H1 & H2); [zl; lia|].
  exists t. rewrite E1. auto.
Qed.
(** Every legal text (also with nonzero unused bits) is decoded to what it stands for. *)
Theorem c43_decode_complete : forall t bs out_len, b64_text group b64_digit t bs -> zlen t < 2 ^ 31 ->
  zlen t / 4 * 3 <= out_len -> base64_decode t out_len = Ok bs.
Proof.
  intros t bs out_len HT H1 H2. pose proof (b64_text_len _ _ _ _ HT) as [_ Hm]. unfold base64_decode.
  replace (zlen t >? INT32_MAX) with false by (change INT32_MAX with (2 ^ 31 - 1); lia).
  replace (out_len <? _) with false by lia. replace (zlen t mod 4 =? 0) with true by lia. cbn [orb negb].
  rewrite (b64_decode_complete t bs HT) by (zl; lia). auto.
Qed.
Theorem c43_round_trip : forall bs out_len t out_len2, bytes bs -> base64_encode bs out_len = Ok t ->
  zlen t / 4 * 3 <= out_len2 -> base64_decode t out_len2 = Ok bs.
Proof.
  intros bs out_len t out_len2 HB E Hl. destruct (c43_encode bs out_len HB) as [(H1 & H2 & t' & E' & H3 & HT)|[_ E']]; rewrite E' in E; [|discriminate].
  injection E as <-. apply c43_decode_complete; auto; [apply b64_text_loose; auto|]. lia.
Qed.
(** For any input and any buffer: no access outside, at most the announced size, or an error. *)
Theorem c43_decode_safe : forall t out_len, bytes t ->
  (exists bs, base64_decode t out_len = Ok bs /\ zlen bs <= zlen t / 4 * 3 <= out_len) \/
  (exists e, base64_decode t out_len = Err e).
Proof.
  intros t out_len HB. unfold base64_decode. destruct (_ || _) eqn:E1; [eauto|].
  destruct (zlen t mod 4 =? 0) eqn:E2; cbn [negb]; [|eauto]. pose proof (zlen_nonneg t).
  destruct (b64_decode_safe t out_len 0 [] HB) as [(bs & E & Hb)|E]; try (zl; lia); rewrite E; [left; exists bs; split; [auto|lia]|eauto].
Qed.
(** Accepted texts are legal if '=' occurs in the last two places only. *)
Theorem c43_decode_sound_partial : forall t bs out_len, bytes t ->
  (forall i, zget t i = Some 61 -> zlen t - 2 <= i) ->
  base64_decode t out_len = Ok bs -> b64_text group b64_digit t bs.
Proof.
  intros t bs out_len HB HP E. unfold base64_decode in E. destruct (_ || _) eqn:E1; [discriminate|].
  destruct (zlen t mod 4 =? 0) eqn:E2; cbn [negb] in E; [|discriminate].
  apply b64_decode_sound in E; auto; [|lia]. destruct E as (bs' & -> & HT). auto.
Qed.
(** The full statement is false: padding inside the text is accepted, because the padding
    length of one group is kept for the next: "QUI=QUJDQUJD". *)
Theorem c43_padding_inside_refuted : exists t bs out_len, bytes t /\ base64_decode t out_len = Ok bs /\
  ~ b64_text group b64_digit t bs /\ bs = [65; 66; 65; 66; 65; 66].
Proof.
  exists [81;85;73;61;81;85;74;68;81;85;74;68], [65;66;65;66;65;66], 9. split; [repeat constructor; cbv; congruence|]. split; [vm_compute; reflexivity|]. split; [|auto].
  intros H. apply b64_text_len in H. vm_compute in H. destruct H; discriminate.
Qed.
Example c43_ex : base64_encode [77; 97; 110; 33] 8 = Ok (codes "TWFuIQ=="%string) /\ base64_decode (codes "TWFuIQ=="%string) 6 = Ok [77; 97; 110; 33].
Proof. split; reflexivity. Qed.

(** *** C44 Base32hex *)
Theorem c44_encode : forall bs out_len, bytes bs ->
  (zlen bs <= 1342177275 /\ (zlen bs + 4) / 5 * 8 <= out_len /\
   exists t, base32hex_encode bs out_len = Ok t /\ zlen t = (zlen bs + 4) / 5 * 8 /\ b32_text strict_group b32hex_lower t bs) \/
  ((zlen bs > 1342177275 \/ out_len < (zlen bs + 4) / 5 * 8) /\ base32hex_encode bs out_len = Err KNOT_ERANGE).
Proof.
  intros bs out_len HB. unfold base32hex_encode. change B32_MAX_BIN with 1342177275.
  destruct ((zlen bs >? 1342177275) || (out_len <? (zlen bs + 4) / 5 * 8)) eqn:E; [right; split; [lia|auto]|left].
  split; [lia|]. split; [lia|]. destruct (b32_encode_loop_spec bs out_len [] HB) as (t & E1 & H1 & H2); [zl; lia|].
  exists t. rewrite E1. auto.
Qed.
(** Texts are accepted in either case. *)
Theorem c44_decode_complete : forall t bs out_len, b32_text group b32hex_digit t bs -> zlen t < 2 ^ 31 ->
  zlen t / 8 * 5 <= out_len -> base32hex_decode t out_len = Ok bs.
Proof.
  intros t bs out_len HT H1 H2. pose proof (b32_text_len _ _ _ _ HT) as [_ Hm]. unfold base32hex_decode.
  replace (zlen t >? INT32_MAX) with false by (change INT32_MAX with (2 ^ 31 - 1); lia).
  replace (out_len <? _) with false by lia. replace (zlen t mod 8 =? 0) with true by lia. cbn [orb negb].
  rewrite (b32_decode_complete t bs HT) by (zl; lia). auto.
Qed.
Theorem c44_round_trip : forall bs out_len t out_len2, bytes bs -> base32hex_encode bs out_len = Ok t ->
  zlen t / 8 * 5 <= out_len2 -> base32hex_decode t out_len2 = Ok bs.
Proof.
  intros bs out_len t out_len2 HB E Hl. destruct (c44_encode bs out_len HB) as [(H1 & H2 & t' & E' & H3 & HT)|[_ E']]; rewrite E' in E; [|discriminate].
  injection E as <-. apply c44_decode_complete; auto; [apply b32_text_loose; apply (b32_text_weaken b32hex_lower); auto using lower_digit|]. lia.
Qed.
(** Hashed owner names sort like the hashes. *)
Theorem c44_order : forall a b oa ob ta tb, bytes a -> bytes b -> zlen a = zlen b ->
  base32hex_encode a oa = Ok ta -> base32hex_encode b ob = Ok tb -> octets_cmp ta tb = octets_cmp a b.
Proof.
  intros a b oa ob ta tb HA HB Hl EA EB.
  destruct (c44_encode a oa HA) as [(_ & _ & t1 & E1 & _ & T1)|[_ E1]]; rewrite E1 in EA; [|discriminate].
  destruct (c44_encode b ob HB) as [(_ & _ & t2 & E2 & _ & T2)|[_ E2]]; rewrite E2 in EB; [|discriminate].
  injection EA as <-. injection EB as <-. eapply b32_text_cmp; eauto. unfold zlen in Hl. lia.
Qed.
Theorem c44_decode_safe : forall t out_len, bytes t ->
  (exists bs, base32hex_decode t out_len = Ok bs /\ zlen bs <= zlen t / 8 * 5 <= out_len) \/
  (exists e, base32hex_decode t out_len = Err e).
Proof.
  intros t out_len HB. unfold base32hex_decode. destruct (_ || _) eqn:E1; [eauto|].
  destruct (zlen t mod 8 =? 0) eqn:E2; cbn [negb]; [|eauto]. pose proof (zlen_nonneg t).
  destruct (b32_decode_safe t out_len 0 [] HB) as [(bs & E & Hb)|E]; try (zl; lia); rewrite E; [left; exists bs; split; [auto|lia]|eauto].
Qed.
Theorem c44_decode_sound_partial : forall t bs out_len, bytes t ->
  (forall i, zget t i = Some 61 -> zlen t - 6 <= i) ->
  base32hex_decode t out_len = Ok bs -> b32_text group b32hex_digit t bs.
Proof.
  intros t bs out_len HB HP E. unfold base32hex_decode in E. destruct (_ || _) eqn:E1; [discriminate|].
  destruct (zlen t mod 8 =? 0) eqn:E2; cbn [negb] in E; [|discriminate].
  apply b32_decode_sound in E; auto; [|lia]. destruct E as (bs' & -> & HT). auto.
Qed.
(** The same defect as in Base64: padding inside the text, "0000000=00000000". *)
Theorem c44_padding_inside_refuted : exists t bs out_len, bytes t /\ base32hex_decode t out_len = Ok bs /\
  ~ b32_text group b32hex_digit t bs.
Proof.
  exists (repeat 48 7 ++ [61] ++ repeat 48 8), [0;0;0;0;0;0;0;0], 10. split; [repeat constructor; cbv; congruence|]. split; [vm_compute; reflexivity|].
  intros H. remember (repeat 48 7 ++ [61] ++ repeat 48 8) as t eqn:Et. remember [0;0;0;0;0;0;0;0] as bs eqn:Eb.
  destruct H as [|cs bs t r L1 L2 (ds & HD & _) HT|cs bs L1 L2 HG|cs bs L1 L2 HG|cs bs L1 L2 HG|cs bs L1 L2 HG]; subst; try discriminate.
  do 8 (destruct cs as [|? cs]; [discriminate|]). destruct cs; [|discriminate]. cbn [app repeat] in Et. injection Et as -> -> -> -> -> -> -> -> ->.
  repeat match goal with H : digits_of _ _ _ |- _ => inversion H; clear H; subst | H : Forall2 _ _ _ |- _ => inversion H; clear H; subst end. discriminate.
Qed.
Example c44_ex : base32hex_encode [102;111;111;98] 8 = Ok (codes "cpnmuog="%string) /\ base32hex_decode (codes "CPNMUOG="%string) 5 = Ok [102;111;111;98].
Proof. split; reflexivity. Qed.

(** *** C45 Base64url (padding omitted, or written "%3d") *)
Theorem c45_encode : forall bs out_len, bytes bs ->
  (zlen bs <= 1610612733 /\ (zlen bs + 2) / 3 * 4 <= out_len /\
   exists t n, base64url_encode bs out_len = Ok t /\ zlen t = (zlen bs * 4 + 2) / 3 /\ b64_unpadded strict_group b64url_digit t bs n) \/
  ((zlen bs > 1610612733 \/ out_len < (zlen bs + 2) / 3 * 4) /\ base64url_encode bs out_len = Err KNOT_ERANGE).
Proof.
  intros bs out_len HB. unfold base64url_encode. change B64_MAX_BIN with 1610612733.
  destruct ((zlen bs >? 1610612733) || (out_len <? (zlen bs + 2) / 3 * 4)) eqn:E; [right; split; [lia|auto]|left].
  split; [lia|]. split; [lia|]. destruct (b64u_encode_loop_spec bs out_len [] HB) as (t & n & E1 & H1 & H2); [zl; lia|].
  exists t, n. rewrite E1. auto.
Qed.
Lemma unpadded_no_percent : forall dig t bs n, (forall d, dig 37 <> Some d) -> b64_unpadded group dig t bs n -> ~ In 37 t /\ 0 <= n.
Proof.
  assert (HD : forall dig cs ds, (forall d, dig 37 <> Some d) -> digits_of dig cs ds -> ~ In 37 cs).
  { unfold digits_of. induction 2 as [|c d cs ds H1 H2 IH]; [intros []|]. intros [->|Hi]; auto. eapply H; eauto. }
  induction 2 as [|cs bs t r n L1 L2 (ds & HG & _) HT [IH1 IH2]|cs bs L1 L2 (ds & HG & _)|cs bs L1 L2 (ds & HG & _)].
  - split; [intros []|lia].
  - split; [|auto]. intros Hi. apply in_app_or in Hi as [Hi|Hi]; auto. revert Hi. eapply HD; eauto.
  - split; [|lia]. eapply HD; eauto.
  - split; [|lia]. eapply HD; eauto.
Qed.
Lemma zlen_3d : forall ss, Forall is_3d ss -> zlen (concat ss) = 3 * zlen ss.
Proof. induction 1 as [|s ss [->| ->] H IH]; cbn [concat]; zl; rewrite ?IH; zl; lia. Qed.
Lemma unpadded_n : forall G dig t bs n, b64_unpadded G dig t bs n -> 0 <= n <= 2.
Proof. induction 1; lia. Qed.
(** Legal text, followed by at most as many "%3d" as characters are missing in the last group. *)
Theorem c45_decode_complete : forall t bs n ss after out_len, b64_unpadded group b64url_digit t bs n ->
  Forall is_3d ss -> zlen ss <= n -> zlen t < 2 ^ 31 -> (zlen t + 3) / 4 * 3 <= out_len ->
  base64url_decode (t ++ concat ss) after out_len = Ok bs.
Proof.
  intros t bs n ss after out_len HT HF Hn H1 H2. pose proof (unpadded_n _ _ _ _ _ HT).
  destruct (unpadded_no_percent b64url_digit t bs n) as [Hp _]; auto; [discriminate|].
  unfold base64url_decode. rewrite cut_complete by (auto; unfold zlen in *; lia).
  rewrite zlen_app, zlen_3d by auto. replace (zlen t + 3 * zlen ss - 3 * zlen ss) with (zlen t) by lia.
  replace (zlen t >? INT32_MAX) with false by (change INT32_MAX with (2 ^ 31 - 1); lia).
  replace (out_len <? _) with false by lia. cbn [orb].
  unfold zfirstn, zlen at 1. rewrite Nat2Z.id, firstn_app, Nat.sub_diag, firstn_all. cbn [firstn]. rewrite app_nil_r.
  rewrite (b64u_decode_complete t bs n HT) by (zl; lia). cbn [rbind]. replace (_ >? n) with false by lia. auto.
Qed.
Theorem c45_round_trip : forall bs out_len t after out_len2, bytes bs -> base64url_encode bs out_len = Ok t ->
  (zlen t + 3) / 4 * 3 <= out_len2 -> base64url_decode t after out_len2 = Ok bs.
Proof.
  intros bs out_len t after out_len2 HB E Hl. destruct (c45_encode bs out_len HB) as [(H1 & H2 & t' & n & E' & H3 & HT)|[_ E']]; rewrite E' in E; [|discriminate].
  injection E as <-. rewrite <- (app_nil_r t'). apply (c45_decode_complete t' bs n []); auto; [apply b64u_text_loose; auto| |lia].
  pose proof (unpadded_n _ _ _ _ _ HT). zl. lia.
Qed.
Lemma cut_range : forall inp, 0 <= cut_3d (rev inp) pattern_3d 0 /\ 3 * cut_3d (rev inp) pattern_3d 0 <= zlen inp.
Proof.
  intros inp. pose proof (zlen_nonneg inp). destruct (cut_sound inp) as [(t & -> & _)|[(t & s & -> & Hs & ->)|(t & s1 & s2 & -> & H1 & H2 & ->)]].
  - lia.
  - zl. pose proof (zlen_nonneg t). destruct Hs as [-> | ->]; zl; lia.
  - zl. pose proof (zlen_nonneg t). destruct H1 as [-> | ->], H2 as [-> | ->]; zl; lia.
Qed.
(** With at least one readable byte behind the input (a terminating zero) it is safe. *)
Theorem c45_decode_safe_partial : forall t after out_len, bytes t -> bytes after -> after <> [] ->
  (exists bs, base64url_decode t after out_len = Ok bs /\ zlen bs <= out_len) \/
  (exists e, base64url_decode t after out_len = Err e).
Proof.
  intros t after out_len HB HA Hn. pose proof (cut_range t) as [C1 C2]. unfold base64url_decode. cbv zeta.
  set (k := cut_3d (rev t) pattern_3d 0) in *. destruct (_ || _) eqn:E1; [eauto|].
  destruct (b64u_decode_safe (zfirstn (zlen t - 3 * k) t) out_len (zskipn (zlen t - 3 * k) t ++ after) []) as [(n & bs & -> & Hb)|E].
  - unfold zfirstn. apply Forall_forall. intros x Hx. eapply Forall_forall; [exact HB|]. rewrite <- (firstn_skipn (Z.to_nat (zlen t - 3 * k)) t). apply in_or_app; auto.
  - apply Forall_app. split; auto. unfold zskipn. apply Forall_forall. intros x Hx. eapply Forall_forall; [exact HB|]. rewrite <- (firstn_skipn (Z.to_nat (zlen t - 3 * k)) t). apply in_or_app; auto.
  - intros H. apply app_eq_nil in H as [_ H]. auto.
  - rewrite zlen_zfirstn by lia. zl. lia.
  - cbn [rbind]. rewrite zlen_zfirstn in Hb by lia. destruct (k >? n); [eauto|]. left. exists bs. split; [auto|]. lia.
  - rewrite E. cbn [rbind]. eauto.
Qed.
(** Without it, a text of length 1 (mod 4) makes the decoder read behind the input. *)
Theorem c45_decode_safe_refuted : exists t out_len, bytes t /\ base64url_decode t [] out_len = UB.
Proof. exists [65], 3. split; [repeat constructor; lia|]. vm_compute. reflexivity. Qed.
(** ... and what is behind decides: "A" followed by "A" in memory is accepted. *)
Theorem c45_reads_behind_refuted : exists t after1 after2 out_len r, base64url_decode t after1 out_len = Ok r /\
  base64url_decode t after2 out_len = Err KNOT_BASE64_ECHAR.
Proof. exists [65], [65], [0], 3, [0]. split; vm_compute; reflexivity. Qed.
(** A zero-terminated input without zero bytes inside: accepted texts are legal. *)
Theorem c45_decode_sound_partial : forall t rest bs out_len, bytes t -> ~ In 0 t ->
  base64url_decode t (0 :: rest) out_len = Ok bs ->
  exists u ss n, t = u ++ concat ss /\ Forall is_3d ss /\ zlen ss <= n /\ b64_unpadded group b64url_digit u bs n.
Proof.
  intros t rest bs out_len HB HN E. unfold base64url_decode in E. cbv zeta in E.
  assert (Hshape : exists u ss, t = u ++ concat ss /\ Forall is_3d ss /\ cut_3d (rev t) pattern_3d 0 = zlen ss).
  { destruct (cut_sound t) as [(u & E1 & E2)|[(u & s & E1 & Hs & E2)|(u & s1 & s2 & E1 & H1 & H2 & E2)]].
    - exists t, []. cbn [concat]. rewrite app_nil_r. zl. auto.
    - exists u, [s]. cbn [concat]. rewrite app_nil_r. zl. auto.
    - exists u, [s1; s2]. cbn [concat]. rewrite app_nil_r. zl. auto. }
  destruct Hshape as (u & ss & Et & HF & Ek). rewrite Ek in E.
  rewrite Et in E. rewrite zlen_app, zlen_3d in E by auto.
  replace (zlen u + 3 * zlen ss - 3 * zlen ss) with (zlen u) in E by lia.
  unfold zfirstn, zskipn in E. replace (Z.to_nat (zlen u)) with (length u) in E by (unfold zlen; lia).
  rewrite firstn_app, skipn_app, Nat.sub_diag, firstn_all, skipn_all in E. cbn [firstn skipn app] in E. rewrite app_nil_r in E.
  destruct (_ || _); [discriminate|].
  destruct (b64u_decode_loop u (concat ss ++ 0 :: rest) out_len []) as [[n r]| | |] eqn:E1; cbn [rbind] in E; try discriminate.
  destruct (zlen ss >? n) eqn:E2; [discriminate|]. injection E as ->.
  apply b64u_decode_sound in E1.
  - destruct E1 as (bs' & -> & HT). exists u, ss, n. split; [auto|]. split; [auto|]. split; [lia|auto].
  - rewrite Et in HB. apply Forall_app in HB. apply HB.
  - intros Hi. apply HN. rewrite Et. apply in_or_app; auto.
  - destruct ss as [|s ss]; cbn [concat app]; [exists 0, rest; split; [auto|split; [split; lia|reflexivity]]|].
    inversion HF as [|? ? [->| ->] _]; subst; cbn [app]; eexists _, _; (split; [reflexivity|]); (split; [unfold byte; lia|reflexivity]).
Qed.
Example c45_ex : base64url_encode [255; 254] 4 = Ok (codes "__4"%string) /\ base64url_decode (codes "__4%3D"%string) [0] 6 = Ok [255; 254].
Proof. split; reflexivity. Qed.

Print Assumptions c43_round_trip. Print Assumptions c44_order. Print Assumptions c45_decode_sound_partial.
