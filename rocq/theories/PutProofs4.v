(** Filling of messages: the start, histories, and reading of what was written. *)
From Verif Require Import Base DnameModel DnameSpec DnameProofs DnameProofs2 WireModel WireProofs RrwireModel RrwireSpec RrwireProofs RrwireProofs2 RrwireProofs3 ComprModel ComprSpec ComprProofs ComprProofs2 ComprProofs3 ComprProofs4 ComprProofs5 ComprProofs6 PutModel PutSpec PutProofs PutProofs2 PutProofs3.

Lemma sections_start : forall p q, p_current p = 0 -> p_sections p = [(0, 0); (0, 0); (0, 0)] -> sections_ok p (empty_msg q).
Proof.
  intros p q H1 H2. unfold sections_ok, section_of. rewrite H1, H2. cbn [empty_msg m_section m_items]. split; [auto|]. split; [lia|]. split; [auto|]. split; [constructor|]. split; [auto|].
  intros k Hk. assert (HC : k = 0 \/ k = 1 \/ k = 2) by lia. destruct HC as [->|[->| ->]]; cbn; auto.
Qed.
Lemma zeros : forall n, bytes (repeat 0 n). Proof. induction n; constructor; [unfold byte; lia|auto]. Qed.

Lemma new_inv : forall buf, bytes buf -> 12 <= zlen buf <= 65535 -> exists p, pkt_new buf = Some p /\ Inv p (empty_msg None) /\ p_max p = zlen buf.
Proof.
  intros buf HB HZ. unfold pkt_new. replace (zlen buf <? 12) with false by lia. eexists. split; [reflexivity|]. split; [|reflexivity].
  set (w := overwrite buf 0 (repeat 0 12)). pose proof (differ_overwrite buf 0 (repeat 0 12) ltac:(lia) ltac:(change (zlen (repeat 0 12)) with 12; lia) (zeros 12)) as (DL & DB & _). fold w in DL, DB.
  assert (HZ0 : forall i, 0 <= i < 12 -> zget w i = Some 0). { intros i Hi. pose proof (holds_overwrite buf 0 (repeat 0 12) ltac:(lia) ltac:(change (zlen (repeat 0 12)) with 12; lia) i ltac:(change (zlen (repeat 0 12)) with 12; lia)) as H. rewrite Z.add_0_l in H. unfold w. rewrite H. unfold zget. replace (i <? 0) with false by lia. apply nth_error_repeat. lia. }
  assert (HU : forall o, 0 <= o <= 10 -> u16_at w o 0). { intros o Ho. exists 0, 0. rewrite !HZ0 by lia. auto. }
  unfold Inv. cbn [p_wire p_size p_max p_reserved p_qname_size p_rr p_info p_suffix empty_msg m_question m_items map]. do 6 (split; [auto; lia|]). split; [auto|]. split; [auto|].
  split; [split; [apply HU; lia|intros k Hk; apply HU; lia]|]. split; [|split; [apply sections_start; auto|split; [constructor|auto]]].
  split; [|exact I]. exists []. split; [constructor|]. split; constructor.
Qed.

Lemma land_byte : forall b c, byte b -> byte (Z.land b c).
Proof.
  intros b c Hb. unfold byte in *. assert (0 <= Z.land b c) by (apply Z.land_nonneg; lia). split; [auto|]. assert (HN : forall n, 8 <= n -> Z.testbit (Z.land b c) n = false).
  { intros n Hn. rewrite Z.land_spec. replace (Z.testbit b n) with false; [reflexivity|]. symmetry. destruct (Z.eq_dec b 0) as [->|Hb0]; [apply Z.bits_0|]. apply Z.bits_above_log2; [lia|]. apply Z.log2_lt_pow2; [lia|]. assert (2 ^ 8 <= 2 ^ n) by (apply Z.pow_le_mono_r; lia). change (2 ^ 8) with 256 in *. lia. }
  destruct (Z.eq_dec (Z.land b c) 0) as [->|Hn]; [lia|]. destruct (Z_lt_ge_dec (Z.land b c) 256) as [|Hge]; [lia|]. exfalso. assert (8 <= Z.log2 (Z.land b c)). { change 8 with (Z.log2 256). apply Z.log2_le_mono. lia. }
  pose proof (HN (Z.log2 (Z.land b c)) H0) as Hf. rewrite Z.bit_log2 in Hf by lia. discriminate.
Qed.
Lemma clear_bit_ok : forall w off bit, bytes w -> 0 <= off < zlen w -> exists w' b, clear_bit w off bit = Ok w' /\ differ w w' off (off + 1) /\ zget w off = Some b /\ zget w' off = Some (Z.land b (255 - bit)).
Proof.
  intros w off bit HB Ho. destruct (zget_in_range w off Ho) as (b & Hg). pose proof (zget_byte _ _ _ HB Hg) as Bb. unfold clear_bit. rewrite (rd_ok _ _ _ Hg). cbn [rbind]. eexists; exists b. split; [reflexivity|].
  split. { apply (differ_overwrite w off [Z.land b (255 - bit)]); [lia|cbn; lia|]. constructor; [apply land_byte; auto|constructor]. }
  split; [auto|]. rewrite zget_overwrite by (cbn; lia). replace (_ && _) with true by (cbn; lia). replace (off - off) with 0 by lia. reflexivity.
Qed.

Lemma enc_holds : forall m p pos ls n, encodes m p pos ls n -> p = false -> holds m pos (dwire ls).
Proof.
  intros m p pos ls n H Hp. induction H as [pos H|pos l ls n HL H1 H2 H3 IH|pos hi lo ls n Hp' _ _ _ _ _ _].
  - intros i Hi. cbn in Hi. replace i with 0 by lia. rewrite Z.add_0_r. exact H.
  - change (dwire (l :: ls)) with ([zlen l] ++ l ++ dwire ls). apply holds_app; [intros i Hi; cbn in Hi; replace i with 0 by lia; rewrite Z.add_0_r; auto|]. change (zlen [zlen l]) with 1. apply holds_app; auto.
  - congruence.
Qed.
Lemma u16_holds : forall m pos v, bytes m -> u16_at m pos v -> holds m pos (be 2 v).
Proof.
  intros m pos v HB (a & b & H1 & H2 & Hv). pose proof (zget_byte _ _ _ HB H1) as Ba. pose proof (zget_byte _ _ _ HB H2) as Bb. unfold byte in *. change (be 2 v) with [(v / 256 ^ 1) mod 256; (v / 256 ^ 0) mod 256].
  change (256 ^ 1) with 256. change (256 ^ 0) with 1. rewrite Z.div_1_r. assert (E1 : (v / 256) mod 256 = a). { subst v. rewrite Z.mul_comm, Z.div_add_l by lia. rewrite (Z.div_small b) by lia. rewrite Z.add_0_r. apply Z.mod_small. lia. }
  assert (E2 : v mod 256 = b). { subst v. rewrite Z.add_comm, Z.mul_comm, Z.mod_add by lia. apply Z.mod_small. lia. }
  rewrite E1, E2. intros i Hi. change (zlen [a; b]) with 2 in Hi. assert (Hc : i = 0 \/ i = 1) by lia. destruct Hc as [->| ->]; [rewrite Z.add_0_r|]; auto.
Qed.

Lemma init_inv : forall p qwire q qsize, bytes (p_wire p) -> zlen (p_wire p) <= 65535 -> p_max p <= zlen (p_wire p) -> bytes qwire -> query_holds qwire q qsize ->
  exists ret p', pkt_init_response p qwire qsize = Ok (ret, p') /\
  ((ret = KNOT_ESPACE /\ p' = p /\ p_max p < 12 + question_size q) \/
   (ret = KNOT_EOK /\ Inv p' (empty_msg q) /\ p_max p' = p_max p /\ p_size p' = 12 + question_size q /\ p_size p' <= p_max p /\ p_reserved p' = 0 /\
    (forall i, 0 <= i < 2 -> zget (p_wire p') i = zget qwire i) /\
    exists a b, zget qwire 2 = Some a /\ zget qwire 3 = Some b /\
      zget (p_wire p') 2 = Some (Z.land (Z.land (Z.lor a 128) 253) 251) /\ zget (p_wire p') 3 = Some (Z.land (Z.land (Z.land b 223) 127) 191))).
Proof.
  intros p qwire q qsize HB H64 HM HQB HQ. unfold pkt_init_response. assert (HBase : 12 + (if qsize =? 0 then 0 else qsize + 4) = 12 + question_size q).
  { unfold question_size. destruct q as [[[q cl] t]|]; cbn [query_holds] in HQ; [destruct HQ as (_ & _ & _ & -> & _); pose proof (name_size_ge1 q); replace (name_size q =? 0) with false by lia; lia|destruct HQ as [-> _]; reflexivity]. }
  rewrite HBase. assert (HQS : 0 <= question_size q) by (unfold question_size; destruct q as [[[q cl] t]|]; [pose proof (name_size_ge1 q)|]; lia). assert (HQL : 12 + question_size q <= zlen qwire) by (unfold question_size; destruct q as [[[q cl] t]|]; cbn [query_holds] in HQ; [destruct HQ as (_ & _ & _ & _ & _ & HQ & _); lia|lia]).
  set (base := 12 + question_size q) in *. destruct (base >? p_max p) eqn:E; [eexists; eexists; split; [reflexivity|left; split; [auto|split; [auto|lia]]]|].
  rewrite rdn_ok by lia. cbn [rbind]. change (zskipn 0 qwire) with qwire. set (l := zfirstn base qwire). assert (HLl : zlen l = base) by (unfold l; rewrite zlen_zfirstn by lia; lia).
  cbn [with_size p_wire]. replace (base >? zlen (p_wire p)) with false by lia. set (w0 := overwrite (p_wire p) 0 l).
  assert (HBl : bytes l) by (apply bytes_zfirstn; auto).
  assert (HG0 : forall i, 0 <= i < base -> zget w0 i = zget qwire i). { intros i Hi. unfold w0. rewrite zget_overwrite by lia. replace (_ && _) with true by lia. unfold l. rewrite zget_zfirstn by lia. f_equal. lia. }
  pose proof (differ_overwrite (p_wire p) 0 l ltac:(lia) ltac:(lia) HBl) as (DL0 & DB0 & _). fold w0 in DL0, DB0. specialize (DB0 HB).
  assert (HS0 : exists w1, (if qsize =? 0 then set16 w0 4 0 else Ok w0) = Ok w1 /\ differ w0 w1 4 6 /\ u16_at w1 4 (match q with None => 0 | Some _ => 1 end)).
  { destruct q as [[[q cl] t]|]; cbn [query_holds] in HQ.
    - destruct HQ as (_ & _ & _ & -> & HU & _). pose proof (name_size_ge1 q). replace (name_size q =? 0) with false by lia. exists w0. split; [auto|]. split; [apply differ_refl|]. destruct HU as (a & b & U1 & U2 & U3). exists a, b. rewrite !HG0 by lia. auto.
    - destruct HQ as [-> _]. change (0 =? 0) with true. cbn iota. apply (set16_ok w0 4 0); auto; lia. }
  destruct HS0 as (w1 & -> & D1 & U1). cbn [rbind]. pose proof D1 as (DL1 & DB1 & DD1). specialize (DB1 DB0).
  destruct (set16_ok w1 6 0 DB1 ltac:(lia) ltac:(lia) ltac:(lia)) as (w2 & -> & D2 & U2). cbn [rbind]. pose proof D2 as (DL2 & DB2 & DD2). specialize (DB2 DB1).
  destruct (set16_ok w2 8 0 DB2 ltac:(lia) ltac:(lia) ltac:(lia)) as (w3 & -> & D3 & U3). cbn [rbind]. pose proof D3 as (DL3 & DB3 & DD3). specialize (DB3 DB2).
  destruct (set16_ok w3 10 0 DB3 ltac:(lia) ltac:(lia) ltac:(lia)) as (w4 & -> & D4 & U4). cbn [rbind]. pose proof D4 as (DL4 & DB4 & DD4). specialize (DB4 DB3).
  destruct (set_bit_ok w4 2 128 DB4 ltac:(lia) ltac:(unfold byte; lia)) as (w5 & a & -> & D5 & A5 & B5). cbn [rbind]. pose proof D5 as (DL5 & DB5 & DD5). specialize (DB5 DB4).
  destruct (clear_bit_ok w5 2 2 DB5 ltac:(lia)) as (w6 & a6 & -> & D6 & A6 & B6). cbn [rbind]. pose proof D6 as (DL6 & DB6 & DD6). specialize (DB6 DB5).
  destruct (clear_bit_ok w6 3 32 DB6 ltac:(lia)) as (w7 & b & -> & D7 & A7 & B7). cbn [rbind]. pose proof D7 as (DL7 & DB7 & DD7). specialize (DB7 DB6).
  destruct (clear_bit_ok w7 3 128 DB7 ltac:(lia)) as (w8 & b8 & -> & D8 & A8 & B8). cbn [rbind]. pose proof D8 as (DL8 & DB8 & DD8). specialize (DB8 DB7).
  destruct (clear_bit_ok w8 2 4 DB8 ltac:(lia)) as (w9 & a9 & -> & D9 & A9 & B9). cbn [rbind]. pose proof D9 as (DL9 & DB9 & DD9). specialize (DB9 DB8).
  destruct (clear_bit_ok w9 3 64 DB9 ltac:(lia)) as (w & b10 & -> & DX & AX & BX). cbn [rbind]. pose proof DX as (DLX & DBX & DDX). specialize (DBX DB9).
  assert (HU : forall o v, 4 <= o -> u16_at w4 o v -> u16_at w o v). { intros o v Ho (x & y & X1 & X2 & X3). exists x, y. rewrite !DDX, !DD9, !DD8, !DD7, !DD6, !DD5 by lia. auto. }
  assert (HG : forall i, 12 <= i < base -> zget w i = zget qwire i). { intros i Hi. rewrite DDX, DD9, DD8, DD7, DD6, DD5, DD4, DD3, DD2, DD1 by lia. apply HG0. lia. }
  eexists. eexists. split; [reflexivity|]. right. split; [auto|]. set (p' := compr_clear _). assert (HP : p' = mkpkt w base (p_max p) 0 qsize [] [] (p_allocd p) 0 [(0, 0); (0, 0); (0, 0)] (0, 0)) by reflexivity. clearbody p'. subst p'. cbn [p_wire p_size p_max p_reserved].
  split; [|split; [auto|split; [auto|split; [lia|split; [auto|]]]]].
  - unfold Inv. cbn [p_wire p_size p_max p_reserved p_qname_size p_rr p_info p_suffix empty_msg m_question m_items map]. split; [auto|]. split; [lia|]. split; [lia|]. split; [lia|]. split; [lia|]. split; [lia|].
    split; [destruct q as [[[q cl] t]|]; cbn [query_holds] in HQ; tauto|]. split; [auto|]. split.
    { split; cbn [empty_msg m_question m_items]. - apply HU; [lia|]. eapply differ_u16; [exact D4| |lia]. eapply differ_u16; [exact D3| |lia]. eapply differ_u16; [exact D2| |lia]. exact U1.
      - intros k Hk. assert (HC : k = 0 \/ k = 1 \/ k = 2) by lia. change (zlen (records_of (in_section k []))) with 0. destruct HC as [->|[->| ->]]; apply HU; try lia; [|eapply differ_u16; [exact D4|exact U3|lia]|exact U4]. eapply differ_u16; [exact D4| |lia]. eapply differ_u16; [exact D3|exact U2|lia]. }
    split; [|split; [apply sections_start; auto|split; [constructor|auto]]]. split; cbn [empty_msg m_question m_items m_broken].
    + exists []. split; [|split; constructor]. replace base with (qend (empty_msg q)); [constructor|]. unfold qend, base, question_size. cbn [empty_msg m_question]. destruct q as [[[q cl] t]|]; lia.
    + destruct q as [[[q cl] t]|]; [|exact I]. cbn [query_holds] in HQ. destruct HQ as (HL & Hc & Ht & _ & _ & HZ & HE & HT & HCl). pose proof (name_size_ge1 q). unfold question_size in base.
      assert (HH : holds w 12 (dwire q ++ be 2 t ++ be 2 cl)).
      { assert (HHq : holds qwire 12 (dwire q ++ be 2 t ++ be 2 cl)). { apply holds_app; [eapply enc_holds; [exact HE|auto]|]. rewrite zlen_wire. apply holds_app; [apply u16_holds; auto|]. rewrite be_length. apply u16_holds; auto. }
        intros i Hi. rewrite <- (HHq i Hi). rewrite !zlen_app, !be_length, zlen_wire in Hi. apply HG. lia. }
      do 3 (split; [auto|]). split; [exact HH|]. split; [apply plain_flat; auto; try lia; apply holds_app_inv in HH; apply HH|]. split; [constructor|]. right; left; reflexivity.
  - split. { intros i Hi. rewrite DDX, DD9, DD8, DD7, DD6, DD5, DD4, DD3, DD2, DD1 by lia. apply HG0. lia. }
    exists a, b. rewrite DD4, DD3, DD2, DD1 in A5 by lia. rewrite HG0 in A5 by lia. rewrite DD6, DD5, DD4, DD3, DD2, DD1 in A7 by lia. rewrite HG0 in A7 by lia. split; [auto|]. split; [auto|].
    assert (a6 = Z.lor a 128) by congruence. rewrite DD8, DD7, B6 in A9 by lia. inversion A9; subst a9. rewrite DDX, B9 by lia. rewrite B7 in A8. inversion A8; subst b8. rewrite DD9, B8 in AX by lia. inversion AX; subst b10. rewrite BX. subst a6. auto.
Qed.

(** ** Histories *)
Lemma step_inv : forall p m c, Inv p m -> allowed_call p m c -> exists ret p', do_op (to_op c) p = Ok (ret, p') /\ Inv p' (effect c ret m) /\ p_max p' = p_max p /\
  match c with
  | CPut al1 al2 h x ptr rot f => put_result p m al1 al2 x ptr rot f ret p'
  | CQuestion q _ _ => (ret = KNOT_EOK <-> 12 + name_size q + 4 <= p_max p) /\ (ret <> KNOT_EOK -> ret = KNOT_ESPACE /\ p_size p' = p_size p /\ differ (p_wire p) (p_wire p') (p_size p) (p_max p))
  | _ => p_wire p' = p_wire p /\ p_size p' = p_size p
  end.
Proof.
  intros p m [q cl t|s|n|n|al1 al2 h x ptr rot f] HI HA; cbn [do_op to_op].
  - destruct (question_inv p m q cl t HI HA) as (ret & p' & E & HI' & H1 & H2). exists ret, p'. split; [exact E|]. split; [exact HI'|]. split; [|auto].
    unfold pkt_put_question in E. destruct (_ || _); [discriminate|]. destruct (bind _ _ _) as [n s|e s| |]; try discriminate; [|inversion E; reflexivity]. destruct (set16 _ 4 1); cbn [rbind] in E; try discriminate. unfold pkt_begin in E. destruct (0 <? _); inversion E; reflexivity.
  - destruct (pkt_begin p s) as [ret p'] eqn:E. exists ret, p'. split; [reflexivity|]. pose proof (begin_inv p m s HI HA) as H. rewrite E in H. split; [exact H|]. unfold pkt_begin in E. destruct (s <? p_current p); inversion E; subst; auto.
  - destruct (pkt_reserve p n) as [ret p'] eqn:E. exists ret, p'. split; [reflexivity|]. destruct (reserve_inv p m n HI HA) as [H _]. rewrite E in H. split; [exact H|]. unfold pkt_reserve in E. destruct (_ >=? n); inversion E; subst; auto.
  - destruct (pkt_reclaim p n) as [ret p'] eqn:E. exists ret, p'. split; [reflexivity|]. destruct (reserve_inv p m n HI HA) as [_ H]. rewrite E in H. split; [exact H|]. unfold pkt_reclaim in E. destruct (_ >=? n); inversion E; subst; auto.
  - destruct (put_inv p m al1 al2 h x ptr rot f HI HA) as (ret & p' & E & HI' & HR). exists ret, p'. split; [exact E|]. split; [exact HI'|]. split; [apply HR|exact HR].
Qed.
Lemma history_inv : forall p m cs rets p' m', history p m cs rets p' m' -> Inv p m -> Inv p' m' /\ p_max p' = p_max p.
Proof.
  intros p m cs rets p' m' H. induction H as [|p m c ret p1 cs rets p2 m2 HA E H IH]; intros HI; [auto|]. destruct (step_inv p m c HI HA) as (ret' & p1' & E' & HI' & HM & _). rewrite E in E'. inversion E'; subst. destruct (IH HI') as [H1 H2]. split; [auto|congruence].
Qed.
