(** Parsing of records: the whole record. *)
From Verif Require Import Base DnameModel DnameSpec DnameProofs DnameProofs2 WireModel WireProofs RrwireModel RrwireSpec RrwireProofs RrwireProofs2.

Definition erase (b : block) : field :=
  match b with BFixed n => Octets n | BCompr | BDecompr | BName => Name | BNaptr => Naptr | BRem => Rest end.
Lemma lay_fits : forall bl ps, fits bl ps <-> lay_out (map erase bl) ps.
Proof.
  split.
  - induction 1; cbn [map erase]; try (constructor; auto; fail).
    + destruct H as [->|[->| ->]]; constructor; auto.
    + eapply lo_naptr; eauto.
  - revert ps. induction bl as [|b bl IH]; intros ps H.
    + inversion H; constructor.
    + destruct b; cbn [map erase] in H; inversion H; subst; try (constructor; auto; fail).
      * apply fits_name; auto. left; auto.
      * apply fits_name; auto. right; left; auto.
      * apply fits_name; auto. right; right; auto.
      * eapply fits_naptr; eauto.
      * destruct bl; [constructor; auto|discriminate].
Qed.

Ltac split_positive p := repeat match goal with |- context [match ?x with _ => _ end] => is_var x; destruct x end.
Lemma layout_table : forall t, map erase (snd (parse_desc t)) = rfc_layout t.
Proof.
  intros t. unfold parse_desc, get_desc, get_obsolete_desc, rdata_descriptors, obsolete_descriptors.
  repeat match goal with |- context [match ?x with _ => _ end] => is_var x; destruct x end; reflexivity.
Qed.
Lemma known_table : forall t, fst (parse_desc t) = existsb (Z.eqb t) known_types.
Proof.
  intros t. unfold parse_desc, get_desc, get_obsolete_desc, rdata_descriptors, obsolete_descriptors.
  repeat match goal with |- context [match ?x with _ => _ end] => is_var x; destruct x end; reflexivity.
Qed.
Lemma lowered_table : forall t, should_be_lowercased t = existsb (Z.eqb t) lowered_types.
Proof.
  intros t. unfold should_be_lowercased, lowered_types. cbn [existsb]. destruct (t =? 33), (t =? 35), (t =? 36); repeat (rewrite ?orb_true_r, ?orb_false_r; cbn [orb]); reflexivity.
Qed.
Lemma zero_table : forall c t, allow_zero_rdata c t (fst (parse_desc t)) = true <-> empty_ok c t.
Proof.
  intros c t. rewrite known_table. unfold allow_zero_rdata, empty_ok.
  assert (K : In t known_types <-> existsb (Z.eqb t) known_types = true).
  { rewrite existsb_exists. split; [intros H; exists t; split; [auto|lia]|intros (x & Hx & E); assert (t = x) by lia; subst; auto]. }
  rewrite K. destruct (existsb (Z.eqb t) known_types); lia.
Qed.

Lemma lower_name_size : forall ls, name_size (lower_name ls) = name_size ls.
Proof. unfold lower_name. induction ls as [|l ls IH]; [reflexivity|]. cbn [map name_size]. rewrite IH. unfold zlen. rewrite map_length. reflexivity. Qed.
Lemma zlen_0_nil : forall A (l : list A), zlen l = 0 -> l = [].
Proof. intros A [|a l] H; [reflexivity|]. rewrite zlen_cons in H. pose proof (zlen_nonneg l). lia. Qed.
Lemma flat_lower : forall ps, zlen (flat (map lower_piece ps)) = zlen (flat ps).
Proof. induction ps as [|[l|ls] ps IH]; [reflexivity| |]; cbn [map lower_piece flat]; rewrite !zlen_app; [lia|]. rewrite !zlen_wire, lower_name_size. lia. Qed.

Definition to_rr (r : record) : rr := mkrr (dwire (r_owner r)) (r_type r) (r_class r) (r_ttl r) (flat (r_data r)).

Lemma canonical_rr : forall r, legal_name (r_owner r) -> (lay_out (rfc_layout (r_type r)) (r_data r) \/ r_data r = []) -> zlen (flat (r_data r)) <= 65535 ->
  rr_to_canonical (to_rr r) = Ok (to_rr (canonical_record r)).
Proof.
  intros r HL HD HZ. unfold rr_to_canonical, to_rr. cbn [rr_owner rr_type rr_class rr_ttl rr_rdata canonical_record r_owner r_type r_class r_ttl r_data].
  replace (dwire (r_owner r)) with (dwire (r_owner r) ++ []) by apply app_nil_r. rewrite dname_to_lower_spec by (apply HL). cbn [rbind]. cbv zeta. cbn [rr_owner rr_type rr_class rr_ttl rr_rdata].
  rewrite lowered_table. destruct (existsb (Z.eqb (r_type r)) lowered_types); cbn [negb]; [|reflexivity].
  destruct HD as [HD|HD].
  - rewrite <- layout_table in HD. apply lay_fits in HD. destruct (zlen (flat (r_data r)) =? 0) eqn:E0.
    + assert (E1 : flat (r_data r) = []) by (apply zlen_0_nil; lia). assert (E2 : flat (map lower_piece (r_data r)) = []) by (apply zlen_0_nil; rewrite flat_lower; lia). rewrite E1, E2. reflexivity.
    + rewrite canonical_spec; [reflexivity|auto|lia].
  - rewrite HD. cbn [flat map zlen length Z.of_nat Z.eqb]. reflexivity.
Qed.

Lemma parse_rdata_sound : forall m d rdlen c t al, bytes m -> zlen m < 2 ^ 63 -> 0 <= d -> 0 <= rdlen < 65536 -> d + rdlen <= zlen m ->
  (exists ps next, parse_rdata m d rdlen c t al = Ok (flat ps, d + rdlen) /\ pieces_at m (d + rdlen) d ps next /\ next <= d + rdlen /\ rdlen <= zlen (flat ps) <= 65535 /\
     (lay_out (rfc_layout t) ps \/ (rdlen = 0 /\ ps = [] /\ empty_ok c t))) \/
  (exists x, parse_rdata m d rdlen c t al = Err x /\ x <> KNOT_EOK).
Proof.
  intros m d rdlen c t al HB HM Hd Hr Hm. unfold parse_rdata. pose proof (zero_table c t) as Z0. pose proof (layout_table t) as L0. pose proof (desc_ok t) as L1.
  destruct (parse_desc t) as [named bl]. cbn [fst snd] in *.
  destruct (rdlen =? 0) eqn:E0.
  - destruct (allow_zero_rdata c t named) eqn:EA; [|right; exists KNOT_EMALF; split; [reflexivity|discriminate]].
    destruct al; [|right; exists KNOT_ENOMEM; split; [reflexivity|discriminate]].
    left. exists [], d. split; [repeat f_equal; lia|]. split; [constructor|]. split; [lia|]. split; [cbn; lia|]. right. split; [lia|]. split; [reflexivity|]. apply Z0; reflexivity.
  - replace (zlen m - d <? rdlen) with false by lia.
    pose proof (traverse_sound m (d + rdlen) HM HB bl d rdlen [] 65535 L1 ltac:(unfold state_at; lia) ltac:(cbn; lia)) as T.
    destruct (traverse_parse m bl d rdlen [] 65535) as [[[s a] o]|x| |]; try contradiction; cbn [catch rbind].
    + destruct T as (ps & HF & Ho & Hcap & HS & Hs & HP). cbn [app] in Ho. subst o.
      destruct (zlen (flat ps) <? rdlen) eqn:E1; [right; exists KNOT_EMALF; split; [reflexivity|discriminate]|].
      destruct al; [|right; exists KNOT_ENOMEM; split; [reflexivity|discriminate]].
      left. exists ps, s. split; [reflexivity|]. split; [exact HP|]. split; [unfold state_at in HS; lia|]. split; [lia|]. left. rewrite <- L0. apply lay_fits. exact HF.
    + right. exists KNOT_EMALF. split; [reflexivity|discriminate].
Qed.

Lemma parse_rdata_complete : forall m d e c t ps, bytes m -> zlen m < 2 ^ 63 -> 0 <= d -> e <= zlen m -> e - d < 65536 ->
  pieces_at m e d ps e -> e - d <= zlen (flat ps) <= 65535 -> ((d < e /\ lay_out (rfc_layout t) ps) \/ (ps = [] /\ empty_ok c t)) ->
  parse_rdata m d (e - d) c t true = Ok (flat ps, e).
Proof.
  intros m d e c t ps HB HM Hd He Hr HP HZ HC. unfold parse_rdata. pose proof (zero_table c t) as Z0. pose proof (layout_table t) as L0.
  destruct (parse_desc t) as [named bl]. cbn [fst snd] in *.
  destruct HC as [[Hlt HL]|[-> HE]].
  - replace (e - d =? 0) with false by lia. replace (zlen m - d <? e - d) with false by lia.
    rewrite <- L0 in HL. apply lay_fits in HL. rewrite (traverse_complete m e HM HB He bl ps d [] 65535 HL Hd HP) by (cbn; lia).
    cbn [catch rbind app]. replace (zlen (flat ps) <? e - d) with false by lia. replace (d + (e - d)) with e by lia. reflexivity.
  - assert (d = e) by (inversion HP; auto). subst e. replace (d - d =? 0) with true by lia. apply Z0 in HE. rewrite HE. reflexivity.
Qed.

Theorem rr_from_wire_sound : forall m pos canonical al1 al2, bytes m -> zlen m < 2 ^ 63 -> 0 <= pos ->
  exists ret pos' st, rr_from_wire m pos canonical al1 al2 = Ok (ret, pos', st) /\
  ((ret <> KNOT_EOK /\ (st = SUntouched \/ st = SCleared)) \/
   (ret = KNOT_EOK /\ exists r d next, fields_at m pos r d pos' /\ pieces_at m pos' d (r_data r) next /\ next <= pos' /\ legal_name (r_owner r) /\
      pos' - d <= zlen (flat (r_data r)) <= 65535 /\
      (lay_out (rfc_layout (r_type r)) (r_data r) \/ (d = pos' /\ r_data r = [] /\ empty_ok (r_class r) (r_type r))) /\
      st = SFilled (to_rr (if canonical then canonical_record r else r)))).
Proof.
  intros m pos canonical al1 al2 HB HM Hp. unfold rr_from_wire.
  destruct (pos >? zlen m) eqn:E; [exists KNOT_EINVAL, pos, SUntouched; split; [reflexivity|left; split; [discriminate|auto]]|].
  destruct (header_noenc m pos al1 HB ltac:(lia)) as [(ls & n & HE & HL)|(x & -> & Hx)]; [|exists x, pos, SUntouched; split; [reflexivity|left; auto]].
  pose proof (encodes_window _ _ _ _ _ HE) as [W1 W2].
  destruct (header_enc m pos al1 ls n HB HM Hp HE HL) as [(-> & t & c & ttl & rdlen & Ut & Uc & Ul & Ud & Hlen & Hr & ->)|(x & -> & Hx & _)]; [|exists x, pos, SUntouched; split; [reflexivity|left; auto]].
  cbn [rr_owner rr_type rr_class rr_ttl rr_rdata].
  destruct (parse_rdata_sound m (pos + n + 10) rdlen c t al2 HB HM ltac:(lia) Hr ltac:(lia)) as [(ps & next & -> & HP & Hn & HZ & HC)|(x & -> & Hx)]; [|exists x, (pos + n + 10), SCleared; split; [reflexivity|left; auto]].
  cbv zeta.
  set (r := mkrecord ls t c ttl ps). change (mkrr (dwire ls) t c ttl (flat ps)) with (to_rr r).
  assert (FA : fields_at m pos r (pos + n + 10) (pos + n + 10 + rdlen)). { exists n, rdlen. cbn [r r_owner r_type r_class r_ttl]. repeat split; auto; lia. }
  assert (CR : rr_to_canonical (to_rr r) = Ok (to_rr (canonical_record r))). { apply canonical_rr; auto; cbn [r r_type r_data]; [tauto|lia]. }
  exists KNOT_EOK, (pos + n + 10 + rdlen), (SFilled (to_rr (if canonical then canonical_record r else r))).
  split. { destruct canonical; [rewrite CR|]; reflexivity. }
  right. split; [reflexivity|]. exists r, (pos + n + 10), next. cbn [r r_owner r_type r_class r_data].
  split; [exact FA|]. split; [exact HP|]. split; [auto|]. split; [auto|]. split; [lia|]. split; [|reflexivity].
  destruct HC as [HC|(H0 & H1 & H2)]; [left; auto|right; repeat split; auto; lia].
Qed.

Theorem rr_from_wire_complete : forall m pos canonical r d e, bytes m -> zlen m < 2 ^ 63 -> 0 <= pos -> legal_name (r_owner r) ->
  fields_at m pos r d e -> pieces_at m e d (r_data r) e -> e - d <= zlen (flat (r_data r)) <= 65535 ->
  ((d < e /\ lay_out (rfc_layout (r_type r)) (r_data r)) \/ (r_data r = [] /\ empty_ok (r_class r) (r_type r))) ->
  rr_from_wire m pos canonical true true = Ok (KNOT_EOK, e, SFilled (to_rr (if canonical then canonical_record r else r))).
Proof.
  intros m pos canonical r d e HB HM Hp HL (n & rdlen & HE & Hd & He & Hm & Ut & Uc & Ul & Ud) HP HZ HC.
  pose proof (encodes_window _ _ _ _ _ HE) as [W1 W2]. unfold rr_from_wire. replace (pos >? zlen m) with false by lia.
  destruct (header_enc m pos true (r_owner r) n HB HM Hp HE HL) as [(_ & t & c & ttl & rdlen' & Ut' & Uc' & Ul' & Ud' & Hlen & Hr & ->)|(x & _ & _ & Hx)].
  2: { specialize (Hx eq_refl _ Ud). lia. }
  rewrite (u16_det _ _ _ _ Ut' Ut), (u16_det _ _ _ _ Uc' Uc), (u32_det _ _ _ _ Ul' Ul), (u16_det _ _ _ _ Ud' Ud). rewrite (u16_det _ _ _ _ Ud' Ud) in Hr.
  cbn [rr_owner rr_type rr_class rr_ttl rr_rdata].
  replace (pos + n + 10) with d by lia. replace rdlen with (e - d) by lia.
  rewrite (parse_rdata_complete m d e (r_class r) (r_type r) (r_data r)); auto; try lia. cbv zeta.
  change (mkrr (dwire (r_owner r)) (r_type r) (r_class r) (r_ttl r) (flat (r_data r))) with (to_rr r).
  destruct canonical; [|reflexivity]. rewrite canonical_rr; [reflexivity|auto|tauto|lia].
Qed.
