From Verif Require Import Base DnameModel DnameSpec.

Lemma is_pointer_byte : forall b, byte b -> is_pointer b = (192 <=? b).
Proof.
  intros b Hb.
  apply (byte_sweep (fun b => Bool.eqb (is_pointer b) (192 <=? b))) in Hb; [|vm_compute; reflexivity].
  apply eqb_prop in Hb. auto.
Qed.

Lemma get_pointer_val : forall hi lo, byte hi -> byte lo -> 192 <= hi ->
  get_pointer hi lo = (hi - 192) * 256 + lo.
Proof.
  unfold get_pointer, u16, byte; intros. rewrite Z.mod_small; lia.
Qed.

Lemma name_size_pos : forall ls, 1 <= name_size ls.
Proof. induction ls; cbn [name_size]; [lia|]. pose proof (zlen_nonneg a). lia. Qed.

Lemma zlen_wire : forall ls, zlen (wire ls) = name_size ls.
Proof.
  induction ls; cbn [wire name_size]; [reflexivity|].
  rewrite zlen_cons, zlen_app. lia.
Qed.

Lemma bytes_wire : forall ls, Forall legal_label ls -> bytes (wire ls).
Proof.
  induction 1 as [|l ls [Hl Hb] _ IH]; cbn [wire].
  - repeat constructor; cbv; congruence.
  - apply bytes_cons. split; [unfold byte; lia|]. apply bytes_app; auto.
Qed.

Lemma zfirstn_zskipn_get : forall (m : list Z) off n i,
  0 <= off -> 0 <= i < n -> off + n <= zlen m ->
  zget (zfirstn n (zskipn off m)) i = zget m (off + i).
Proof.
  intros. rewrite <- zget_zskipn by lia. unfold zget, zfirstn.
  destruct (i <? 0) eqn:E; [lia|].
  generalize (zskipn off m). intros l.
  assert (Z.to_nat i < Z.to_nat n)%nat by lia.
  revert H2. generalize (Z.to_nat i) (Z.to_nat n). clear.
  intros i n. revert l i. induction n; intros l i H; [lia|].
  destruct l; cbn [firstn]; [destruct i; reflexivity|].
  destruct i; cbn; [reflexivity|]. apply IHn; lia.
Qed.

Lemma bytes_sub : forall m off n, bytes m -> bytes (zfirstn n (zskipn off m)).
Proof.
  unfold bytes, zfirstn, zskipn; intros m off n H.
  rewrite Forall_forall in *. intros x Hx. apply H.
  assert (In x (skipn (Z.to_nat off) m)).
  { rewrite <- (firstn_skipn (Z.to_nat n) (skipn (Z.to_nat off) m)). apply in_or_app; auto. }
  rewrite <- (firstn_skipn (Z.to_nat off) m). apply in_or_app; auto.
Qed.

Lemma zget_ext : forall {A} (l1 l2 : list A), zlen l1 = zlen l2 ->
  (forall i, 0 <= i < zlen l1 -> zget l1 i = zget l2 i) -> l1 = l2.
Proof.
  intros A l1. induction l1 as [|a l1 IH]; intros l2 HL H.
  - destruct l2; auto. rewrite zlen_cons, zlen_nil in HL. pose proof (zlen_nonneg l2). lia.
  - destruct l2 as [|b l2].
    { rewrite zlen_cons, zlen_nil in HL. pose proof (zlen_nonneg l1). lia. }
    rewrite !zlen_cons in *. pose proof (zlen_nonneg l1).
    assert (E : zget (a :: l1) 0 = zget (b :: l2) 0) by (apply H; lia).
    rewrite !zget_0 in E. injection E as ->. f_equal. apply IH; [lia|].
    intros i Hi. specialize (H (i + 1)). rewrite !zget_cons in H by lia.
    replace (i + 1 - 1) with i in H by lia. apply H; lia.
Qed.

(** ** encodes is a partial function of the position *)
Lemma encodes_det : forall m p pos ls n, bytes m -> encodes m p pos ls n ->
  forall ls' n', encodes m p pos ls' n' -> ls = ls' /\ n = n'.
Proof.
  intros m p pos ls n HB H. induction H as [pos H0 | pos lab ls n Hl H0 Hi He IH | pos hi lo ls n Hp Hh Hlo Hge Hlt He IH];
    intros ls' n' H'; inversion H'; subst; clear H'.
  - auto.
  - destruct H as [? _]. rewrite H0 in H1. injection H1. lia.
  - rewrite H0 in H1. injection H1. lia.
  - destruct Hl as [? _]. rewrite H0 in H. injection H; lia.
  - rewrite H0 in H1. injection H1 as E.
    assert (lab = lab0).
    { apply zget_ext; [lia|]. intros i Hi'. rewrite <- Hi, <- H2; auto; lia. }
    subst lab0. destruct (IH _ _ H3) as [-> ->]. auto.
  - rewrite H0 in H1. injection H1 as E. destruct Hl. lia.
  - rewrite Hh in H. injection H; lia.
  - rewrite Hh in H0. injection H0 as E. destruct H. lia.
  - rewrite Hh in H0. injection H0 as <-. rewrite Hlo in H1. injection H1 as <-.
    destruct (IH _ _ H4) as [-> _]. auto.
Qed.

Lemma encodes_range : forall m p pos ls n, encodes m p pos ls n -> 0 <= pos < zlen m.
Proof. intros m p pos ls n H. inversion H; subst; eapply zget_some; eauto. Qed.

Lemma encodes_window : forall m p pos ls n, encodes m p pos ls n -> 0 < n /\ pos + n <= zlen m.
Proof.
  induction 1 as [pos H0 | pos lab ls n Hl H0 Hi He [IH1 IH2] | pos hi lo ls n Hp Hh Hlo Hge Hlt He IH].
  - apply zget_some in H0. lia.
  - pose proof (zlen_nonneg lab). lia.
  - apply zget_some in Hlo. lia.
Qed.

Lemma encodes_legal : forall m p pos ls n, encodes m p pos ls n -> Forall legal_label ls.
Proof. induction 1; auto. Qed.

Lemma encodes_size : forall m pos ls n, encodes m false pos ls n -> n = name_size ls.
Proof.
  intros m pos ls n H. remember false as p. induction H; cbn [name_size]; subst; try congruence.
Qed.

(** ** wire_check *)
Definition wc_measure (m : list Z) (name name_len : Z) : Z :=
  (256 - name_len) * (zlen m + 1) + name.

Lemma rd_ok : forall m i b, zget m i = Some b -> rd m i = Ok b.
Proof. unfold rd; intros m i b ->; auto. Qed.

Lemma wire_check_loop_sound : forall fuel m p name wl nl comp,
  bytes m -> 0 <= name < zlen m -> 1 <= nl <= 255 ->
  wc_measure m name nl < Z.of_nat fuel ->
  match wire_check_loop fuel m p name wl nl comp with
  | Ok r => exists ls n, encodes m p name ls n /\ nl - 1 + name_size ls <= 255 /\
              r = if comp then wl else wl + n
  | Err _ => True
  | _ => False
  end.
Proof.
  induction fuel as [|fuel IH]; intros m p name wl nl comp HB Hn Hnl Hf.
  { unfold wc_measure in Hf. nia. }
  cbn [wire_check_loop].
  destruct (zget_in_range m name Hn) as [c Hc].
  rewrite (rd_ok _ _ _ Hc). cbn [rbind].
  assert (Hcb : byte c) by (eapply zget_byte; eauto).
  destruct (c =? 0) eqn:E0.
  { assert (c = 0) by lia. subst c. exists [], 1. repeat split.
    - constructor; auto.
    - cbn [name_size]; lia. }
  destruct (name + 2 >? zlen m) eqn:E1; [exact I|].
  rewrite is_pointer_byte by auto.
  destruct (192 <=? c) eqn:E2.
  - destruct p; cbn [negb]; [|exact I].
    destruct (zget_in_range m (name + 1) ltac:(lia)) as [lo Hlo].
    rewrite (rd_ok _ _ _ Hlo). cbn [rbind].
    assert (Hlb : byte lo) by (eapply zget_byte; eauto).
    rewrite get_pointer_val by (auto; lia).
    set (t := (c - 192) * 256 + lo) in *.
    assert (0 <= t) by (unfold t, byte in *; lia).
    destruct (t >=? name) eqn:E3; [exact I|].
    destruct (t + 1 >? zlen m) eqn:E4; [exact I|].
    specialize (IH m true t (if comp then wl else wl + 2) nl true HB ltac:(lia) Hnl).
    assert (wc_measure m t nl < Z.of_nat fuel) by (unfold wc_measure in *; lia).
    specialize (IH H0).
    destruct (wire_check_loop fuel m true t _ nl true); auto.
    destruct IH as (ls & n & He & Hs & ->). exists ls, 2. repeat split; auto.
    + eapply enc_ptr; eauto; unfold t in *; lia.
  - destruct (c >? KNOT_DNAME_MAXLABELLEN) eqn:E3; [exact I|].
    unfold KNOT_DNAME_MAXLABELLEN, KNOT_DNAME_MAXLEN in *.
    destruct (nl + (c + 1) >? 255) eqn:E4; [exact I|].
    destruct (name + (c + 1) + 1 >? zlen m) eqn:E5; [exact I|].
    unfold byte in Hcb.
    specialize (IH m p (name + (c + 1)) (if comp then wl else wl + (c + 1)) (nl + (c + 1)) comp HB
                   ltac:(lia) ltac:(lia)).
    assert (Hm : wc_measure m (name + (c + 1)) (nl + (c + 1)) < Z.of_nat fuel).
    { unfold wc_measure in *. nia. }
    specialize (IH Hm).
    destruct (wire_check_loop fuel m p (name + (c + 1)) _ _ comp); auto.
    destruct IH as (ls & n & He & Hs & ->).
    set (lab := zfirstn c (zskipn (name + 1) m)).
    assert (HL : zlen lab = c).
    { unfold lab. apply zlen_zfirstn. rewrite zlen_zskipn by lia. lia. }
    exists (lab :: ls), (1 + zlen lab + n). repeat split.
    + constructor.
      * split; [lia | apply bytes_sub; auto].
      * rewrite HL; auto.
      * intros i Hi. unfold lab. rewrite zfirstn_zskipn_get by lia. f_equal; lia.
      * rewrite HL. replace (name + 1 + c) with (name + (c + 1)) by lia. auto.
    + cbn [name_size]. lia.
    + destruct comp; lia.
Qed.

Lemma wire_check_loop_complete : forall m p pos ls n, bytes m -> encodes m p pos ls n ->
  forall fuel wl nl comp, 1 <= nl -> nl - 1 + name_size ls <= 255 ->
  wc_measure m pos nl < Z.of_nat fuel ->
  wire_check_loop fuel m p pos wl nl comp = Ok (if comp then wl else wl + n).
Proof.
  intros m p pos ls n HB H.
  induction H as [pos H0 | pos lab ls n Hl H0 Hi He IH | pos hi lo ls n Hp Hh Hlo Hge Hlt He IH];
    intros fuel wl nl comp Hnl Hs Hf.
  - pose proof (zget_some _ _ _ H0).
    destruct fuel; [unfold wc_measure in Hf; cbn [name_size] in Hs; nia|]. cbn [wire_check_loop].
    rewrite (rd_ok _ _ _ H0). reflexivity.
  - pose proof (zget_some _ _ _ H0). pose proof (encodes_range _ _ _ _ _ He).
    cbn [name_size] in Hs. pose proof (name_size_pos ls). destruct Hl as [Hl Hlb].
    destruct fuel; [unfold wc_measure in Hf; nia|]. cbn [wire_check_loop].
    rewrite (rd_ok _ _ _ H0). cbn [rbind]. unfold KNOT_DNAME_MAXLABELLEN, KNOT_DNAME_MAXLEN.
    replace (zlen lab =? 0) with false by lia.
    replace (pos + 2 >? zlen m) with false by lia.
    rewrite is_pointer_byte by (unfold byte; lia).
    replace (192 <=? zlen lab) with false by lia.
    replace (zlen lab >? 63) with false by lia.
    replace (nl + (zlen lab + 1) >? 255) with false by lia.
    replace (pos + (zlen lab + 1) + 1 >? zlen m) with false by lia.
    replace (pos + (zlen lab + 1)) with (pos + 1 + zlen lab) by lia.
    rewrite IH; try lia.
    + destruct comp; f_equal; lia.
    + unfold wc_measure in *. nia.
  - pose proof (zget_some _ _ _ Hh). pose proof (zget_some _ _ _ Hlo).
    pose proof (encodes_range _ _ _ _ _ He). pose proof (name_size_pos ls).
    destruct fuel; [unfold wc_measure in Hf; nia|]. cbn [wire_check_loop].
    assert (byte hi) by (eapply zget_byte; eauto). assert (byte lo) by (eapply zget_byte; eauto).
    rewrite (rd_ok _ _ _ Hh), (rd_ok _ _ _ Hlo). cbn [rbind].
    replace (hi =? 0) with false by lia.
    replace (pos + 2 >? zlen m) with false by lia.
    rewrite is_pointer_byte by auto. replace (192 <=? hi) with true by lia.
    subst p. cbn [negb]. rewrite get_pointer_val by auto.
    replace ((hi - 192) * 256 + lo >=? pos) with false by lia.
    replace ((hi - 192) * 256 + lo + 1 >? zlen m) with false by lia.
    rewrite IH; try lia.
    + destruct comp; f_equal; lia.
    + unfold wc_measure in *. lia.
Qed.

Lemma wire_check_fuel_ok : forall m pos, 0 <= pos < zlen m ->
  wc_measure m pos 1 < Z.of_nat (wire_check_fuel m).
Proof.
  intros. unfold wc_measure, wire_check_fuel, zlen in *.
  rewrite Nat2Z.inj_mul, Nat2Z.inj_succ. change (Z.of_nat 256) with 256. lia.
Qed.

Lemma wire_check_sound : forall m p pos, bytes m -> 0 <= pos <= zlen m ->
  match wire_check m p pos with
  | Ok n => exists ls, encodes m p pos ls n /\ name_size ls <= 255
  | Err _ => True
  | _ => False
  end.
Proof.
  intros m p pos HB Hp. unfold wire_check.
  destruct (pos =? zlen m) eqn:E; [exact I|].
  pose proof (wire_check_loop_sound (wire_check_fuel m) m p pos 0 1 false HB ltac:(lia) ltac:(lia)
                (wire_check_fuel_ok m pos ltac:(lia))) as H.
  destruct (wire_check_loop _ _ _ _ _ _ _); auto.
  destruct H as (ls & n & He & Hs & ->). exists ls. replace (0 + n) with n by lia. split; [auto|lia].
Qed.

Lemma wire_check_complete : forall m p pos ls n, bytes m -> encodes m p pos ls n ->
  name_size ls <= 255 -> wire_check m p pos = Ok n.
Proof.
  intros m p pos ls n HB He Hs. pose proof (encodes_range _ _ _ _ _ He) as Hr. unfold wire_check.
  replace (pos =? zlen m) with false by lia.
  rewrite (wire_check_loop_complete m p pos ls n HB He); auto; try lia.
  apply wire_check_fuel_ok; auto.
Qed.

(** ** unpack, realsize *)
Lemma seek_label_loop_spec : forall m p pos ls n, bytes m -> encodes m p pos ls n ->
  forall fuel, pos < Z.of_nat fuel ->
  exists pos' n', seek_label_loop fuel m pos = Ok pos' /\ encodes m p pos' ls n' /\
    exists c, zget m pos' = Some c /\ c <= 63.
Proof.
  intros m p pos ls n HB H.
  induction H as [pos H0 | pos lab ls n Hl H0 Hi He IH | pos hi lo ls n Hp Hh Hlo Hge Hlt He IH];
    intros fuel Hf.
  - pose proof (zget_some _ _ _ H0). destruct fuel; [lia|]. cbn [seek_label_loop].
    rewrite (rd_ok _ _ _ H0). cbn [rbind]. change (is_pointer 0) with false. cbv iota.
    exists pos, 1. repeat split; [constructor; auto|]. exists 0; split; [auto|lia].
  - pose proof (zget_some _ _ _ H0). destruct fuel; [lia|]. cbn [seek_label_loop].
    rewrite (rd_ok _ _ _ H0). cbn [rbind].
    rewrite is_pointer_byte by (destruct Hl; unfold byte; lia).
    replace (192 <=? zlen lab) with false by (destruct Hl; lia).
    exists pos, (1 + zlen lab + n). repeat split; [constructor; auto|].
    exists (zlen lab); split; [auto| destruct Hl; lia].
  - pose proof (zget_some _ _ _ Hh). pose proof (encodes_range _ _ _ _ _ He).
    assert (byte hi) by (eapply zget_byte; eauto). assert (byte lo) by (eapply zget_byte; eauto).
    destruct fuel; [lia|]. cbn [seek_label_loop].
    rewrite (rd_ok _ _ _ Hh), (rd_ok _ _ _ Hlo). cbn [rbind].
    rewrite is_pointer_byte by auto. replace (192 <=? hi) with true by lia.
    rewrite get_pointer_val by auto.
    replace ((hi - 192) * 256 + lo >=? pos) with false by lia.
    apply IH; lia.
Qed.

Lemma seek_label_spec : forall m p pos ls n, bytes m -> encodes m p pos ls n ->
  exists pos' n', seek_label m pos = Ok pos' /\ encodes m p pos' ls n' /\
    exists c, zget m pos' = Some c /\ c <= 63.
Proof.
  intros. unfold seek_label. eapply seek_label_loop_spec; eauto.
  pose proof (encodes_range _ _ _ _ _ H0). lia.
Qed.

Definition plain_at (m : list Z) (pos : Z) : Prop := exists c, zget m pos = Some c /\ c <= 63.

Lemma enc_inv_root : forall m p pos n, encodes m p pos [] n -> plain_at m pos ->
  zget m pos = Some 0.
Proof.
  intros m p pos n He (c & Hc & Hle). inversion He as [? H | | ? hi lo ? ? ? H]; subst; auto.
  rewrite H in Hc. injection Hc; lia.
Qed.

Lemma enc_inv_label : forall m p pos lab ls n, encodes m p pos (lab :: ls) n -> plain_at m pos ->
  legal_label lab /\ zget m pos = Some (zlen lab) /\
  (forall i, 0 <= i < zlen lab -> zget m (pos + 1 + i) = zget lab i) /\
  exists n', encodes m p (pos + 1 + zlen lab) ls n'.
Proof.
  intros m p pos lab ls n He (c & Hc & Hle). inversion He as [| | ? hi lo ? ? ? H]; subst; eauto.
  rewrite H in Hc. injection Hc; lia.
Qed.

Lemma rdn_label : forall m pos lab, 0 <= pos -> zget m pos = Some (zlen lab) ->
  (forall i, 0 <= i < zlen lab -> zget m (pos + 1 + i) = zget lab i) ->
  pos + 1 + zlen lab <= zlen m ->
  rdn m pos (zlen lab + 1) = Ok (zlen lab :: lab).
Proof.
  intros m pos lab Hp H0 Hi Hle. unfold rdn. pose proof (zlen_nonneg lab).
  replace (_ || _) with false by lia. f_equal.
  apply zget_ext.
  - rewrite zlen_zfirstn, zlen_cons; [lia|]. rewrite zlen_zskipn by lia. lia.
  - rewrite zlen_zfirstn by (rewrite zlen_zskipn by lia; lia).
    intros i Hr. rewrite zfirstn_zskipn_get by lia.
    destruct (Z.eq_dec i 0) as [->|].
    + replace (pos + 0) with pos by lia. rewrite H0. reflexivity.
    + rewrite zget_cons by lia. rewrite <- Hi by lia. f_equal; lia.
Qed.

Lemma unpack_loop_spec : forall m p maxlen ls pos n out fuel, bytes m ->
  encodes m p pos ls n ->
  plain_at m pos ->
  maxlen - zlen out < Z.of_nat fuel -> 0 < Z.of_nat fuel ->
  (zlen out + name_size ls <= maxlen ->
     unpack_loop fuel m pos maxlen out = Ok (out ++ wire ls)) /\
  (maxlen < zlen out + name_size ls ->
     exists e, unpack_loop fuel m pos maxlen out = Err e).
Proof.
  intros m p maxlen ls. induction ls as [|lab ls IH]; intros pos n out fuel HB He Hc Hf Hf0.
  - destruct fuel; [lia|]. pose proof (enc_inv_root _ _ _ _ He Hc) as H.
    cbn [unpack_loop]. rewrite (rd_ok _ _ _ H). cbn [rbind name_size wire Z.eqb].
    split; intros.
    + replace (zlen out + 1 >? maxlen) with false by lia. reflexivity.
    + replace (zlen out + 1 >? maxlen) with true by lia. eauto.
  - destruct fuel; [lia|].
    destruct (enc_inv_label _ _ _ _ _ _ He Hc) as (Hl & H0 & Hi & n0 & He').
    pose proof (encodes_range _ _ _ _ _ He') as Hr'.
    pose proof (zget_some _ _ _ H0) as Hr.
    cbn [unpack_loop]. rewrite (rd_ok _ _ _ H0). cbn [rbind name_size].
    destruct Hl as [Hl Hlb].
    replace (zlen lab =? 0) with false by lia.
    replace (u8 (zlen lab + 1)) with (zlen lab + 1) by (unfold u8; rewrite Z.mod_small; lia).
    pose proof (name_size_pos ls) as Hnp.
    destruct (zlen out + (zlen lab + 1) >? maxlen) eqn:E.
    { split; intros; [lia|eauto]. }
    rewrite rdn_label by (auto; lia). cbn [rbind].
    unfold wire_next_label. rewrite (rd_ok _ _ _ H0). cbn [rbind].
    replace (zlen lab =? 0) with false by lia.
    replace (pos + zlen lab + 1) with (pos + 1 + zlen lab) by lia.
    destruct (seek_label_spec _ _ _ _ _ HB He') as (pos' & n'' & Hs & He'' & Hc'').
    rewrite Hs. cbn [rbind].
    specialize (IH pos' n'' (out ++ zlen lab :: lab) fuel HB He'' Hc'').
    rewrite zlen_app, zlen_cons in IH.
    destruct IH as [IH1 IH2]; try lia.
    split; intros.
    + rewrite IH1 by lia. rewrite <- app_assoc. cbn [wire app]. reflexivity.
    + apply IH2. lia.
Qed.

Lemma unpack_spec : forall m p pos ls n maxlen, bytes m -> encodes m p pos ls n -> 0 <= maxlen ->
  (name_size ls <= maxlen -> unpack m pos maxlen = Ok (wire ls)) /\
  (maxlen < name_size ls -> exists e, unpack m pos maxlen = Err e).
Proof.
  intros m p pos ls n maxlen HB He Hm. unfold unpack.
  destruct (seek_label_spec _ _ _ _ _ HB He) as (pos' & n' & Hs & He' & Hc). rewrite Hs. cbn [rbind].
  destruct (unpack_loop_spec m p maxlen ls pos' n' [] (S (Z.to_nat maxlen)) HB He' Hc) as [H1 H2];
    rewrite ?zlen_nil in *; try lia.
  split; intros; [apply H1 | apply H2]; lia.
Qed.

Lemma realsize_loop_spec : forall m p ls pos n fuel len, bytes m -> encodes m p pos ls n ->
  plain_at m pos -> name_size ls <= Z.of_nat fuel ->
  realsize_loop fuel m pos len = Ok (len + name_size ls).
Proof.
  intros m p ls. induction ls as [|lab ls IH]; intros pos n fuel len HB He Hc Hf.
  - destruct fuel; [cbn [name_size] in Hf; lia|]. pose proof (enc_inv_root _ _ _ _ He Hc) as H.
    cbn [realsize_loop]. rewrite (rd_ok _ _ _ H). reflexivity.
  - pose proof (name_size_pos ls). cbn [name_size] in *.
    destruct (enc_inv_label _ _ _ _ _ _ He Hc) as ([Hl _] & H0 & Hi & n0 & He').
    destruct fuel; [lia|]. cbn [realsize_loop].
    unfold wire_next_label. rewrite !(rd_ok _ _ _ H0). cbn [rbind].
    replace (zlen lab =? 0) with false by lia. cbn [rbind].
    replace (pos + zlen lab + 1) with (pos + 1 + zlen lab) by lia.
    destruct (seek_label_spec _ _ _ _ _ HB He') as (pos' & n'' & Hs & He'' & Hc'').
    rewrite Hs. cbn [rbind]. rewrite (IH _ _ _ _ HB He'' Hc'') by lia. f_equal; lia.
Qed.

Lemma realsize_spec : forall m p pos ls n, bytes m -> encodes m p pos ls n -> name_size ls <= 255 ->
  realsize m pos = Ok (name_size ls).
Proof.
  intros m p pos ls n HB He Hs. unfold realsize.
  destruct (seek_label_spec _ _ _ _ _ HB He) as (pos' & n' & Hk & He' & Hc). rewrite Hk. cbn [rbind].
  rewrite (realsize_loop_spec m p ls pos' n' 256 0); auto. lia.
Qed.
