(** Writing of names: memory, views, and the comparison of names. *)
From Verif Require Import Base DnameModel DnameSpec DnameProofs DnameProofs2 WireModel RrwireModel RrwireSpec RrwireProofs RrwireProofs2 ComprModel.

Notation dwire := DnameSpec.wire.

(** ** Memory *)
Lemma zlen_overwrite : forall m off l, 0 <= off -> off + zlen l <= zlen m -> zlen (overwrite m off l) = zlen m.
Proof. intros. pose proof (zlen_nonneg l). unfold overwrite. rewrite !zlen_app, zlen_zfirstn, zlen_zskipn by lia. lia. Qed.
Lemma zget_overwrite : forall m off l i, 0 <= off -> off + zlen l <= zlen m ->
  zget (overwrite m off l) i = if (off <=? i) && (i <? off + zlen l) then zget l (i - off) else zget m i.
Proof.
  intros m off l i H0 H1. pose proof (zlen_nonneg l). unfold overwrite.
  destruct (off <=? i) eqn:E1; [destruct (i <? off + zlen l) eqn:E2|]; cbn [andb].
  - rewrite zget_app_r by (rewrite zlen_zfirstn; lia). rewrite zlen_zfirstn by lia. apply zget_app_l. lia.
  - rewrite zget_app_r by (rewrite zlen_zfirstn; lia). rewrite zlen_zfirstn by lia. rewrite zget_app_r by lia. rewrite zget_zskipn by lia. f_equal. lia.
  - destruct (i <? 0) eqn:E3; [rewrite !zget_none by lia; reflexivity|]. rewrite zget_app_l by (rewrite zlen_zfirstn; lia). apply zget_zfirstn. lia.
Qed.
Lemma bytes_overwrite : forall m off l, bytes m -> bytes l -> bytes (overwrite m off l).
Proof.
  intros m off l H1 H2. unfold overwrite. apply bytes_app. split; [apply bytes_zfirstn; auto|]. apply bytes_app. split; [auto|apply bytes_zskipn; auto].
Qed.

(** [l] is at [off] *)
Definition holds (m : list Z) (off : Z) (l : list Z) : Prop := forall i, 0 <= i < zlen l -> zget m (off + i) = zget l i.
(** the same but for the bytes from [a] to [b] *)
Definition differ (m m' : list Z) (a b : Z) : Prop := zlen m' = zlen m /\ (bytes m -> bytes m') /\ forall i, i < a \/ b <= i -> zget m' i = zget m i.
Lemma differ_refl : forall m a b, differ m m a b.
Proof. intros. repeat split; auto. Qed.
Lemma differ_trans : forall m m1 m2 a b c d, differ m m1 a b -> differ m1 m2 c d -> a <= c -> b <= d -> differ m m2 a d.
Proof. intros m m1 m2 a b c d (L1 & B1 & H1) (L2 & B2 & H2) Hac Hbd. repeat split; [lia|auto|]. intros i Hi. rewrite H2 by lia. apply H1. lia. Qed.
Lemma differ_wide : forall m m' a b a' b', differ m m' a b -> a' <= a -> b <= b' -> differ m m' a' b'.
Proof. intros m m' a b a' b' (L & B & H) H1 H2. repeat split; auto. intros i Hi. apply H. lia. Qed.
Lemma differ_overwrite : forall m off l, 0 <= off -> off + zlen l <= zlen m -> bytes l -> differ m (overwrite m off l) off (off + zlen l).
Proof.
  intros m off l H1 H2 HB. repeat split; [apply zlen_overwrite; auto|intros; apply bytes_overwrite; auto|].
  intros i Hi. rewrite zget_overwrite by auto. replace (_ && _) with false by lia. reflexivity.
Qed.
Lemma holds_overwrite : forall m off l, 0 <= off -> off + zlen l <= zlen m -> holds (overwrite m off l) off l.
Proof. intros m off l H1 H2 i Hi. rewrite zget_overwrite by auto. replace (_ && _) with true by lia. f_equal. lia. Qed.
Lemma holds_differ : forall m m' off l a b, holds m off l -> differ m m' a b -> off + zlen l <= a -> holds m' off l.
Proof. intros m m' off l a b H (_ & _ & D) Ha i Hi. rewrite D by lia. apply H. auto. Qed.
Lemma holds_app : forall m off a b, holds m off a -> holds m (off + zlen a) b -> holds m off (a ++ b).
Proof.
  intros m off a b Ha Hb i Hi. rewrite zlen_app in Hi. destruct (i <? zlen a) eqn:E.
  - rewrite zget_app_l by lia. apply Ha. lia.
  - rewrite zget_app_r by lia. rewrite <- Hb by lia. f_equal. lia.
Qed.
Lemma holds_app_inv : forall m off a b, holds m off (a ++ b) -> holds m off a /\ holds m (off + zlen a) b.
Proof.
  intros m off a b H. pose proof (zlen_nonneg a). pose proof (zlen_nonneg b). split; intros i Hi.
  - rewrite H by (rewrite zlen_app; lia). apply zget_app_l. lia.
  - replace (off + zlen a + i) with (off + (zlen a + i)) by lia. rewrite H by (rewrite zlen_app; lia). rewrite zget_app_r by lia. f_equal. lia.
Qed.

Lemma put_ok : forall off l s, 0 <= off -> off + zlen l <= zlen (s_mem s) -> put off l s = Done tt (with_mem s (overwrite (s_mem s) off l)).
Proof. intros. unfold put. replace (_ || _) with false by lia. reflexivity. Qed.

(** ** The part of a message which may be read: below [c], but neither the bytes below [w_lo] (the header)
    nor the two bytes from [w_hole] (a length not known yet) *)
Record win := mkwin { w_lo : Z; w_hole : Z }.
Definition hidden (w : win) (i : Z) : bool := (i <? w_lo w) || ((w_hole w <=? i) && (i <? w_hole w + 2)).
Definition MASK : Z := -1000000.
Definition view (w : win) (m : list Z) (c : Z) : list Z :=
  map (fun i => if hidden w (Z.of_nat i) then MASK else match zget m (Z.of_nat i) with Some b => b | None => MASK end) (seq 0 (Z.to_nat c)).
Lemma zlen_view : forall w m c, 0 <= c -> zlen (view w m c) = c.
Proof. intros. unfold view, zlen. rewrite map_length, seq_length. lia. Qed.
Lemma zget_view : forall w m c i, 0 <= c <= zlen m ->
  zget (view w m c) i = if (0 <=? i) && (i <? c) then (if hidden w i then Some MASK else zget m i) else None.
Proof.
  intros w m c i H. destruct ((0 <=? i) && (i <? c)) eqn:E; [|apply zget_none; rewrite zlen_view by lia; lia].
  unfold zget at 1. replace (i <? 0) with false by lia. unfold view. erewrite map_nth_error with (d := Z.to_nat i).
  - rewrite Z2Nat.id by lia. destruct (hidden w i); [auto|]. destruct (zget_in_range m i ltac:(lia)) as [b ->]. reflexivity.
  - rewrite nth_error_nth' with (d := O) by (rewrite seq_length; lia). rewrite seq_nth by lia. reflexivity.
Qed.
Lemma view_byte : forall w m c i b, bytes m -> 0 <= c <= zlen m -> zget (view w m c) i = Some b -> b = MASK \/ byte b.
Proof. intros w m c i b HB H Hb. rewrite zget_view in Hb by lia. destruct (_ && _); [|discriminate]. destruct (hidden w i); [left; congruence|right; eapply zget_byte; eauto]. Qed.
Lemma view_eq : forall w m m' c, 0 <= c <= zlen m -> zlen m' = zlen m -> (forall i, 0 <= i < c -> hidden w i = false -> zget m' i = zget m i) -> view w m' c = view w m c.
Proof.
  intros w m m' c H2 H3 H4. apply zget_ext; [rewrite !zlen_view by lia; reflexivity|]. intros i Hi. rewrite !zget_view by lia.
  destruct ((0 <=? i) && (i <? c)) eqn:E; [|reflexivity]. destruct (hidden w i) eqn:EH; [reflexivity|]. apply H4; [lia|auto].
Qed.
Lemma view_differ : forall w m m' c a b, 0 <= c <= zlen m -> differ m m' a b -> c <= a -> view w m' c = view w m c.
Proof. intros w m m' c a b H2 (L & _ & D) Ha. apply view_eq; auto. intros i Hi _. apply D. lia. Qed.

(** masked bytes are not part of a name *)
Lemma enc_mono : forall m m' p pos ls n, (forall i b, zget m i = Some b -> b = MASK \/ byte b) -> (forall i b, b <> MASK -> zget m i = Some b -> zget m' i = Some b) -> encodes m p pos ls n -> encodes m' p pos ls n.
Proof.
  intros m m' p pos ls n HB H E. induction E.
  - constructor. apply H; auto. unfold MASK; lia.
  - apply enc_label; auto.
    + apply H; auto. pose proof (zlen_nonneg lab). unfold MASK; lia.
    + intros i Hi. destruct (zget_in_range lab i Hi) as [b Hb]. rewrite Hb. apply H; [|rewrite <- Hb; auto]. destruct H0 as [_ HLB]. pose proof (zget_byte _ _ _ HLB Hb) as Hbb. unfold byte in Hbb. unfold MASK; lia.
  - eapply enc_ptr; eauto.
    + apply H; auto. unfold MASK; lia.
    + apply H; auto. intros ->. pose proof (encodes_range _ _ _ _ _ E). destruct (HB _ _ H1) as [->|Hh]; [unfold MASK in *; lia|]. unfold byte, MASK in *. lia.
Qed.
(** more can be read, below [c] *)
Definition wider (c : Z) (w w' : win) : Prop := forall i, 0 <= i < c -> hidden w i = false -> hidden w' i = false.
Lemma wider_refl : forall c w, wider c w w. Proof. intros c w i _ H; auto. Qed.
Lemma view_mono' : forall w w' m m' c c' p pos ls n, bytes m -> wider c w w' -> 0 <= c <= c' -> c <= zlen m -> c' <= zlen m' ->
  (forall i, 0 <= i < c -> hidden w i = false -> zget m' i = zget m i) -> encodes (view w m c) p pos ls n -> encodes (view w' m' c') p pos ls n.
Proof.
  intros w w' m m' c c' p pos ls n HB HW H1 H3 H4 H5. apply enc_mono; [intros; eapply view_byte; eauto; lia|]. intros i b Hb. rewrite !zget_view by lia.
  destruct ((0 <=? i) && (i <? c)) eqn:E; [|discriminate]. replace ((0 <=? i) && (i <? c')) with true by lia. destruct (hidden w i) eqn:EH; [congruence|]. rewrite (HW i ltac:(lia) EH). intros Hg. rewrite H5 by (auto; lia). auto.
Qed.
Lemma view_mono : forall w m m' c c' p pos ls n, bytes m -> 0 <= c <= c' -> c <= zlen m -> c' <= zlen m' ->
  (forall i, 0 <= i < c -> hidden w i = false -> zget m' i = zget m i) -> encodes (view w m c) p pos ls n -> encodes (view w m' c') p pos ls n.
Proof. intros. eapply view_mono' with (m := m) (c := c) (w := w); eauto. apply wider_refl. Qed.
Lemma in_view : forall w m c pos b, 0 <= c <= zlen m -> zget (view w m c) pos = Some b -> b <> MASK -> zget m pos = Some b /\ 0 <= pos < c /\ hidden w pos = false.
Proof. intros w m c pos b H1 H Hb. rewrite zget_view in H by lia. destruct ((0 <=? pos) && (pos <? c)) eqn:E; [|discriminate]. destruct (hidden w pos); [congruence|]. split; [auto|]. split; [lia|auto]. Qed.
Lemma hidden_lo : forall w i, hidden w i = false -> w_lo w <= i.
Proof. unfold hidden. intros. lia. Qed.
Lemma head_view : forall w m c pos b, 0 <= c <= zlen m -> zget (view w m c) pos = Some b -> 0 <= b -> zget m pos = Some b /\ w_lo w <= pos < c.
Proof. intros w m c pos b H1 H Hb. apply in_view in H; auto; [|unfold MASK; lia]. destruct H as (H & HR & HH). apply hidden_lo in HH. split; [auto|lia]. Qed.
Lemma enc_lo : forall w m c p pos ls n, 0 <= c <= zlen m -> encodes (view w m c) p pos ls n -> 0 <= pos < c /\ w_lo w <= pos.
Proof.
  intros w m c p pos ls n H1 E. inversion E; subst.
  - apply in_view in H; auto; [|unfold MASK; lia]. destruct H as (_ & H & HH). apply hidden_lo in HH. lia.
  - destruct H as [H _]. apply in_view in H0; auto; [|unfold MASK; lia]. destruct H0 as (_ & H0 & HH). apply hidden_lo in HH. lia.
  - apply in_view in H0; auto; [|unfold MASK; lia]. destruct H0 as (_ & H0 & HH). apply hidden_lo in HH. lia.
Qed.
(** an encoding in the view is one in the message *)
Lemma enc_real : forall w m c p pos ls n, bytes m -> 0 <= c <= zlen m -> encodes (view w m c) p pos ls n -> encodes (zfirstn c m) p pos ls n.
Proof.
  intros w m c p pos ls n HB H1. apply enc_mono; [intros; eapply view_byte; eauto|]. intros i b Hb H. apply in_view in H; auto. destruct H as (H & HR & _). rewrite zget_zfirstn by lia. auto.
Qed.

(** ** Reading of names from the message *)
Lemma seek_view : forall w m c pos ls n, bytes m -> 0 <= c <= zlen m -> encodes (view w m c) true pos ls n ->
  forall fuel, pos < Z.of_nat fuel -> exists pos' n', seek_label_loop fuel m pos = Ok pos' /\ encodes (view w m c) true pos' ls n' /\ plain_at (view w m c) pos'.
Proof.
  intros w m c pos ls n HB H1 E. remember (view w m c) as v. induction E; subst v; intros fuel Hf.
  - pose proof H as H'. apply head_view in H'; [|lia|lia]. destruct H' as [H' HR]. destruct fuel; [apply zget_some in H'; lia|]. cbn [seek_label_loop]. rewrite (rd_ok _ _ _ H'). cbn [rbind]. change (is_pointer 0) with false. cbv iota.
    exists pos, 1. split; [auto|]. split; [constructor; auto|]. exists 0. split; [auto|lia].
  - destruct H as [H HL]. pose proof H0 as H'. apply head_view in H'; [|lia|lia]. destruct H' as [H' HR]. destruct fuel; [apply zget_some in H'; lia|]. cbn [seek_label_loop]. rewrite (rd_ok _ _ _ H'). cbn [rbind].
    rewrite is_pointer_byte by (unfold byte; lia). replace (192 <=? zlen lab) with false by lia.
    exists pos, (1 + zlen lab + n). split; [auto|]. split; [apply enc_label; auto; split; auto|]. exists (zlen lab). split; [auto|lia].
  - pose proof (encodes_range _ _ _ _ _ E) as ER. pose proof H0 as H'. apply head_view in H'; [|lia|lia]. destruct H' as [H' HR]. assert (byte hi) by (eapply zget_byte; eauto).
    pose proof H2 as H''. apply in_view in H''; [|lia|unfold MASK, byte in *; lia]. destruct H'' as [H'' HR'].
    assert (byte lo) by (eapply zget_byte; eauto).
    destruct fuel; [apply zget_some in H'; lia|]. cbn [seek_label_loop]. rewrite (rd_ok _ _ _ H'). cbn [rbind]. rewrite is_pointer_byte by auto. replace (192 <=? hi) with true by lia. rewrite (rd_ok _ _ _ H''). cbn [rbind].
    rewrite get_pointer_val by auto. replace ((hi - 192) * 256 + lo >=? pos) with false by lia. apply IHE; auto. lia.
Qed.
Lemma next_view : forall w m c pos lab ls n, bytes m -> 0 <= c <= zlen m -> encodes (view w m c) true pos (lab :: ls) n -> plain_at (view w m c) pos ->
  exists pos' n', wire_next_label m pos = Ok pos' /\ encodes (view w m c) true pos' ls n' /\ plain_at (view w m c) pos'.
Proof.
  intros w m c pos lab ls n HB H1 E HP. destruct (enc_inv_label _ _ _ _ _ _ E HP) as ([HL HLB] & H0 & _ & n' & E').
  apply head_view in H0; [|lia|lia]. destruct H0 as [H0 HR]. unfold wire_next_label. rewrite (rd_ok _ _ _ H0). cbn [rbind]. replace (zlen lab =? 0) with false by lia.
  replace (pos + zlen lab + 1) with (pos + 1 + zlen lab) by lia. unfold seek_label. eapply seek_view; eauto. pose proof (encodes_range _ _ _ _ _ E'). lia.
Qed.
Lemma label_view : forall w m c pos lab ls n, bytes m -> 0 <= c <= zlen m -> encodes (view w m c) true pos (lab :: ls) n -> plain_at (view w m c) pos ->
  rd m pos = Ok (zlen lab) /\ rdn m pos (zlen lab + 1) = Ok (zlen lab :: lab).
Proof.
  intros w m c pos lab ls n HB H1 E HP. destruct (enc_inv_label _ _ _ _ _ _ E HP) as ([HL HLB] & H0 & Hi & n' & E').
  pose proof (encodes_range _ _ _ _ _ E') as W. pose proof (encodes_range _ _ _ _ _ E) as W0. rewrite zlen_view in W by lia.
  apply head_view in H0; [|lia|lia]. destruct H0 as [H0 HR]. split; [apply rd_ok; auto|]. apply rdn_label; auto; try lia.
  intros i Hir. specialize (Hi i Hir). destruct (zget_in_range lab i Hir) as [b Hb]. pose proof (zget_byte _ _ _ HLB Hb) as Hbb. unfold byte in Hbb. rewrite Hb in *. apply head_view in Hi; [|lia|lia]. tauto.
Qed.
Lemma root_view : forall w m c pos n, 0 <= c <= zlen m -> encodes (view w m c) true pos [] n -> plain_at (view w m c) pos -> rd m pos = Ok 0.
Proof. intros w m c pos n H1 E HP. pose proof (enc_inv_root _ _ _ _ E HP) as H0. apply head_view in H0; [|lia|lia]. apply rd_ok. tauto. Qed.

Definition low (ls : list label) : list label := map (map tolower) ls.

Lemma wl_equal_spec : forall w m c pos lab ls n l rem j, bytes m -> 0 <= c <= zlen m -> encodes (view w m c) true pos (lab :: ls) n -> plain_at (view w m c) pos ->
  exists b, wl_equal m (dwire (l :: rem) ++ j) pos = Ok b /\ (b = true <-> l = map tolower lab).
Proof.
  intros w m c pos lab ls n l rem j HB H1 E HP. destruct (label_view _ _ _ _ _ _ _ HB H1 E HP) as [R1 R2].
  unfold wl_equal. rewrite nm_rd0, R1. cbn [rbind]. destruct (zlen l =? zlen lab) eqn:EL; cbn [negb].
  - rewrite nm_take. cbn [rbind]. replace (zlen l + 1) with (zlen lab + 1) by lia. rewrite R2. cbn [rbind tl]. eexists. split; [reflexivity|]. apply bytes_eqb_spec.
  - exists false. split; [auto|]. split; [discriminate|]. intros ->. rewrite zlen_map in EL. lia.
Qed.
Lemma wl_root_spec : forall w m c pos n l rem j, bytes m -> 0 <= c <= zlen m -> encodes (view w m c) true pos [] n -> plain_at (view w m c) pos -> legal_label l ->
  wl_equal m (dwire (l :: rem) ++ j) pos = Ok false.
Proof. intros w m c pos n l rem j HB H1 E HP HL. unfold wl_equal. rewrite nm_rd0, (root_view _ _ _ _ _ H1 E HP). cbn [rbind]. rewrite legal_nonzero by auto. reflexivity. Qed.

Lemma equal_loop_spec : forall w m c, bytes m -> 0 <= c <= zlen m -> forall ls ss pos n j fuel, legal_labels ls -> (length ls < fuel)%nat ->
  encodes (view w m c) true pos ss n -> plain_at (view w m c) pos ->
  exists b, dname_equal_wire_loop fuel m (dwire ls ++ j) pos = Ok b /\ (b = true <-> ls = low ss).
Proof.
  intros w m c HB H1. induction ls as [|l ls IH]; intros ss pos n j fuel HL Hf E HP; (destruct fuel as [|fuel]; [cbn in Hf; lia|]); cbn [dname_equal_wire_loop].
  - rewrite nm_rd0_root. cbn [rbind]. destruct ss as [|s ss].
    + rewrite (root_view _ _ _ _ _ H1 E HP). cbn. exists true. split; [auto|]. split; reflexivity.
    + destruct (label_view _ _ _ _ _ _ _ HB H1 E HP) as [R1 R2]. destruct (enc_inv_label _ _ _ _ _ _ E HP) as ([HLs _] & _). rewrite R1. cbn [rbind].
      replace (zlen s =? 0) with false by lia. cbn [negb Z.eqb orb]. unfold wl_equal. rewrite nm_rd0_root, R1. cbn [rbind]. replace (0 =? zlen s) with false by lia. cbn [negb rbind].
      exists false. split; [auto|]. split; discriminate.
  - inversion HL as [|? ? HL1 HL2]; subst. rewrite nm_rd0. cbn [rbind]. destruct ss as [|s ss].
    + rewrite (root_view _ _ _ _ _ H1 E HP). cbn [rbind]. rewrite legal_nonzero by auto. cbn [negb orb]. rewrite (wl_root_spec _ _ _ _ _ _ _ _ HB H1 E HP) by auto. cbn [rbind negb].
      exists false. split; [auto|]. split; discriminate.
    + destruct (label_view _ _ _ _ _ _ _ HB H1 E HP) as [R1 R2]. rewrite R1. cbn [rbind]. rewrite legal_nonzero by auto. cbn [negb orb].
      destruct (wl_equal_spec _ _ _ _ _ _ _ l ls j HB H1 E HP) as (b & -> & Hb). cbn [rbind]. destruct b; cbn [negb].
      * rewrite nm_next by auto. cbn [rbind]. destruct (next_view _ _ _ _ _ _ _ HB H1 E HP) as (pos' & n' & -> & E' & HP'). cbn [rbind].
        destruct (IH ss pos' n' j fuel HL2 ltac:(cbn in Hf; lia) E' HP') as (b & -> & Hb'). exists b. split; [auto|]. rewrite Hb'. cbn [low map]. destruct Hb as [Hb _]. rewrite <- Hb by auto. unfold low. split; [intros ->; auto|intros HH; injection HH; auto].
      * exists false. split; [auto|]. split; [discriminate|]. cbn [low map]. intros HH. injection HH. intros _ HH'. apply Hb in HH'. discriminate.
Qed.
Lemma equal_spec : forall w m c ls ss pos n j, bytes m -> 0 <= c <= zlen m -> legal_labels ls -> encodes (view w m c) true pos ss n ->
  exists b, dname_equal_wire m (dwire ls ++ j) pos = Ok b /\ (b = true <-> ls = low ss).
Proof.
  intros w m c ls ss pos n j HB H1 HL E. unfold dname_equal_wire, seek_label. pose proof (encodes_range _ _ _ _ _ E).
  destruct (seek_view _ _ _ _ _ _ HB H1 E (S (Z.to_nat pos)) ltac:(lia)) as (pos' & n' & -> & E' & HP'). cbn [rbind].
  eapply equal_loop_spec; eauto. pose proof (wire_length ls j). lia.
Qed.

Lemma labels_loop_spec : forall w m c, bytes m -> 0 <= c <= zlen m -> forall ss pos n fuel k, (length ss < fuel)%nat ->
  encodes (view w m c) true pos ss n -> plain_at (view w m c) pos -> wire_labels_loop fuel m pos k = Ok (k + zlen ss).
Proof.
  intros w m c HB H1. induction ss as [|s ss IH]; intros pos n fuel k Hf E HP; (destruct fuel as [|fuel]; [cbn in Hf; lia|]); cbn [wire_labels_loop].
  - rewrite (root_view _ _ _ _ _ H1 E HP). cbn [rbind Z.eqb]. rewrite zlen_nil. f_equal. lia.
  - destruct (label_view _ _ _ _ _ _ _ HB H1 E HP) as [R1 R2]. destruct (enc_inv_label _ _ _ _ _ _ E HP) as ([HLs _] & _). rewrite R1. cbn [rbind]. replace (zlen s =? 0) with false by lia.
    destruct (next_view _ _ _ _ _ _ _ HB H1 E HP) as (pos' & n' & -> & E' & HP'). cbn [rbind]. rewrite (IH pos' n') by (auto; cbn in Hf; lia). rewrite zlen_cons. f_equal. lia.
Qed.
Lemma size_labels : forall ss, legal_labels ss -> name_size ss <= 255 -> zlen ss <= 127.
Proof. intros ss HL H. pose proof (name_size_labels ss HL). lia. Qed.
Lemma labels_spec : forall w m c ss pos n, bytes m -> 0 <= c <= zlen m -> name_size ss <= 255 -> encodes (view w m c) true pos ss n -> plain_at (view w m c) pos ->
  wire_labels m pos = Ok (zlen ss).
Proof.
  intros w m c ss pos n HB H1 HS E HP. unfold wire_labels. pose proof (size_labels ss (encodes_legal _ _ _ _ _ E) HS). rewrite (labels_loop_spec w m c HB H1 ss pos n 256 0); auto. unfold zlen in *. lia.
Qed.

(** the encoding of a name whose labels are followed by an encoding *)
Lemma enc_prefix : forall v p pos cs k, legal_labels p -> holds v pos (prefix_wire p) -> encodes v true (pos + zlen (prefix_wire p)) cs k ->
  encodes v true pos (p ++ cs) (zlen (prefix_wire p) + k).
Proof.
  intros v p. induction p as [|l p IH]; intros pos cs k HL HH E.
  - cbn [prefix_wire app] in *. rewrite zlen_nil in *. replace (pos + 0) with pos in E by lia. replace (0 + k) with k by lia. exact E.
  - inversion HL as [|? ? HL1 HL2]; subst. cbn [prefix_wire app] in *. change (zlen l :: l ++ prefix_wire p) with ((zlen l :: l) ++ prefix_wire p) in *.
    apply holds_app_inv in HH. destruct HH as [HA HB]. rewrite zlen_app, zlen_cons in *. pose proof (zlen_nonneg l).
    replace (1 + zlen l + zlen (prefix_wire p) + k) with (1 + zlen l + (zlen (prefix_wire p) + k)) by lia. apply enc_label; auto.
    + specialize (HA 0). rewrite zlen_cons in HA. replace (pos + 0) with pos in HA by lia. rewrite HA by lia. reflexivity.
    + intros i Hi. specialize (HA (1 + i)). rewrite zlen_cons in HA. replace (pos + 1 + i) with (pos + (1 + i)) by lia. rewrite HA by lia. rewrite zget_cons by lia. f_equal. lia.
    + apply IH; auto.
      * replace (pos + 1 + zlen l) with (pos + (1 + zlen l)) by lia. exact HB.
      * replace (pos + 1 + zlen l + zlen (prefix_wire p)) with (pos + (1 + zlen l + zlen (prefix_wire p))) by lia. exact E.
Qed.
