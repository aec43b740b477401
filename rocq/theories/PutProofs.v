(** Filling of messages: the invariant of a packet. *)
From Verif Require Import Base DnameModel DnameSpec DnameProofs DnameProofs2 WireModel WireProofs RrwireModel RrwireSpec RrwireProofs RrwireProofs2 RrwireProofs3 ComprModel ComprSpec ComprProofs ComprProofs2 ComprProofs3 ComprProofs4 ComprProofs5 ComprProofs6 PutModel PutSpec.

(** the header is hidden *)
Definition WN : win := mkwin 12 (-2).

Lemma holds_enc : forall m b ls pos, legal_labels ls -> holds m pos (dwire ls) -> encodes m b pos ls (name_size ls).
Proof.
  intros m b ls. induction ls as [|l ls IH]; intros pos HL HH.
  - cbn. constructor. specialize (HH 0 ltac:(cbn; lia)). rewrite Z.add_0_r in HH. exact HH.
  - inversion HL as [|? ? H1 H2]; subst. change (dwire (l :: ls)) with ([zlen l] ++ l ++ dwire ls) in HH. apply holds_app_inv in HH. destruct HH as [HA HH]. apply holds_app_inv in HH. destruct HH as [HB HC]. change (zlen [zlen l]) with 1 in *.
    replace (name_size (l :: ls)) with (1 + zlen l + name_size ls) by (cbn [name_size]; lia). constructor; auto. specialize (HA 0 ltac:(cbn; lia)). rewrite Z.add_0_r in HA. exact HA.
Qed.

(** ** What does not change if only hidden bytes and those behind change *)
Lemma rec_keep : forall wn m m' pos r e, rec_at wn m pos r e -> keeps wn m m' e -> free wn pos -> rec_at wn m' pos r e.
Proof.
  intros wn m m' pos r e (n & rdlen & HE & Hn & Hp & He & Hr & Hm & HH & HD & HP) (KL & KD) HF. exists n, rdlen. rewrite (view_eq wn m m' e) by (auto; lia).
  split; [auto|]. split; [auto|]. split; [auto|]. split; [auto|]. split; [auto|]. split; [lia|]. split; [|auto]. intros i Hi. rewrite <- (HH i Hi). rewrite !zlen_app, !be_length in Hi. apply KD; [lia|]. eapply free_visible; [exact HF|lia].
Qed.
Lemma keeps_le : forall wn m m' a b, keeps wn m m' b -> a <= b -> keeps wn m m' a.
Proof. intros wn m m' a b (L & D) H. split; [auto|]. intros; apply D; auto; lia. Qed.
Lemma recs_keep : forall wn m m' pos rs e, recs_at wn m pos rs e -> keeps wn m m' e -> free wn pos -> recs_at wn m' pos rs e.
Proof.
  intros wn m m' pos rs e H. induction H; intros HK HF; [constructor|]. pose proof (rec_pos _ _ _ _ _ H). pose proof (recs_pos _ _ _ _ _ H0).
  econstructor; [eapply rec_keep; [eauto|eapply keeps_le; eauto; lia|auto]|]. apply IHrecs_at; auto. eapply free_more; eauto. lia.
Qed.
Lemma recs_count : forall wn m pos rs e, recs_at wn m pos rs e -> pos + 11 * zlen rs <= e.
Proof. intros wn m pos rs e H. induction H; [cbn; lia|]. rewrite zlen_cons. apply rec_pos in H. lia. Qed.

Lemma Forall2_impl : forall A B (P Q : A -> B -> Prop) a b, (forall x y, P x y -> Q x y) -> Forall2 P a b -> Forall2 Q a b.
Proof. intros A B P Q a b H HF. induction HF; constructor; auto. Qed.

(** ** The invariant *)
Definition qend (m : msg) : Z := match m_question m with None => 12 | Some (q, _, _) => 12 + name_size q + 4 end.
(** what is seen behind the header *)
Definition body (w : list Z) (m : msg) (size : Z) (info : list (list Z)) (suffix : Z * Z) : Prop :=
  (exists rs, recs_at WN w (qend m) rs size /\ Forall small rs /\ Forall2 is_record (records_of (m_items m)) rs) /\
  match m_question m with
  | None => True
  | Some (q, cl, t) =>
    legal_name q /\ 0 <= cl < 65536 /\ 0 <= t < 65536 /\ holds w 12 (dwire q ++ be 2 t ++ be 2 cl) /\ flat_at WN w size 12 q /\
    Forall2 (fun i hs => hints_ok (allowed (x_owner (i_rrs i)) (x_data (i_rrs i))) (nonroot (x_owner (i_rrs i))) WN w size hs) (m_items m) info /\
    (m_broken m = true \/ fst suffix = 0 \/ suffix_ok WN w size (mkcompr [] (fst suffix) (snd suffix)))
  end.
Definition head (w : list Z) (m : msg) : Prop :=
  u16_at w 4 (match m_question m with None => 0 | Some _ => 1 end) /\
  forall k, 0 <= k <= 2 -> u16_at w (6 + 2 * k) (zlen (records_of (in_section k (m_items m)))).
Definition sections_ok (p : pkt) (m : msg) : Prop :=
  p_current p = m_section m /\ 0 <= m_section m <= 2 /\ length (p_sections p) = 3%nat /\
  Forall (fun i => 0 <= i_section i <= m_section m) (m_items m) /\
  in_section 0 (m_items m) ++ in_section 1 (m_items m) ++ in_section 2 (m_items m) = m_items m /\
  forall k, 0 <= k <= 2 -> snd (section_of p k) = zlen (in_section k (m_items m)) /\
    (0 < zlen (in_section k (m_items m)) \/ k = m_section m -> fst (section_of p k) = zlen (filter (fun i => i_section i <? k) (m_items m))).
Definition Inv (p : pkt) (m : msg) : Prop :=
  bytes (p_wire p) /\ zlen (p_wire p) <= 65535 /\ 12 <= p_size p /\ 0 <= p_reserved p /\ p_size p + p_reserved p <= p_max p /\ p_max p <= zlen (p_wire p) /\
  p_qname_size p = match m_question m with None => 0 | Some (q, _, _) => name_size q end /\
  p_rr p = map (fun i => (x_type (i_rrs i), i_ptr i)) (m_items m) /\
  head (p_wire p) m /\ body (p_wire p) m (p_size p) (p_info p) (p_suffix p) /\ sections_ok p m /\
  Forall (fun i => 0 < zlen (x_data (i_rrs i)) <= 65535) (m_items m) /\ (m_question m = None -> p_suffix p = (0, 0)) /\
  length (p_info p) = length (m_items m).

Lemma body_keep : forall w w' m size info suffix, body w m size info suffix -> keeps WN w w' size -> bytes w -> qend m <= size <= zlen w -> body w' m size info suffix.
Proof.
  intros w w' m size info suffix [(rs & HR & HS & HF) HQ] K HB Hs. pose proof K as (KL & KD). split.
  - exists rs. split; [|auto]. eapply recs_keep; [exact HR|exact K|]. unfold free, qend. cbn [WN w_lo w_hole]. destruct (m_question m) as [[[q ?] ?]|]; [pose proof (name_size_ge1 q)|]; lia.
  - destruct (m_question m) as [[[q cl] t]|] eqn:EQ; [|auto]. destruct HQ as (HL & Hc & Ht & HH & HFl & HI & HX). pose proof (name_size_ge1 q). assert (HQE : qend m = 12 + name_size q + 4) by (unfold qend; rewrite EQ; auto).
    split; [auto|]. split; [auto|]. split; [auto|]. split. { intros i Hi. rewrite <- (HH i Hi). rewrite !zlen_app, !be_length, zlen_wire in Hi. apply KD; [lia|]. unfold hidden; cbn [WN w_lo w_hole]; lia. }
    split; [eapply flat_mono'; [exact HFl|apply wider_refl|auto|exact K|lia|lia]|]. split.
    + eapply Forall2_impl; [|exact HI]. cbn. intros i hs Hh. eapply hints_mono'; [exact Hh|apply wider_refl|auto|exact K|lia|lia].
    + destruct HX as [HX|[HX|HX]]; auto. right; right. eapply suffix_mono'; [exact HX|apply wider_refl|auto|exact K|lia|lia].
Qed.
Lemma qend_size : forall p m, Inv p m -> qend m <= p_size p.
Proof. intros p m (_ & _ & _ & _ & _ & _ & _ & _ & _ & ((rs & HR & _) & _) & _). eapply recs_pos; eauto. Qed.

(** numbers in the header *)
Lemma get16_ok : forall w off v, bytes w -> u16_at w off v -> get16 w off = Ok v.
Proof.
  intros w off v HB U. pose proof (u16_range _ _ _ HB U) as R. destruct (u16_exists w off HB ltac:(lia) ltac:(lia)) as (v' & U' & _ & E). unfold get16. rewrite rdn_ok by lia. cbn [rbind]. rewrite E. f_equal. eapply u16_det; eauto.
Qed.
Lemma set16_ok : forall w off v, bytes w -> 0 <= off -> off + 2 <= zlen w -> 0 <= v < 65536 -> exists w', set16 w off v = Ok w' /\ differ w w' off (off + 2) /\ u16_at w' off v.
Proof.
  intros w off v HB H0 H1 Hv. unfold set16. replace (off + 2 >? zlen w) with false by lia. assert (L : zlen (be 2 (u16 v)) = 2) by (rewrite be_length; reflexivity). assert (U : u16 v = v) by (unfold u16; apply Z.mod_small; lia). rewrite U in *.
  eexists. split; [reflexivity|]. pose proof (differ_overwrite w off (be 2 v) H0 ltac:(lia) (be_bytes _ _)) as D. rewrite L in D. split; [exact D|]. apply holds_u16; auto. apply holds_overwrite; lia.
Qed.
Lemma differ_u16 : forall w w' a b off v, differ w w' a b -> u16_at w off v -> off + 2 <= a \/ b <= off -> u16_at w' off v.
Proof. intros w w' a b off v (_ & _ & D) (x & y & H1 & H2 & Hv) H. exists x, y. rewrite !D by lia. auto. Qed.
Lemma differ_head_keeps : forall w w' a b size, differ w w' a b -> b <= 12 -> keeps WN w w' size.
Proof. intros w w' a b size (L & _ & D) H. split; [auto|]. intros i Hi Hh. apply D. right. unfold hidden in Hh. cbn [WN w_lo w_hole] in Hh. lia. Qed.

Lemma lor_byte : forall b bit, byte b -> byte bit -> byte (Z.lor b bit).
Proof.
  intros b bit H1 H2. unfold byte in *. assert (0 <= Z.lor b bit) by (apply Z.lor_nonneg; lia). split; [auto|].
  assert (Z.lor b bit < 2 ^ 8); [|lia]. apply Z.log2_lt_cancel. destruct (Z.eq_dec b 0) as [->|Hb]; [rewrite Z.lor_0_l; destruct (Z.eq_dec bit 0) as [->|]; [cbn; lia|]; rewrite Z.log2_pow2 by lia; apply Z.log2_lt_pow2; lia|].
  rewrite Z.log2_lor by lia. rewrite Z.log2_pow2 by lia. destruct (Z.eq_dec bit 0) as [->|]; [cbn; apply Z.max_lub_lt; [apply Z.log2_lt_pow2; lia|lia]|]. apply Z.max_lub_lt; apply Z.log2_lt_pow2; lia.
Qed.
Lemma set_bit_ok : forall w off bit, bytes w -> 0 <= off < zlen w -> byte bit -> exists w' b, set_bit w off bit = Ok w' /\ differ w w' off (off + 1) /\ zget w off = Some b /\ zget w' off = Some (Z.lor b bit).
Proof.
  intros w off bit HB Ho Hb. destruct (zget_in_range w off Ho) as (b & Hg). pose proof (zget_byte _ _ _ HB Hg) as Bb. unfold set_bit. rewrite (rd_ok _ _ _ Hg). cbn [rbind]. eexists; exists b. split; [reflexivity|].
  split. { apply (differ_overwrite w off [Z.lor b bit]); [lia|cbn; lia|]. constructor; [apply lor_byte; auto|constructor]. }
  split; [auto|]. rewrite zget_overwrite by (cbn; lia). replace (_ && _) with true by (cbn; lia). replace (off - off) with 0 by lia. reflexivity.
Qed.

(** ** Records and sections *)
Lemma records_of_app : forall a b, records_of (a ++ b) = records_of a ++ records_of b.
Proof. intros. unfold records_of. rewrite map_app, concat_app. reflexivity. Qed.
Lemma in_section_app : forall k a b, in_section k (a ++ b) = in_section k a ++ in_section k b.
Proof. intros. apply filter_app. Qed.
Lemma in_order_len : forall r l, zlen (in_order r l) = zlen l.
Proof. intros. unfold in_order, zlen. rewrite app_length, skipn_length, firstn_length. lia. Qed.
Lemma records_of_one : forall i, zlen (records_of [i]) = zlen (x_data (i_rrs i)).
Proof. intros. unfold records_of. cbn [map concat]. rewrite app_nil_r. unfold zlen. rewrite map_length. apply in_order_len. Qed.
Lemma zlen_le_app : forall {A} (a b : list A), zlen a <= zlen (a ++ b). Proof. intros. rewrite zlen_app. pose proof (zlen_nonneg b). lia. Qed.
Lemma records_section_le : forall k l, zlen (records_of (in_section k l)) <= zlen (records_of l).
Proof.
  intros k l. induction l as [|i l IH]; [cbn; lia|]. change (i :: l) with ([i] ++ l). rewrite in_section_app, !records_of_app, !zlen_app. cbn [in_section filter].
  destruct (i_section i =? k); [lia|]. change (zlen (records_of [])) with 0. pose proof (zlen_nonneg (records_of [i])). lia.
Qed.
Lemma items_le : forall l, Forall (fun i => 0 < zlen (x_data (i_rrs i)) <= 65535) l -> zlen l <= zlen (records_of l).
Proof.
  intros l H. induction H as [|i l Hi _ IH]; [cbn; lia|]. change (i :: l) with ([i] ++ l). rewrite records_of_app, !zlen_app, records_of_one. change (zlen [i]) with 1. lia.
Qed.
Lemma Forall2_zlen : forall A B (P : A -> B -> Prop) a b, Forall2 P a b -> zlen a = zlen b.
Proof. intros A B P a b H. induction H; [reflexivity|]. rewrite !zlen_cons. lia. Qed.
Lemma set_nth_same : forall A n (x d : A) l, (n < length l)%nat -> nth n (set_nth n x l) d = x.
Proof. induction n; intros x d [|y l] H; cbn in *; auto; try lia. apply IHn. lia. Qed.
Lemma set_nth_other : forall A n k (x d : A) l, k <> n -> nth k (set_nth n x l) d = nth k l d.
Proof. induction n; intros [|k] x d [|y l] H; cbn; auto; try congruence. Qed.
Lemma set_nth_len : forall A n (x : A) l, length (set_nth n x l) = length l.
Proof. induction n; intros x [|y l]; cbn; auto. Qed.

(** The records are those of the message. *)
Lemma inv_message : forall p m, Inv p m -> message_at (p_wire p) m (p_size p) /\ 12 <= p_size p /\ p_size p + p_reserved p <= p_max p /\ p_max p <= zlen (p_wire p).
Proof.
  intros p m HI. pose proof (qend_size _ _ HI) as HQ. destruct HI as (HB & H64 & Hs & Hr & Hm & Hw & HQs & HRR & (HD1 & HD2) & ((rs & HR & HSm & HF) & HQn) & (_ & _ & _ & _ & HSec & _) & _).
  split; [|auto]. split; [lia|]. split; [|exact HD2]. exists (qend m), rs. rewrite HSec. split; [|split; [|exact HF]].
  - unfold qend in *. destruct (m_question m) as [[[q cl] t]|]; [|auto]. destruct HQn as (HL & Hc & Ht & HH & _). split; [auto|]. split; [lia|]. pose proof (name_size_ge1 q). apply holds_app_inv in HH. destruct HH as [H1 H2]. apply holds_app_inv in H2. destruct H2 as [H2 H3].
    rewrite zlen_wire, ?be_length in *. split; [apply holds_enc; [apply HL|auto]|]. replace (12 + name_size q + 4 - 4) with (12 + name_size q) by lia. replace (12 + name_size q + 4 - 2) with (12 + name_size q + Z.of_nat 2) by lia. split; apply holds_u16; auto.
  - eapply recs_real; [exact HR|auto|auto| |lia|auto]. unfold free, qend in *. cbn [WN w_lo w_hole]. destruct (m_question m) as [[[q ?] ?]|]; [pose proof (name_size_ge1 q)|]; lia.
Qed.
