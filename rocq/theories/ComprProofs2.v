(** Writing of names: compression. *)
From Verif Require Import Base DnameModel DnameSpec DnameProofs DnameProofs2 WireModel RrwireModel RrwireSpec RrwireProofs RrwireProofs2 ComprModel ComprProofs.

Definition lim (c : Z) : Z := Z.min c PTR_MAX.
Lemma lim_le : forall c, lim c <= c. Proof. unfold lim; lia. Qed.
Lemma lim_max : forall c, lim c <= 16383. Proof. unfold lim, PTR_MAX; lia. Qed.
Lemma lim_mono : forall c d, c <= d -> lim c <= lim d. Proof. unfold lim; lia. Qed.
Lemma lim_pos : forall c, 0 <= c -> 0 <= lim c. Proof. unfold lim, PTR_MAX; lia. Qed.

(** a name below [cur] which a pointer can reach *)
Definition reach (w : win) (m : list Z) (cur pos : Z) (ls : list label) : Prop := exists n, encodes (view w m (lim cur)) true pos ls n.
Definition flat_at (w : win) (m : list Z) (cur pos : Z) (ls : list label) : Prop := reach w m cur pos ls /\ plain_at (view w m (lim cur)) pos /\ name_size ls <= 255.

(** the context: the suffix is such a name *)
Definition suffix_ok (w : win) (m : list Z) (cur : Z) (c : compr) : Prop := exists ss, flat_at w m cur (c_pos c) ss /\ c_labels c = zlen ss.

(** what is written below [cur] does not matter: no visible byte is changed *)
Definition keeps (w : win) (m m' : list Z) (cur : Z) : Prop := zlen m' = zlen m /\ forall i, 0 <= i < cur -> hidden w i = false -> zget m' i = zget m i.
Lemma differ_keeps : forall w m m' a b cur, differ m m' a b -> cur <= a -> keeps w m m' cur.
Proof. intros w m m' a b cur (L & _ & D) H. split; [auto|]. intros. apply D. lia. Qed.

Lemma plain_mono' : forall w w' m m' c c' pos, wider c w w' -> 0 <= c <= c' -> c <= zlen m -> c' <= zlen m' -> bytes m -> (forall i, 0 <= i < c -> hidden w i = false -> zget m' i = zget m i) ->
  forall ls n, encodes (view w m c) true pos ls n -> plain_at (view w m c) pos -> plain_at (view w' m' c') pos.
Proof.
  intros w w' m m' c c' pos HW H2 H3 H4 HB H5 ls n E (b & Hb & Hle). exists b. split; [|auto].
  assert (Hn : b <> MASK). { intros ->. inversion E as [? H|? lab ? ? HLg H|? ? ? ? ? ? H]; subst; rewrite Hb in H; injection H; unfold MASK; intros; try lia. pose proof (zlen_nonneg lab). lia. }
  apply in_view in Hb; [|lia|auto]. destruct Hb as (Hb & HR & HH).
  rewrite zget_view by lia. replace ((0 <=? pos) && (pos <? c')) with true by lia. rewrite (HW pos ltac:(lia) HH). rewrite H5 by (auto; lia). auto.
Qed.
Lemma reach_mono' : forall w w' m m' cur cur' pos ls, reach w m cur pos ls -> wider cur w w' -> bytes m -> keeps w m m' cur -> 0 <= cur <= cur' -> cur' <= zlen m -> reach w' m' cur' pos ls.
Proof.
  intros w w' m m' cur cur' pos ls [n H] HW HB (L & D) H2 H3. exists n. pose proof (lim_le cur). pose proof (lim_le cur'). pose proof (lim_mono cur cur' ltac:(lia)). pose proof (lim_pos cur ltac:(lia)).
  apply view_mono' with (m := m) (c := lim cur) (w := w); auto; try lia; [intros i Hi; apply HW; lia|]. intros. apply D; auto. lia.
Qed.
Lemma flat_mono' : forall w w' m m' cur cur' pos ls, flat_at w m cur pos ls -> wider cur w w' -> bytes m -> keeps w m m' cur -> 0 <= cur <= cur' -> cur' <= zlen m -> flat_at w' m' cur' pos ls.
Proof.
  intros w w' m m' cur cur' pos ls (H & HP & HS) HW HB K H2 H3. split; [eapply reach_mono'; eauto|]. split; [|auto]. destruct K as (L & D). destruct H as [n H].
  pose proof (lim_le cur). pose proof (lim_le cur'). pose proof (lim_mono cur cur' ltac:(lia)). pose proof (lim_pos cur ltac:(lia)).
  apply plain_mono' with (m := m) (c := lim cur) (w := w) (ls := ls) (n := n); auto; try lia; [intros i Hi; apply HW; lia|]. intros. apply D; auto. lia.
Qed.
Lemma reach_mono : forall w m m' cur cur' pos ls a b, reach w m cur pos ls -> bytes m -> differ m m' a b -> 0 <= cur <= cur' -> cur' <= zlen m -> cur <= a -> reach w m' cur' pos ls.
Proof. intros. eapply reach_mono'; eauto; [apply wider_refl|eapply differ_keeps; eauto]. Qed.
Lemma flat_mono : forall w m m' cur cur' pos ls a b, flat_at w m cur pos ls -> bytes m -> differ m m' a b -> 0 <= cur <= cur' -> cur' <= zlen m -> cur <= a -> flat_at w m' cur' pos ls.
Proof. intros. eapply flat_mono'; eauto; [apply wider_refl|eapply differ_keeps; eauto]. Qed.
Lemma suffix_mono' : forall w w' m m' cur cur' c, suffix_ok w m cur c -> wider cur w w' -> bytes m -> keeps w m m' cur -> 0 <= cur <= cur' -> cur' <= zlen m -> suffix_ok w' m' cur' c.
Proof. intros w w' m m' cur cur' c (ss & H & HL) HW HB K H1 H2. exists ss. split; [eapply flat_mono'; eauto|auto]. Qed.
Lemma suffix_mono : forall w m m' cur cur' c a b, suffix_ok w m cur c -> bytes m -> differ m m' a b -> 0 <= cur <= cur' -> cur' <= zlen m -> cur <= a -> suffix_ok w m' cur' c.
Proof. intros w m m' cur cur' c a b (ss & H & HL) HB D H1 H2 H3. exists ss. split; [eapply flat_mono; eauto|auto]. Qed.
Lemma reach_pos : forall w m cur pos ls, reach w m cur pos ls -> 0 <= cur <= zlen m -> 0 <= pos < lim cur /\ w_lo w <= pos.
Proof. intros w m cur pos ls (n & H) H1. pose proof (lim_le cur). pose proof (lim_pos cur ltac:(lia)). eapply enc_lo in H; lia. Qed.
(** a place whose bytes are visible *)
Definition free (w : win) (off : Z) : Prop := 0 <= off /\ w_lo w <= off /\ w_hole w + 2 <= off.
Lemma free_visible : forall w off i, free w off -> off <= i -> hidden w i = false.
Proof. unfold free, hidden. intros. lia. Qed.

(** a step changed the bytes from [a] to [b] and neither the place nor the context *)
Definition step (s s' : st) (a b : Z) : Prop := differ (s_mem s) (s_mem s') a b /\ s_dst s' = s_dst s /\ s_avail s' = s_avail s /\ s_compr s' = s_compr s.
Lemma step_refl : forall s a b, step s s a b. Proof. intros. repeat split; auto. Qed.
Lemma step_join : forall s s1 s2 a b c d e f, step s s1 a b -> step s1 s2 c d -> e <= a -> e <= c -> b <= f -> d <= f -> step s s2 e f.
Proof.
  intros s s1 s2 a b c d e f (D1 & A1 & B1 & C1) (D2 & A2 & B2 & C2) H1 H2 H3 H4. split; [|repeat split; congruence].
  eapply differ_trans; [eapply differ_wide with (a' := e) (b' := f); [exact D1|lia|lia]|eapply differ_wide with (a' := e) (b' := f); [exact D2|lia|lia]|lia|lia].
Qed.
Lemma step_wide : forall s s1 a b e f, step s s1 a b -> e <= a -> b <= f -> step s s1 e f.
Proof. intros s s1 a b e f (D1 & R) H1 H2. split; [|exact R]. eapply differ_wide; eauto. Qed.

Lemma write_label_spec : forall dst written l max s, 0 <= dst -> 0 <= written -> dst + max <= zlen (s_mem s) -> bytes l ->
  (written + zlen l <= max /\ exists s', write_label dst written l max s = Done (written + zlen l) s' /\ step s s' (dst + written) (dst + written + zlen l) /\ holds (s_mem s') (dst + written) l) \/
  (max < written + zlen l /\ write_label dst written l max s = Fail KNOT_ESPACE s).
Proof.
  intros dst written l max s H1 H2 H3 HB. unfold write_label. destruct (written + zlen l >? max) eqn:E; [right; split; [lia|reflexivity]|left].
  split; [lia|]. unfold bind. rewrite put_ok by lia. eexists. split; [reflexivity|]. cbn [with_mem s_mem]. split; [|apply holds_overwrite; lia].
  repeat split; cbn [with_mem s_mem s_dst s_avail s_compr]; auto; destruct (differ_overwrite (s_mem s) (dst + written) l ltac:(lia) ltac:(lia) HB) as (X & Y & Z); auto.
Qed.

Lemma bytes_prefix : forall p, legal_labels p -> bytes (prefix_wire p).
Proof. induction p; intros H; cbn [prefix_wire]; [constructor|]. inversion H as [|? ? [H1 H2] H3]; subst. constructor; [unfold byte; lia|]. apply bytes_app. auto. Qed.
Lemma prefix_app : forall a b, prefix_wire (a ++ b) = prefix_wire a ++ prefix_wire b.
Proof. induction a; intros; cbn [prefix_wire app]; [auto|]. rewrite <- app_assoc, IHa. auto. Qed.
Lemma dwire_split : forall a b j, dwire (a ++ b) ++ j = prefix_wire a ++ (dwire b ++ j).
Proof. intros. rewrite <- prefix_wire_app, <- app_assoc. reflexivity. Qed.
Lemma name_size_split : forall a b, name_size (a ++ b) = zlen (prefix_wire a) + name_size b.
Proof. induction a; intros; cbn [prefix_wire name_size app]; [rewrite zlen_nil; lia|]. rewrite zlen_cons, zlen_app, IHa. lia. Qed.
Lemma name_size_ge1 : forall a, 1 <= name_size a.
Proof. induction a; cbn [name_size]; [lia|]. pose proof (zlen_nonneg a). lia. Qed.
Lemma name_size_ge3 : forall l a, legal_label l -> 3 <= name_size (l :: a).
Proof. intros l a [H _]. cbn [name_size]. pose proof (name_size_ge1 a). lia. Qed.

(** the labels before the suffix *)
Lemma lead_spec : forall n p rem j dst max s, legal_labels p -> legal_labels rem -> (n <= length rem)%nat -> 0 <= dst -> dst + max <= zlen (s_mem s) -> zlen (prefix_wire p) <= Z.max 0 max -> holds (s_mem s) dst (prefix_wire p) ->
  match lead_labels n dst max (dwire rem ++ j) (zlen (prefix_wire p)) s with
  | Done (d, w) s' => exists a b, rem = a ++ b /\ length a = n /\ d = dwire b ++ j /\ w = zlen (prefix_wire (p ++ a)) /\ w <= Z.max 0 max /\ holds (s_mem s') dst (prefix_wire (p ++ a)) /\ step s s' dst (dst + w)
  | Fail e s' => e = KNOT_ESPACE /\ max < name_size (p ++ rem) /\ step s s' dst (dst + Z.max 0 max)
  | _ => False
  end.
Proof.
  induction n as [|n IH]; intros p rem j dst max s HLp HLr Hn Hd Hm Hpm HH.
  - cbn [lead_labels ret]. exists [], rem. rewrite app_nil_r. repeat split; auto; lia.
  - destruct rem as [|l rem]; [cbn in Hn; lia|]. inversion HLr as [|? ? HL1 HL2]; subst. cbn [lead_labels]. unfold bind at 1 2. rewrite nm_rd0. cbn [lift]. rewrite nm_take. cbn [lift]. unfold bind at 1.
    pose proof (zlen_nonneg (prefix_wire p)). assert (B : bytes (zlen l :: l)) by (destruct HL1; constructor; [unfold byte; lia|auto]).
    destruct (write_label_spec dst (zlen (prefix_wire p)) (zlen l :: l) max s Hd ltac:(lia) Hm B) as [(Hle & s1 & -> & St & Hl)|(Hgt & ->)].
    + unfold bind at 1. rewrite nm_next by auto. cbn [lift].
      assert (EP : prefix_wire (p ++ [l]) = prefix_wire p ++ (zlen l :: l)) by (rewrite prefix_app; cbn [prefix_wire]; rewrite app_nil_r; reflexivity).
      assert (EW : zlen (prefix_wire p) + zlen (zlen l :: l) = zlen (prefix_wire (p ++ [l]))) by (rewrite EP, zlen_app; lia).
      rewrite EW. pose proof St as (D & Sd & Sa & Sc). pose proof D as (DL & _ & _).
      specialize (IH (p ++ [l]) rem j dst max s1 ltac:(apply Forall_app; split; auto; constructor; auto) HL2 ltac:(cbn in Hn; lia) Hd ltac:(lia) ltac:(lia)).
      specialize (IH ltac:(rewrite EP; apply holds_app; [eapply holds_differ; eauto; lia|auto])).
      destruct (lead_labels n dst max (dwire rem ++ j) (zlen (prefix_wire (p ++ [l]))) s1) as [[d w] s'|e s'| |]; try contradiction.
      * destruct IH as (a & b & -> & Ha & -> & Hw & Hwm & Hh & St'). exists (l :: a), b. rewrite <- app_assoc in *. cbn [app length] in *. do 6 (split; [auto; try lia|]).
        eapply step_join; [exact St|exact St'| | | |]; try lia. subst w. pose proof (zlen_nonneg (prefix_wire a)). rewrite prefix_app. rewrite zlen_app. cbn [prefix_wire]. rewrite !zlen_cons, !zlen_app. lia.
      * destruct IH as (-> & Hgt & St'). split; [auto|]. split; [rewrite <- app_assoc in Hgt; exact Hgt|]. eapply step_join; [exact St|exact St'| | | |]; lia.
    + split; [reflexivity|]. split; [|apply step_refl]. rewrite name_size_split. cbn [name_size]. rewrite zlen_cons in Hgt. pose proof (name_size_ge1 rem). lia.
Qed.

(** the labels before the last match *)
Lemma match_spec : forall wn v, forall rem p mb0 ss cs0 sfx cp n n' j fuel dst max s,
  bytes (s_mem s) -> view wn (s_mem s) (lim dst) = v -> 0 <= dst -> dst + Z.max 0 max <= zlen (s_mem s) ->
  legal_labels p -> legal_labels mb0 -> legal_labels rem -> name_size (p ++ mb0 ++ rem) <= 255 ->
  (length rem < fuel)%nat -> zlen (prefix_wire p) <= Z.max 0 max -> holds (s_mem s) dst (prefix_wire p) ->
  encodes v true sfx ss n -> plain_at v sfx -> length ss = length rem ->
  encodes v true cp (cs0 ++ ss) n' -> plain_at v cp -> mb0 = low cs0 ->
  match match_loop fuel dst max (dwire rem ++ j) sfx (dwire (mb0 ++ rem) ++ j) cp (zlen (prefix_wire p)) s with
  | Done (d, mbeg, cp', w) s' => exists p' mb cs k, d = dwire [] ++ j /\ mbeg = dwire mb ++ j /\ p ++ mb0 ++ rem = p' ++ mb /\ w = zlen (prefix_wire p') /\ w <= Z.max 0 max /\ zlen (prefix_wire p) <= w /\
      holds (s_mem s') dst (prefix_wire p') /\ step s s' dst (dst + w) /\ encodes v true cp' cs k /\ plain_at v cp' /\ mb = low cs
  | Fail e s' => e = KNOT_ESPACE /\ max < name_size (p ++ mb0 ++ rem) /\ step s s' dst (dst + Z.max 0 max)
  | _ => False
  end.
Proof.
  intros wn v. induction rem as [|l rem IH]; intros p mb0 ss cs0 sfx cp n n' j fuel dst max s HB Hv Hd Hm HLp HLm HLr HS Hf Hpm HH E HP Hlen E' HP' Hmb; (destruct fuel as [|fuel]; [cbn in Hf; lia|]); cbn [match_loop]; unfold bind at 1.
  - rewrite nm_rd0_root. cbn [lift Z.eqb ret]. destruct ss; [|discriminate]. rewrite app_nil_r in E'. rewrite app_nil_r. exists p, mb0, cs0, n'. do 7 (split; [auto; try lia|]). split; [apply step_refl|]. auto.
  - rewrite nm_rd0. cbn [lift]. inversion HLr as [|? ? HL1 HL2]; subst. rewrite legal_nonzero by auto. unfold bind at 1. rewrite nm_next by auto. cbn [lift]. unfold bind at 1. cbn [get]. destruct ss as [|sl ss]; [discriminate|].
    pose proof (lim_le dst). pose proof (lim_pos _ Hd).
    destruct (next_view wn (s_mem s) (lim dst) _ _ _ _ HB ltac:(lia) E HP) as (sfx' & n1 & Enx & E1 & HP1). unfold bind at 1. rewrite Enx. cbn [lift]. unfold bind at 1.
    destruct (wl_equal_spec wn (s_mem s) (lim dst) _ _ _ _ l rem j HB ltac:(lia) E HP) as (b & -> & Hb). cbn [lift]. pose proof (zlen_nonneg (prefix_wire p)).
    destruct b; cbn [negb].
    + assert (Hl : l = map tolower sl) by (apply Hb; auto).
      specialize (IH p (low cs0 ++ [l]) ss (cs0 ++ [sl]) sfx' cp n1 n' j fuel dst max s HB eq_refl Hd Hm HLp ltac:(apply Forall_app; split; auto; constructor; auto) HL2).
      rewrite <- !app_assoc in IH. cbn [app] in IH. apply IH; auto; try (cbn in Hf; lia). unfold low. rewrite map_app. cbn [map]. rewrite Hl. reflexivity.
    + set (mb0 := low cs0) in *.
      assert (EM : u16 (zlen (dwire (mb0 ++ l :: rem) ++ j) - zlen (dwire (l :: rem) ++ j) + (zlen l + 1)) = zlen (prefix_wire (mb0 ++ [l]))).
      { rewrite dwire_split, zlen_app. assert (EQ : zlen (prefix_wire (mb0 ++ [l])) = zlen (prefix_wire mb0) + (1 + zlen l)) by (rewrite prefix_app, zlen_app; cbn [prefix_wire]; rewrite app_nil_r, zlen_cons; lia). rewrite EQ. rewrite !name_size_split in HS. pose proof (zlen_nonneg (prefix_wire mb0)). cbn [name_size] in HS. pose proof (name_size_ge1 rem). pose proof (zlen_nonneg l). unfold u16. rewrite Z.mod_small; lia. }
      rewrite EM. replace (dwire (mb0 ++ l :: rem) ++ j) with (prefix_wire (mb0 ++ [l]) ++ (dwire rem ++ j)) by (rewrite <- dwire_split, <- app_assoc; reflexivity).
      unfold bind at 1. rewrite take_app. cbn [lift]. unfold bind at 1.
      assert (HLq : legal_labels (mb0 ++ [l])) by (apply Forall_app; split; auto; constructor; auto).
      destruct (write_label_spec dst (zlen (prefix_wire p)) (prefix_wire (mb0 ++ [l])) max s ltac:(lia) ltac:(lia) ltac:(lia) (bytes_prefix _ HLq)) as [(Hle & s1 & -> & St & Hl)|(Hgt & ->)].
      * assert (EW : zlen (prefix_wire p) + zlen (prefix_wire (mb0 ++ [l])) = zlen (prefix_wire (p ++ mb0 ++ [l]))) by (rewrite (prefix_app p), zlen_app; lia).
        rewrite EW. pose proof St as (D & Sd & Sa & Sc). pose proof D as (DL & DB & _).
        assert (Ev : view wn (s_mem s1) (lim dst) = view wn (s_mem s) (lim dst)) by (eapply view_differ; [lia|exact D|lia]).
        specialize (IH (p ++ mb0 ++ [l]) [] ss [] sfx' sfx' n1 n1 j fuel dst max s1 (DB HB) Ev Hd ltac:(lia)).
        assert (EL : (p ++ mb0 ++ [l]) ++ [] ++ rem = p ++ mb0 ++ l :: rem) by (cbn [app]; rewrite <- !app_assoc; reflexivity). rewrite EL in IH.
        specialize (IH ltac:(apply Forall_app; split; auto) ltac:(constructor) HL2 HS ltac:(cbn in Hf; lia) ltac:(lia)).
        specialize (IH ltac:(rewrite prefix_app; apply holds_app; [eapply holds_differ; eauto; lia|auto]) E1 HP1 ltac:(cbn in Hlen; lia) E1 HP1 eq_refl).
        cbn [app] in IH. destruct (match_loop fuel dst max (dwire rem ++ j) sfx' (dwire rem ++ j) sfx' (zlen (prefix_wire (p ++ mb0 ++ [l]))) s1) as [[[[d mbeg] cp'] w] s'|e s'| |]; try contradiction.
        -- destruct IH as (p' & mb & cs & k & A1 & A2 & A3 & A4 & A5 & A5' & A6 & A7 & A8). exists p', mb, cs, k. pose proof (zlen_nonneg (prefix_wire (mb0 ++ [l]))). do 5 (split; [auto|]). split; [lia|]. split; [auto|]. split; [|exact A8].
           eapply step_join; [exact St|exact A7| | | |]; lia.
        -- destruct IH as (A1 & A2 & A3). split; [auto|]. split; [auto|]. eapply step_join; [exact St|exact A3| | | |]; try lia.
      * split; [auto|]. split; [|apply step_refl]. rewrite !name_size_split. rewrite prefix_app, zlen_app in Hgt. cbn [prefix_wire] in Hgt. rewrite app_nil_r, zlen_cons in Hgt. cbn [name_size]. pose proof (name_size_ge1 rem). lia.
Qed.

Lemma holds_view : forall wn m c off l, holds m off l -> free wn off -> off + zlen l <= c -> c <= zlen m -> holds (view wn m c) off l.
Proof. intros wn m c off l H H1 H2 H3 i Hi. pose proof H1 as (H0 & _). rewrite zget_view by lia. replace (_ && _) with true by lia. rewrite (free_visible wn off) by (auto; lia). apply H. auto. Qed.
Lemma dwire_prefix : forall ls, dwire ls = prefix_wire ls ++ [0].
Proof. intros. change [0] with (dwire []). rewrite (prefix_wire_app ls []). rewrite app_nil_r. reflexivity. Qed.
Lemma holds_get : forall m off l i b, holds m off l -> zget l i = Some b -> zget m (off + i) = Some b.
Proof. intros m off l i b H Hb. pose proof (zget_some _ _ _ Hb). rewrite H by lia. auto. Qed.
(** a name with all its labels *)
Lemma plain_name : forall wn m c off ls, legal_labels ls -> holds m off (dwire ls) -> free wn off -> off + name_size ls <= c -> c <= zlen m -> encodes (view wn m c) true off ls (name_size ls).
Proof.
  intros wn m c off ls HL HH H1 H2 H3. apply holds_view with (wn := wn) (c := c) in HH; auto; [|rewrite zlen_wire; lia]. rewrite dwire_prefix in HH. apply holds_app_inv in HH. destruct HH as [HA HB].
  rewrite <- (app_nil_r ls) at 1. replace (name_size ls) with (zlen (prefix_wire ls) + 1) by (rewrite zlen_prefix_wire; lia). apply enc_prefix; auto. constructor.
  replace (off + zlen (prefix_wire ls)) with (off + zlen (prefix_wire ls) + 0) by lia. eapply holds_get; [exact HB|reflexivity].
Qed.
Lemma name_size_low : forall ls, name_size (low ls) = name_size ls.
Proof. induction ls; cbn [low map name_size]; [auto|]. rewrite zlen_map. unfold low in IHls. lia. Qed.
Lemma lower_low : forall ls, legal_labels ls -> lower_name (low ls) = lower_name ls.
Proof. intros. unfold low. rewrite lower_labels by auto. apply lower_name_idem. Qed.
Lemma lower_app : forall a b, lower_name (a ++ b) = lower_name a ++ lower_name b.
Proof. intros. unfold lower_name. apply map_app. Qed.

Lemma dname_to_wire_spec : forall ls j dst max s, legal_labels ls -> 0 <= dst -> dst + Z.max 0 max <= zlen (s_mem s) ->
  (name_size ls <= max /\ exists s', dname_to_wire dst (dwire ls ++ j) max s = Done (name_size ls) s' /\ step s s' dst (dst + name_size ls) /\ holds (s_mem s') dst (dwire ls)) \/
  (max < name_size ls /\ dname_to_wire dst (dwire ls ++ j) max s = Fail KNOT_ESPACE s).
Proof.
  intros ls j dst max s HL H1 H2. unfold dname_to_wire, bind. rewrite dname_size_spec by auto. cbn [lift]. destruct (name_size ls >? max) eqn:E; [right; split; [lia|reflexivity]|left]. split; [lia|].
  replace (take (dwire ls ++ j) (name_size ls)) with (Ok (dwire ls)) by (rewrite <- zlen_wire; symmetry; apply take_app). cbn [lift]. rewrite put_ok by (rewrite ?zlen_wire; lia). eexists. split; [reflexivity|]. cbn [with_mem s_mem].
  split; [|apply holds_overwrite; rewrite ?zlen_wire; lia]. split; [|repeat split; auto]. rewrite <- (zlen_wire ls). apply differ_overwrite; [lia|rewrite zlen_wire; lia|apply bytes_wire; auto].
Qed.

Lemma skip_suffix_spec : forall n wn ss pos k s cur, bytes (s_mem s) -> 0 <= cur <= zlen (s_mem s) -> (n <= length ss)%nat ->
  encodes (view wn (s_mem s) cur) true pos ss k -> plain_at (view wn (s_mem s) cur) pos ->
  exists a b pos' k', skip_suffix n pos s = Done pos' s /\ ss = a ++ b /\ length a = n /\ encodes (view wn (s_mem s) cur) true pos' b k' /\ plain_at (view wn (s_mem s) cur) pos'.
Proof.
  induction n as [|n IH]; intros wn ss pos k s cur HB H1 Hn E HP; cbn [skip_suffix].
  - exists [], ss, pos, k. repeat split; auto.
  - destruct ss as [|l ss]; [cbn in Hn; lia|]. unfold bind at 1. cbn [get]. unfold bind at 1. destruct (next_view _ _ _ _ _ _ _ HB H1 E HP) as (pos' & n' & -> & E' & HP'). cbn [lift].
    destruct (IH wn ss pos' n' s cur HB H1 ltac:(cbn in Hn; lia) E' HP') as (a & b & pos'' & k' & -> & -> & Ha & E'' & HP''). exists (l :: a), b, pos'', k'. cbn [app length]. repeat split; auto.
Qed.

(** what is at the start of a name: a label, or a pointer to a name below *)
Definition head_ok (wn : win) (m : list Z) (dst : Z) (ls : list label) : Prop :=
  exists b, zget m dst = Some b /\ (b <= 63 \/ 192 <= b /\ exists b2, zget m (dst + 1) = Some b2 /\ reach wn m dst ((b - 192) * 256 + b2) ls).
Definition ctx_suffix (wn : win) (m : list Z) (cur : Z) (oc : option compr) : Prop :=
  match oc with None => True | Some c => suffix_ok wn m cur c end.
Definition same_hints (a b : option compr) : Prop :=
  match a, b with None, None => True | Some c, Some c' => c_hints c' = c_hints c | _, _ => False end.
Definition written (wn : win) (s s' : st) (n : Z) (ls ls' : list label) : Prop :=
  differ (s_mem s) (s_mem s') (s_dst s) (s_dst s + n) /\ s_dst s' = s_dst s /\ s_avail s' = s_avail s /\
  encodes (view wn (s_mem s') (s_dst s + n)) true (s_dst s) ls' n /\ legal_labels ls' /\ lower_name ls' = lower_name ls /\ name_size ls' = name_size ls /\
  ctx_suffix wn (s_mem s') (s_dst s + n) (s_compr s') /\ same_hints (s_compr s) (s_compr s') /\ head_ok wn (s_mem s') (s_dst s) ls'.

Lemma head_plain : forall wn m off ls, legal_labels ls -> holds m off (dwire ls) -> head_ok wn m off ls.
Proof.
  intros wn m off ls HL HH. destruct ls as [|l ls].
  - exists 0. split; [|lia]. replace off with (off + 0) by lia. eapply holds_get; [exact HH|reflexivity].
  - inversion HL as [|? ? [H1 _] _]; subst. exists (zlen l). split; [|lia]. replace off with (off + 0) by lia. eapply holds_get; [exact HH|reflexivity].
Qed.
Lemma ctx_suffix_mono : forall wn m m' cur cur' oc a b, ctx_suffix wn m cur oc -> bytes m -> differ m m' a b -> 0 <= cur <= cur' -> cur' <= zlen m -> cur <= a -> ctx_suffix wn m' cur' oc.
Proof. intros wn m m' cur cur' [c|] a b H HB D H1 H2 H3; cbn in *; [|auto]. eapply suffix_mono; eauto. Qed.
Lemma same_hints_refl : forall c, same_hints c c. Proof. destruct c; cbn; auto. Qed.

Lemma plain_written : forall wn s s' ls, legal_labels ls -> bytes (s_mem s) -> free wn (s_dst s) -> s_dst s + name_size ls <= zlen (s_mem s) -> ctx_suffix wn (s_mem s) (s_dst s) (s_compr s) ->
  step s s' (s_dst s) (s_dst s + name_size ls) -> holds (s_mem s') (s_dst s) (dwire ls) -> written wn s s' (name_size ls) ls ls.
Proof.
  intros wn s s' ls HL HB H1 H2 HC (D & Sd & Sa & Sc) HH. pose proof (name_size_ge1 ls). pose proof D as (DL & _). pose proof H1 as (H0 & _). unfold written. rewrite Sc. split; [auto|]. split; [auto|]. split; [auto|].
  split; [apply plain_name; auto; lia|]. split; [auto|]. split; [auto|]. split; [auto|]. split; [eapply ctx_suffix_mono; eauto; lia|]. split; [apply same_hints_refl|]. apply head_plain; auto.
Qed.

Lemma ptr_bytes : forall p, 0 <= p <= 16383 -> bytes [Z.lor (p / 256) 192; p mod 256] /\ 192 <= Z.lor (p / 256) 192 /\ (Z.lor (p / 256) 192 - 192) * 256 + p mod 256 = p.
Proof.
  intros p H. assert (E : Z.lor (p / 256) 192 = p / 256 + 192).
  { rewrite Z.add_nocarry_lxor. - rewrite Z.lxor_lor; [reflexivity|]. change 192 with (Z.shiftl 3 6). apply Z.bits_inj'. intros n Hn. rewrite Z.land_spec, Z.shiftl_spec, Z.bits_0 by lia.
      destruct (Z_lt_le_dec n 6). + rewrite (Z.testbit_neg_r 3) by lia. apply andb_false_r.
      + replace (Z.testbit (p / 256) n) with false; [reflexivity|]. symmetry. destruct (Z.eq_dec (p / 256) 0) as [->|]; [apply Z.bits_0|]. apply Z.bits_above_log2; [lia|]. apply Z.log2_lt_pow2; [lia|]. apply Z.lt_le_trans with (2 ^ 6); [change (2 ^ 6) with 64; lia|]. apply Z.pow_le_mono_r; lia.
    - change 192 with (Z.shiftl 3 6). apply Z.bits_inj'. intros n Hn. rewrite Z.land_spec, Z.shiftl_spec, Z.bits_0 by lia.
      destruct (Z_lt_le_dec n 6). + rewrite (Z.testbit_neg_r 3) by lia. apply andb_false_r.
      + replace (Z.testbit (p / 256) n) with false; [reflexivity|]. symmetry. destruct (Z.eq_dec (p / 256) 0) as [->|]; [apply Z.bits_0|]. apply Z.bits_above_log2; [lia|]. apply Z.log2_lt_pow2; [lia|]. apply Z.lt_le_trans with (2 ^ 6); [change (2 ^ 6) with 64; lia|]. apply Z.pow_le_mono_r; lia. }
  rewrite E. split; [|lia]. repeat constructor; unfold byte; lia.
Qed.

Lemma put_pointer_spec : forall pos ptr s, 0 <= ptr < pos -> ptr <= 16383 -> pos + 2 <= zlen (s_mem s) ->
  exists s', put_pointer pos ptr s = Done tt s' /\ step s s' pos (pos + 2) /\
    exists hi b2, zget (s_mem s') pos = Some hi /\ zget (s_mem s') (pos + 1) = Some b2 /\ 192 <= hi /\ (hi - 192) * 256 + b2 = ptr.
Proof.
  intros pos ptr s H1 H2 H3. destruct (ptr_bytes ptr ltac:(lia)) as (HB & Hh & Hv). unfold put_pointer. replace (ptr >=? pos) with false by lia. replace (ptr >? 16383) with false by lia.
  set (l := [Z.lor (ptr / 256) 192; ptr mod 256]) in *. assert (L : zlen l = 2) by reflexivity. rewrite put_ok by lia. eexists. split; [reflexivity|]. cbn [with_mem s_mem].
  pose proof (holds_overwrite (s_mem s) pos l ltac:(lia) ltac:(lia)) as HH.
  split. { split; [|repeat split; auto]. cbn [with_mem s_mem]. rewrite <- L. apply differ_overwrite; auto; lia. }
  exists (Z.lor (ptr / 256) 192), (ptr mod 256). split; [replace pos with (pos + 0) at 2 by lia; eapply holds_get; [exact HH|reflexivity]|]. split; [eapply holds_get; [exact HH|reflexivity]|]. auto.
Qed.

(** names shortened by a pointer *)
Lemma ptr_written : forall wn s s' p mb cs cp k c', bytes (s_mem s) -> free wn (s_dst s) -> legal_labels p -> mb <> [] -> legal_labels mb -> mb = low cs -> s_dst s + zlen (prefix_wire p) + 2 <= zlen (s_mem s) ->
  encodes (view wn (s_mem s) (lim (s_dst s))) true cp cs k ->
  differ (s_mem s) (s_mem s') (s_dst s) (s_dst s + zlen (prefix_wire p) + 2) -> s_dst s' = s_dst s -> s_avail s' = s_avail s -> s_compr s' = Some c' ->
  same_hints (s_compr s) (s_compr s') -> suffix_ok wn (s_mem s') (s_dst s + (zlen (prefix_wire p) + 2)) c' ->
  holds (s_mem s') (s_dst s) (prefix_wire p) ->
  (exists hi b2, zget (s_mem s') (s_dst s + zlen (prefix_wire p)) = Some hi /\ zget (s_mem s') (s_dst s + zlen (prefix_wire p) + 1) = Some b2 /\ 192 <= hi /\ (hi - 192) * 256 + b2 = cp) ->
  written wn s s' (zlen (prefix_wire p) + 2) (p ++ mb) (p ++ cs).
Proof.
  intros wn s s' p mb cs cp k c' HB HF HLp Hne HLm Hmb Hlen E D Sd Sa Sc Hh HC HH (hi & b2 & Z1 & Z2 & Hhi & Hv). pose proof (zlen_nonneg (prefix_wire p)). pose proof D as (DL & DB & DD).
  pose proof HF as (Hd & _). pose proof (encodes_legal _ _ _ _ _ E) as HLc. pose proof (lim_le (s_dst s)). pose proof (lim_pos _ Hd). set (dst := s_dst s) in *. set (w := zlen (prefix_wire p)) in *.
  assert (E' : encodes (view wn (s_mem s') (dst + (w + 2))) true cp cs k).
  { apply view_mono with (m := s_mem s) (c := lim dst); auto; try lia. intros. apply DD. lia. }
  pose proof (enc_lo wn (s_mem s) (lim dst) _ _ _ _ ltac:(lia) E) as HR.
  unfold written. fold dst. split; [replace (dst + (w + 2)) with (dst + w + 2) by lia; auto|]. split; [auto|]. split; [auto|].
  split.
  { apply enc_prefix; auto.
    - apply holds_view; auto; fold w; lia.
    - fold w. eapply enc_ptr with (hi := hi) (lo := b2); auto.
      + rewrite zget_view by lia. replace (_ && _) with true by lia. rewrite (free_visible wn dst) by (auto; lia). auto.
      + rewrite zget_view by lia. replace (_ && _) with true by lia. rewrite (free_visible wn dst) by (auto; lia). auto.
      + lia.
      + rewrite Hv. exact E'. }
  split; [apply Forall_app; split; auto|]. split; [rewrite !lower_app, Hmb, lower_low by auto; reflexivity|]. split; [rewrite !name_size_split, Hmb, name_size_low; reflexivity|].
  split; [rewrite Sc; cbn; auto|]. split; [auto|].
  destruct p as [|l p].
  - exists hi. cbn [prefix_wire] in *. subst w. rewrite zlen_nil in *. replace (dst + 0) with dst in * by lia. split; [auto|]. right. split; [auto|]. exists b2. split; [auto|]. rewrite Hv. exists k. cbn [app].
    apply view_mono with (m := s_mem s) (c := lim dst); auto; try lia. intros. apply DD. lia.
  - inversion HLp as [|? ? [HL1 _] _]; subst. exists (zlen l). split; [|lia]. replace dst with (dst + 0) by lia. eapply holds_get; [exact HH|reflexivity].
Qed.

Lemma put_dname_spec : forall wn s ls j max use, bytes (s_mem s) -> free wn (s_dst s) -> s_dst s + Z.max 0 max <= zlen (s_mem s) -> zlen (s_mem s) <= 65535 -> legal_name ls ->
  ctx_suffix wn (s_mem s) (s_dst s) (s_compr s) ->
  match compr_put_dname (dwire ls ++ j) (s_dst s) max use s with
  | Done n s' => 1 <= n <= max /\ n <= name_size ls /\ exists ls', written wn s s' n ls ls' /\ (use = false \/ s_compr s = None -> ls' = ls /\ n = name_size ls)
  | Fail e s' => e = KNOT_ESPACE /\ max < name_size ls /\ step s s' (s_dst s) (s_dst s + Z.max 0 max)
  | _ => False
  end.
Proof.
  intros wn s ls j max use HB HF Hm H64 [HL HS] HC. pose proof HF as (Hd0 & _). unfold compr_put_dname. unfold bind at 1. cbn [get]. unfold bind at 1.
  set (dst := s_dst s) in *. pose proof (name_size_ge1 ls).
  assert (PL : match dname_to_wire dst (dwire ls ++ j) max s with
    | Done n s' => 1 <= n <= max /\ n <= name_size ls /\ exists ls', written wn s s' n ls ls' /\ (use = false \/ s_compr s = None -> ls' = ls /\ n = name_size ls)
    | Fail e s' => e = KNOT_ESPACE /\ max < name_size ls /\ step s s' dst (dst + Z.max 0 max)
    | _ => False end).
  { destruct (dname_to_wire_spec ls j dst max s HL ltac:(lia) Hm) as [(Hle & s' & -> & St & HH)|(Hgt & ->)].
    - split; [lia|]. split; [lia|]. exists ls. split; [|auto]. apply plain_written; auto; fold dst; lia.
    - split; [auto|]. split; [auto|]. apply step_refl. }
  assert (R0 : exists c0, rd0 (dwire ls ++ j) = Ok c0 /\ (c0 = 0 <-> ls = [])).
  { destruct ls as [|l ls]; [exists 0; split; [reflexivity|tauto]|]. exists (zlen l). rewrite nm_rd0. split; [auto|]. inversion HL as [|? ? [Hl _] _]; subst. split; [lia|discriminate]. }
  destruct R0 as (c0 & -> & Hc0). cbn [lift].
  destruct use; [|exact PL]. destruct (s_compr s) as [c|] eqn:Ec; [|exact PL]. destruct (c0 =? 0) eqn:E0; [exact PL|]. clear PL.
  assert (Hne : ls <> []) by (intros Hx; apply Hc0 in Hx; lia). clear Hc0 E0 c0.
  unfold bind at 1. rewrite dname_labels_spec by auto. cbn [lift]. assert (Hzl : 0 < zlen ls) by (destruct ls; [congruence|rewrite zlen_cons; pose proof (zlen_nonneg ls); lia]). replace (zlen ls <=? 0) with false by lia.
  destruct HC as (ss & ((k & E) & HP & HSS) & Hlab). fold dst in E, HP. pose proof (lim_le dst). pose proof (lim_pos dst ltac:(lia)).
  pose proof (size_labels ss (encodes_legal _ _ _ _ _ E) HSS). pose proof (size_labels ls HL HS).
  unfold bind at 1. destruct (skip_suffix_spec (Z.to_nat (c_labels c - zlen ls)) wn ss (c_pos c) k s (lim dst) HB ltac:(lia) ltac:(unfold zlen in *; lia) E HP) as (sa & sb & sfx & k1 & -> & Hss & Hsa & E1 & HP1).
  assert (Hsb : length sb = Z.to_nat (Z.min (c_labels c) (zlen ls))) by (rewrite Hss in Hlab; unfold zlen in *; rewrite app_length in Hlab; lia).
  unfold bind at 1. pose proof (lead_spec (Z.to_nat (zlen ls - Z.min (c_labels c) (zlen ls))) [] ls j dst max s ltac:(constructor) HL ltac:(unfold zlen in *; lia) ltac:(lia) ltac:(lia) ltac:(cbn; lia)) as LS.
  change (zlen (prefix_wire [])) with 0 in LS. specialize (LS ltac:(intros i Hi; cbn in Hi; lia)).
  destruct (lead_labels (Z.to_nat (zlen ls - Z.min (c_labels c) (zlen ls))) dst max (dwire ls ++ j) 0 s) as [[d w] s1|e s1| |]; try contradiction.
  2: { cbn [app] in LS. exact LS. }
  destruct LS as (a & b & Hls & Ha & -> & Hw & Hwm & HH1 & St1). cbn [app] in Hw, HH1. subst w.
  assert (Hb : length sb = length b) by (rewrite Hls in *; unfold zlen in *; rewrite app_length in *; lia).
  assert (HLab : legal_labels a /\ legal_labels b) by (rewrite Hls in HL; apply Forall_app in HL; exact HL). destruct HLab as [HLa HLb].
  pose proof St1 as (D1 & Sd1 & Sa1 & Sc1). pose proof D1 as (DL1 & DB1 & DD1).
  assert (Ev : view wn (s_mem s1) (lim dst) = view wn (s_mem s) (lim dst)) by (eapply view_differ; [lia|exact D1|lia]).
  unfold bind at 1. pose proof (match_spec wn (view wn (s_mem s) (lim dst)) b a [] sb [] sfx sfx k1 k1 j (S (length (dwire b ++ j))) dst max s1 (DB1 HB) Ev ltac:(lia) ltac:(lia) HLa ltac:(constructor) HLb ltac:(cbn [app]; rewrite <- Hls; auto)
    ltac:(pose proof (wire_length b j); lia) ltac:(lia) HH1 E1 HP1 Hb E1 HP1 eq_refl) as MS. cbn [app] in MS.
  destruct (match_loop (S (length (dwire b ++ j))) dst max (dwire b ++ j) sfx (dwire b ++ j) sfx (zlen (prefix_wire a)) s1) as [[[[d mbeg] cp] w] s2|e s2| |]; try contradiction.
  2: { destruct MS as (-> & Hgt & St2). rewrite <- Hls in Hgt. split; [auto|]. split; [auto|]. eapply step_join; [exact St1|exact St2| | | |]; lia. }
  destruct MS as (p & mb & cs & k2 & -> & -> & Hpm & -> & Hwm2 & Hle2 & HH2 & St2 & E2 & HP2 & Hmb). rewrite <- Hls in Hpm. clear HH1.
  assert (HLpm : legal_labels p /\ legal_labels mb) by (rewrite Hpm in HL; apply Forall_app in HL; exact HL). destruct HLpm as [HLp HLm]. pose proof (zlen_nonneg (prefix_wire p)). pose proof (zlen_nonneg (prefix_wire a)).
  assert (St : step s s2 dst (dst + zlen (prefix_wire p))) by (eapply step_join; [exact St1|exact St2| | | |]; lia). clear St1 St2. pose proof St as (D2 & Sd2 & Sa2 & Sc2). pose proof D2 as (DL2 & DB2 & DD2).
  rewrite Hpm in HS |- *. rewrite name_size_split in HS |- *. set (w := zlen (prefix_wire p)) in *.
  assert (H127 : 0 <= zlen (p ++ mb) <= 127) by (rewrite <- Hpm; lia).
  (* the suffix which is kept, and the new one *)
  assert (FIN : forall s3 n ls', 1 <= n <= max -> n <= w + name_size mb -> step s s3 dst (dst + n) -> (n > 2 -> exists l p', p = l :: p') -> (exists b, zget (s_mem s3) dst = Some b) ->
     (forall s4 c', s_mem s4 = s_mem s3 -> s_dst s4 = dst -> s_avail s4 = s_avail s -> s_compr s4 = Some c' -> c_hints c' = c_hints c -> suffix_ok wn (s_mem s4) (dst + n) c' -> written wn s s4 n (p ++ mb) ls') ->
     encodes (view wn (s_mem s3) (dst + n)) true dst ls' n -> zget (s_mem s3) dst = zget (prefix_wire p ++ [0]) 0 \/ p = [] -> name_size ls' <= 255 -> zlen ls' = zlen (p ++ mb) ->
     match (if dst >=? 65535 then fun _ => Crash else do* _ := if (n >? 2) && (dst + n <? PTR_MAX) then fun s => Done tt (with_compr s (Some (mkcompr (c_hints c) dst (u8 (zlen (p ++ mb)))))) else ret tt in ret n) s3 with
     | Done n s' => 1 <= n <= max /\ n <= w + name_size mb /\ exists ls', written wn s s' n (p ++ mb) ls' /\ (true = false \/ Some c = None -> ls' = p ++ mb /\ n = w + name_size mb)
     | Fail e s' => e = KNOT_ESPACE /\ max < w + name_size mb /\ step s s' dst (dst + Z.max 0 max)
     | _ => False end).
  { intros s3 n ls' Hn Hn2 (D3 & Sd3 & Sa3 & Sc3) Hp _ HW HE Hz HS' HZ. replace (dst >=? 65535) with false by lia. unfold bind.
    destruct ((n >? 2) && (dst + n <? PTR_MAX)) eqn:EN; cbn [ret].
    - split; [auto|]. split; [auto|]. exists ls'. split; [|intros [|]; discriminate]. eapply HW; cbn [with_compr s_mem s_dst s_avail s_compr]; eauto.
      destruct Hp as (l & p' & ->); [lia|]. destruct Hz as [Hz|]; [|discriminate]. inversion HLp as [|? ? [Hl _] _]; subst. pose proof D3 as (DL3 & _ & _).
      assert (EL : lim (dst + n) = dst + n) by (unfold lim; lia). exists ls'. split.
      + split; [exists n; cbn [c_pos]; rewrite EL; auto|]. split; [|auto]. exists (zlen l). cbn [c_pos]. split; [|lia]. rewrite EL, zget_view by lia. replace (_ && _) with true by lia. rewrite (free_visible wn dst) by (auto; lia). rewrite Hz. reflexivity.
      + cbn [c_labels]. unfold u8. rewrite Z.mod_small; lia.
    - split; [auto|]. split; [auto|]. exists ls'. split; [|intros [|]; discriminate]. eapply HW with (c' := c); eauto; [congruence|].
      eapply suffix_mono with (m := s_mem s) (cur := dst); [exists ss; split; [split; [exists k; exact E|auto]|auto]|exact HB|exact D3| | |]; lia. }
  destruct (zlen (dwire mb ++ j) =? zlen (dwire [] ++ j)) eqn:EM.
  - (* no match *)
    assert (Emb : mb = []).
    { destruct mb as [|l mb]; [auto|]. rewrite !zlen_app, !zlen_wire in EM. cbn [name_size] in EM. pose proof (name_size_ge1 mb). pose proof (zlen_nonneg l). lia. } destruct cs; [|rewrite Emb in Hmb; discriminate]. change (low []) with (@nil label) in Hmb. rewrite Emb in *. clear EM Emb Hmb mb.
    unfold bind at 1. replace (take (dwire [] ++ j) 1) with (Ok [0] : res (list Z)) by (symmetry; apply (take_app [0])). 
    unfold bind at 1. cbn [lift]. destruct (write_label_spec dst w [0] max s2 ltac:(lia) ltac:(lia) ltac:(lia) ltac:(repeat constructor; unfold byte; lia)) as [(Hle & s3 & -> & St3 & HH3)|(Hgt & ->)].
    2: { change (zlen [0]) with 1 in Hgt. split; [auto|]. cbn [name_size]. split; [lia|]. eapply step_wide; [exact St|lia|lia]. }
    change (zlen [0]) with 1 in *. pose proof St3 as (D3 & _).
    assert (HH : holds (s_mem s3) dst (dwire p)) by (rewrite dwire_prefix; apply holds_app; [eapply holds_differ; [exact HH2|exact D3|fold w; lia]|auto]).
    assert (St' : step s s3 dst (dst + (w + 1))) by (eapply step_join; [exact St|exact St3| | | |]; lia). pose proof St' as (D4 & Sd4 & Sa4 & Sc4). pose proof D4 as (DL4 & _ & _).
    assert (NS : name_size p = w + 1) by (subst w; rewrite zlen_prefix_wire; lia).
    assert (HE : encodes (view wn (s_mem s3) (dst + (w + 1))) true dst p (w + 1)) by (rewrite <- NS; apply plain_name; auto; lia).
    rewrite app_nil_r in *. apply (FIN s3 (w + 1) p); auto; cbn [name_size] in *; try lia.
    + intros Hw3. destruct p as [|l p']; [cbn in w; lia|eauto].
    + exists (match p with [] => 0 | l :: _ => zlen l end). replace dst with (dst + 0) by lia. eapply holds_get; [exact HH|]. destruct p; reflexivity.
    + intros s4 c' M4 Sd' Sa' Sc' Hh' Hs'. replace (w + 1) with (name_size p) in * by lia.
      unfold written. rewrite M4, Sd', Sa', Sc', Ec. fold dst. split; [auto|]. split; [auto|]. split; [auto|]. split; [auto|]. split; [auto|]. split; [auto|]. split; [auto|]. split; [cbn; rewrite <- M4; auto|]. split; [cbn; auto|]. apply head_plain; auto.
    + left. rewrite <- dwire_prefix. rewrite <- HH by (rewrite zlen_wire; pose proof (name_size_ge1 p); lia). f_equal. lia.
  - destruct mb as [|l mb]; [lia|]. clear EM. pose proof (name_size_ge3 l mb ltac:(inversion HLm; auto)) as Hge3. set (mbs := l :: mb) in *.
    destruct (w + 2 >? max) eqn:EX.
    { cbn [fail]. unfold bind, fail. split; [auto|]. split; [lia|]. eapply step_wide; [exact St|lia|lia]. }
    pose proof (enc_lo wn (s_mem s) (lim dst) _ _ _ _ ltac:(lia) E2) as HR. pose proof (lim_max dst).
    unfold bind at 1 2. destruct (put_pointer_spec (dst + w) cp s2 ltac:(lia) ltac:(lia) ltac:(lia)) as (s3 & -> & St3 & hi & b2 & Z1 & Z2 & Hhi & Hv). cbn [ret].
    pose proof St3 as (D3 & _).
    assert (St' : step s s3 dst (dst + (w + 2))) by (eapply step_join; [exact St|exact St3| | | |]; lia). pose proof St' as (D4 & Sd4 & Sa4 & Sc4). pose proof D4 as (DL4 & _ & _).
    assert (HH : holds (s_mem s3) dst (prefix_wire p)) by (eapply holds_differ; [exact HH2|exact D3|fold w; lia]).
    assert (HW : forall s4 c', s_mem s4 = s_mem s3 -> s_dst s4 = dst -> s_avail s4 = s_avail s -> s_compr s4 = Some c' -> c_hints c' = c_hints c -> suffix_ok wn (s_mem s4) (dst + (w + 2)) c' -> written wn s s4 (w + 2) (p ++ mbs) (p ++ cs)).
    { intros s4 c' M4 Sd' Sa' Sc' Hh' Hs'. apply ptr_written with (cp := cp) (k := k2) (c' := c'); auto; try rewrite M4; fold dst w; auto; try lia.
      - subst mbs. discriminate.
      - replace (dst + w + 2) with (dst + (w + 2)) by lia. auto.
      - rewrite Ec, Sc'. cbn. auto.
      - exists hi, b2. auto. }
    assert (W1 : written wn s (with_compr s3 (Some c)) (w + 2) (p ++ mbs) (p ++ cs)).
    { apply (HW _ c); cbn [with_compr s_mem s_dst s_avail s_compr]; auto. 
      eapply suffix_mono with (m := s_mem s) (cur := dst); [exists ss; split; [split; [exists k; exact E|auto]|auto]|exact HB|exact D4| | |]; lia. }
    destruct W1 as (_ & _ & _ & W4 & _ & _ & W7 & _). cbn [with_compr s_mem] in W4. fold dst in W4.
    apply (FIN s3 (w + 2) (p ++ cs)); auto; try lia.
    + intros Hw3. destruct p as [|l' p']; [cbn in w; lia|eauto].
    + destruct p as [|l' p'].
      * exists hi. replace (dst + w) with dst in Z1 by (subst w; cbn; lia). auto.
      * exists (zlen l'). replace dst with (dst + 0) by lia. eapply holds_get; [exact HH|reflexivity].
    + destruct p as [|l' p']; [right; auto|left]. replace dst with (dst + 0) by lia. eapply holds_get; [exact HH|reflexivity].
    + rewrite W7, name_size_split. auto.
    + rewrite !zlen_app, Hmb. unfold low. rewrite zlen_map. reflexivity.
Qed.
