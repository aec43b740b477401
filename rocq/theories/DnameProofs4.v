From Verif Require Import Base DnameModel DnameSpec DnameProofs DnameProofs2 DnameProofs3.

Lemma char_text_denotes : forall c t, char_text c t -> char_denotes c t.
Proof. intros c t H; inversion H; subst; constructor; auto. Qed.
Lemma label_text_denotes : forall l t, label_text l t -> label_denotes l t.
Proof. induction 1; constructor; auto using char_text_denotes. Qed.
Lemma labels_text_denote : forall l t, labels_text l t -> labels_denote l t.
Proof. induction 1; constructor; auto using label_text_denotes. Qed.
Lemma name_text_denoted : forall l t, name_text l t -> name_denoted l t.
Proof. intros [|x l] t H; cbn in *; auto using labels_text_denote. Qed.

Lemma label_denotes_app : forall a t b u, label_denotes a t -> label_denotes b u -> label_denotes (a ++ b) (t ++ u).
Proof. induction 1; intros Hb; cbn [app]; auto. rewrite <- app_assoc. constructor; auto. Qed.
Lemma label_denotes_snoc : forall a t c u, label_denotes a t -> char_denotes c u -> label_denotes (a ++ [c]) (t ++ u).
Proof. intros. apply label_denotes_app; auto. rewrite <- (app_nil_r u). constructor; auto. constructor. Qed.
Lemma labels_denote_app : forall a t b u, labels_denote a t -> labels_denote b u -> labels_denote (a ++ b) (t ++ u).
Proof. induction 1; intros Hb; cbn [app]; auto. rewrite <- app_assoc. cbn [app]. constructor; auto. Qed.
Lemma labels_denote_snoc : forall a t l u, labels_denote a t -> label_denotes l u ->
  labels_denote (a ++ [l]) (t ++ u ++ [46]).
Proof. intros. apply labels_denote_app; auto. constructor; auto. constructor. Qed.

Lemma prefix_wire_snoc : forall ls l, prefix_wire (ls ++ [l]) = prefix_wire ls ++ zlen l :: l.
Proof.
  induction ls as [|x ls IH]; intros; cbn [app prefix_wire]; [rewrite app_nil_r; auto|].
  rewrite IH, <- app_assoc. reflexivity.
Qed.

Lemma digits_num : forall c0 c1 c2, is_digit c0 = true -> is_digit c1 = true -> is_digit c2 = true ->
  [92; c0; c1; c2] = esc_ddd ((c0 - 48) * 100 + (c1 - 48) * 10 + (c2 - 48)).
Proof.
  intros c0 c1 c2 H0 H1 H2. unfold is_digit in *. unfold esc_ddd.
  repeat match goal with |- _ :: _ = _ :: _ => f_equal end; try reflexivity; lia.
Qed.

(** ** Soundness *)
Lemma from_str_loop_sound : forall fuel ch nl we ls0 p0 cur p1,
  bytes ch -> (length ch < fuel)%nat -> (nl > 1 \/ ~ In 46 ch) ->
  legal_labels ls0 -> labels_denote ls0 p0 -> bytes cur -> label_denotes cur p1 -> zlen cur <= 63 ->
  zlen (prefix_wire ls0) + 1 + zlen cur <= we ->
  match from_str_loop fuel ch nl we (prefix_wire ls0) (zlen cur) cur with
  | Ok (done, label, cur') => exists ls' p0' p1',
      done = prefix_wire ls' /\ legal_labels ls' /\ labels_denote ls' p0' /\ bytes cur' /\
      label_denotes cur' p1' /\ zlen cur' <= 63 /\ label = zlen cur' /\
      zlen (prefix_wire ls') + 1 + zlen cur' <= we /\ p0 ++ p1 ++ ch = p0' ++ p1'
  | Err e => e = RET_NULL
  | _ => False
  end.
Proof.
  induction fuel as [|fuel IH]; intros ch nl we ls0 p0 cur p1 Hch Hf Hnl HL HD Hcur HDc H63 Hwe; [lia|].
  cbn [from_str_loop]. destruct ch as [|c ch].
  { exists ls0, p0, p1. rewrite app_nil_r. repeat split; auto. }
  pose proof (zlen_nonneg cur) as Hcn.
  apply bytes_cons in Hch as [Hc Hch]. cbn [length] in Hf.
  assert (Hnl' : forall ch', (forall x, In x ch' -> In x ch) -> nl > 1 \/ ~ In 46 ch').
  { intros ch' Hi. destruct Hnl as [|Hn]; [auto|right]. intros Hx. apply Hn. right. auto. }
  unfold can_write. destruct (_ >=? we) eqn:Ewe; [reflexivity|].
  replace (zlen (prefix_wire ls0) + 1 + zlen cur <? we) with true by lia. cbn [negb].
  destruct (c =? 46) eqn:E46.
  { destruct Hnl as [Hnl|Hn]; [|exfalso; apply Hn; left; lia].
    replace (nl >? 1) with true by lia. rewrite andb_true_r.
    destruct (zlen cur =? 0) eqn:E0; [reflexivity|].
    rewrite <- prefix_wire_snoc. change 0 with (zlen (@nil Z)).
    assert (c = 46) by lia; subst c.
    assert (Hlen : zlen (prefix_wire (ls0 ++ [cur])) = zlen (prefix_wire ls0) + 1 + zlen cur)
      by (rewrite prefix_wire_snoc, zlen_app, zlen_cons; lia).
    replace (p0 ++ p1 ++ 46 :: ch) with ((p0 ++ p1 ++ [46]) ++ [] ++ ch) by (rewrite <- !app_assoc; reflexivity).
    apply IH; auto.
    - lia.
    - apply Forall_app; split; auto; constructor; [split; [lia|auto]|constructor].
    - apply labels_denote_snoc; auto.
    - constructor.
    - constructor.
    - cbn; lia.
    - unfold label in *; rewrite Hlen, zlen_nil; lia. }
  assert (step : forall num ch' u, byte num -> bytes ch' -> (length ch' < fuel)%nat ->
     (forall x, In x ch' -> In x ch) -> char_denotes num u -> c :: ch = u ++ ch' -> zlen cur + 1 <= 63 ->
     match from_str_loop fuel ch' nl we (prefix_wire ls0) (zlen cur + 1) (cur ++ [num]) with
     | Ok (done, label, cur') => exists ls' p0' p1',
         done = prefix_wire ls' /\ legal_labels ls' /\ labels_denote ls' p0' /\ bytes cur' /\
         label_denotes cur' p1' /\ zlen cur' <= 63 /\ label = zlen cur' /\
         zlen (prefix_wire ls') + 1 + zlen cur' <= we /\ p0 ++ p1 ++ c :: ch = p0' ++ p1'
     | Err e => e = RET_NULL | _ => False end).
  { intros num ch' u Hn Hch' Hf' Hi Hu Hsplit H64.
    replace (zlen cur + 1) with (zlen (cur ++ [num])) by (rewrite zlen_app, zlen_cons, zlen_nil; lia).
    assert (Hlen : zlen (cur ++ [num]) = zlen cur + 1) by (rewrite zlen_app, zlen_cons, zlen_nil; lia).
    specialize (IH ch' nl we ls0 p0 (cur ++ [num]) (p1 ++ u) Hch' Hf' (Hnl' _ Hi) HL HD).
    rewrite Hsplit.
    replace (p0 ++ p1 ++ u ++ ch') with (p0 ++ (p1 ++ u) ++ ch') by (rewrite <- !app_assoc; auto).
    apply IH; [apply bytes_app; split; auto; apply bytes_cons; split; auto; constructor
              |apply label_denotes_snoc; auto|lia|lia]. }
  unfold KNOT_DNAME_MAXLABELLEN.
  assert (Hu8 : u8 (zlen cur + 1) = zlen cur + 1) by (unfold u8; rewrite Z.mod_small; lia). rewrite Hu8.
  destruct (c =? 92) eqn:E92.
  - destruct ch as [|c0 ch']; [reflexivity|].
    destruct (zlen cur + 1 >? 63) eqn:E63; [reflexivity|].
    apply bytes_cons in Hch as [Hc0 Hch'].
    destruct (is_digit c0) eqn:Ed0.
    + destruct ch' as [|c1 [|c2 ch'']]; try reflexivity.
      destruct (is_digit c1) eqn:Ed1; [|reflexivity].
      destruct (is_digit c2) eqn:Ed2; [|reflexivity]. cbn [negb orb].
      destruct (_ >? 255) eqn:E255; [reflexivity|].
      apply bytes_cons in Hch' as [Hc1 Hch']. apply bytes_cons in Hch' as [Hc2 Hch'].
      apply (step _ ch'' [92; c0; c1; c2]); auto.
      * unfold byte, is_digit in *; lia.
      * cbn [length] in Hf; lia.
      * cbn [In]; auto.
      * rewrite digits_num by auto. constructor.
      * cbn [app]. f_equal. lia.
      * lia.
    + apply (step _ ch' [92; c0]); auto.
      * cbn [length] in Hf; lia.
      * cbn [In]; auto.
      * constructor. unfold is_digit in Ed0. lia.
      * cbn [app]. f_equal. lia.
      * lia.
  - destruct (zlen cur + 1 >? 63) eqn:E63; [reflexivity|].
    apply (step c ch [c]); auto; [lia| |lia].
    constructor; lia.
Qed.

(** ** Completeness *)
Lemma from_str_loop_char : forall num u ch nl we done cur fuel,
  byte num -> char_denotes num u -> zlen cur + 1 <= 63 -> zlen done + 1 + zlen cur < we ->
  from_str_loop (S fuel) (u ++ ch) nl we done (zlen cur) cur =
  from_str_loop fuel ch nl we done (zlen (cur ++ [num])) (cur ++ [num]).
Proof.
  intros num u ch nl we done cur fuel Hb Hu H63 Hwe. pose proof (zlen_nonneg cur).
  assert (Hlen : zlen (cur ++ [num]) = zlen cur + 1) by (rewrite zlen_app, zlen_cons, zlen_nil; lia).
  assert (Hu8 : u8 (zlen cur + 1) = zlen cur + 1) by (unfold u8; rewrite Z.mod_small; lia).
  rewrite Hlen. cbn [from_str_loop].
  inversion Hu; subst; cbn [app]; unfold can_write, KNOT_DNAME_MAXLABELLEN;
  replace (_ >=? we) with false by lia; rewrite ?Hu8.
  - replace (num =? 46) with false by lia. replace (num =? 92) with false by lia.
    replace (_ >? 63) with false by lia. replace (_ <? we) with true by lia. reflexivity.
  - cbn [Z.eqb Pos.eqb]. replace (_ >? 63) with false by lia.
    replace (is_digit num) with false by (unfold is_digit; lia).
    replace (_ <? we) with true by lia. reflexivity.
  - unfold esc_ddd. cbn [app Z.eqb Pos.eqb]. replace (_ >? 63) with false by lia.
    unfold byte in Hb.
    replace (is_digit (48 + num / 100)) with true by (unfold is_digit; lia).
    replace (is_digit (48 + num / 10 mod 10)) with true by (unfold is_digit; lia).
    replace (is_digit (48 + num mod 10)) with true by (unfold is_digit; lia). cbn [negb orb].
    replace (_ * 100 + _ * 10 + _) with num by lia.
    replace (num >? 255) with false by lia.
    replace (_ <? we) with true by lia. reflexivity.
Qed.

Lemma char_denotes_nonempty : forall c u, char_denotes c u -> (0 < length u)%nat.
Proof. intros c u H; inversion H; cbn; lia. Qed.

Lemma from_str_loop_label : forall l t, label_denotes l t -> forall ch nl we done cur fuel,
  bytes l -> zlen cur + zlen l <= 63 -> zlen done + 1 + zlen cur + zlen l <= we ->
  exists k, (length l <= k)%nat /\ (length l <= length t)%nat /\
  from_str_loop (length l + fuel) (t ++ ch) nl we done (zlen cur) cur =
  from_str_loop fuel ch nl we done (zlen (cur ++ l)) (cur ++ l).
Proof.
  induction 1 as [|c l t1 t2 Hc Hl IH]; intros ch nl we done cur fuel Hb H63 Hwe.
  - exists 0%nat. rewrite app_nil_r. auto.
  - apply bytes_cons in Hb as [Hb1 Hb2]. rewrite zlen_cons in *. pose proof (zlen_nonneg l).
    exists (length (c :: l)). cbn [length]. rewrite <- app_assoc. cbn [Nat.add].
    rewrite (from_str_loop_char c t1); auto; try lia.
    destruct (IH ch nl we done (cur ++ [c]) fuel) as (k & _ & Hk & ->); auto;
      rewrite ?zlen_app, ?zlen_cons, ?zlen_nil; try lia.
    pose proof (char_denotes_nonempty _ _ Hc). rewrite app_length.
    split; [lia|]. split; [lia|]. rewrite <- app_assoc. cbn [app]. f_equal. lia.
Qed.

Lemma from_str_loop_labels : forall ls t, labels_denote ls t -> forall ch nl we ls0 fuel,
  legal_labels ls -> nl > 1 -> zlen (prefix_wire ls0) + name_size ls <= we ->
  exists k, (k <= length t)%nat /\
  from_str_loop (k + fuel) (t ++ ch) nl we (prefix_wire ls0) 0 [] =
  from_str_loop fuel ch nl we (prefix_wire (ls0 ++ ls)) 0 [].
Proof.
  induction 1 as [|l ls t1 t2 Hl Hls IH]; intros ch nl we ls0 fuel HL Hnl Hwe.
  - exists 0%nat. rewrite app_nil_r. auto.
  - inversion HL as [|? ? Hll HL']; subst. cbn [name_size] in Hwe. pose proof (name_size_pos ls).
    destruct Hll as [Hlen Hb]. pose proof (zlen_nonneg l).
    destruct (IH ch nl we (ls0 ++ [l]) fuel HL' Hnl) as (k & Hk & HIH).
    { rewrite prefix_wire_snoc, zlen_app, zlen_cons. lia. }
    destruct (from_str_loop_label l t1 Hl (46 :: t2 ++ ch) nl we (prefix_wire ls0) [] (S (k + fuel))) as (_ & _ & Hlt & HE);
      auto; rewrite ?zlen_nil; try lia.
    exists (length l + S k)%nat. rewrite app_length. cbn [length]. split; [lia|].
    rewrite <- app_assoc. cbn [app]. rewrite zlen_nil in HE.
    replace (length l + S k + fuel)%nat with (length l + S (k + fuel))%nat by lia.
    rewrite HE. cbn [app from_str_loop]. unfold can_write.
    replace (_ >=? we) with false by lia. cbn [Z.eqb Pos.eqb].
    replace (zlen l =? 0) with false by lia. cbn [andb].
    replace (_ <? we) with true by lia. cbn [negb].
    rewrite <- prefix_wire_snoc, HIH, <- app_assoc. reflexivity.
Qed.

(** the loop's result does not depend on surplus fuel *)
Lemma from_str_loop_fuel : forall f1 f2 ch nl we d lab cur r, (f1 <= f2)%nat ->
  from_str_loop f1 ch nl we d lab cur = r -> r <> OOF ->
  from_str_loop f2 ch nl we d lab cur = r.
Proof.
  induction f1 as [|f1 IH]; intros f2 ch nl we d lab cur r Hf H HO; [cbn in H; congruence|].
  destruct f2 as [|f2]; [lia|]. cbn [from_str_loop] in *. destruct ch as [|c ch]; [auto|].
  destruct (_ >=? we); [auto|]. destruct (c =? 46).
  { destruct (_ && _); [auto|]. destruct (negb _); [auto|]. apply IH; auto; lia. }
  destruct (c =? 92).
  { destruct ch as [|c0 ch]; [auto|]. destruct (_ >? _); [auto|]. destruct (is_digit c0).
    - destruct ch as [|c1 [|c2 ch]]; auto. destruct (_ || _); [auto|]. destruct (_ >? _); [auto|].
      destruct (negb _); [auto|]. apply IH; auto; lia.
    - destruct (negb _); [auto|]. apply IH; auto; lia. }
  destruct (_ >? _); [auto|]. destruct (negb _); [auto|]. apply IH; auto; lia.
Qed.

Lemma labels_denote_snoc_inv : forall ls t, labels_denote ls t -> ls <> [] ->
  exists ls1 l t1 u, ls = ls1 ++ [l] /\ t = t1 ++ u ++ [46] /\ labels_denote ls1 t1 /\ label_denotes l u.
Proof.
  induction 1 as [|l ls t1 t2 Hl Hls IH]; intros Hn; [congruence|].
  destruct ls as [|l2 ls].
  - inversion Hls; subst. exists [], l, [], t1. cbn. repeat split; auto; constructor.
  - destruct IH as (ls1 & l' & t1' & u & E1 & E2 & H1 & H2); [congruence|].
    exists (l :: ls1), l', (t1 ++ 46 :: t1'), u. rewrite E1, E2. cbn [app]. repeat split; auto.
    + rewrite <- app_assoc. reflexivity.
    + constructor; auto.
Qed.

Lemma name_size_app : forall a b, name_size (a ++ b) = name_size a + name_size b - 1.
Proof. induction a; intros; cbn [app name_size]; [lia|]. rewrite IHa. lia. Qed.

Lemma labels_denote_len : forall ls t, labels_denote ls t -> name_size ls - 1 <= zlen t.
Proof.
  induction 1 as [|l ls t1 t2 Hl Hls IH]; cbn [name_size]; [cbn; lia|].
  rewrite zlen_app, zlen_cons. assert (zlen l <= zlen t1); [|lia].
  clear - Hl. induction Hl as [|c l u1 u2 Hc Hl IH]; [cbn; lia|]. rewrite zlen_cons, zlen_app.
  pose proof (char_denotes_nonempty _ _ Hc). unfold zlen in *. lia.
Qed.

(** loop on a whole nonroot name *)
Lemma from_str_body : forall ls t we, ls <> [] -> legal_labels ls -> name_denoted ls t -> bytes t ->
  name_size ls <= we ->
  exists done label cur,
    from_str_loop (S (length t)) t (zlen t) we [] 0 [] = Ok (done, label, cur) /\
    ((label = 0 /\ done ++ label :: cur = wire ls) \/
     (0 < label /\ zlen done + 1 + zlen cur < we /\ done ++ label :: cur ++ [0] = wire ls)).
Proof.
  intros ls t we Hn HL HD Hb Hwe.
  destruct ls as [|l0 ls0]; [congruence|]. set (ls := l0 :: ls0) in *.
  destruct HD as [HD|HD].
  - assert (Hlt : zlen t > 1).
    { pose proof (labels_denote_len _ _ HD). pose proof (name_size_labels _ HL). 
      pose proof (zlen_nonneg ls0). assert (zlen ls = 1 + zlen ls0) by apply zlen_cons. lia. }
    destruct (from_str_loop_labels _ _ HD [] (zlen t) we [] 1 HL Hlt) as (k & Hk & HE); [cbn [prefix_wire]; rewrite zlen_nil; lia|].
    rewrite app_nil_r in HE. cbn [app prefix_wire from_str_loop] in HE.
    exists (prefix_wire ls), 0, []. split.
    + eapply (from_str_loop_fuel (k + 1)); [lia|exact HE|discriminate].
    + left. split; auto. change (0 :: []) with (wire []). rewrite prefix_wire_app, app_nil_r. auto.
  - destruct (labels_denote_snoc_inv _ _ HD) as (ls1 & l & t1 & u & E1 & E2 & H1 & H2); [unfold ls; congruence|].
    rewrite app_assoc in E2. apply app_inj_tail in E2 as [E2 _]. rewrite E1 in *.
    apply Forall_app in HL as [HL1 HL2]. inversion HL2 as [|? ? [Hl63 Hlb] _]; subst.
    rewrite name_size_app in Hwe. cbn [name_size] in Hwe. pose proof (name_size_pos ls1).
    destruct (from_str_loop_label l u H2 [] (zlen (t1 ++ u)) we (prefix_wire ls1) [] 1) as (_ & _ & Hlu & HE2);
      auto; rewrite ?zlen_nil, ?zlen_prefix_wire; try lia.
    rewrite app_nil_r, zlen_nil in HE2. cbn [app from_str_loop] in HE2.
    assert (HE1 : exists k, (k <= length t1)%nat /\
       from_str_loop (k + (length l + 1)) (t1 ++ u) (zlen (t1 ++ u)) we [] 0 [] =
       from_str_loop (length l + 1) u (zlen (t1 ++ u)) we (prefix_wire ls1) 0 []).
    { destruct ls1 as [|x ls1].
      - inversion H1; subst. exists 0%nat. auto.
      - assert (Hlt : zlen (t1 ++ u) > 1).
        { pose proof (labels_denote_len _ _ H1). pose proof (name_size_labels _ HL1). rewrite zlen_app.
          pose proof (zlen_nonneg ls1). pose proof (zlen_nonneg u).
          assert (zlen (x :: ls1) = 1 + zlen ls1) by apply zlen_cons. lia. }
        destruct (from_str_loop_labels _ _ H1 u (zlen (t1 ++ u)) we [] (length l + 1) HL1 Hlt) as (k & Hk & HE1).
        { cbn [prefix_wire]. rewrite zlen_nil. lia. }
        exists k. auto. }
    destruct HE1 as (k & Hk & HE1). rewrite HE2 in HE1.
    exists (prefix_wire ls1), (zlen l), l. split.
    + eapply from_str_loop_fuel; [|exact HE1|discriminate]. rewrite app_length. lia.
    + right. split; [lia|]. rewrite zlen_prefix_wire. split; [lia|].
      rewrite <- prefix_wire_app. reflexivity.
Qed.

Lemma last_last_app : forall (a b : list Z) d, b <> [] -> last (a ++ b) d = last b d.
Proof.
  induction a as [|x a IH]; intros b d Hb; [auto|]. cbn [app last]. rewrite IH by auto.
  destruct (a ++ b) eqn:E; [destruct a; [cbn in E; congruence|discriminate]|auto].
Qed.

Definition alloc_of (dst : option Z) (t : list Z) : Z :=
  match dst with Some m => m | None => zlen t + 2 end.

Lemma denoted_head : forall ls t, ls <> [] -> legal_labels ls -> name_denoted ls t -> hd 0 t <> 46 /\ 0 < zlen t.
Proof.
  intros [|l ls] t Hn HL HD; [congruence|]. inversion HL as [|? ? [Hl _] _]; subst.
  assert (H : forall tt, labels_denote (l :: ls) tt -> hd 0 tt <> 46 /\ 1 < zlen tt).
  { intros tt H. inversion H as [|? ? t1 t2 H1 H2]; subst. inversion H1 as [|c l' u1 u2 Hc Hl']; subst; [rewrite zlen_nil in Hl; lia|].
    split; [inversion Hc; subst; cbn; lia|]. rewrite !zlen_app, zlen_cons.
    pose proof (zlen_nonneg u2). pose proof (zlen_nonneg t2). pose proof (char_denotes_nonempty _ _ Hc). unfold zlen in *. lia. }
  destruct HD as [HD|HD]; destruct (H _ HD) as [H1 H2]; [split; auto; lia|].
  rewrite zlen_app, zlen_cons, zlen_nil in H2. split; [|lia]. destruct t; [cbn in H2; lia|auto].
Qed.

(** completeness for non-root names *)
Lemma from_str_complete : forall dst ls t, ls <> [] -> legal_name ls -> name_denoted ls t -> bytes t ->
  name_size ls <= alloc_of dst t ->
  dname_from_str dst t = Ok (wire ls).
Proof.
  intros dst ls t Hn [HL HS] HD Hb Ha. destruct (denoted_head _ _ Hn HL HD) as [Hh Ht].
  unfold dname_from_str. replace (zlen t =? 0) with false by lia.
  set (alloc := match dst with Some m => m | None => if negb (last t 0 =? 46) then 1 + zlen t + 1 else 1 + zlen t end).
  replace (match dst with Some maxlen => _ | None => _ end) with (Ok (t, alloc)).
  2: { unfold alloc. destruct dst; auto. replace (hd 0 t =? 46) with false by lia. destruct (negb _); auto. }
  cbn [rbind].
  assert (Hal : name_size ls <= alloc).
  { unfold alloc, alloc_of in *. destruct dst; auto.
    destruct ls as [|l ls]; [congruence|]. destruct HD as [HD|HD].
    - pose proof (labels_denote_len _ _ HD). destruct (negb _); lia.
    - pose proof (labels_denote_len _ _ HD) as Hlen. rewrite zlen_app, zlen_cons, zlen_nil in Hlen.
      destruct (last t 0 =? 46) eqn:E; cbn [negb]; [|lia].
      (* the last character is an escaped dot, which takes two characters *)
      destruct (labels_denote_snoc_inv _ _ HD) as (ls1 & l1 & t1 & u & E1 & E2 & H1 & H2); [congruence|].
      rewrite app_assoc in E2. apply app_inj_tail in E2 as [E2 _].
      rewrite E1, name_size_app in *. cbn [name_size] in *. subst t.
      pose proof (labels_denote_len _ _ H1). rewrite zlen_app.
      assert (zlen l1 + 1 <= zlen u); [|lia].
      apply Forall_app in HL as [_ HL]. inversion HL as [|? ? [Hll _] _]; subst.
      assert (Hlast : last u 0 = 46).
      { destruct u as [|u0 u']. { inversion H2; subst; [rewrite zlen_nil in Hll; lia|].
          match goal with H : char_denotes _ ?x |- _ => destruct x; [inversion H|discriminate] end. }
        rewrite last_last_app in E by congruence. lia. }
      clear - H2 Hlast.
      assert (Hge : forall l u, label_denotes l u -> zlen l <= zlen u).
      { clear. induction 1 as [|c l u1 u2 Hc Hl IH]; [cbn; lia|]. rewrite zlen_cons, zlen_app.
        pose proof (char_denotes_nonempty _ _ Hc). unfold zlen in *. lia. }
      induction H2 as [|c l u1 u2 Hc Hl IH]; [cbn in Hlast; lia|]. rewrite zlen_cons, zlen_app.
      pose proof (Hge _ _ Hl). destruct u2 as [|x u2].
      + rewrite app_nil_r in Hlast. inversion Hc; subst; unfold zlen, esc_ddd in *; cbn [last length] in *; lia.
      + rewrite last_last_app in Hlast by congruence. specialize (IH Hlast).
        pose proof (char_denotes_nonempty _ _ Hc). unfold zlen in *. lia. }
  pose proof (name_size_pos ls). replace (alloc =? 0) with false by lia.
  set (we := if alloc >? KNOT_DNAME_MAXLEN then KNOT_DNAME_MAXLEN else alloc).
  assert (Hwe : name_size ls <= we) by (unfold we, KNOT_DNAME_MAXLEN; destruct (_ >? _); lia).
  destruct (from_str_body ls t we Hn HL HD Hb Hwe) as (done & label & cur & -> & Hres). cbn [rbind].
  destruct Hres as [[-> Hw]|(Hlab & Hlt & Hw)].
  - cbn. rewrite Hw. auto.
  - replace (label >? 0) with true by lia. replace (_ >=? we) with false by lia. unfold can_write.
    replace (_ <? we) with true by lia. cbn [negb]. rewrite Hw. auto.
Qed.

Lemma from_str_root_none : dname_from_str None [46] = Ok [0].
Proof. reflexivity. Qed.
Lemma from_str_root_some : forall m, 0 <= m ->
  dname_from_str (Some m) [46] = if m <? 2 then Err RET_NULL else Ok [0; 0].
Proof.
  intros m Hm. unfold dname_from_str, KNOT_DNAME_MAXLEN. rewrite zlen_cons, zlen_nil. cbn [Z.add Z.eqb Pos.add rbind length].
  destruct (m =? 0) eqn:E0; [replace (m <? 2) with true by lia; auto|].
  set (we := if m >? 255 then 255 else m). cbn [from_str_loop]. rewrite !zlen_nil. unfold can_write. rewrite !zlen_nil.
  assert (Hwe : (0 + 1 + 0 >=? we) = (m <? 2)) by (unfold we; destruct (m >? 255) eqn:E; lia).
  rewrite Hwe. destruct (m <? 2) eqn:E2; [reflexivity|]. cbn [Z.eqb Pos.eqb Z.gtb Z.compare Pos.compare Pos.compare_cont andb].
  replace (0 + 1 + 0 <? we) with true by lia. reflexivity.
Qed.

Lemma from_str_sound : forall dst t, bytes t -> match dst with Some m => 0 <= m | None => True end ->
  match dname_from_str dst t with
  | Ok w => exists ls, legal_name ls /\ name_denoted ls t /\
      (w = wire ls \/ (t = [46] /\ dst <> None /\ w = [0; 0])) /\ zlen w <= alloc_of dst t
  | Err e => e = RET_NULL
  | _ => False
  end.
Proof.
  intros dst t Hb Hdst. destruct (list_eq_dec Z.eq_dec t [46]) as [->|Hroot].
  { destruct dst as [m|].
    - rewrite from_str_root_some by auto. destruct (m <? 2) eqn:E; [reflexivity|].
      exists []. split; [split; [constructor|cbn; lia]|]. split; [reflexivity|].
      split; [right; repeat split; congruence|]. unfold alloc_of, zlen. cbn. lia.
    - exists []. split; [split; [constructor|cbn; lia]|]. split; [reflexivity|].
      split; [left; reflexivity|]. cbv. congruence. }
  unfold dname_from_str. destruct (zlen t =? 0) eqn:E0; [reflexivity|].
  set (alloc := match dst with Some m => m | None => if negb (last t 0 =? 46) then 1 + zlen t + 1 else 1 + zlen t end).
  destruct (match dst with None => hd 0 t =? 46 | Some _ => false end) eqn:Ed.
  { destruct dst; [discriminate|]. rewrite Ed.
    destruct t as [|c [|c' t]]; [cbn in E0; lia| |].
    - exfalso. apply Hroot. cbn in Ed. f_equal. lia.
    - rewrite !zlen_cons. pose proof (zlen_nonneg t). replace (_ >? 1) with true by lia. reflexivity. }
  replace (match dst with Some maxlen => _ | None => _ end) with (Ok (t, alloc)).
  2: { unfold alloc. destruct dst; auto. rewrite Ed. destruct (negb _); auto. }
  cbn [rbind]. destruct (alloc =? 0) eqn:Eal; [reflexivity|].
  assert (Hal0 : 0 < alloc).
  { unfold alloc in *. pose proof (zlen_nonneg t). destruct dst; [lia|]. destruct (negb _); lia. }
  assert (Hal : alloc <= alloc_of dst t).
  { unfold alloc, alloc_of. destruct dst; [lia|]. destruct (negb _); lia. }
  set (we := if alloc >? KNOT_DNAME_MAXLEN then KNOT_DNAME_MAXLEN else alloc).
  assert (Hwe : 0 < we <= alloc /\ we <= 255) by (unfold we, KNOT_DNAME_MAXLEN; destruct (alloc >? 255) eqn:E; lia).
  pose proof (from_str_loop_sound (S (length t)) t (zlen t) we [] [] [] []) as HS.
  assert (Hnl : zlen t > 1 \/ ~ In 46 t).
  { destruct t as [|c [|c' t]]; [cbn in E0; lia| |].
    - right. intros [Hc|[]]. apply Hroot. congruence.
    - left. rewrite !zlen_cons. pose proof (zlen_nonneg t). lia. }
  specialize (HS Hb ltac:(lia) Hnl (Forall_nil _) lsd_nil (Forall_nil _) ld_nil).
  rewrite zlen_nil in HS. cbn [prefix_wire] in HS. rewrite zlen_nil in HS.
  specialize (HS ltac:(lia) ltac:(lia)). cbn [app] in HS.
  destruct (from_str_loop _ _ _ _ _ _ _) as [[[done label] cur]| | |]; cbn [rbind]; auto.
  destruct HS as (ls' & p0 & p1 & -> & HL & HD & Hbc & HDc & H63 & -> & Hle & ->).
  pose proof (zlen_nonneg cur). rewrite zlen_prefix_wire in Hle.
  destruct (zlen cur >? 0) eqn:Ec.
  - rewrite zlen_prefix_wire.
    destruct (_ >=? we) eqn:Ew; [reflexivity|]. unfold can_write. rewrite zlen_prefix_wire.
    replace (_ <? we) with true by lia. cbn [negb].
    assert (HLL : legal_labels (ls' ++ [cur])).
    { apply Forall_app; split; auto. constructor; [split; [lia|auto]|constructor]. }
    assert (Hsz : name_size (ls' ++ [cur]) = name_size ls' + 1 + zlen cur)
      by (rewrite name_size_app; cbn [name_size]; lia).
    assert (Hw : prefix_wire ls' ++ zlen cur :: cur ++ [0] = wire (ls' ++ [cur]))
      by (rewrite <- prefix_wire_app; reflexivity).
    exists (ls' ++ [cur]). split; [split; [auto|lia]|]. split.
    { unfold name_denoted. destruct (ls' ++ [cur]) eqn:El; [destruct ls'; discriminate|]. rewrite <- El.
      right. rewrite <- app_assoc. apply labels_denote_snoc; auto. }
    split; [left; auto|]. rewrite Hw, zlen_wire. lia.
  - assert (cur = []) by (destruct cur; [auto|rewrite zlen_cons in *; pose proof (zlen_nonneg cur); lia]). subst cur.
    assert (Hw : prefix_wire ls' ++ [zlen (@nil Z)] = wire ls').
    { rewrite zlen_nil. change [0] with (wire []). rewrite prefix_wire_app, app_nil_r. auto. }
    inversion HDc; subst. rewrite app_nil_r in *.
    exists ls'. rewrite zlen_nil in *. split; [split; [auto|lia]|]. split.
    { destruct ls' as [|l ls']; [|left; auto]. inversion HD; subst. cbn in E0. lia. }
    split; [left; auto|]. rewrite Hw, zlen_wire. lia.
Qed.

Lemma wire_inj : forall a b, wire a = wire b -> Forall legal_label a -> Forall legal_label b -> a = b.
Proof.
  induction a as [|x a IH]; intros [|y b] H HA HB; cbn [wire] in H; auto.
  - injection H as H _. inversion HB as [|? ? [Hy _] _]; subst. lia.
  - injection H as H _. inversion HA as [|? ? [Hx _] _]; subst. lia.
  - injection H as H1 H2. inversion HA; inversion HB; subst.
    assert (x = y /\ wire a = wire b) as [-> Hw].
    { clear - H1 H2. unfold zlen in H1. assert (length x = length y) by lia. clear H1. revert y H H2.
      induction x as [|c x IHx]; intros [|d y] H H2; cbn in *; try discriminate; auto.
      injection H2 as -> H2. destruct (IHx y) as [-> ->]; auto. }
    f_equal. apply IH; auto.
Qed.

Lemma lower_legal_labels : forall ls, Forall legal_label ls -> Forall legal_label (lower_name ls).
Proof.
  induction 1 as [|l ls [Hl Hb] _ IH]; cbn [lower_name map]; constructor; auto.
  split; [rewrite zlen_map; auto|]. clear -Hb. induction Hb; cbn [map]; constructor; auto.
  unfold byte, ascii_lower in *. destruct (_ && _) eqn:E; lia.
Qed.

Lemma esc_bytes : forall c, byte c -> bytes (esc c).
Proof.
  intros c Hc. unfold esc, esc_ddd. destruct (_ || _); [|destruct (_ && _)]; repeat constructor; unfold byte in *; lia.
Qed.
Lemma text_bytes : forall ls, Forall legal_label ls -> bytes (text ls).
Proof.
  intros [|l ls] H; [repeat constructor; unfold byte; lia|]. rewrite text_labels by congruence.
  induction H as [|x xs [_ Hx] _ IH]; [constructor|]. cbn [labels_text_of flat_map].
  rewrite <- app_assoc. apply bytes_app; split.
  - clear - Hx. induction Hx; cbn [flat_map]; [constructor|]. apply bytes_app; split; auto using esc_bytes.
  - apply bytes_cons; split; [unfold byte; lia|auto].
Qed.

Lemma common_prefix_len_meaning : forall a b,
  exists s pa pb, a = s ++ pa /\ b = s ++ pb /\ zlen s = common_prefix_len a b /\
    (forall s' pa' pb', a = s' ++ pa' -> b = s' ++ pb' -> zlen s' <= common_prefix_len a b).
Proof.
  induction a as [|x a IH]; intros b.
  - exists [], [], b. repeat split; auto. intros [|? ?] ? ? H _; [cbn; lia|discriminate].
  - destruct b as [|y b].
    + exists [], (x :: a), []. repeat split; auto. intros [|? ?] ? ? _ H; [cbn; lia|discriminate].
    + cbn [common_prefix_len]. destruct (list_eq_dec Z.eq_dec x y) as [->|Hne].
      * destruct (IH b) as (s & pa & pb & -> & -> & Hs & Hmax). exists (y :: s), pa, pb.
        repeat split; auto; [rewrite zlen_cons; lia|].
        intros [|z s'] pa' pb' H1 H2; [rewrite zlen_nil; pose proof (zlen_nonneg s); lia|].
        cbn [app] in H1, H2. injection H1 as -> H1. injection H2 as H2. rewrite zlen_cons. specialize (Hmax _ _ _ H1 H2). lia.
      * exists [], (x :: a), (y :: b). repeat split; auto.
        intros [|z s'] pa' pb' H1 H2; [cbn; lia|]. cbn [app] in *. congruence.
Qed.
Lemma common_suffix_len_meaning : forall a b,
  exists pa pb s, a = pa ++ s /\ b = pb ++ s /\ zlen s = common_suffix_len a b /\
    (forall pa' pb' s', a = pa' ++ s' -> b = pb' ++ s' -> zlen s' <= common_suffix_len a b).
Proof.
  intros a b. destruct (common_prefix_len_meaning (rev a) (rev b)) as (s & pa & pb & H1 & H2 & H3 & H4).
  exists (rev pa), (rev pb), (rev s). unfold common_suffix_len.
  rewrite <- !rev_app_distr, <- H1, <- H2, !rev_involutive. repeat split; auto.
  - rewrite <- H3. unfold zlen. rewrite rev_length. auto.
  - intros pa' pb' s' -> ->. rewrite !rev_app_distr in *. specialize (H4 (rev s') (rev pa') (rev pb') eq_refl eq_refl).
    unfold zlen in *. rewrite rev_length in H4. auto.
Qed.
