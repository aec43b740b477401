From Verif Require Import Base DnameModel DnameSpec DnameProofs.

(** ** Plain names *)
Definition legal_labels (ls : list label) : Prop := Forall legal_label ls.

Lemma zskipn_app_exact : forall {A} (a b : list A), zskipn (zlen a) (a ++ b) = b.
Proof.
  intros. unfold zskipn, zlen. rewrite Nat2Z.id, skipn_app, skipn_all, Nat.sub_diag. reflexivity.
Qed.
Lemma zfirstn_app_exact : forall {A} (a b : list A), zfirstn (zlen a) (a ++ b) = a.
Proof.
  intros. unfold zfirstn, zlen. rewrite Nat2Z.id, firstn_app, firstn_all, Nat.sub_diag.
  rewrite firstn_O, app_nil_r. reflexivity.
Qed.

Lemma take_app : forall a b, take (a ++ b) (zlen a) = Ok a.
Proof.
  intros. unfold take. rewrite zlen_app. pose proof (zlen_nonneg b).
  replace (zlen a >? _) with false by lia. rewrite zfirstn_app_exact. reflexivity.
Qed.
Lemma advance_app : forall a b, advance (a ++ b) (zlen a) = Ok b.
Proof.
  intros. unfold advance. rewrite zlen_app. pose proof (zlen_nonneg b).
  replace (zlen a >? _) with false by lia. rewrite zskipn_app_exact. reflexivity.
Qed.

Lemma nm_cons : forall l ls j, wire (l :: ls) ++ j = (zlen l :: l) ++ (wire ls ++ j).
Proof. intros. cbn [wire app]. rewrite <- app_assoc. reflexivity. Qed.

Lemma nm_rd0 : forall l ls j, rd0 (wire (l :: ls) ++ j) = Ok (zlen l).
Proof. reflexivity. Qed.
Lemma nm_rd0_root : forall j, rd0 (wire [] ++ j) = Ok 0.
Proof. reflexivity. Qed.

Lemma nm_take : forall l ls j, take (wire (l :: ls) ++ j) (zlen l + 1) = Ok (zlen l :: l).
Proof.
  intros. rewrite nm_cons. replace (zlen l + 1) with (zlen (zlen l :: l)) by (rewrite zlen_cons; lia).
  apply take_app.
Qed.
Lemma nm_advance : forall l ls j, advance (wire (l :: ls) ++ j) (zlen l + 1) = Ok (wire ls ++ j).
Proof.
  intros. rewrite nm_cons. replace (zlen l + 1) with (zlen (zlen l :: l)) by (rewrite zlen_cons; lia).
  apply advance_app.
Qed.
Lemma nm_next : forall l ls j, legal_label l -> next_label (wire (l :: ls) ++ j) = Ok (wire ls ++ j).
Proof.
  intros l ls j [H _]. unfold next_label. rewrite nm_rd0. cbn [rbind].
  rewrite is_pointer_byte by (unfold byte; lia).
  replace (_ || _) with false by lia. apply nm_advance.
Qed.

Lemma legal_nonzero : forall l, legal_label l -> (zlen l =? 0) = false.
Proof. intros l [H _]. lia. Qed.
Lemma legal_nonptr : forall l, legal_label l -> is_pointer (zlen l) = false.
Proof. intros l [H _]. rewrite is_pointer_byte by (unfold byte; lia). lia. Qed.

Lemma wire_length : forall ls j, (length ls < length (wire ls ++ j))%nat.
Proof.
  induction ls as [|l ls IH]; intros j; cbn [wire length app]; [lia|].
  rewrite <- app_assoc, app_length. specialize (IH j). lia.
Qed.

(** dname_size *)
Lemma dname_size_loop_spec : forall ls j fuel len, legal_labels ls -> (length ls < fuel)%nat ->
  dname_size_loop fuel (wire ls ++ j) len = Ok (len + name_size ls).
Proof.
  induction ls as [|l ls IH]; intros j fuel len HL Hf; (destruct fuel; [lia|]); cbn [dname_size_loop].
  - rewrite nm_rd0_root. reflexivity.
  - inversion HL as [|? ? Hl HL']; subst. rewrite nm_rd0. cbn [rbind].
    rewrite (legal_nonzero _ Hl), (legal_nonptr _ Hl).
    replace (u8 (zlen l + 1)) with (zlen l + 1)
      by (destruct Hl; unfold u8; rewrite Z.mod_small; lia).
    rewrite nm_advance. cbn [rbind]. rewrite IH; [|auto|cbn [length] in Hf; lia].
    cbn [name_size]. f_equal. lia.
Qed.
Lemma dname_size_spec : forall ls j, legal_labels ls -> dname_size (wire ls ++ j) = Ok (name_size ls).
Proof.
  intros. unfold dname_size. rewrite dname_size_loop_spec; auto.
  pose proof (wire_length ls j). lia.
Qed.

(** dname_labels *)
Lemma dname_labels_loop_spec : forall ls j fuel c, legal_labels ls -> (length ls < fuel)%nat ->
  dname_labels_loop fuel (wire ls ++ j) c = Ok (c + zlen ls).
Proof.
  induction ls as [|l ls IH]; intros j fuel c HL Hf; (destruct fuel; [lia|]); cbn [dname_labels_loop].
  - rewrite nm_rd0_root. cbn. f_equal; lia.
  - inversion HL as [|? ? Hl HL']; subst. rewrite nm_rd0. cbn [rbind].
    rewrite (legal_nonzero _ Hl), nm_next by auto. cbn [rbind].
    rewrite IH; [|auto|cbn [length] in Hf; lia]. rewrite zlen_cons. f_equal; lia.
Qed.
Lemma dname_labels_spec : forall ls j, legal_labels ls -> dname_labels (wire ls ++ j) = Ok (zlen ls).
Proof.
  intros. unfold dname_labels. rewrite dname_labels_loop_spec; auto.
  pose proof (wire_length ls j). lia.
Qed.

(** skip_labels *)
Lemma skip_labels_spec : forall a ls j, legal_labels a ->
  skip_labels (length a) (wire (a ++ ls) ++ j) = Ok (wire ls ++ j).
Proof.
  induction a as [|l a IH]; intros ls j HL; cbn [length skip_labels app]; [reflexivity|].
  inversion HL as [|? ? Hl HL']; subst. rewrite nm_next by auto. cbn [rbind]. auto.
Qed.
Lemma skip_labels_n : forall n ls j, legal_labels ls -> (n <= length ls)%nat ->
  skip_labels n (wire ls ++ j) = Ok (wire (skipn n ls) ++ j).
Proof.
  intros n ls j HL Hn. rewrite <- (firstn_skipn n ls) at 1.
  replace n with (length (firstn n ls)) at 1 by (rewrite firstn_length; lia).
  apply skip_labels_spec. apply Forall_forall. intros x Hx.
  unfold legal_labels in HL. rewrite Forall_forall in HL. apply HL.
  rewrite <- (firstn_skipn n ls). apply in_or_app; auto.
Qed.

(** label equality *)
Lemma bytes_eqb_spec : forall a b, bytes_eqb a b = true <-> a = b.
Proof.
  induction a as [|x a IH]; intros [|y b]; cbn [bytes_eqb]; split; intros; try discriminate; auto.
  - apply andb_prop in H as [H1 H2]. apply IH in H2. f_equal; [lia|auto].
  - injection H as -> ->. rewrite Z.eqb_refl. apply IH. reflexivity.
Qed.
Lemma bytes_eqb_false : forall a b, bytes_eqb a b = false <-> a <> b.
Proof.
  intros. rewrite <- bytes_eqb_spec. destruct (bytes_eqb a b); split; congruence.
Qed.

Definition lab_eqb (no_case : bool) (a b : label) : bool :=
  if no_case then bytes_eqb (map tolower a) (map tolower b) else bytes_eqb a b.

Lemma lab_eqb_len : forall nc a b, lab_eqb nc a b = true -> zlen a = zlen b.
Proof.
  intros [] a b H; unfold lab_eqb in H; apply bytes_eqb_spec in H.
  - apply (f_equal zlen) in H. unfold zlen in *. rewrite !map_length in H. auto.
  - congruence.
Qed.

Lemma label_is_equal_spec : forall nc a ls j b ls' j',
  label_is_equal (wire (a :: ls) ++ j) (wire (b :: ls') ++ j') nc = Ok (lab_eqb nc a b).
Proof.
  intros. unfold label_is_equal. rewrite !nm_rd0. cbn [rbind].
  destruct (zlen a =? zlen b) eqn:E; cbn [negb].
  - rewrite nm_take. cbn [rbind]. replace (zlen a) with (zlen b) by lia. rewrite nm_take. cbn [rbind tl].
    unfold lab_eqb. destruct nc; reflexivity.
  - destruct (lab_eqb nc a b) eqn:E2; auto. apply lab_eqb_len in E2. lia.
Qed.

Fixpoint labs_eqb (nc : bool) (a b : list label) : bool :=
  match a, b with
  | [], [] => true
  | x :: a, y :: b => lab_eqb nc x y && labs_eqb nc a b
  | _, _ => false
  end.

Lemma dname_is_equal_loop_spec : forall nc a b j j' fuel, legal_labels a -> legal_labels b ->
  (length a < fuel)%nat ->
  dname_is_equal_loop fuel (wire a ++ j) (wire b ++ j') nc = Ok (labs_eqb nc a b).
Proof.
  intros nc a. induction a as [|x a IH]; intros b j j' fuel HA HB Hf; (destruct fuel; [lia|]);
    cbn [dname_is_equal_loop].
  - destruct b as [|y b].
    + reflexivity.
    + inversion HB as [|? ? Hy HB']; subst. rewrite nm_rd0_root, nm_rd0. cbn [rbind].
      rewrite (legal_nonzero _ Hy), andb_false_r. unfold label_is_equal. rewrite nm_rd0_root, nm_rd0.
      cbn [rbind]. rewrite Z.eqb_sym, (legal_nonzero _ Hy). reflexivity.
  - inversion HA as [|? ? Hx HA']; subst. destruct b as [|y b].
    + rewrite nm_rd0_root, nm_rd0. cbn [rbind]. rewrite (legal_nonzero _ Hx). cbn [andb].
      unfold label_is_equal. rewrite nm_rd0_root, nm_rd0. cbn [rbind].
      rewrite (legal_nonzero _ Hx). reflexivity.
    + inversion HB as [|? ? Hy HB']; subst. rewrite !nm_rd0. cbn [rbind].
      rewrite (legal_nonzero _ Hx). cbn [andb]. rewrite label_is_equal_spec. cbn [rbind labs_eqb].
      destruct (lab_eqb nc x y); cbn [andb]; auto.
      rewrite !nm_next by auto. cbn [rbind]. apply IH; auto. cbn [length] in Hf. lia.
Qed.

Lemma labs_eqb_true : forall nc a b, labs_eqb nc a b = true <->
  if nc then map (map tolower) a = map (map tolower) b else a = b.
Proof.
  intros nc. induction a as [|x a IH]; intros [|y b]; cbn [labs_eqb map].
  - destruct nc; split; auto.
  - destruct nc; split; discriminate.
  - destruct nc; split; discriminate.
  - rewrite andb_true_iff, IH. unfold lab_eqb. destruct nc; rewrite bytes_eqb_spec; split.
    + intros [-> ->]; auto.
    + intros [= -> ->]; auto.
    + intros [-> ->]; auto.
    + intros [= -> ->]; auto.
Qed.

Lemma dname_is_equal_spec : forall a b j j', legal_labels a -> legal_labels b ->
  exists r, dname_is_equal (wire a ++ j) (wire b ++ j') = Ok r /\ (r = true <-> a = b).
Proof.
  intros. eexists. split.
  - apply dname_is_equal_loop_spec; auto. pose proof (wire_length a j); lia.
  - rewrite labs_eqb_true. reflexivity.
Qed.

Lemma tolower_ascii : forall b, byte b -> tolower b = ascii_lower b.
Proof.
  intros b Hb. apply Z.eqb_eq.
  apply (byte_sweep (fun b => tolower b =? ascii_lower b)); [vm_compute; reflexivity|auto].
Qed.
Lemma map_tolower_ascii : forall l, bytes l -> map tolower l = map ascii_lower l.
Proof.
  induction 1; cbn [map]; [auto|]. rewrite tolower_ascii by auto. f_equal; auto.
Qed.
Lemma lower_labels : forall a, legal_labels a -> map (map tolower) a = lower_name a.
Proof.
  induction 1 as [|l a [Hl Hb] _ IH]; cbn [map lower_name]; [auto|].
  unfold lower_name in *. rewrite IH, map_tolower_ascii; auto.
Qed.

Lemma dname_is_case_equal_spec : forall a b j j', legal_labels a -> legal_labels b ->
  exists r, dname_is_case_equal (wire a ++ j) (wire b ++ j') = Ok r /\
    (r = true <-> lower_name a = lower_name b).
Proof.
  intros. eexists. split.
  - apply dname_is_equal_loop_spec; auto. pose proof (wire_length a j); lia.
  - rewrite labs_eqb_true. rewrite !lower_labels; auto. reflexivity.
Qed.

(** to_lower *)
Lemma zlen_map : forall {A B} (f : A -> B) l, zlen (map f l) = zlen l.
Proof. intros; unfold zlen; rewrite map_length; auto. Qed.

Lemma to_lower_loop_spec : forall ls j fuel out, legal_labels ls -> (length ls < fuel)%nat ->
  to_lower_loop fuel (wire ls ++ j) out = Ok (out ++ wire (lower_name ls)).
Proof.
  induction ls as [|l ls IH]; intros j fuel out HL Hf; (destruct fuel; [lia|]); cbn [to_lower_loop].
  - rewrite nm_rd0_root. reflexivity.
  - inversion HL as [|? ? Hl HL']; subst. rewrite nm_rd0. cbn [rbind].
    rewrite (legal_nonzero _ Hl), nm_take, nm_advance. cbn [rbind tl].
    rewrite IH; [|auto|cbn [length] in Hf; lia]. f_equal.
    cbn [lower_name map wire]. rewrite <- app_assoc. cbn [app].
    rewrite map_tolower_ascii by apply Hl. rewrite zlen_map. reflexivity.
Qed.
Lemma dname_to_lower_spec : forall ls j, legal_labels ls ->
  dname_to_lower (wire ls ++ j) = Ok (wire (lower_name ls)).
Proof.
  intros. unfold dname_to_lower. rewrite to_lower_loop_spec; auto.
  pose proof (wire_length ls j). lia.
Qed.

Lemma ascii_lower_idem : forall b, ascii_lower (ascii_lower b) = ascii_lower b.
Proof.
  intros. unfold ascii_lower. destruct ((65 <=? b) && (b <=? 90)) eqn:E; [|rewrite E; auto].
  replace ((65 <=? b + 32) && (b + 32 <=? 90)) with false by lia. auto.
Qed.
Lemma lower_name_idem : forall ls, lower_name (lower_name ls) = lower_name ls.
Proof.
  intros. unfold lower_name. rewrite map_map. apply map_ext. intros l. rewrite map_map.
  apply map_ext. apply ascii_lower_idem.
Qed.
Lemma lower_legal : forall ls, legal_name ls -> legal_name (lower_name ls).
Proof.
  intros ls [H1 H2]. split.
  - clear H2. induction H1 as [|l ls [Hl Hb] _ IH]; cbn [lower_name map]; constructor; auto.
    split; [rewrite zlen_map; auto|]. clear -Hb. induction Hb; cbn [map]; constructor; auto.
    unfold byte, ascii_lower in *. destruct (_ && _) eqn:E; lia.
  - clear H1. assert (E : name_size (lower_name ls) = name_size ls).
    { clear. induction ls; cbn [lower_name map name_size]; auto. rewrite zlen_map.
      unfold lower_name in IHls. lia. }
    lia.
Qed.

(** in_bailiwick *)
Lemma in_bailiwick_spec : forall a b j j', legal_labels a -> legal_labels b ->
  (forall pre, a = pre ++ b -> in_bailiwick (wire a ++ j) (wire b ++ j') = Ok (zlen pre)) /\
  ((forall pre, a <> pre ++ b) ->
     in_bailiwick (wire a ++ j) (wire b ++ j') = Err KNOT_EOUTOFZONE).
Proof.
  intros a b j j' HA HB. unfold in_bailiwick.
  rewrite !dname_labels_spec by auto. cbn [rbind]. split.
  - intros pre ->. rewrite zlen_app. pose proof (zlen_nonneg pre).
    replace (zlen pre + zlen b - zlen b) with (zlen pre) by lia.
    replace (zlen pre <? 0) with false by lia.
    unfold zlen at 1. rewrite Nat2Z.id. unfold legal_labels in *. apply Forall_app in HA as [HA1 HA2].
    rewrite skip_labels_spec by auto. cbn [rbind].
    destruct (dname_is_equal_spec b b j j' HB HB) as (r & -> & Hr). cbn [rbind].
    destruct r; auto. exfalso. destruct Hr as [_ Hr]. specialize (Hr eq_refl). discriminate.
  - intros Hn. destruct (zlen a - zlen b <? 0) eqn:E; auto.
    assert (Hle : (Z.to_nat (zlen a - zlen b) <= length a)%nat) by (unfold zlen in *; lia).
    rewrite skip_labels_n by auto. cbn [rbind].
    assert (HS : legal_labels (skipn (Z.to_nat (zlen a - zlen b)) a)).
    { unfold legal_labels in *. rewrite <- (firstn_skipn (Z.to_nat (zlen a - zlen b)) a) in HA.
      apply Forall_app in HA. tauto. }
    destruct (dname_is_equal_spec _ b j j' HS HB) as (r & -> & Hr). cbn [rbind].
    destruct r; auto. exfalso. apply (Hn (firstn (Z.to_nat (zlen a - zlen b)) a)).
    destruct Hr as [Hr _]. rewrite <- (Hr eq_refl) at 2. symmetry. apply firstn_skipn.
Qed.

(** matched_labels *)
Lemma common_prefix_bound : forall u v, 0 <= common_prefix_len u v <= zlen u.
Proof.
  induction u; intros v; cbn [common_prefix_len]; [destruct v; unfold zlen; cbn; lia|].
  pose proof (zlen_nonneg u).
  destruct v; rewrite zlen_cons; [lia|].
  destruct (list_eq_dec _ _ _); [specialize (IHu v); lia | lia].
Qed.

Lemma common_prefix_snoc : forall u v x y, length u = length v ->
  common_prefix_len (u ++ [x]) (v ++ [y]) =
  if common_prefix_len u v =? zlen u then
    (if list_eq_dec Z.eq_dec x y then common_prefix_len u v + 1 else common_prefix_len u v)
  else common_prefix_len u v.
Proof.
  induction u as [|a u IH]; intros [|b v] x y HL; try discriminate.
  - cbn. destruct (list_eq_dec Z.eq_dec x y); reflexivity.
  - cbn [app common_prefix_len]. cbn [length] in HL. rewrite IH by lia. rewrite zlen_cons.
    destruct (list_eq_dec Z.eq_dec a b).
    + assert (B : common_prefix_len u v <= zlen u).
      { pose proof (common_prefix_bound u v). lia. }
      destruct (common_prefix_len u v =? zlen u) eqn:E;
      destruct (1 + common_prefix_len u v =? 1 + zlen u) eqn:E2; try lia.
      destruct (list_eq_dec Z.eq_dec x y); lia.
    + pose proof (zlen_nonneg u). replace (0 =? 1 + zlen u) with false by lia. reflexivity.
Qed.


Lemma matched_loop_spec : forall a b j j' m, length a = length b ->
  legal_labels a -> legal_labels b ->
  matched_loop (length a) (wire a ++ j) (wire b ++ j') m =
  Ok (if common_suffix_len a b =? zlen a then m + zlen a else common_suffix_len a b).
Proof.
  induction a as [|x a IH]; intros [|y b] j j' m HL HA HB; try discriminate.
  - cbn. f_equal. lia.
  - inversion HA as [|? ? Hx HA']; inversion HB as [|? ? Hy HB']; subst.
    cbn [length matched_loop]. rewrite label_is_equal_spec. cbn [rbind].
    rewrite !nm_next by auto. cbn [rbind]. cbn [length] in HL. rewrite IH by (auto; lia). f_equal.
    unfold common_suffix_len. cbn [rev]. rewrite common_prefix_snoc by (rewrite !rev_length; lia).
    replace (zlen (rev a)) with (zlen a) by (unfold zlen; rewrite rev_length; auto).
    pose proof (common_prefix_bound (rev a) (rev b)) as HBd.
    replace (zlen (rev a)) with (zlen a) in HBd by (unfold zlen; rewrite rev_length; auto).
    rewrite zlen_cons. unfold lab_eqb.
    destruct (common_prefix_len (rev a) (rev b) =? zlen a) eqn:E.
    + destruct (list_eq_dec Z.eq_dec x y) as [->|N].
      * rewrite (proj2 (bytes_eqb_spec y y) eq_refl).
        replace (common_prefix_len (rev a) (rev b) + 1 =? 1 + zlen a) with true by lia. lia.
      * rewrite (proj2 (bytes_eqb_false x y) N).
        replace (common_prefix_len (rev a) (rev b) =? 1 + zlen a) with false by lia. lia.
    + replace (common_prefix_len (rev a) (rev b) =? 1 + zlen a) with false by lia. reflexivity.
Qed.

Lemma common_prefix_sym : forall u v, common_prefix_len u v = common_prefix_len v u.
Proof.
  induction u; intros [|b v]; cbn [common_prefix_len]; auto.
  destruct (list_eq_dec Z.eq_dec a b); destruct (list_eq_dec Z.eq_dec b a); subst; try congruence; rewrite ?IHu; auto.
Qed.
Lemma common_prefix_ext : forall u v w, length u = length v ->
  common_prefix_len (u ++ w) v = common_prefix_len u v.
Proof.
  induction u; intros [|b v] w HL; try discriminate; cbn [app common_prefix_len].
  - destruct w; reflexivity.
  - cbn [length] in HL. rewrite IHu by lia. reflexivity.
Qed.
Lemma common_suffix_skip : forall a b n, (n = length a - length b)%nat -> (length b <= length a)%nat ->
  common_suffix_len (skipn n a) b = common_suffix_len a b.
Proof.
  intros a b n Hn Hl. unfold common_suffix_len.
  rewrite <- (firstn_skipn n a) at 2. rewrite rev_app_distr.
  rewrite common_prefix_ext; auto. rewrite !rev_length, skipn_length. lia.
Qed.

Lemma legal_skipn : forall n ls, legal_labels ls -> legal_labels (skipn n ls).
Proof.
  intros n ls H. unfold legal_labels in *. rewrite <- (firstn_skipn n ls) in H.
  apply Forall_app in H. tauto.
Qed.

Lemma name_size_labels : forall ls, legal_labels ls -> 1 + 2 * zlen ls <= name_size ls.
Proof.
  induction 1 as [|l ls [Hl _] _ IH]; cbn [name_size]; [rewrite zlen_nil; lia|].
  rewrite zlen_cons. lia.
Qed.

Lemma matched_labels_spec : forall a b j j', legal_name a -> legal_name b ->
  matched_labels (wire a ++ j) (wire b ++ j') = Ok (common_suffix_len a b).
Proof.
  intros a b j j' [HA HA2] [HB HB2]. unfold matched_labels.
  pose proof (name_size_labels a HA). pose proof (name_size_labels b HB).
  rewrite !dname_labels_spec by auto. cbn [rbind].
  destruct (zlen a =? 0) eqn:Ea.
  { destruct a; [reflexivity|]. rewrite zlen_cons in Ea. pose proof (zlen_nonneg a). lia. }
  destruct (zlen b =? 0) eqn:Eb.
  { destruct b; [|rewrite zlen_cons in Eb; pose proof (zlen_nonneg b); lia].
    cbn. unfold common_suffix_len. cbn [rev]. destruct (rev a); reflexivity. }
  cbn [orb]. pose proof (zlen_nonneg a). pose proof (zlen_nonneg b).
  replace (u8 (zlen a)) with (zlen a) by (unfold u8; rewrite Z.mod_small; lia).
  replace (u8 (zlen b)) with (zlen b) by (unfold u8; rewrite Z.mod_small; lia).
  rewrite !skip_labels_n by (auto; unfold zlen in *; lia). cbn [rbind].
  set (na := Z.to_nat (zlen a - zlen b)). set (nb := Z.to_nat (zlen b - zlen a)).
  assert (Hlen : length (skipn na a) = length (skipn nb b)).
  { rewrite !skipn_length. unfold na, nb, zlen in *. lia. }
  replace (Z.to_nat (Z.min (zlen a) (zlen b))) with (length (skipn na a)).
  2: { rewrite skipn_length. unfold na, zlen in *. lia. }
  rewrite matched_loop_spec by (auto using legal_skipn).
  assert (E : common_suffix_len (skipn na a) (skipn nb b) = common_suffix_len a b).
  { destruct (Z.le_ge_cases (zlen b) (zlen a)).
    - replace nb with O by (unfold nb; lia). cbn [skipn].
      apply common_suffix_skip; unfold na, zlen in *; lia.
    - replace na with O by (unfold na; lia). cbn [skipn].
      unfold common_suffix_len. rewrite common_prefix_sym, (common_prefix_sym (rev a)).
      apply common_suffix_skip; unfold nb, zlen in *; lia. }
  rewrite E. f_equal. destruct (common_suffix_len a b =? zlen (skipn na a)) eqn:E3; lia.
Qed.

(** prefixlen, replace_suffix *)
Fixpoint prefix_wire (ls : list label) : list Z :=
  match ls with [] => [] | l :: ls => zlen l :: l ++ prefix_wire ls end.
Lemma prefix_wire_app : forall a b, prefix_wire a ++ wire b = wire (a ++ b).
Proof.
  induction a; intros; cbn [prefix_wire wire app]; [auto|]. rewrite <- app_assoc, IHa. auto.
Qed.
Lemma zlen_prefix_wire : forall a, zlen (prefix_wire a) = name_size a - 1.
Proof.
  induction a; cbn [prefix_wire name_size]; [reflexivity|]. rewrite zlen_cons, zlen_app. lia.
Qed.

Lemma prefixlen_loop_spec : forall a b j fuel len, legal_labels a -> (0 < length a)%nat ->
  (length a < fuel)%nat ->
  prefixlen_loop fuel (wire (a ++ b) ++ j) (zlen a) len = Ok (len + name_size a - 1).
Proof.
  induction a as [|l a IH]; intros b j fuel len HL Hp Hf; [cbn in Hp; lia|].
  destruct fuel; [lia|]. cbn [prefixlen_loop app]. inversion HL as [|? ? Hl HL']; subst.
  rewrite nm_rd0. cbn [rbind]. rewrite (legal_nonzero _ Hl), nm_next by auto. cbn [rbind].
  rewrite zlen_cons. replace (1 + zlen a - 1) with (zlen a) by lia. cbn [name_size].
  destruct a as [|l' a].
  - rewrite zlen_nil. cbn [Z.eqb name_size]. f_equal. lia.
  - replace (zlen (l' :: a) =? 0) with false by (rewrite zlen_cons; pose proof (zlen_nonneg a); lia).
    rewrite IH; auto; [f_equal; lia | cbn; lia | cbn [length] in *; lia].
Qed.

Lemma copy_labels_spec : forall a b j out, legal_labels a ->
  copy_labels (length a) (wire (a ++ b) ++ j) out = Ok (out ++ prefix_wire a).
Proof.
  induction a as [|l a IH]; intros b j out HL; cbn [length copy_labels app prefix_wire].
  - rewrite app_nil_r; auto.
  - inversion HL as [|? ? Hl HL']; subst. rewrite nm_rd0. cbn [rbind]. rewrite nm_take. cbn [rbind].
    rewrite nm_next by auto. cbn [rbind]. rewrite IH by auto. rewrite <- app_assoc. reflexivity.
Qed.
Lemma copy_all_spec : forall a j out fuel, legal_labels a -> (length a < fuel)%nat ->
  copy_all fuel (wire a ++ j) out = Ok (out ++ wire a).
Proof.
  induction a as [|l a IH]; intros j out fuel HL Hf; (destruct fuel; [lia|]); cbn [copy_all].
  - rewrite nm_rd0_root. reflexivity.
  - inversion HL as [|? ? Hl HL']; subst. rewrite nm_rd0. cbn [rbind].
    rewrite (legal_nonzero _ Hl), nm_take. cbn [rbind]. rewrite nm_next by auto. cbn [rbind].
    rewrite IH; [|auto|cbn [length] in Hf; lia]. rewrite <- app_assoc. reflexivity.
Qed.

Lemma replace_suffix_spec : forall a b s j j', a <> [] -> legal_labels (a ++ b) -> legal_labels s ->
  replace_suffix (wire (a ++ b) ++ j) (zlen b) (wire s ++ j') = Ok (wire (a ++ s)).
Proof.
  intros a b s j j' Ha HL HS. unfold replace_suffix. pose proof HL as HL'.
  unfold legal_labels in HL'. apply Forall_app in HL' as [HLa HLb].
  rewrite dname_labels_spec by auto. cbn [rbind]. rewrite zlen_app.
  pose proof (zlen_nonneg a). pose proof (zlen_nonneg b).
  replace (zlen a + zlen b <? zlen b) with false by lia.
  replace (zlen a + zlen b - zlen b) with (zlen a) by lia.
  assert (0 < zlen a) by (destruct a; [congruence|rewrite zlen_cons; pose proof (zlen_nonneg a); lia]).
  unfold dname_prefixlen. replace (zlen a =? 0) with false by lia.
  rewrite prefixlen_loop_spec; auto; [|unfold zlen in *; lia|].
  2: { pose proof (wire_length (a ++ b) j) as HW. rewrite app_length in HW. lia. }
  cbn [rbind]. rewrite dname_size_spec by auto. cbn [rbind].
  pose proof (name_size_labels a HLa). pose proof (name_size_pos s).
  replace ((0 + name_size a - 1 =? 0) || (name_size s =? 0)) with false by lia.
  replace (Z.to_nat (zlen a)) with (length a) by (unfold zlen; lia).
  rewrite copy_labels_spec by auto. cbn [rbind app].
  rewrite copy_all_spec; [|auto|pose proof (wire_length s j'); lia]. cbn [rbind].
  rewrite zlen_app, zlen_prefix_wire, zlen_wire.
  destruct (_ >? _) eqn:E; [lia|]. rewrite prefix_wire_app. reflexivity.
Qed.

Lemma replace_suffix_null : forall b s j j', legal_labels b -> legal_labels s ->
  replace_suffix (wire b ++ j) (zlen b) (wire s ++ j') = Err RET_NULL.
Proof.
  intros. unfold replace_suffix. rewrite dname_labels_spec by auto. cbn [rbind].
  replace (zlen b <? zlen b) with false by lia. replace (zlen b - zlen b) with 0 by lia.
  cbn [dname_prefixlen Z.eqb rbind]. unfold dname_prefixlen. cbn [Z.eqb rbind].
  rewrite dname_size_spec by auto. reflexivity.
Qed.
