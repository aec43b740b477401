(** Options, names, hexadecimal data and base64: there and back *)
From Verif Require Import Base WireModel WireProofs CodecModel CodecSpec CodecProofs CodecProps TrafoModel TrafoSpec TrafoProofs TrafoProofs2 TrafoProofs3 TrafoProofs4.
From Verif Require Import DnameModel DnameSpec DnameProofs DnameProofs2 DnameProofs3 DnameProofs4 DnameProps.

(** ** Options *)
Lemma low_nonzero : forall c, byte c -> tolower c = 0 -> c = 0.
Proof. intros c B H. rewrite tolower_ascii in H by auto. unfold ascii_lower, byte in *. destruct (_ && _)%bool eqn:E; lia. Qed.
Lemma ncase_spec : forall a b, bytes a -> bytes b -> ~ In 0 a -> ~ In 0 b -> length a = length b -> (ncase_equal (length a) a b = true <-> map ascii_lower a = map ascii_lower b).
Proof.
  induction a as [|x a IH]; intros [|y b] BA BB NA NB L; try discriminate; [split; reflexivity|]. cbn [length ncase_equal hd tl map]. inversion BA; inversion BB; subst. rewrite !tolower_ascii by auto. replace (x =? 0) with false by (symmetry; apply Z.eqb_neq; intros ->; apply NA; left; reflexivity). cbn [orb].
  assert (NA' : ~ In 0 a) by (intros HI; apply NA; right; auto). assert (NB' : ~ In 0 b) by (intros HI; apply NB; right; auto). injection L as L. specialize (IH b ltac:(auto) ltac:(auto) NA' NB' L). rewrite andb_true_iff, IH, Z.eqb_eq. split; [intros [-> ->]; reflexivity|intros H; injection H as -> ->; auto].
Qed.
Definition opts_ok (opts : list (Z * list Z)) : Prop := Forall (fun o => byte (fst o) /\ bytes (snd o) /\ snd o <> [] /\ ~ In 0 (snd o)) opts /\ NoDup (map (fun o => map ascii_lower (snd o)) opts).
Lemma option_to_bin_inv : forall i len d r opts i' o', opts_ok opts -> option_to_bin i len (mkout d r) opts = Ok (i', o') ->
  exists id name, In (id, name) opts /\ 1 <= r /\ o' = mkout (d ++ [id]) (r - 1).
Proof.
  intros i len d r opts i' o' [F _]. induction F as [|[id name] opts (B & _) F IH]; cbn [option_to_bin]; [discriminate|]. destruct (_ && _).
  - unfold write. cbn [o_room o_data]. change (zlen [u8 id]) with 1. destruct (1 >? r) eqn:E; [discriminate|]. cbn [rbind]. intros HX. injection HX as <- <-. exists id, name. split; [left; reflexivity|]. split; [lia|]. cbn [fst] in B. unfold byte in B. unfold u8. rewrite Z.mod_small by lia. reflexivity.
  - intros HX. destruct (IH HX) as (id' & n' & HI & H). exists id', n'. split; [right; auto|auto].
Qed.
Lemma option_find_in : forall id opts name, In (id, name) opts -> exists name', option_find id opts = Some name' /\ In (id, name') opts.
Proof.
  intros id opts name. induction opts as [|[id' n'] opts IH]; intros H; [destruct H|]. cbn [option_find]. destruct (id =? id') eqn:E; [exists n'; split; [reflexivity|left; f_equal; lia]|].
  destruct H as [H|H]; [injection H as -> ->; lia|]. destruct (IH H) as (x & E1 & E2). exists x. split; [auto|right; auto].
Qed.
Lemma option_to_bin_text : forall id name opts d r, opts_ok opts -> In (id, name) opts -> 1 <= r -> option_to_bin name (zlen name) (mkout d r) opts = Ok ([], mkout (d ++ [id]) (r - 1)).
Proof.
  intros id name opts d r [F N] HI HR. induction opts as [|[id' n'] opts IH]; [destruct HI|]. inversion F as [|? ? (B1 & B2 & B3 & B4) F']; subst. inversion N as [|? ? NI N']; subst. cbn [fst snd map] in *.
  cbn [option_to_bin]. destruct HI as [HI|HI].
  - injection HI as -> ->. rewrite Z.eqb_refl. cbn [andb]. assert (ncase_equal (Z.to_nat (zlen name)) name name = true) as -> by (unfold zlen; rewrite Nat2Z.id; apply ncase_spec; auto). rewrite write_fits by (change (zlen [u8 id]) with 1; lia). cbn [rbind]. rewrite zskipn_all. unfold u8. unfold byte in B1. rewrite Z.mod_small by lia. reflexivity.
  - assert (G : Forall (fun o => byte (fst o) /\ bytes (snd o) /\ snd o <> [] /\ ~ In 0 (snd o)) opts) by auto. eapply Forall_forall in G; [|exact HI]. cbn [fst snd] in G. destruct G as (G1 & G2 & G3 & G4).
    destruct (zlen name =? zlen n') eqn:EL; cbn [andb]; [|apply IH; auto]. assert (LE : length name = length n') by (unfold zlen in EL; lia). unfold zlen at 1. rewrite Nat2Z.id. destruct (ncase_equal (length name) name n') eqn:EN; [|apply IH; auto].
    exfalso. apply NI. apply ncase_spec in EN; auto. rewrite <- EN. apply (in_map (fun o => map ascii_lower (snd o)) opts (id, name)). exact HI.
Qed.

(** ** Names *)
Lemma encodes_wire : forall ls pre junk, Forall legal_label ls -> encodes (pre ++ wire ls ++ junk) false (zlen pre) ls (name_size ls).
Proof.
  induction ls as [|l ls IH]; intros pre junk H; cbn [wire name_size].
  - apply enc_root. rewrite zget_app_r by lia. rewrite Z.sub_diag. reflexivity.
  - inversion H as [|? ? HL HLS]; subst. pose proof (zlen_nonneg pre). replace (1 + zlen l + name_size ls) with (1 + zlen l + name_size ls) by lia. cbn [app]. apply enc_label; [auto| | |].
    + rewrite zget_app_r by lia. rewrite Z.sub_diag. apply zget_0.
    + intros i HI. rewrite zget_app_r by lia. rewrite zget_cons by lia. rewrite <- app_assoc. rewrite zget_app_l by lia. f_equal. lia.
    + specialize (IH (pre ++ zlen l :: l) junk HLS). rewrite zlen_app, zlen_cons in IH. replace (zlen pre + (1 + zlen l)) with (zlen pre + 1 + zlen l) in IH by lia. replace (pre ++ zlen l :: (l ++ wire ls) ++ junk) with ((pre ++ zlen l :: l) ++ wire ls ++ junk) by (rewrite <- !app_assoc; reflexivity). exact IH.
Qed.
Lemma check_wire : forall ls junk, legal_name ls -> bytes (wire ls ++ junk) -> wire_check (wire ls ++ junk) false 0 = Ok (name_size ls).
Proof. intros ls junk H B. apply (c01_check_complete _ false 0 ls); auto. apply (encodes_wire ls []). apply H. Qed.
Lemma legal_wire_bytes : forall ls, Forall legal_label ls -> bytes (wire ls).
Proof.
  induction 1 as [|l ls [L B] F IH]; cbn [wire]; [repeat constructor; unfold byte; lia|]. constructor; [unfold byte; lia|]. apply bytes_app. split; auto.
Qed.
Lemma name_size_lower : forall ls, name_size (lower_name ls) = name_size ls.
Proof. induction ls as [|l ls IH]; [reflexivity|]. unfold lower_name in *. cbn [map name_size]. rewrite zlen_map, IH. reflexivity. Qed.
(** what a text which denotes a name gives *)
Lemma dname_to_bin_ok : forall i len d r w ls junk, zfirstn len i = w -> ~ In 0 w -> len <= KNOT_DNAME_TXT_MAXLEN -> legal_name ls -> dname_from_str (Some r) w = Ok (wire ls ++ junk) -> bytes junk -> zlen (wire ls ++ junk) <= r ->
  dname_to_bin i len (mkout d r) = Ok (zskipn len i, mkout (d ++ wire (lower_name ls)) (r - name_size ls)).
Proof.
  intros i len d r w ls junk <- N0 HL LN HF HJ HR. unfold dname_to_bin, copy_in. replace (len + 1 >? _) with false by lia. cbn [rbind o_room]. rewrite cstr_id by auto. rewrite HF. rewrite check_wire; [|exact LN|apply bytes_app; split; [apply legal_wire_bytes, LN|exact HJ]].
  rewrite <- (zlen_wire ls). rewrite zfirstn_exact. destruct (c06_to_lower ls [] (proj1 LN)) as (E & EL & _). rewrite app_nil_r in E. rewrite E. cbn [rbind]. rewrite write_fits by (rewrite EL; rewrite zlen_app in HR; pose proof (zlen_nonneg junk); lia). cbn [rbind]. rewrite EL. reflexivity.
Qed.
Lemma dname_to_bin_inv : forall i d r i' o', bytes i -> ~ In 0 i -> 0 <= r -> dname_to_bin i (zlen i) (mkout d r) = Ok (i', o') ->
  exists ls, legal_name ls /\ name_denoted ls i /\ (ls = [] -> 2 <= r) /\ name_size ls <= r /\ o' = mkout (d ++ wire (lower_name ls)) (r - name_size ls).
Proof.
  intros i d r i' o' B N0 HR HX. pose proof HX as HX0. unfold dname_to_bin, copy_in in HX. destruct (zlen i + 1 >? _) eqn:EL; [discriminate|]. cbn [rbind o_room] in HX. rewrite zfirstn_all, cstr_id in HX by auto.
  pose proof (from_str_sound (Some r) i B HR) as FS. destruct (dname_from_str (Some r) i) as [w|e| |] eqn:EF; try discriminate. destruct FS as (ls & LN & HD & HW & HZ). exists ls. split; [auto|]. split; [auto|]. assert (HZ1 : zlen w <= r) by (unfold alloc_of in HZ; lia).
  assert (G : exists junk, w = wire ls ++ junk /\ bytes junk /\ (ls = [] -> 2 <= r)).
  { destruct HW as [-> | (-> & _ & ->)].
    - exists []. rewrite app_nil_r. split; [reflexivity|]. split; [constructor|]. intros ->. cbn in HD. subst i. rewrite from_str_root_some in EF by auto. destruct (r <? 2) eqn:E2; [discriminate|lia].
    - assert (ls = []) as ->.
      { destruct ls as [|l ls]; [reflexivity|]. exfalso. destruct (denoted_head (l :: ls) [46] ltac:(discriminate) (proj1 LN) HD) as [G _]. apply G. reflexivity. }
      exists [0]. split; [reflexivity|]. split; [repeat constructor; unfold byte; lia|]. change (zlen [0; 0]) with 2 in HZ1. lia. }
  destruct G as (junk & -> & BJ & H2). assert (HZ2 : zlen (wire ls ++ junk) <= r) by lia. rewrite (dname_to_bin_ok i (zlen i) d r i ls junk (zfirstn_all i) N0 ltac:(lia) LN EF BJ HZ2) in HX0. injection HX0 as <- <-. rewrite zlen_app, zlen_wire in HZ2. pose proof (zlen_nonneg junk). split; [auto|]. split; [lia|reflexivity].
Qed.
Lemma char_text_nz : forall c t, byte c -> char_text c t -> ~ In 0 t.
Proof.
  intros c t B H HI. unfold byte in B. destruct H; cbn [In esc_ddd] in HI.
  - lia.
  - lia.
  - pose proof (Z.div_pos c 100). pose proof (Z.mod_pos_bound (c / 10) 10). pose proof (Z.mod_pos_bound c 10). lia.
Qed.
Lemma text_nz : forall ls, legal_name ls -> ~ In 0 (text ls).
Proof.
  intros ls [HL _]. pose proof (text_spec ls HL) as HT. destruct ls as [|l ls]; [change (text []) with [46]; intros [HI|[]]; lia|]. unfold name_text in HT. revert HL. induction HT as [|l' ls' t1 t2 H1 H2 IH]; intros HL; [cbn; auto|]. inversion HL as [|? ? [_ HB] HLS]; subst. intros HI. apply in_app_or in HI. destruct HI as [HI|[HI|HI]]; [|lia|eapply IH; eauto].
  clear - H1 HB HI. induction H1 as [|c l t1 t2 C H IH]; [destruct HI|]. inversion HB; subst. apply in_app_or in HI. destruct HI as [HI|HI]; [revert HI; eapply char_text_nz; eauto|auto].
Qed.
Lemma dname_to_txt_spec : forall ls d m, legal_name ls -> dname_to_txt (wire ls) (mkout d m) =
  if (name_size ls <? m) && (zlen (text ls) <? m) then Ok (wire ls, mkout (d ++ text ls) (m - zlen (text ls))) else Err KNOT_EINVAL.
Proof. intros ls d m [HL _]. unfold dname_to_txt. cbn [o_room]. pose proof (dname_to_str_some ls [] m HL) as E. rewrite app_nil_r in E. rewrite E. destruct (_ && _); reflexivity. Qed.
Lemma dname_to_bin_text : forall ls d r, legal_name ls -> lower_name ls = ls -> (ls = [] -> 2 <= r) -> name_size ls <= r -> dname_to_bin (text ls) (zlen (text ls)) (mkout d r) = Ok ([], mkout (d ++ wire ls) (r - name_size ls)).
Proof.
  intros ls d r LN LOW H2 HR. pose proof (text_bound ls LN) as TB. pose proof (text_nz ls LN) as NZ. pose proof (text_bytes ls (proj1 LN)) as BT. pose proof (zlen_wire ls) as ZW.
  assert (G : exists junk, dname_from_str (Some r) (text ls) = Ok (wire ls ++ junk) /\ bytes junk /\ zlen (wire ls ++ junk) <= r).
  { destruct ls as [|l ls].
    - change (text []) with [46]. exists [0]. rewrite from_str_root_some by (specialize (H2 eq_refl); lia). specialize (H2 eq_refl). replace (r <? 2) with false by lia. split; [reflexivity|]. split; [repeat constructor; unfold byte; lia|]. change (zlen (wire [] ++ [0])) with 2. lia.
    - exists []. rewrite app_nil_r. split; [|split; [constructor|lia]]. apply c03_from_str_buffer_enough; auto; [|discriminate]. apply name_text_denoted, text_spec, LN. }
  destruct G as (junk & E & BJ & HJ). rewrite (dname_to_bin_ok (text ls) (zlen (text ls)) d r (text ls) ls junk (zfirstn_all _) NZ TB LN E BJ HJ). rewrite zskipn_all, LOW. reflexivity.
Qed.
Lemma name_size_text : forall ls, legal_name ls -> name_size ls <= zlen (text ls) + 1.
Proof.
  intros ls [HL _]. pose proof (text_spec ls HL) as HT. destruct ls as [|l ls]; [cbn; lia|]. unfold name_text in HT. clear HL. induction HT as [|l' ls' t1 t2 H1 H2 IH]; [cbn; lia|]. cbn [name_size]. rewrite zlen_app, zlen_cons. enough (zlen l' <= zlen t1) by lia.
  clear - H1. induction H1 as [|c l t1 t2 C H IH]; [cbn; lia|]. rewrite zlen_cons, zlen_app. enough (1 <= zlen t1) by lia. destruct C; unfold esc_ddd; rewrite !zlen_cons; change (zlen (@nil Z)) with 0; lia.
Qed.

(** ** Hexadecimal data *)
Lemma hex_plain : forall i len o, (forall i', i <> 48 :: 120 :: i') -> hex_to_bin i len o = (let* o := write o (be 2 (u16 len)) in let* o := write o (zfirstn len i) in Ok (zskipn len i, o)).
Proof.
  intros i len o H. destruct i as [|c [|e i]]; [reflexivity| |].
  - destruct c as [|p|p]; try reflexivity. do 6 (destruct p as [p|p|]; try reflexivity).
  - destruct (Z.eq_dec c 48) as [->|NC].
    + destruct (Z.eq_dec e 120) as [->|NE]; [exfalso; eapply H; reflexivity|]. destruct e as [|p|p]; try reflexivity. do 7 (destruct p as [p|p|]; try reflexivity). congruence.
    + destruct c as [|p|p]; try reflexivity. do 6 (destruct p as [p|p|]; try reflexivity). congruence.
Qed.
Definition hex_case : forall i : list Z, (exists i', i = 48 :: 120 :: i') \/ (forall i', i <> 48 :: 120 :: i').
Proof.
  intros [|c [|e i]]; [right; discriminate|right; discriminate|]. destruct (Z.eq_dec c 48) as [->|NC]; [|right; congruence]. destruct (Z.eq_dec e 120) as [->|NE]; [left; eauto|right; congruence].
Qed.
Lemma unhex_inv : forall n l b, (length l <= n)%nat -> unhex l = Some b -> bytes b /\ zlen l = 2 * zlen b.
Proof.
  induction n as [|n IH]; intros l b HL H; destruct l as [|x [|y l]]; cbn [unhex length] in *; try lia; try discriminate; try (injection H as <-; split; [constructor|reflexivity]).
  destruct (hex_to_num x) as [u|] eqn:E1; [|discriminate]. destruct (hex_to_num y) as [v|] eqn:E2; [|discriminate]. destruct (unhex l) as [b'|] eqn:E3; [|discriminate]. injection H as <-. destruct (IH l b' ltac:(lia) E3) as [B L]. rewrite !zlen_cons. split; [|lia]. constructor; [|auto].
  assert (G : forall c k, hex_to_num c = Some k -> 0 <= k <= 15) by (intros c k; unfold hex_to_num, is_digit; repeat match goal with |- context [if ?b then _ else _] => let E := fresh in destruct b eqn:E end; intros HX; try discriminate; injection HX as <-; lia).
  apply G in E1, E2. change (byte (16 * u + v)). unfold byte. lia.
Qed.
Definition hex_of (b : list Z) : list Z := concat (map (fun b => [hexdigit (b / 16); hexdigit (b mod 16)]) b).
Lemma unhex_hex : forall b, bytes b -> unhex (hex_of b) = Some b.
Proof.
  assert (G : forall d, 0 <= d <= 15 -> hex_to_num (hexdigit d) = Some d) by (intros d HD; unfold hexdigit, hex_to_num, is_digit; destruct (d <? 10) eqn:E; repeat match goal with |- context [if ?b then _ else _] => let E := fresh in destruct b eqn:E end; try (f_equal; lia); lia).
  induction 1 as [|c b B F IH]; [reflexivity|]. unfold hex_of in *. cbn [map concat app unhex]. unfold byte in B. pose proof (Z.div_pos c 16). pose proof (Z.div_lt_upper_bound c 16 16). pose proof (Z.mod_pos_bound c 16). rewrite !G by lia. rewrite IH. do 2 f_equal. pose proof (Z.div_mod c 16). lia.
Qed.
Lemma hex_of_len : forall b, zlen (hex_of b) = 2 * zlen b.
Proof. induction b as [|c b IH]; [reflexivity|]. unfold hex_of in *. cbn [map concat app]. rewrite !zlen_cons, IH. lia. Qed.
Definition counted (b : list Z) : list Z := be 2 (zlen b) ++ b.
Definition printable (b : list Z) : bool := forallb is_print b.
Definition hex_text (b : list Z) : list Z := if printable b then b else 48 :: 120 :: hex_of b.
Lemma be2_len : forall v, zlen (be 2 v) = 2.
Proof. intros. rewrite be_length. reflexivity. Qed.
Lemma u16_small : forall v, 0 <= v <= 65535 -> u16 v = v.
Proof. intros. unfold u16. apply Z.mod_small. lia. Qed.
Lemma hex_to_bin_inv : forall i r i' o', bytes i -> r <= 65537 -> hex_to_bin i (zlen i) (mkout [] r) = Ok (i', o') -> exists b, bytes b /\ o_data o' = counted b /\ 2 + zlen b <= r.
Proof.
  intros i r i' o' B HR H. destruct (hex_case i) as [[i0 ->]|NC].
  - unfold hex_to_bin in H. rewrite !zlen_cons in H. replace (1 + (1 + zlen i0) - 2) with (zlen i0) in H by lia. pose proof (zlen_nonneg i0). replace (_ <? 0) with false in H by lia. destruct (negb _); [discriminate|]. unfold write in H. cbn [o_room o_data] in H. rewrite be2_len in H. destruct (2 >? r) eqn:E1; [discriminate|]. cbn [rbind o_room o_data] in H.
    rewrite zfirstn_all in H. destruct (unhex i0) as [b|] eqn:EU; [|discriminate]. destruct (unhex_inv _ _ _ (le_n _) EU) as [BB LB]. destruct (zlen b >? r - 2) eqn:E2; [discriminate|]. cbn [rbind] in H.
    assert (o_data o' = be 2 (u16 (zlen i0 / 2)) ++ b) as -> by (injection H as _ <-; reflexivity). exists b. split; [auto|]. split; [|lia]. unfold counted. rewrite LB. replace (2 * zlen b / 2) with (zlen b) by (rewrite Z.mul_comm, Z.div_mul; lia). pose proof (zlen_nonneg b). rewrite u16_small by lia. reflexivity.
  - rewrite hex_plain in H by auto. unfold write in H. cbn [o_room o_data] in H. rewrite be2_len, zfirstn_all in H. destruct (2 >? r) eqn:E1; [discriminate|]. cbn [rbind o_room o_data] in H. destruct (zlen i >? r - 2) eqn:E2; [discriminate|]. cbn [rbind] in H.
    pose proof (zlen_nonneg i). assert (o_data o' = be 2 (u16 (zlen i)) ++ i) as -> by (injection H as _ <-; reflexivity). exists i. split; [auto|]. split; [|lia]. rewrite u16_small by lia. reflexivity.
Qed.
Lemma read_counted : forall b rest, read (counted b ++ rest) 2 = Ok (be 2 (zlen b), b ++ rest).
Proof. intros. unfold counted. rewrite <- app_assoc. apply read_exact. apply be2_len. Qed.
Lemma unbe_be2 : forall v, 0 <= v <= 65535 -> unbe (be 2 v) = v.
Proof. intros v H. rewrite unbe_be. apply Z.mod_small. change (256 ^ Z.of_nat 2) with 65536. lia. Qed.
Lemma hex_to_txt_spec : forall b d m, zlen b <= 65535 -> hex_to_txt (counted b) (mkout d m) = if zlen (hex_text b) >=? m then Err KNOT_ESPACE else Ok ([], mkout (d ++ hex_text b) (m - zlen (hex_text b))).
Proof.
  intros b d m HB. pose proof (zlen_nonneg b). unfold hex_to_txt. pose proof (read_counted b []) as RC. rewrite !app_nil_r in RC. rewrite RC. cbn [rbind]. rewrite unbe_be2 by lia. rewrite zfirstn_all, Z.eqb_refl. cbn [negb andb]. pose proof (read_exact b [] (zlen b) eq_refl) as RB. rewrite app_nil_r in RB. rewrite RB. cbn [rbind].
  unfold hex_text, printable. destruct (forallb is_print b); [unfold write_txt; cbn [o_room o_data]; destruct (_ >=? m); reflexivity|]. rewrite !zlen_cons, hex_of_len. unfold write at 1. cbn [o_room o_data]. change (zlen [48; 120]) with 2. destruct (2 >? m) eqn:E; [replace (_ >=? m) with true by lia; reflexivity|]. cbn [rbind]. fold (hex_of b). unfold write_txt. cbn [o_room o_data]. rewrite hex_of_len.
  replace (2 * zlen b >=? m - 2) with (1 + (1 + 2 * zlen b) >=? m) by lia. destruct (_ >=? m); [reflexivity|]. cbn [rbind]. rewrite <- app_assoc. cbn [app]. apply f_equal, f_equal. apply f_equal2; [reflexivity|lia].
Qed.
Lemma hex_to_bin_text : forall b r, bytes b -> r <= 65537 -> 2 + zlen b <= r -> ~ looks_hex (counted b) -> exists o, hex_to_bin (hex_text b) (zlen (hex_text b)) (mkout [] r) = Ok ([], o) /\ o_data o = counted b.
Proof.
  intros b r B HR HL NH. pose proof (zlen_nonneg b). unfold hex_text. destruct (printable b) eqn:EP.
  - rewrite hex_plain.
    + rewrite u16_small by lia. rewrite write_fits by (rewrite be2_len; lia). cbn [rbind]. rewrite zfirstn_all, be2_len. rewrite write_fits by lia. cbn [rbind]. rewrite zskipn_all. eexists. split; reflexivity.
    + intros i' ->. apply NH. exists i'. split; [reflexivity|]. unfold printable in EP. cbn [forallb] in EP. apply andb_prop in EP. destruct EP as [_ EP]. apply andb_prop in EP. destruct EP as [_ EP]. rewrite forallb_forall in EP. apply Forall_forall. intros c HI. apply EP in HI. unfold is_print in HI. lia.
  - unfold hex_to_bin. rewrite !zlen_cons, hex_of_len. replace (1 + (1 + 2 * zlen b) - 2) with (2 * zlen b) by lia. replace (_ <? 0) with false by lia. rewrite Z.mul_comm, Z.mod_mul by lia. change (negb (0 =? 0)) with false. cbn iota. rewrite Z.div_mul by lia. rewrite u16_small by lia. rewrite write_fits by (rewrite be2_len; lia). cbn [rbind]. rewrite Z.mul_comm, <- hex_of_len. rewrite zfirstn_all, zskipn_all, unhex_hex by auto. rewrite be2_len. rewrite write_fits by lia. cbn [rbind]. eexists. split; reflexivity.
Qed.

(** ** Base64 *)
Lemma bin_bytes : forall p a b c d, bytes (b64_bin p a b c d).
Proof.
  intros. assert (U : forall x, byte (u8 x)) by (intros; unfold byte, u8; apply Z.mod_pos_bound; lia). unfold b64_bin, bytes. destruct (p =? 0); [|destruct (p =? 1); [|destruct (p =? 2)]]; repeat (apply Forall_cons; [apply U|]); apply Forall_nil.
Qed.
Lemma b64_loop_bytes : forall n inp out_len pad bin b, (length inp <= n)%nat -> bytes bin -> b64_decode_loop inp out_len pad bin = Ok b -> bytes b.
Proof.
  induction n as [|n IH]; intros inp out_len pad bin b HL HB H; destruct inp as [|a [|a1 [|a2 [|a3 inp]]]]; cbn [b64_decode_loop length] in *; try lia; try discriminate; try (injection H as <-; auto).
  repeat match goal with H : rbind ?m _ = Ok _ |- _ => destruct m eqn:?; try discriminate; cbn [rbind] in H end. destruct (_ || _); [discriminate|]. repeat match goal with H : rbind ?m _ = Ok _ |- _ => destruct m eqn:?; try discriminate; cbn [rbind] in H end.
  apply IH in H; [auto|lia|]. match goal with E : put _ _ _ _ = Ok _ |- _ => unfold put in E; destruct (_ >? _); [discriminate|]; injection E as <- end. apply bytes_app. split; [auto|]. apply bin_bytes.
Qed.
Lemma base64_to_bin_inv : forall i r i' o', bytes i -> r <= 65537 -> base64_to_bin i (zlen i) (mkout [] r) = Ok (i', o') ->
  exists b, bytes b /\ o_data o' = counted b /\ 2 + (zlen b + 2) / 3 * 3 <= r.
Proof.
  intros i r i' o' B HR H. unfold base64_to_bin in H. cbn [o_room o_data] in H. destruct (write (mkout [] r) [0; 0]) eqn:E0; try discriminate. cbn [rbind] in H. rewrite zfirstn_all in H. destruct (base64_decode i (r - 2)) as [b| | |] eqn:ED; try discriminate. cbn [rbind] in H.
  destruct (c43_decode_safe i (r - 2) B) as [(b' & E1 & L1)|(e & E1)]; rewrite E1 in ED; [injection ED as ->|discriminate]. assert (BB : bytes b).
  { unfold base64_decode in E1. destruct (_ || _); [discriminate|]. destruct (negb _); [discriminate|]. eapply b64_loop_bytes; [apply le_n|constructor|exact E1]. }
  unfold write in H. cbn [o_room o_data] in H. rewrite be2_len in H. destruct (2 >? r) eqn:E2; [discriminate|]. cbn [rbind o_room o_data] in H. destruct (zlen b >? r - 2) eqn:E3; [discriminate|]. cbn [rbind] in H. pose proof (zlen_nonneg b).
  assert (o_data o' = be 2 (u16 (zlen b)) ++ b) as -> by (injection H as _ <-; reflexivity). exists b. split; [auto|]. split; [rewrite u16_small by lia; reflexivity|].
  assert ((zlen b + 2) / 3 <= zlen i / 4); [|lia]. apply Z.lt_succ_r. apply Z.div_lt_upper_bound; lia.
Qed.
Lemma put_more : forall k k' a b e x, put k a b e = Ok x -> k <= k' -> put k' a b e = Ok x.
Proof. intros k k' a b e x H HK. unfold put in *. destruct (_ >? k) eqn:E; [discriminate|]. replace (_ >? k') with false by lia. auto. Qed.
Lemma b64_encode_more : forall n e p x1 x2 inp k k' text x, (length inp <= n)%nat -> b64_encode_loop e p x1 x2 inp k text = Ok x -> k <= k' -> b64_encode_loop e p x1 x2 inp k' text = Ok x.
Proof.
  induction n as [|n IH]; intros e p x1 x2 inp k k' text x HL H HK; destruct inp as [|a [|b [|c inp]]]; cbn [b64_encode_loop length] in *; try lia; auto;
    repeat match goal with H : rbind (tab ?t ?i) _ = Ok _ |- _ => destruct (tab t i); try discriminate; cbn [rbind] in *|- * end; try (eapply put_more; eauto).
  destruct (put k text _ 0) as [y| | |] eqn:E; try discriminate. cbn [rbind] in H. rewrite (put_more _ _ _ _ _ _ E HK). cbn [rbind]. eapply IH; eauto. lia.
Qed.
Definition b64_of (b : list Z) : list Z := match base64_encode b ((zlen b + 2) / 3 * 4) with Ok t => t | _ => [] end.
Lemma b64_of_spec : forall b, bytes b -> zlen b <= 65535 -> zlen (b64_of b) = (zlen b + 2) / 3 * 4 /\ forall k, base64_encode b k = if k <? (zlen b + 2) / 3 * 4 then Err KNOT_ERANGE else Ok (b64_of b).
Proof.
  intros b B HB. pose proof (zlen_nonneg b). unfold b64_of. destruct (c43_encode b ((zlen b + 2) / 3 * 4) B) as [(L1 & L2 & t & E & LT & BT)|[[G|G] _]]; [|lia|lia]. rewrite E. split; [auto|]. intros k. unfold base64_encode in E |- *. assert (MB : (zlen b >? B64_MAX_BIN) = false) by (change B64_MAX_BIN with 1610612733; lia). rewrite MB in *. cbn [orb] in *.
  destruct (k <? (zlen b + 2) / 3 * 4) eqn:EK; [reflexivity|]. replace (_ <? _) with false in E by lia. apply (b64_encode_more (length b) _ _ _ _ _ _ _ _ _ (le_n _) E). lia.
Qed.
Lemma base64_to_txt_spec : forall b d m, bytes b -> zlen b <= 65535 -> base64_to_txt (counted b) (mkout d m) =
  if m <? zlen (b64_of b) then Err KNOT_ERANGE else if zlen (b64_of b) >=? m then Err KNOT_ESPACE else Ok (b, mkout (d ++ b64_of b) (m - zlen (b64_of b))).
Proof.
  intros b d m B HB. pose proof (zlen_nonneg b). destruct (b64_of_spec b B HB) as [L E]. unfold base64_to_txt. pose proof (read_counted b []) as RC. rewrite !app_nil_r in RC. rewrite RC. cbn [rbind]. rewrite unbe_be2 by lia. replace (_ <? zlen b) with false by lia. rewrite zfirstn_all. cbn [o_room]. rewrite E, <- L. destruct (m <? _); [reflexivity|]. cbn [rbind]. unfold write_txt. cbn [o_room o_data]. destruct (_ >=? m); reflexivity.
Qed.
Lemma base64_to_bin_text : forall b r, bytes b -> r <= 65537 -> 2 + (zlen b + 2) / 3 * 3 <= r -> exists o, base64_to_bin (b64_of b) (zlen (b64_of b)) (mkout [] r) = Ok ([], o) /\ o_data o = counted b.
Proof.
  intros b r B HR HL. pose proof (zlen_nonneg b). assert (HB : zlen b <= 65535) by lia. destruct (b64_of_spec b B HB) as [L E]. specialize (E ((zlen b + 2) / 3 * 4)). replace (_ <? _) with false in E by lia.
  unfold base64_to_bin. rewrite write_fits by (change (zlen [0; 0]) with 2; lia). cbn [rbind o_room]. rewrite zfirstn_all, zskipn_all. rewrite (c43_round_trip b _ _ (r - 2) B E) by lia. cbn [rbind]. rewrite u16_small by lia. rewrite write_fits by (rewrite be2_len; lia). cbn [rbind]. rewrite be2_len. rewrite write_fits by lia. cbn [rbind]. eexists. split; reflexivity.
Qed.
