(** Addresses: there and back *)
From Verif Require Import Base DnameModel DnameSpec DnameProofs DnameProofs2 WireModel WireProofs TrafoModel TrafoSpec TrafoProofs TrafoProofs2.

(** ** Texts of addresses *)
Definition char4 (c : Z) : Prop := c = 46 \/ 48 <= c <= 57.
Definition char6 (c : Z) : Prop := c = 46 \/ 48 <= c <= 58 \/ 97 <= c <= 122.
Lemma ip4_chars : forall t a, ip4_text t a -> Forall char4 t.
Proof. intros t a H. eapply Forall_impl; [|apply (ip4_no_colon t a H)]. unfold char4. cbv beta. intros; lia. Qed.
Lemma count_app : forall f a b, count f (a ++ b) = count f a + count f b.
Proof. intros. unfold count. rewrite filter_app, zlen_app. reflexivity. Qed.
Lemma count_none : forall f l, Forall (fun c => f c = false) l -> count f l = 0.
Proof. unfold count. induction 1 as [|c l H F IH]; [reflexivity|]. cbn [filter]. rewrite H. exact IH. Qed.
Lemma count_all : forall f l, Forall (fun c => f c = true) l -> count f l = zlen l.
Proof. unfold count. induction 1 as [|c l H F IH]; [reflexivity|]. cbn [filter]. rewrite H, !zlen_cons, IH. reflexivity. Qed.
Lemma count_nonneg : forall f l, 0 <= count f l.
Proof. intros. apply zlen_nonneg. Qed.
Lemma count_in : forall c l, In c l -> 1 <= count (Z.eqb c) l.
Proof. intros c l H. apply in_split in H. destruct H as (a & b & ->). rewrite count_app. unfold count at 2. cbn [filter]. rewrite Z.eqb_refl, zlen_cons. pose proof (count_nonneg (Z.eqb c) a). pose proof (zlen_nonneg (filter (Z.eqb c) b)). lia. Qed.
Lemma numeral_count : forall n f, numeral 10 n f -> 0 <= n < 256 -> count (Z.eqb 46) f = 0 /\ count is_digit f = zlen f /\ 1 <= zlen f <= 3.
Proof.
  intros n f H HN. pose proof (numeral_dec_chars _ _ H) as C. split; [apply count_none; eapply Forall_impl; [|exact C]; cbv beta; intros; lia|].
  split; [apply count_all; eapply Forall_impl; [|exact C]; unfold is_digit; cbv beta; intros; lia|]. apply (numeral_len 10 n); [lia|auto|lia|change (10 ^ 3) with 1000; lia].
Qed.
Lemma ip4_counts : forall t a, ip4_text t a -> count (Z.eqb 46) t = 3 /\ 3 <= count is_digit t /\ count (Z.eqb 58) t = 0 /\ zlen t <= 15.
Proof.
  intros t a H. assert (C58 : count (Z.eqb 58) t = 0) by (apply count_none; eapply Forall_impl; [|apply (ip4_chars t a H)]; unfold char4; cbv beta; intros; lia).
  enough (count (Z.eqb 46) t = 3 /\ 3 <= count is_digit t /\ zlen t <= 15) by tauto. clear C58.
  destruct H as (L & B & fs & F & ->). destruct F as [|n1 f1 a fs N1 F]; [discriminate|]. destruct F as [|n2 f2 a fs N2 F]; [discriminate|]. destruct F as [|n3 f3 a fs N3 F]; [discriminate|]. destruct F as [|n4 f4 a fs N4 F]; [discriminate|].
  destruct F as [|? ? ? ? ? F]; [|rewrite !zlen_cons in L; pose proof (zlen_nonneg l); lia].
  repeat match goal with B : bytes (_ :: _) |- _ => inversion B; clear B; subst | B : Forall byte (_ :: _) |- _ => inversion B; clear B; subst end. unfold byte in *.
  apply numeral_count in N1, N2, N3, N4; try lia. cbn [separated].
  assert (E : forall x f, count f (46 :: x) = (if f 46 then 1 else 0) + count f x) by (intros x f; unfold count; cbn [filter]; destruct (f 46); [rewrite zlen_cons|]; reflexivity).
  repeat rewrite ?count_app, ?E, ?zlen_app, ?zlen_cons. change (46 =? 46) with true. change (is_digit 46) with false. cbn iota. lia.
Qed.
Lemma sep_app_chars : forall (P : Z -> Prop) s fs, P s -> Forall (Forall P) fs -> Forall P (separated s fs).
Proof.
  intros P s fs HP F. induction F as [|f fs H F IH]; [constructor|]. destruct fs as [|g fs]; [exact H|]. change (separated s (f :: g :: fs)) with (f ++ s :: separated s (g :: fs)). apply Forall_app. split; [auto|]. constructor; auto.
Qed.
Lemma sep_len : forall s fs, zlen (separated s fs) <= fold_right (fun f n => zlen f + 1 + n) 0 fs.
Proof.
  intros s fs. induction fs as [|f fs IH]; [cbn; lia|]. destruct fs as [|g fs]; [cbn [separated fold_right]; lia|]. change (separated s (f :: g :: fs)) with (f ++ s :: separated s (g :: fs)). rewrite zlen_app, zlen_cons. cbn [fold_right] in *. lia.
Qed.
Lemma groups_chars : forall gs fs, groups_text gs fs -> Forall (Forall char6) fs.
Proof. induction 1 as [|g f gs fs N F IH]; constructor; auto. eapply Forall_impl; [|apply (numeral_chars 16 g f N)]. unfold alnum, char6. intros; lia. Qed.
Lemma groups_len : forall gs fs, groups_text gs fs -> Forall (fun g => 0 <= g < 65536) gs -> fold_right (fun f n => zlen f + 1 + n) 0 fs <= 5 * zlen gs.
Proof.
  induction 1 as [|g f gs fs N F IH]; intros B; [cbn; lia|]. inversion B; subst. cbn [fold_right]. rewrite zlen_cons. specialize (IH ltac:(auto)). pose proof (numeral_len 16 g f 4 ltac:(lia) N ltac:(lia) ltac:(change (16 ^ 4) with 65536; lia)). lia.
Qed.
Lemma fold_app : forall (a b : list (list Z)), fold_right (fun f n => zlen f + 1 + n) 0 (a ++ b) = fold_right (fun f n => zlen f + 1 + n) 0 a + fold_right (fun f n => zlen f + 1 + n) 0 b.
Proof. induction a as [|f a IH]; intros b; [reflexivity|]. cbn [app fold_right]. rewrite IH. lia. Qed.
Lemma tail_chars : forall gs fs, tail_text gs fs -> Forall (Forall char6) fs.
Proof.
  intros gs fs [H | (gs' & fs' & a & t & -> & -> & H & T)]; [eapply groups_chars; eauto|]. apply Forall_app. split; [eapply groups_chars; eauto|]. constructor; [|constructor]. eapply Forall_impl; [|apply (ip4_chars t a T)]. unfold char4, char6. intros; lia.
Qed.
Lemma tail_len : forall gs fs, tail_text gs fs -> Forall (fun g => 0 <= g < 65536) gs -> fold_right (fun f n => zlen f + 1 + n) 0 fs <= 5 * zlen gs + 6.
Proof.
  intros gs fs [H | (gs' & fs' & a & t & -> & -> & H & T)] B; [pose proof (groups_len _ _ H B); lia|]. rewrite fold_app, zlen_app. cbn [fold_right]. apply Forall_app in B. destruct B as [B _]. pose proof (groups_len _ _ H B). destruct (ip4_counts _ _ T) as (_ & _ & _ & L).
  change (zlen [unbe (firstn 2 a); unbe (skipn 2 a)]) with 2. lia.
Qed.
Lemma ip6_facts : forall t a, ip6_text t a -> Forall char6 t /\ In 58 t /\ zlen t <= 45 /\ zlen a = 16 /\ bytes a.
Proof.
  intros t a (gs & L & B & -> & H).
  assert (LA : zlen (concat (map (be 2) gs)) = 2 * zlen gs) by (clear; induction gs as [|g gs IH]; [reflexivity|]; cbn [map concat]; rewrite zlen_app, IH, be_length, zlen_cons; lia).
  assert (BA : bytes (concat (map (be 2) gs))) by (clear; induction gs as [|g gs IH]; [constructor|]; cbn [map concat]; apply bytes_app; split; [apply be_bytes|auto]).
  assert (L8 : zlen gs = 8) by (unfold zlen; lia). rewrite LA, L8. assert (C58 : char6 58) by (unfold char6; lia).
  destruct H as [(fs & T & ->) | (l & k & r & fl & fr & E & HL & HR & ->)].
  - split; [apply sep_app_chars; [auto|eapply tail_chars; eauto]|]. split; [|split; [|split; [reflexivity|auto]]].
    + assert (LF : (2 <= length fs)%nat).
      { destruct T as [T | (gs' & fs' & a & t & E1 & E2 & E3 & E4)]; [apply F2_len in T; lia|]. subst gs fs. apply F2_len in E3. rewrite app_length in *. cbn [length] in *. lia. }
      destruct fs as [|f [|g fs]]; cbn in LF; try lia. change (separated 58 (f :: g :: fs)) with (f ++ 58 :: separated 58 (g :: fs)). apply in_or_app. right. left. reflexivity.
    + assert (NE : fs <> []) by (intros ->; destruct T as [T | (gs' & fs' & ? & ? & _ & E2 & _)]; [inversion T; subst; discriminate|destruct fs'; discriminate]).
      assert (S1 : zlen (separated 58 fs) <= fold_right (fun f n => zlen f + 1 + n) 0 fs - 1).
      { clear - NE. induction fs as [|f fs IH]; [congruence|]. destruct fs as [|g fs]; [cbn [separated fold_right]; lia|]. change (separated 58 (f :: g :: fs)) with (f ++ 58 :: separated 58 (g :: fs)). rewrite zlen_app, zlen_cons. cbn [fold_right] in *. specialize (IH ltac:(discriminate)). lia. }
      pose proof (tail_len _ _ T B). lia.
  - subst gs. apply Forall_app in B. destruct B as [B1 B2]. apply Forall_app in B2. destruct B2 as [_ B2]. split.
    + apply Forall_app. split; [apply sep_app_chars; [auto|eapply groups_chars; eauto]|]. constructor; [auto|]. constructor; [auto|]. apply sep_app_chars; [auto|eapply tail_chars; eauto].
    + split; [apply in_or_app; right; left; reflexivity|]. split; [|split; [reflexivity|auto]]. rewrite !zlen_app. change (zlen [58; 58]) with 2. pose proof (sep_len 58 fl). pose proof (sep_len 58 fr). pose proof (groups_len _ _ HL B1). pose proof (tail_len _ _ HR B2).
      rewrite !zlen_app in L8. assert (1 <= zlen (repeat 0 (S k))) by (unfold zlen; rewrite repeat_length; lia). lia.
Qed.

(** ** Addresses without a port *)
Inductive addr : Type := AUnix (path : list Z) | A4 (a : list Z) | A6 (a : list Z) | ALL (a name : list Z).
Definition enc (v : addr) : list Z :=
  match v with AUnix p => 0 :: p ++ [0] | A4 a => 4 :: a | A6 a => 6 :: a | ALL a n => 7 :: a ++ n ++ [0] end.
Definition txt (v : addr) : list Z :=
  match v with AUnix p => p | A4 a => ntop4 a | A6 a => ntop6 a | ALL a n => ntop6 a ++ 37 :: n end.
Definition addr_ok (v : addr) : Prop :=
  match v with
  | AUnix p => ~ In 0 p
  | A4 a => bytes a /\ zlen a = 4
  | A6 a => bytes a /\ zlen a = 16
  | ALL a n => bytes a /\ zlen a = 16 /\ ~ In 0 n /\ n <> []
  end.
Definition is_unix (v : addr) : bool := match v with AUnix _ => true | _ => false end.
Lemma read_exact : forall a rest n, zlen a = n -> read (a ++ rest) n = Ok (a, rest).
Proof. intros a rest n <-. unfold read. rewrite zlen_app. pose proof (zlen_nonneg rest). replace (_ >? _) with false by lia. rewrite zfirstn_exact, zskipn_exact. reflexivity. Qed.
Lemma read_one : forall c rest, read (c :: rest) 1 = Ok ([c], rest).
Proof. intros. apply (read_exact [c] rest 1). reflexivity. Qed.
Lemma str_to_txt_spec : forall s rest d m, ~ In 0 s -> str_to_txt (s ++ 0 :: rest) (mkout d m) = if zlen s >=? m then Err KNOT_ESPACE else Ok (rest, mkout (d ++ s) (m - zlen s)).
Proof.
  intros s rest d m H. unfold str_to_txt. rewrite index_of_app by auto. rewrite zfirstn_exact. unfold write_txt. cbn [o_room o_data]. destruct (_ >=? m); [reflexivity|]. cbn [rbind]. do 2 f_equal.
  replace (zlen s + 1) with (zlen (s ++ [0])) by (rewrite zlen_app; reflexivity). replace (s ++ 0 :: rest) with ((s ++ [0]) ++ rest) by (rewrite <- app_assoc; reflexivity). rewrite zskipn_exact. reflexivity.
Qed.
Lemma noport_to_txt_spec : forall v rest d m, addr_ok v -> noport_to_txt (enc v ++ rest) (mkout d m) =
  if zlen (txt v) >=? m then Err KNOT_ESPACE else Ok (rest, mkout (d ++ txt v) (m - zlen (txt v))).
Proof.
  intros v rest d m H. destruct v as [p | a | a | a n]; unfold noport_to_txt; cbn [enc app]; rewrite read_one; cbn [rbind hd].
  - change (0 =? ADDR_UNIX) with true. cbn iota. rewrite <- app_assoc. cbn [app]. apply str_to_txt_spec. exact H.
  - change (4 =? ADDR_UNIX) with false. change (4 =? ADDR_IPV4) with true. cbn iota. destruct H as [_ L]. rewrite (read_exact a rest 4 L). cbn [rbind txt]. unfold write_txt. cbn [o_room o_data]. destruct (_ >=? m); reflexivity.
  - change (6 =? ADDR_UNIX) with false. change (6 =? ADDR_IPV4) with false. change ((6 =? ADDR_IPV6) || (6 =? ADDR_LINKLOCAL)) with true. cbn iota. destruct H as [_ L]. rewrite (read_exact a rest 16 L). cbn [rbind txt]. unfold write_txt. cbn [o_room o_data]. destruct (_ >=? m); reflexivity.
  - change (7 =? ADDR_UNIX) with false. change (7 =? ADDR_IPV4) with false. change ((7 =? ADDR_IPV6) || (7 =? ADDR_LINKLOCAL)) with true. cbn iota. destruct H as (_ & L & N0 & NE). rewrite <- !app_assoc. rewrite (read_exact a _ 16 L). cbn [rbind txt]. unfold write_txt at 1. cbn [o_room o_data].
    rewrite zlen_app, zlen_cons. pose proof (zlen_nonneg n). destruct (zlen (ntop6 a) >=? m) eqn:E; [replace (_ >=? m) with true by lia; reflexivity|]. cbn [rbind]. change (7 =? ADDR_LINKLOCAL) with true. cbn iota.
    destruct n as [|c n]; [congruence|]. cbn [app]. replace (c =? 0) with false by (symmetry; apply Z.eqb_neq; intros ->; apply N0; left; reflexivity).
    unfold write. cbn [o_room o_data]. change (zlen [37]) with 1. replace (1 >? m - zlen (ntop6 a)) with false by lia. cbn [rbind].
    change (c :: n ++ 0 :: rest) with ((c :: n) ++ 0 :: rest). rewrite str_to_txt_spec by auto. replace (zlen (c :: n) >=? m - zlen (ntop6 a) - 1) with (zlen (ntop6 a) + (1 + zlen (c :: n)) >=? m) by lia.
    destruct (zlen (ntop6 a) + _ >=? m); [reflexivity|]. do 3 f_equal; [|lia]. rewrite <- !app_assoc. reflexivity.
Qed.
Lemma in_text6 : forall a c, bytes a -> zlen a = 16 -> In c (ntop6 a) -> char6 c.
Proof. intros a c B L HI. destruct (ip6_facts _ _ (ntop6_spec a L B)) as (C & _). eapply Forall_forall in C; eauto. Qed.
Lemma in_text4 : forall a c, bytes a -> zlen a = 4 -> In c (ntop4 a) -> char4 c.
Proof. intros a c B L HI. pose proof (ip4_chars _ _ (ntop4_spec a L B)) as C. eapply Forall_forall in C; eauto. Qed.
Lemma strchr_in_none : forall c l, ~ In c l -> strchr c l = None.
Proof.
  intros c l H. unfold strchr. apply index_of_none. intros HI. apply H. clear H. induction l as [|x l IH]; [exact HI|]. cbn [cstr] in HI. destruct (x =? 0); [destruct HI|]. destruct HI as [HI|HI]; [left; auto|right; auto].
Qed.
Lemma str_to_bin_spec : forall s tail d r, zlen s + 1 <= r -> str_to_bin (s ++ tail) (zlen s) (mkout d r) = Ok (tail, mkout (d ++ s ++ [0]) (r - zlen s - 1)).
Proof.
  intros s tail d r H. unfold str_to_bin. rewrite zfirstn_exact, zskipn_exact. rewrite write_fits by lia. cbn [rbind]. rewrite write_fits by (change (zlen [0]) with 1; lia). cbn [rbind]. rewrite <- app_assoc. reflexivity.
Qed.
Lemma noport_to_bin_text : forall P v tail d r allow, reads_addresses P -> addr_ok v -> is_unix v = false -> zlen (enc v) <= r ->
  (match v with A6 _ => ~ In 37 tail | _ => True end) ->
  noport_to_bin P (txt v ++ tail) (zlen (txt v)) (mkout d r) allow = Ok (tail, mkout (d ++ enc v) (r - zlen (enc v))).
Proof.
  intros P v tail d r allow (P4 & P6 & _) H NU HR HT. unfold noport_to_bin, sock_type_guess. rewrite zfirstn_exact. destruct v as [p | a | a | a n]; [discriminate| | |]; cbn [txt enc] in *.
  - destruct H as [B L]. pose proof (ntop4_spec a L B) as T. destruct (ip4_counts _ _ T) as (C1 & C2 & C3 & C4). rewrite C3. change (0 >=? 1) with false. cbn iota. rewrite C1. change (3 =? 3) with true. replace (_ >=? 3) with true by lia. cbn [andb].
    change (is_ip_addr ADDR_IPV4) with true. cbn iota. cbn [rbind]. unfold copy_in. replace (_ >? 46) with false by lia. cbn [rbind]. rewrite zfirstn_exact, zskipn_exact.
    rewrite cstr_id by (intros HI; apply (in_text4 a 0 B L) in HI; unfold char4 in HI; lia). rewrite zlen_cons in HR. rewrite write_fits by (change (zlen [ADDR_IPV4]) with 1; lia). cbn [rbind]. change (ADDR_IPV4 =? ADDR_IPV4) with true. cbn iota. rewrite (P4 _ _ T).
    rewrite write_fits by (change (zlen [ADDR_IPV4]) with 1; lia). cbn [rbind]. rewrite <- app_assoc. change (zlen [ADDR_IPV4]) with 1. rewrite zlen_cons. apply f_equal, f_equal; apply f_equal2; [reflexivity|lia].
  - destruct H as [B L]. pose proof (ntop6_spec a L B) as T. destruct (ip6_facts _ _ T) as (C1 & C2 & C3 & _). pose proof (count_in _ _ C2). replace (_ >=? 1) with true by lia.
    rewrite strchr_in_none by (intros HI; apply in_app_or in HI; destruct HI as [HI|HI]; [apply (in_text6 a 37 B L) in HI; unfold char6 in HI; lia|auto]).
    change (is_ip_addr ADDR_IPV6) with true. cbn iota. cbn [rbind]. unfold copy_in. replace (_ >? 46) with false by lia. cbn [rbind]. rewrite zfirstn_exact, zskipn_exact.
    rewrite cstr_id by (intros HI; apply (in_text6 a 0 B L) in HI; unfold char6 in HI; lia). rewrite zlen_cons in HR. rewrite write_fits by (change (zlen [ADDR_IPV6]) with 1; lia). cbn [rbind]. change (ADDR_IPV6 =? ADDR_IPV4) with false. cbn iota. rewrite (P6 _ _ T).
    rewrite write_fits by (change (zlen [ADDR_IPV6]) with 1; lia). cbn [rbind]. rewrite <- app_assoc. change (zlen [ADDR_IPV6]) with 1. rewrite zlen_cons. apply f_equal, f_equal; apply f_equal2; [reflexivity|lia].
  - destruct H as (B & L & N0 & NE). pose proof (ntop6_spec a L B) as T. destruct (ip6_facts _ _ T) as (C1 & C2 & C3 & _). assert (C4 : In 58 (ntop6 a ++ 37 :: n)) by (apply in_or_app; left; auto). pose proof (count_in _ _ C4). replace (_ >=? 1) with true by lia.
    assert (N37 : ~ In 37 (ntop6 a)) by (intros HI; apply (in_text6 a 37 B L) in HI; unfold char6 in HI; lia). assert (N06 : ~ In 0 (ntop6 a)) by (intros HI; apply (in_text6 a 0 B L) in HI; unfold char6 in HI; lia).
    unfold strchr. rewrite cstr_app by (intros HI; apply in_app_or in HI; destruct HI as [HI|[HI|HI]]; [auto|lia|auto]). rewrite <- app_assoc. cbn [app]. rewrite index_of_app by auto.
    change (is_ip_addr ADDR_LINKLOCAL) with true. cbn iota. rewrite !zlen_app, zlen_cons. assert (1 <= zlen n) by (destruct n; [congruence|rewrite zlen_cons; pose proof (zlen_nonneg n); lia]). replace (_ >=? _) with false by lia. cbn [rbind].
    unfold copy_in. replace (_ >? 46) with false by lia. cbn [rbind]. rewrite <- app_assoc. rewrite zfirstn_exact, zskipn_exact. rewrite cstr_id by auto. rewrite zlen_cons, !zlen_app in HR. change (zlen [0]) with 1 in HR. rewrite write_fits by (change (zlen [ADDR_LINKLOCAL]) with 1; lia).
    cbn [rbind]. change (ADDR_LINKLOCAL =? ADDR_IPV4) with false. cbn iota. rewrite (P6 _ _ T). rewrite write_fits by (change (zlen [ADDR_LINKLOCAL]) with 1; lia). cbn [rbind app]. rewrite read_one. cbn [rbind].
    replace (zlen (ntop6 a) + (1 + zlen n) - zlen (ntop6 a) - 1) with (zlen n) by lia. change (zlen [ADDR_LINKLOCAL]) with 1. rewrite str_to_bin_spec by lia. rewrite <- !app_assoc. rewrite zlen_cons, !zlen_app. change (zlen [0]) with 1. apply f_equal, f_equal; apply f_equal2; [reflexivity|lia].
Qed.
Lemma slash_char : forall i n, hd 0 i = 47 -> 1 <= n -> Forall address_char (cstr (zfirstn n i)) -> False.
Proof.
  intros [|c i] n H HN F; [discriminate|]. cbn [hd] in H. subst c. unfold zfirstn in F. replace (Z.to_nat n) with (S (Z.to_nat (n - 1))) in F by lia. cbn [firstn cstr] in F. change (47 =? 0) with false in F. cbn iota in F. inversion F; subst. unfold address_char in *. lia.
Qed.
Lemma count_len : forall f n (i : list Z), 1 <= count f (zfirstn n i) -> 1 <= n.
Proof. intros f n i H. destruct (Z_lt_le_dec n 1); [|auto]. unfold zfirstn in H. replace (Z.to_nat n) with 0%nat in H by lia. cbn in H. lia. Qed.
Lemma noport_to_bin_inv : forall P i len d r allow i' o', reads_addresses P -> ~ In 0 i -> 0 <= len <= zlen i -> noport_to_bin P i len (mkout d r) allow = Ok (i', o') ->
  exists v, addr_ok v /\ i' = zskipn len i /\ zlen (enc v) <= r /\ o' = mkout (d ++ enc v) (r - zlen (enc v)) /\
    match v with
    | AUnix p => p = zfirstn len i /\ allow = true
    | A4 _ => True
    | A6 _ => ~ In 37 i
    | ALL _ n => forall c, In c n -> In c (zfirstn len i)
    end /\ (is_unix v = false -> hd 0 i <> 47).
Proof.
  intros P i len d r allow i' o' (_ & _ & W4 & W6) N0 HL. unfold noport_to_bin. destruct (sock_type_guess i len) as [type ifn] eqn:EG. unfold sock_type_guess in EG.
  assert (S0 : forall n, ~ In 0 (zfirstn n i)) by (intros n HI; apply In_zfirstn in HI; auto).
  destruct (count (Z.eqb 58) (zfirstn len i) >=? 1) eqn:ECO.
  - destruct (strchr 37 i) as [p|] eqn:ES; injection EG as <- <-.
    + change (is_ip_addr ADDR_LINKLOCAL) with true. cbn iota. unfold strchr in ES. rewrite cstr_id in ES by auto. apply index_of_some in ES. destruct ES as (x & y & -> & NX & ->). destruct (zlen x + 1 >=? len) eqn:EL; [discriminate|]. cbn [rbind].
      unfold copy_in. destruct (_ >? 46); [discriminate|]. cbn [rbind]. rewrite zskipn_exact. unfold write at 1. cbn [o_room o_data]. change (zlen [ADDR_LINKLOCAL]) with 1. destruct (1 >? r) eqn:E1; [discriminate|]. cbn [rbind]. change (ADDR_LINKLOCAL =? ADDR_IPV4) with false. cbn iota.
      destruct (p_inet6 P _) as [a|] eqn:EA; [|discriminate]. destruct (W6 _ _ EA) as (B & LA & CH). unfold write at 1. cbn [o_room o_data]. destruct (zlen a >? r - 1) eqn:E2; [discriminate|]. cbn [rbind]. rewrite read_one. cbn [rbind].
      unfold str_to_bin, write. cbn [o_room o_data]. set (n := zfirstn (len - zlen x - 1) y). assert (LN : zlen n = len - zlen x - 1) by (subst n; apply zlen_zfirstn; rewrite zlen_app, zlen_cons in HL; lia).
      match goal with |- context [zlen n >? ?k] => destruct (zlen n >? k) eqn:E3 end; [discriminate|]. cbn [rbind o_room o_data]. change (zlen [0]) with 1. match goal with |- context [1 >? ?k] => destruct (1 >? k) eqn:E4 end; [discriminate|]. cbn [rbind]. intros HX. injection HX as <- <-.
      exists (ALL a n). split; [split; [auto|split; [auto|split]]|].
      * intros HI. apply N0. apply in_or_app. right. right. eapply In_zfirstn; eauto.
      * intros E. rewrite E in LN. change (zlen (@nil Z)) with 0 in LN. lia.
      * split; [|split; [|split; [|split]]].
        -- unfold zskipn. pose proof (zlen_nonneg x). rewrite skipn_app. rewrite (skipn_all2 x) by (unfold zlen in EL; lia). cbn [app]. replace (Z.to_nat len - length x)%nat with (S (Z.to_nat (len - zlen x - 1))) by (unfold zlen in EL |- *; lia). reflexivity.
        -- cbn [enc]. rewrite zlen_cons, !zlen_app. change (zlen [0]) with 1. lia.
        -- cbn [enc]. rewrite <- !app_assoc. rewrite zlen_cons, !zlen_app. change (zlen [0]) with 1. cbn [app]. f_equal. lia.
        -- intros c HC. subst n. unfold zfirstn. pose proof (zlen_nonneg x). rewrite firstn_app. apply in_or_app. right. replace (Z.to_nat len - length x)%nat with (S (Z.to_nat (len - zlen x - 1))) by (unfold zlen in EL |- *; lia). right. exact HC.
        -- intros _ HH. apply (slash_char _ (zlen x) HH); [|exact CH]. destruct x; [discriminate|]. rewrite zlen_cons. pose proof (zlen_nonneg x). lia.
    + change (is_ip_addr ADDR_IPV6) with true. cbn iota. cbn [rbind]. unfold copy_in. destruct (_ >? 46); [discriminate|]. cbn [rbind]. unfold write at 1. cbn [o_room o_data]. change (zlen [ADDR_IPV6]) with 1. destruct (1 >? r) eqn:E1; [discriminate|]. cbn [rbind]. change (ADDR_IPV6 =? ADDR_IPV4) with false. cbn iota.
      destruct (p_inet6 P _) as [a|] eqn:EA; [|discriminate]. destruct (W6 _ _ EA) as (B & LA & CH). unfold write at 1. cbn [o_room o_data]. destruct (zlen a >? r - 1) eqn:E2; [discriminate|]. cbn [rbind]. intros HX. injection HX as <- <-.
      exists (A6 a). split; [split; auto|]. split; [reflexivity|]. cbn [enc]. rewrite zlen_cons. split; [lia|]. split; [rewrite <- app_assoc; cbn [app]; f_equal; lia|]. unfold strchr in ES. rewrite cstr_id in ES by auto. split; [apply index_of_none; auto|]. intros _ HH. apply (slash_char _ len HH); [|exact CH]. eapply count_len. apply Z.geb_le in ECO. exact ECO.
  - destruct (_ && _) eqn:EA4; injection EG as <- <-.
    + change (is_ip_addr ADDR_IPV4) with true. cbn iota. cbn [rbind]. unfold copy_in. destruct (_ >? 46); [discriminate|]. cbn [rbind]. unfold write at 1. cbn [o_room o_data]. change (zlen [ADDR_IPV4]) with 1. destruct (1 >? r) eqn:E1; [discriminate|]. cbn [rbind]. change (ADDR_IPV4 =? ADDR_IPV4) with true. cbn iota.
      destruct (p_inet P _) as [a|] eqn:EA; [|discriminate]. destruct (W4 _ _ EA) as (B & LA & CH). unfold write at 1. cbn [o_room o_data]. destruct (zlen a >? r - 1) eqn:E2; [discriminate|]. cbn [rbind]. intros HX. injection HX as <- <-.
      exists (A4 a). split; [split; auto|]. split; [reflexivity|]. cbn [enc]. rewrite zlen_cons. split; [lia|]. split; [rewrite <- app_assoc; cbn [app]; f_equal; lia|]. split; [exact I|]. intros _ HH. apply (slash_char _ len HH); [|exact CH]. apply andb_prop in EA4. destruct EA4 as [_ EA4]. apply (count_len is_digit len i). lia.
    + change (is_ip_addr ADDR_UNIX) with false. cbn iota. destruct allow; [|discriminate]. unfold write at 1. cbn [o_room o_data]. change (zlen [ADDR_UNIX]) with 1. destruct (1 >? r) eqn:E1; [discriminate|]. cbn [rbind].
      unfold str_to_bin, write. cbn [o_room o_data]. match goal with |- context [zlen (zfirstn len i) >? ?k] => destruct (zlen (zfirstn len i) >? k) eqn:E3 end; [discriminate|]. cbn [rbind o_room o_data]. change (zlen [0]) with 1. match goal with |- context [1 >? ?k] => destruct (1 >? k) eqn:E4 end; [discriminate|]. cbn [rbind]. intros HX. injection HX as <- <-.
      exists (AUnix (zfirstn len i)). split; [apply S0|]. split; [reflexivity|]. cbn [enc]. rewrite zlen_cons, zlen_app. change (zlen [0]) with 1. split; [lia|]. split; [rewrite <- !app_assoc; cbn [app]; f_equal; lia|]. split; [auto|discriminate].
Qed.
