(** Printing and reading numbers and addresses *)
From Verif Require Import Base DnameModel DnameSpec DnameProofs DnameProofs2 WireModel WireProofs TrafoModel TrafoSpec.

(** ** Numerals *)
Lemma value_app : forall base a b, 0 < base -> value base (a ++ b) = value base a * base ^ zlen b + value base b.
Proof.
  induction a as [|d a IH]; intros b HB; cbn [app value]; [lia|]. rewrite IH, zlen_app, Z.pow_add_r by (auto; apply zlen_nonneg). ring.
Qed.
Lemma digit_ok : forall base d, 2 <= base <= 36 -> 0 <= d < base -> digit_value base (digit d) d.
Proof.
  intros base d HB HD. unfold digit. destruct (d <? 10) eqn:E.
  - replace d with (48 + d - 48) at 2 by lia. constructor; lia.
  - replace d with (87 + d - 87) at 2 by lia. constructor; lia.
Qed.
Lemma print_loop_spec : forall base fuel n acc, 2 <= base <= 36 -> 0 <= n < base ^ Z.of_nat fuel -> (0 < fuel)%nat ->
  exists t ds, print_loop fuel base n acc = t ++ acc /\ Forall2 (digit_value base) t ds /\ value base ds = n /\ t <> [] /\ (t = [48] \/ hd 0 t <> 48).
Proof.
  intros base fuel. induction fuel as [|fuel IH]; intros n acc HB HN HF; [lia|]. cbn [print_loop]. cbv zeta.
  assert (HD : digit_value base (digit (n mod base)) (n mod base)) by (apply digit_ok; auto; apply Z.mod_pos_bound; lia).
  destruct (n <? base) eqn:E.
  - exists [digit (n mod base)], [n mod base]. split; [reflexivity|]. split; [repeat constructor; auto|]. split; [cbn [value]; change (base ^ zlen (@nil Z)) with 1; rewrite Z.mod_small by lia; lia|]. split; [discriminate|].
    rewrite Z.mod_small by lia. unfold digit. cbn [hd]. destruct (n <? 10) eqn:E1; [|right; lia]. destruct (Z.eq_dec n 0) as [->|]; [left; reflexivity|right; lia].
  - rewrite Nat2Z.inj_succ, Z.pow_succ_r in HN by lia.
    assert (HF' : (0 < fuel)%nat) by (destruct fuel; [cbn in HN; lia|lia]).
    destruct (IH (n / base) (digit (n mod base) :: acc) HB) as (t & ds & E1 & F & V & NE & Z0); auto.
    { split; [apply Z.div_pos; lia|]. apply Z.div_lt_upper_bound; lia. }
    exists (t ++ [digit (n mod base)]), (ds ++ [n mod base]). split; [rewrite E1, <- app_assoc; reflexivity|]. split; [apply Forall2_app; auto|].
    split; [rewrite value_app, V by lia; change (zlen [n mod base]) with 1; cbn [value]; change (base ^ zlen (@nil Z)) with 1; pose proof (Z.div_mod n base ltac:(lia)); lia|].
    split; [destruct t; discriminate|]. right. destruct t as [|c t]; [congruence|]. cbn [app hd]. destruct Z0 as [Z0|Z0]; [|exact Z0].
    injection Z0 as -> ->. inversion F as [|? ? ? ? D1 F1]; subst. inversion F1; subst. cbn [value] in V. change (base ^ zlen (@nil Z)) with 1 in V. inversion D1; subst; [|lia].
    assert (1 <= n / base) by (apply Z.div_le_lower_bound; lia). lia.
Qed.
Lemma print_num_spec : forall base n, 2 <= base <= 36 -> 0 <= n < 2 ^ 64 -> numeral base n (print_num base n).
Proof.
  intros base n HB HN. assert (2 ^ 64 <= base ^ Z.of_nat 64) by (apply Z.pow_le_mono_l; lia).
  destruct (print_loop_spec base 64 n [] HB ltac:(lia) ltac:(lia)) as (t & ds & E & H1 & H2 & H3 & H4). unfold print_num. rewrite E, app_nil_r. exists ds. auto.
Qed.

(** the characters of a numeral *)
Definition alnum (c : Z) : Prop := 48 <= c <= 57 \/ 97 <= c <= 122.
Lemma numeral_chars : forall base n t, numeral base n t -> Forall alnum t.
Proof.
  intros base n t (ds & F & _). clear n. induction F as [|c d t ds D F IH]; constructor; auto. unfold alnum. inversion D; lia.
Qed.
Lemma numeral_dec_chars : forall n t, numeral 10 n t -> Forall (fun c => 48 <= c <= 57) t.
Proof.
  intros n t (ds & F & _). clear n. induction F as [|c d t ds D F IH]; constructor; auto. inversion D; lia.
Qed.
Lemma value_bound : forall base t ds, 0 < base -> Forall2 (digit_value base) t ds -> 0 <= value base ds < base ^ zlen ds /\ zlen t = zlen ds.
Proof.
  intros base t ds HB F. induction F as [|c d t ds D F (IH & L)]; [cbn; lia|]. rewrite !zlen_cons, L. split; [|auto]. cbn [value]. rewrite Z.pow_add_r by (try lia; apply zlen_nonneg). rewrite Z.pow_1_r.
  assert (0 <= d < base) by (inversion D; lia). assert (0 < base ^ zlen ds) by (apply Z.pow_pos_nonneg; [lia|apply zlen_nonneg]). nia.
Qed.
Lemma value_nonzero : forall base t ds, 0 < base -> Forall2 (digit_value base) t ds -> t <> [] -> hd 0 t <> 48 -> base ^ (zlen t - 1) <= value base ds.
Proof.
  intros base t ds HB F NE H0. inversion F as [|c d t' ds' D F']; subst; [congruence|]. destruct (value_bound _ _ _ HB F') as [VB L]. rewrite zlen_cons, L. cbn [value hd] in *. replace (1 + zlen ds' - 1) with (zlen ds') by lia.
  assert (1 <= d) by (inversion D; subst; lia). assert (0 < base ^ zlen ds') by (apply Z.pow_pos_nonneg; [lia|apply zlen_nonneg]). nia.
Qed.
(** a numeral of a number below base^k is not longer than k *)
Lemma numeral_len : forall base n t k, 2 <= base -> numeral base n t -> 1 <= k -> n < base ^ k -> 1 <= zlen t <= k.
Proof.
  intros base n t k HB (ds & F & V & NE & Z0) HK HN. assert (1 <= zlen t) by (destruct t; [congruence|rewrite zlen_cons; pose proof (zlen_nonneg t); lia]). split; [auto|].
  destruct Z0 as [-> | Z0]; [exact HK|]. pose proof (value_nonzero base t ds ltac:(lia) F NE Z0) as B. destruct (Z_le_gt_dec (zlen t) k); [auto|].
  assert (base ^ k <= base ^ (zlen t - 1)) by (apply Z.pow_le_mono_r; lia). lia.
Qed.
Lemma numeral_zero : forall base t, 2 <= base -> numeral base 0 t -> t = [48].
Proof.
  intros base t HB (ds & F & V & NE & [Z0|Z0]); [auto|]. pose proof (value_nonzero base t ds ltac:(lia) F NE Z0). assert (0 < base ^ (zlen t - 1)) by (apply Z.pow_pos_nonneg; [lia|destruct t; [congruence|rewrite zlen_cons; pose proof (zlen_nonneg t); lia]]). lia.
Qed.
Lemma numeral_nonzero : forall base n t, 2 <= base -> numeral base n t -> n <> 0 -> hd 0 t <> 48.
Proof.
  intros base n t HB (ds & F & V & NE & [Z0|Z0]) HN; [|auto]. subst t. inversion F as [|? ? ? ? D F']; subst. inversion F'; subst. inversion D; subst; cbn [value] in HN; lia.
Qed.

(** reading *)
Lemma digits_spec : forall t ds rest acc, Forall2 (digit_value 10) t ds -> match rest with [] => True | c :: _ => is_digit c = false end ->
  digits (t ++ rest) acc = (acc * 10 ^ zlen ds + value 10 ds, rest).
Proof.
  intros t ds rest acc F HR. revert acc. induction F as [|c d t ds D F IH]; intros acc; cbn [app digits value].
  - change (10 ^ zlen (@nil Z)) with 1. destruct rest as [|c r]; [cbn; f_equal; lia|]. cbn [digits]. rewrite HR. f_equal; lia.
  - assert (48 <= c <= 57 /\ d = c - 48) as [C1 C2] by (inversion D; subst; lia).
    replace (is_digit c) with true by (unfold is_digit; lia). rewrite IH, zlen_cons, Z.pow_add_r by (try lia; apply zlen_nonneg). f_equal. subst d. ring.
Qed.
Lemma strtoll_spec : forall n rest, INT64_MIN <= n <= INT64_MAX -> match rest with [] => True | c :: _ => is_digit c = false end ->
  strtoll (print_dec n ++ rest) = Some (n, rest, false).
Proof.
  intros n rest HN HR. unfold INT64_MIN, INT64_MAX in HN. unfold print_dec. destruct (n <? 0) eqn:E.
  - destruct (print_num_spec 10 (- n) ltac:(lia) ltac:(lia)) as (ds & F & V & NE & _).
    unfold strtoll. cbn [app skip_spaces]. change (is_space 45) with false. cbn iota. change (45 =? 45) with true. cbn iota.
    destruct (print_num 10 (- n)) as [|c t] eqn:EP; [congruence|]. cbn [app]. assert (is_digit c = true) as -> by (inversion F as [|? ? ? ? D _]; subst; unfold is_digit; inversion D; lia).
    change (c :: t ++ rest) with ((c :: t) ++ rest). rewrite (digits_spec _ _ _ _ F HR), V. unfold INT64_MIN, INT64_MAX. replace (- (0 * 10 ^ zlen ds + - n)) with n by lia.
    rewrite Z.min_r, Z.max_r by lia. do 2 f_equal. lia.
  - destruct (print_num_spec 10 n ltac:(lia) ltac:(lia)) as (ds & F & V & NE & _).
    unfold strtoll. destruct (print_num 10 n) as [|c t] eqn:EP; [congruence|]. cbn [app skip_spaces]. assert (HC : 48 <= c <= 57) by (inversion F as [|? ? ? ? D _]; subst; inversion D; lia).
    replace (is_space c) with false by (unfold is_space; lia). cbn iota. replace (c =? 45) with false by lia. replace (c =? 43) with false by lia. cbn iota. replace (is_digit c) with true by (unfold is_digit; lia).
    change (c :: t ++ rest) with ((c :: t) ++ rest). rewrite (digits_spec _ _ _ _ F HR), V. unfold INT64_MIN, INT64_MAX. replace (0 * 10 ^ zlen ds + n) with n by lia.
    rewrite Z.min_r, Z.max_r by lia. do 2 f_equal. lia.
Qed.

(** ** Addresses *)
Lemma join_separated : forall s l, join s l = separated s l.
Proof. reflexivity. Qed.
Lemma ntop4_spec : forall a, zlen a = 4 -> bytes a -> ip4_text (ntop4 a) a.
Proof.
  intros a L B. split; [auto|]. split; [auto|]. exists (map (print_num 10) a). split; [|reflexivity].
  clear L. induction B as [|b a Hb B IH]; constructor; auto. apply print_num_spec; [lia|]. unfold byte in Hb. lia.
Qed.
Definition is_nil {A} (l : list A) : bool := match l with [] => true | _ => false end.
Definition chars (fs : list (list Z)) : list Z := concat (map (cons 58) fs).
Lemma separated_chars : forall f fs, separated 58 (f :: fs) = f ++ chars fs.
Proof.
  intros f fs. revert f. induction fs as [|g fs IH]; intros f; [cbn; rewrite app_nil_r; reflexivity|]. change (separated 58 (f :: g :: fs)) with (f ++ 58 :: separated 58 (g :: fs)). rewrite IH. reflexivity.
Qed.
Definition no_colon (f : list Z) : Prop := Forall (fun c => c <> 58) f.
Lemma spans_field : forall f rest i b m, 0 < i -> no_colon f -> spans (f ++ rest) i b m = spans rest (i + zlen f) b m.
Proof.
  induction f as [|c f IH]; intros rest i b m HI F; [cbn [app]; rewrite zlen_nil, Z.add_0_r; reflexivity|]. inversion F; subst. cbn [app spans]. cbv zeta. replace (i =? 0) with false by lia. replace (c =? 58) with false by lia. cbn [negb andb].
  rewrite IH by (auto; lia). rewrite zlen_cons. f_equal. lia.
Qed.
Lemma spans_chars : forall fs i b m, 0 < i -> Forall no_colon fs ->
  spans (chars fs) i b m = (b, m) \/ exists p q, fs = p ++ q /\ q <> [] /\ spans (chars fs) i b m = (i + zlen (chars p), strspn (chars q)).
Proof.
  induction fs as [|f fs IH]; intros i b m HI F; [left; reflexivity|]. inversion F as [|? ? F1 F2]; subst.
  change (chars (f :: fs)) with (58 :: f ++ chars fs) at 1 2. cbn [spans]. cbv zeta. change (58 =? 58) with true. cbn [negb]. rewrite andb_false_r.
  destruct (_ >? m) eqn:E; rewrite spans_field by (auto; lia).
  - right. destruct (IH (i + 1 + zlen f) i (strspn (58 :: f ++ chars fs)) ltac:(pose proof (zlen_nonneg f); lia) F2) as [E1 | (p & q & E1 & NE & E2)].
    + exists [], (f :: fs). split; [reflexivity|]. split; [discriminate|]. rewrite E1. change (zlen (chars [])) with 0. f_equal. lia.
    + exists (f :: p), q. split; [subst fs; reflexivity|]. split; [auto|]. rewrite E2. f_equal. change (chars (f :: p)) with (58 :: f ++ chars p). rewrite zlen_cons, zlen_app. lia.
  - destruct (IH (i + 1 + zlen f) b m ltac:(pose proof (zlen_nonneg f); lia) F2) as [E1 | (p & q & E1 & NE & E2)]; [left; auto|]. right.
    exists (f :: p), q. split; [subst fs; reflexivity|]. split; [auto|]. rewrite E2. f_equal. change (chars (f :: p)) with (58 :: f ++ chars p). rewrite zlen_cons, zlen_app. lia.
Qed.
(** fields of groups: zero is "0", others don't start by zero *)
Definition field (g : Z) (f : list Z) : Prop := no_colon f /\ f <> [] /\ (g = 0 -> f = [48]) /\ (g <> 0 -> hd 0 f <> 48).
Lemma numeral_field : forall g f, numeral 16 g f -> field g f.
Proof.
  intros g f H. pose proof (numeral_chars _ _ _ H) as HC. split; [|split; [|split]].
  - eapply Forall_impl; [|exact HC]. intros c [HC'|HC']; lia.
  - destruct H as (ds & _ & _ & NE & _). auto.
  - intros ->. apply (numeral_zero 16); [lia|auto].
  - intros HG. apply (numeral_nonzero 16 g); [lia|auto|auto].
Qed.
Lemma strspn_chars : forall gs fs, Forall2 field gs fs ->
  exists k r fr, gs = repeat 0 k ++ r /\ fs = repeat [48] k ++ fr /\ Forall2 field r fr /\
    strspn (chars fs) = 2 * Z.of_nat k + (if is_nil fr then 0 else 1) /\
    zskipn (strspn (chars fs)) (chars fs) = separated 58 fr.
Proof.
  induction 1 as [|g f gs fs F FS (k & r & fr & E1 & E2 & E3 & E4 & E5)].
  - exists 0%nat, [], []. repeat split; auto.
  - destruct F as (NC & NE & F0 & F1). destruct (Z.eq_dec g 0) as [->|HG].
    + exists (S k), r, fr. rewrite (F0 eq_refl). split; [cbn [repeat app]; congruence|]. split; [cbn [repeat app]; congruence|]. split; [auto|].
      change (chars ([48] :: fs)) with (58 :: 48 :: chars fs). cbn [strspn]. change ((58 =? 58) || (58 =? 48)) with true. change ((48 =? 58) || (48 =? 48)) with true. cbn iota.
      split; [lia|]. rewrite <- E5. assert (0 <= strspn (chars fs)) by (destruct (is_nil fr); lia). unfold zskipn.
      replace (Z.to_nat (1 + (1 + strspn (chars fs)))) with (S (S (Z.to_nat (strspn (chars fs))))) by lia. reflexivity.
    + exists 0%nat, (g :: gs), (f :: fs). split; [reflexivity|]. split; [reflexivity|]. split; [constructor; [repeat split; auto|auto]|].
      destruct f as [|c f]; [congruence|]. change (chars ((c :: f) :: fs)) with (58 :: c :: f ++ chars fs). cbn [strspn]. change ((58 =? 58) || (58 =? 48)) with true. cbn iota.
      specialize (F1 HG). cbn [hd] in F1. inversion NC; subst. replace ((c =? 58) || (c =? 48)) with false by lia. split; [reflexivity|].
      rewrite separated_chars. reflexivity.
Qed.
Lemma F2_len : forall {A B} (R : A -> B -> Prop) l p, Forall2 R l p -> length l = length p.
Proof. induction 1; cbn; congruence. Qed.
Lemma Forall2_cut : forall {A B} (R : A -> B -> Prop) l p q, Forall2 R l (p ++ q) -> exists l1 l2, l = l1 ++ l2 /\ Forall2 R l1 p /\ Forall2 R l2 q.
Proof. intros A B R l p q H. apply Forall2_app_inv_r in H. destruct H as (l1 & l2 & H1 & H2 & ->). eauto 6. Qed.
Lemma fields_numerals : forall gs fs, Forall2 (numeral 16) gs fs -> Forall2 field gs fs.
Proof. induction 1; constructor; auto. apply numeral_field. auto. Qed.
Lemma compress_groups : forall gs fs, Forall2 (numeral 16) gs fs -> gs <> [] ->
  compress (separated 58 fs) = separated 58 fs \/
  exists l k r fl fr, gs = l ++ repeat 0 (S k) ++ r /\ Forall2 (numeral 16) l fl /\ Forall2 (numeral 16) r fr /\ compress (separated 58 fs) = separated 58 fl ++ [58; 58] ++ separated 58 fr.
Proof.
  intros gs fs H NE. pose proof (fields_numerals _ _ H) as HF. inversion HF as [|g f gs' fs' F1 F2 E1 E2]; subst; [congruence|]. pose proof F1 as (NC & NF & F0 & F3).
  assert (NCs : Forall no_colon fs') by (clear - F2; induction F2 as [|? ? ? ? F _ IH]; constructor; auto; apply F).
  inversion H as [|? ? ? ? H1 H2]; subst.
  unfold compress. rewrite separated_chars. destruct f as [|c f]; [congruence|]. inversion NC; subst. cbn [app].
  cbn [spans]. cbv zeta. change (0 =? 0) with true. cbn [negb andb]. set (j := strspn (c :: f ++ chars fs')).
  (* what the rest of the scan gives *)
  assert (SC : forall b m, spans (f ++ chars fs') (0 + 1) b m = (b, m) \/ exists p q, fs' = p ++ q /\ q <> [] /\ spans (f ++ chars fs') (0 + 1) b m = (zlen (c :: f ++ chars p), strspn (chars q))).
  { intros b m. rewrite spans_field by (auto; lia). destruct (spans_chars fs' (0 + 1 + zlen f) b m ltac:(pose proof (zlen_nonneg f); lia) NCs) as [E | (p & q & E1 & E2 & E3)]; [left; auto|right].
    exists p, q. split; [auto|]. split; [auto|]. rewrite E3. f_equal. rewrite zlen_cons, zlen_app. lia. }
  (* a span inside *)
  assert (IN : forall p q, fs' = p ++ q -> q <> [] -> (strspn (chars q) >? 3) = true ->
     exists l k r fl fr, g :: gs' = l ++ repeat 0 (S k) ++ r /\ Forall2 (numeral 16) l fl /\ Forall2 (numeral 16) r fr /\
       zfirstn (zlen (c :: f ++ chars p)) (c :: f ++ chars fs') ++ [58; 58] ++ zskipn (zlen (c :: f ++ chars p) + strspn (chars q)) (c :: f ++ chars fs') = separated 58 fl ++ [58; 58] ++ separated 58 fr).
  { intros p q -> NQ HS. apply Forall2_cut in H2. destruct H2 as (g1 & g2 & -> & G1 & G2).
    destruct (strspn_chars _ _ (fields_numerals _ _ G2)) as (k & r & fr & K1 & K2 & K3 & K4 & K5).
    destruct k as [|k]; [destruct (is_nil fr); lia|].
    subst g2. apply Forall2_app_inv_l in G2. destruct G2 as (q1 & q2 & Q1 & Q2 & Q3). assert (q1 = repeat [48] (S k) /\ q2 = fr) as [-> ->].
    { rewrite K2 in Q3. apply F2_len in Q1. rewrite repeat_length in Q1. apply app_inj_len in Q3; [destruct Q3; auto|]. unfold zlen. rewrite repeat_length. lia. }
    exists (g :: g1), k, r, ((c :: f) :: p), fr. split; [reflexivity|]. split; [constructor; auto|]. split; [auto|].
    assert (EC : c :: f ++ chars (p ++ q) = (c :: f ++ chars p) ++ chars q) by (unfold chars; rewrite map_app, concat_app; cbn [app]; rewrite app_assoc; reflexivity).
    rewrite EC. f_equal; [|f_equal].
    - rewrite separated_chars. unfold zfirstn. rewrite firstn_app. unfold zlen. rewrite Nat2Z.id, firstn_all, Nat.sub_diag. cbn [firstn]. rewrite app_nil_r. reflexivity.
    - rewrite <- K5. unfold zskipn. rewrite skipn_app. pose proof (zlen_nonneg (c :: f ++ chars p)). assert (0 <= strspn (chars q)) by lia. rewrite skipn_all2 by (unfold zlen; lia). cbn [app]. f_equal. unfold zlen. lia. }
  destruct (j >? 2) eqn:EJ.
  - destruct (SC 0 j) as [E | (p & q & E1 & E2 & E3)].
    + rewrite E. destruct (j >? 3) eqn:EJ3; [|left; reflexivity]. right.
      (* the first field is zero *)
      assert (g = 0 /\ c = 48 /\ f = []) as (-> & -> & ->).
      { destruct (Z.eq_dec g 0) as [->|HG]; [specialize (F0 eq_refl); inversion F0; auto|]. specialize (F3 HG). cbn [hd] in F3. exfalso. subst j. cbn [strspn] in EJ. replace ((c =? 58) || (c =? 48)) with false in EJ by lia. discriminate. }
      destruct (strspn_chars _ _ F2) as (k & r & fr & K1 & K2 & K3 & K4 & K5). exists [], k, r, [], fr. split; [subst gs'; reflexivity|]. split; [constructor|].
      assert (HR : Forall2 (numeral 16) r fr).
      { subst gs'. apply Forall2_app_inv_l in H2. destruct H2 as (q1 & q2 & Q1 & Q2 & Q3). rewrite K2 in Q3. apply F2_len in Q1. rewrite repeat_length in Q1. apply app_inj_len in Q3; [destruct Q3; subst; auto|]. unfold zlen. rewrite repeat_length. lia. }
      split; [auto|]. subst j. cbn [app]. cbn [strspn]. change ((48 =? 58) || (48 =? 48)) with true. cbn iota. change (zfirstn 0 (48 :: chars fs')) with (@nil Z). cbn [app separated]. f_equal. f_equal.
      rewrite <- K5. assert (0 <= strspn (chars fs')) by (destruct (is_nil fr); lia). unfold zskipn. replace (Z.to_nat (0 + (1 + strspn (chars fs')))) with (Datatypes.S (Z.to_nat (strspn (chars fs')))) by lia. reflexivity.
    + rewrite E3. destruct (strspn (chars q) >? 3) eqn:E4; [|left; reflexivity]. right. apply IN; auto.
  - destruct (SC 0 2) as [E | (p & q & E1 & E2 & E3)].
    + rewrite E. left. reflexivity.
    + rewrite E3. destruct (strspn (chars q) >? 3) eqn:E4; [|left; reflexivity]. right. apply IN; auto.
Qed.

Lemma pairs_spec : forall a, bytes a -> Z.even (zlen a) = true -> Forall (fun g => 0 <= g < 65536) (pairs a) /\ a = concat (map (be 2) (pairs a)) /\ 2 * zlen (pairs a) = zlen a.
Proof.
  assert (G : forall n a, (length a <= n)%nat -> bytes a -> Z.even (zlen a) = true -> Forall (fun g => 0 <= g < 65536) (pairs a) /\ a = concat (map (be 2) (pairs a)) /\ 2 * zlen (pairs a) = zlen a).
  { induction n as [|n IH]; intros a L B E; [destruct a; [repeat split; constructor|cbn in L; lia]|]. destruct a as [|x [|y a]]; [repeat split; constructor|discriminate|].
    inversion B as [|? ? B1 B2]; subst. inversion B2 as [|? ? B3 B4]; subst. cbn [length] in L. rewrite !zlen_cons in E. replace (1 + (1 + zlen a)) with (zlen a + 2 * 1) in E by lia. rewrite Z.even_add_mul_2 in E.
    destruct (IH a ltac:(lia) B4 E) as (I1 & I2 & I3). unfold byte in *. cbn [pairs map concat]. split; [constructor; [lia|auto]|]. split; [|rewrite !zlen_cons; lia].
    rewrite <- I2. cbn [be app]. change (256 ^ Z.of_nat 1) with 256. change (256 ^ Z.of_nat 0) with 1. f_equal; [|f_equal].
    - rewrite Z.mul_comm, Z.div_add_l, (Z.div_small y), Z.add_0_r by lia. rewrite Z.mod_small by lia. reflexivity.
    - rewrite Z.div_1_r. rewrite Z.add_comm, Z.mul_comm, Z.mod_add, Z.mod_small by lia. reflexivity. }
  intros a. apply (G (length a) a). lia.
Qed.
Lemma ip4_no_colon : forall t a, ip4_text t a -> Forall (fun c => 46 <= c <= 57 /\ c <> 47) t.
Proof.
  intros t a (_ & _ & fs & F & ->). induction F as [|n f a fs N F IH]; [constructor|]. apply numeral_dec_chars in N.
  assert (NF : Forall (fun c => 46 <= c <= 57 /\ c <> 47) f) by (eapply Forall_impl; [|exact N]; cbv beta; intros; lia).
  destruct fs as [|f' fs]; [exact NF|]. change (separated 46 (f :: f' :: fs)) with (f ++ 46 :: separated 46 (f' :: fs)). apply Forall_app. split; [auto|]. constructor; [lia|auto].
Qed.
Lemma ip4_split : forall t a, ip4_text t a -> exists f r, t = f ++ 46 :: r /\ zlen f <= 3.
Proof.
  intros t a (L & B & fs & F & ->). destruct F as [|n f a fs N F]; [discriminate|]. destruct F as [|n2 f2 a fs N2 F]; [discriminate|].
  exists f, (separated 46 (f2 :: fs)). split; [reflexivity|]. inversion B as [|? ? B1 _]; subst. unfold byte in B1. apply (numeral_len 10 n f 3); [lia|auto|lia|change (10 ^ 3) with 1000; lia].
Qed.
Lemma strspn_dot : forall f r, 0 <= strspn (f ++ 46 :: r) <= zlen f.
Proof.
  induction f as [|c f IH]; intros r; [cbn; lia|]. cbn [app strspn]. rewrite zlen_cons. specialize (IH r). pose proof (zlen_nonneg f). destruct (_ || _); lia.
Qed.
Lemma ntop6_spec : forall a, zlen a = 16 -> bytes a -> ip6_text (ntop6 a) a.
Proof.
  intros a L B. destruct (pairs_spec a B ltac:(rewrite L; reflexivity)) as (G1 & G2 & G3). exists (pairs a). split; [unfold zlen in *; lia|]. split; [auto|]. split; [auto|].
  unfold ntop6. destruct (DnameModel.bytes_eqb _ _) eqn:E.
  - assert (EA : zfirstn 12 a = [0; 0; 0; 0; 0; 0; 0; 0; 0; 0; 255; 255]) by (apply DnameProofs2.bytes_eqb_spec; auto).
    rewrite EA. change (pairs [0; 0; 0; 0; 0; 0; 0; 0; 0; 0; 255; 255]) with [0; 0; 0; 0; 0; 65535]. set (q := zskipn 12 a).
    assert (LQ : zlen q = 4) by (subst q; rewrite zlen_zskipn; lia). assert (BQ : bytes q) by (subst q; unfold zskipn; apply Forall_forall; intros x HX; eapply Forall_forall; [exact B|]; rewrite <- (firstn_skipn (Z.to_nat 12) a); apply in_or_app; right; auto).
    pose proof (ntop4_spec q LQ BQ) as T4. right. exists [], 4%nat, [65535; unbe (firstn 2 q); unbe (skipn 2 q)], [], [[102; 102; 102; 102]; ntop4 q].
    assert (EP : pairs a = repeat 0 5 ++ [65535; unbe (firstn 2 q); unbe (skipn 2 q)]).
    { rewrite <- (firstn_skipn (Z.to_nat 12) a). change (firstn (Z.to_nat 12) a) with (zfirstn 12 a). rewrite EA. change (skipn (Z.to_nat 12) a) with q. clearbody q. clear - LQ. destruct q as [|q1 [|q2 [|q3 [|q4 [|]]]]]; try discriminate LQ; [|rewrite !zlen_cons in LQ; pose proof (zlen_nonneg l); lia]. 
      cbn [app pairs firstn skipn repeat]. unfold unbe. cbn [fold_left]. repeat (apply f_equal2; [lia|]). reflexivity. }
    split; [exact EP|]. split; [constructor|]. split.
    + right. exists [65535], [[102; 102; 102; 102]], q, (ntop4 q). split; [reflexivity|]. split; [reflexivity|]. split; [|auto]. constructor; [|constructor]. change [102; 102; 102; 102] with (print_num 16 65535). apply print_num_spec; lia.
    + change (join 58 (map (print_num 16) [0; 0; 0; 0; 0; 65535])) with [48; 58; 48; 58; 48; 58; 48; 58; 48; 58; 102; 102; 102; 102]. cbn [app].
      assert (NC : no_colon (ntop4 q)) by (eapply Forall_impl; [|apply (ip4_no_colon _ q T4)]; cbv beta; intros; lia).
      destruct (ip4_split _ _ T4) as (f & r & EU & LF). set (u := ntop4 q) in *. clearbody u.
      assert (S2 : strspn (58 :: u) <= 4) by (cbn [strspn]; change ((58 =? 58) || (58 =? 48)) with true; cbn iota; rewrite EU; pose proof (strspn_dot f r); lia).
      unfold compress. change (48 :: 58 :: 48 :: 58 :: 48 :: 58 :: 48 :: 58 :: 48 :: 58 :: 102 :: 102 :: 102 :: 102 :: 58 :: u) with ([48; 58; 48; 58; 48; 58; 48; 58; 48; 58; 102; 102; 102; 102] ++ 58 :: u).
      assert (SE : spans ([48; 58; 48; 58; 48; 58; 48; 58; 48; 58; 102; 102; 102; 102] ++ 58 :: u) 0 0 2 = (0, 10)).
      { transitivity (spans (58 :: u) 14 0 10); [reflexivity|]. cbn [spans]. cbv zeta. change (14 =? 0) with false. change (58 =? 58) with true. cbn [negb andb]. replace (strspn (58 :: u) >? 10) with false by lia.
        rewrite <- (app_nil_r u), spans_field by (auto; lia). reflexivity. }
      rewrite SE. reflexivity.
  - rewrite join_separated. assert (N : Forall2 (numeral 16) (pairs a) (map (print_num 16) (pairs a))).
    { clear - G1. induction G1 as [|g gs H G IH]; constructor; auto. apply print_num_spec; lia. }
    destruct (compress_groups _ _ N) as [-> | (l & k & r & fl & fr & E1 & E2 & E3 & ->)].
    + destruct (pairs a); [cbn in G3; lia|discriminate].
    + left. exists (map (print_num 16) (pairs a)). split; [left; exact N|reflexivity].
    + right. exists l, k, r, fl, fr. split; [auto|]. split; [auto|]. split; [left; auto|reflexivity].
Qed.
