(** The meaning of numbers with units, and a reader of addresses *)
From Verif Require Import Base DnameModel DnameSpec DnameProofs WireModel WireProofs TrafoModel TrafoSpec TrafoProofs TrafoProofs2 TrafoProofs3 TrafoProofs4.

Lemma unit_of_means : forall u c f, s_size u && s_time u = false -> (unit_of c u = Some f <-> unit_means u c f).
Proof.
  intros [a b] c f H. cbn [s_size s_time] in H. unfold unit_of, unit_means. cbn [s_size s_time]. split.
  - destruct a; [|destruct b; [|discriminate]]; intros HX; [left|right]; (split; [reflexivity|]); repeat match type of HX with context [c =? ?k] => let E := fresh in destruct (c =? k) eqn:E; [injection HX as <-; assert (c = k) as -> by lia; constructor|] end; discriminate.
  - intros [[-> HU]|[-> HU]]; [|destruct a; [discriminate|]]; destruct HU; reflexivity.
Qed.
Lemma is_space_blank : forall c, is_space c = true <-> blank c.
Proof. intros. unfold is_space, blank. lia. Qed.
Lemma skip_blanks : forall ws x, Forall blank ws -> skip_spaces (ws ++ x) = skip_spaces x.
Proof. induction 1 as [|c ws H F IH]; [reflexivity|]. cbn [app skip_spaces]. apply is_space_blank in H. rewrite H. exact IH. Qed.
Lemma skip_split : forall l, exists ws, l = ws ++ skip_spaces l /\ Forall blank ws.
Proof.
  induction l as [|c l (ws & E & F)]; [exists []; split; [reflexivity|constructor]|]. cbn [skip_spaces]. destruct (is_space c) eqn:EC.
  - exists (c :: ws). split; [cbn [app]; rewrite <- E; reflexivity|]. constructor; [apply is_space_blank; auto|auto].
  - exists []. split; [reflexivity|constructor].
Qed.
Lemma digits_split : forall l acc v rest, digits l acc = (v, rest) -> exists t ds, l = t ++ rest /\ Forall2 (digit_value 10) t ds /\ v = acc * 10 ^ zlen ds + value 10 ds /\ match l with c :: _ => is_digit c = true -> t <> [] | [] => True end.
Proof.
  induction l as [|c l IH]; intros acc v rest H; cbn [digits] in H.
  - injection H as <- <-. exists [], []. split; [reflexivity|]. split; [constructor|]. split; [cbn; lia|auto].
  - destruct (is_digit c) eqn:E.
    + destruct (IH _ _ _ H) as (t & ds & -> & F & -> & _). exists (c :: t), (c - 48 :: ds). split; [reflexivity|]. unfold is_digit in E. split; [constructor; [apply dec_digit; lia|auto]|]. split; [|discriminate]. cbn [value]. rewrite zlen_cons, Z.pow_add_r by (try lia; apply zlen_nonneg). ring.
    + injection H as <- <-. exists [], []. split; [reflexivity|]. split; [constructor|]. split; [cbn; lia|discriminate].
Qed.
Lemma strtoll_number : forall t k rest, number_text t k -> match rest with [] => True | c :: _ => is_digit c = false end ->
  strtoll (t ++ rest) = Some (Z.max INT64_MIN (Z.min INT64_MAX k), rest, (k <? INT64_MIN) || (INT64_MAX <? k)).
Proof.
  intros t k rest (ws & sign & t' & ds & -> & FW & FD & NE & HK) HR. unfold strtoll. rewrite <- !app_assoc. rewrite skip_blanks by auto. destruct t' as [|c t']; [congruence|].
  assert (DC : is_digit c = true /\ is_space c = false /\ (c =? 45) = false /\ (c =? 43) = false) by (inversion FD as [|? ? ? ? D _]; subst; unfold is_digit, is_space; inversion D; subst; lia). destruct DC as (D1 & D2 & D3 & D4). pose proof (digits_spec (c :: t') ds rest 0 FD HR) as DS. cbn [app] in DS. rewrite Z.mul_0_l, Z.add_0_l in DS.
  destruct HK as [[-> ->]|[[-> ->]|[-> ->]]]; cbn [app skip_spaces].
  - rewrite D2, D3, D4, D1. rewrite DS. reflexivity.
  - change (is_space 43) with false. cbn iota. change (43 =? 45) with false. change (43 =? 43) with true. cbn iota. rewrite D1, DS. reflexivity.
  - change (is_space 45) with false. cbn iota. change (45 =? 45) with true. cbn iota. rewrite D1, DS. reflexivity.
Qed.
Lemma strtoll_inv : forall l n rest, strtoll l = Some (n, rest, false) -> exists t, l = t ++ rest /\ number_text t n /\ INT64_MIN <= n <= INT64_MAX.
Proof.
  intros l n rest H. unfold strtoll in H. destruct (skip_split l) as (ws & E & FW). set (x := skip_spaces l) in *. clearbody x.
  assert (G : exists sign y (neg : bool), x = sign ++ y /\ (match x with c :: l' => if c =? 45 then (true, l') else if c =? 43 then (false, l') else (false, x) | [] => (false, x) end) = (neg, y) /\ (neg = false /\ sign = [] \/ neg = false /\ sign = [43] \/ neg = true /\ sign = [45])).
  { destruct x as [|c x]; [exists [], [], false; auto 10|]. destruct (c =? 45) eqn:E1; [exists [45], x, true; assert (c = 45) as -> by lia; auto 10|]. destruct (c =? 43) eqn:E2; [exists [43], x, false; assert (c = 43) as -> by lia; auto 10|]. exists [], (c :: x), false; auto 10. }
  destruct G as (sign & y & neg & EX & EM & HS). rewrite EM in H. destruct y as [|c y]; [discriminate|]. destruct (is_digit c) eqn:ED; [|discriminate]. destruct (digits (c :: y) 0) as [v r] eqn:EG. destruct (digits_split _ _ _ _ EG) as (t & ds & ET & FD & EV & NE). cbv beta iota in NE.
  injection H as H1 -> H3. exists (ws ++ sign ++ t). split; [rewrite E, EX, ET, <- !app_assoc; reflexivity|]. assert (HV : v = value 10 ds) by lia. assert (HN : n = if neg then - v else v) by (apply orb_false_iff in H3; lia).
  split; [|apply orb_false_iff in H3; unfold INT64_MIN, INT64_MAX in *; lia]. exists ws, sign, t, ds. split; [reflexivity|]. split; [auto|]. split; [auto|]. split; [apply NE; auto|]. destruct HS as [[-> ->]|[[-> ->]|[-> ->]]]; subst; auto.
Qed.
Lemma int_to_bin_means : forall t k v o min max u, s_size u && s_time u = false -> ~ In 0 t -> zlen t <= 31 -> int_means u t k v -> - 2 ^ 63 < min -> max < 2 ^ 63 -> (k = - 2 ^ 63 -> number_text t k) ->
  int_to_bin t (zlen t) o min max u = if (v <? min) || (max <? v) then Err KNOT_ERANGE else let* o := write o (be 8 (u64 v)) in Ok ([], o).
Proof.
  intros t k v o min max u HU N0 HL HM H1 H2 HK. unfold int_to_bin, copy_in. replace (_ >? 32) with false by lia. cbn [rbind]. rewrite zfirstn_all, zskipn_all, cstr_id by auto. unfold INT64_MIN, INT64_MAX in *.
  destruct HM as [[HN ->]|(t' & c & f & -> & HN & HC & ->)].
  - pose proof (strtoll_number t k [] HN I) as S1. rewrite app_nil_r in S1. rewrite S1. unfold INT64_MIN, INT64_MAX. destruct ((k <? - 2 ^ 63) || (2 ^ 63 - 1 <? k)) eqn:EO; [replace ((k <? min) || (max <? k)) with true by lia; reflexivity|]. cbn [rbind]. replace (Z.max _ _) with k by lia. rewrite Z.gtb_ltb. destruct (_ || _); reflexivity.
  - apply unit_of_means in HC; auto. destruct (unit_nondigit _ _ _ HC) as (ND & MB & _). rewrite (strtoll_number t' k [c] HN ND). unfold INT64_MIN, INT64_MAX.
    destruct ((k <? - 2 ^ 63) || (2 ^ 63 - 1 <? k)) eqn:EO; [replace ((k * f <? min) || (max <? k * f)) with true by (symmetry; apply orb_true_iff in EO; apply orb_true_iff; rewrite !Z.ltb_lt in *; nia); reflexivity|]. replace (Z.max _ _) with k by lia. unfold remove_unit. rewrite HC. unfold INT64_MIN, INT64_MAX.
    assert (NK : k <> - 2 ^ 63).
    { intros EK. specialize (HK EK). pose proof (strtoll_number _ _ [] HK I) as S1. rewrite app_nil_r in S1. pose proof (strtoll_number t' k [c] HN ND) as S2. rewrite S1 in S2. discriminate. }
    replace ((k <? 0) && (k =? - 2 ^ 63)) with false by lia. set (a := if k >=? 0 then k else - k). assert (HA : a = Z.abs k) by (unfold a; destruct (k >=? 0) eqn:EK; lia). destruct ((2 ^ 63 - 1) / f <? a) eqn:EF.
    + cbn [rbind]. assert (G : (2 ^ 63 - 1) < a * f) by (apply Z.ltb_lt in EF; pose proof (Z.mul_succ_div_gt (2 ^ 63 - 1) f ltac:(lia)); nia). assert (Z.abs (k * f) = a * f) by (rewrite Z.abs_mul, HA; f_equal; lia). replace (_ || _) with true by lia. reflexivity.
    + cbn [rbind]. rewrite Z.gtb_ltb. destruct (_ || _); reflexivity.
Qed.
Lemma int_to_bin_only : forall t o i' o' min max u, s_size u && s_time u = false -> ~ In 0 t -> int_to_bin t (zlen t) o min max u = Ok (i', o') -> zlen t <= 31 /\ exists k v, int_means u t k v /\ min <= v <= max /\ write o (be 8 (u64 v)) = Ok o'.
Proof.
  intros t o i' o' min max u HU N0 H. unfold int_to_bin, copy_in in H. destruct (zlen t + 1 >? 32) eqn:E1; [discriminate|]. split; [lia|]. cbn [rbind] in H. rewrite zfirstn_all, cstr_id in H by auto. destruct (strtoll t) as [[[n rest] rg]|] eqn:ES; [|discriminate]. destruct rg; [discriminate|]. destruct (strtoll_inv _ _ _ ES) as (t' & -> & HN & HB).
  destruct rest as [|c [|c2 rest]]; [| |discriminate].
  - cbn [rbind] in H. destruct (_ || _) eqn:EO; [discriminate|]. destruct (write o _) as [o2| | |] eqn:EW; try discriminate. injection H as _ ->. exists n, n. rewrite app_nil_r. split; [left; auto|]. split; [lia|auto].
  - unfold remove_unit in H. destruct (unit_of c u) as [f|] eqn:EU; [|discriminate]. destruct ((n <? 0) && _); [discriminate|]. match type of H with context [if ?b then Err KNOT_ERANGE else Ok (n * f)] => destruct b; [discriminate|] end. cbn [rbind] in H. destruct (_ || _) eqn:EO; [discriminate|]. destruct (write o _) as [o2| | |] eqn:EW; try discriminate. injection H as _ ->.
    exists n, (n * f). split; [right; exists t', c, f; split; [reflexivity|]; split; [auto|]; split; [apply unit_of_means; auto|reflexivity]|]. split; [lia|auto].
Qed.

(** ** A reader of addresses *)
Fixpoint split (s : Z) (l : list Z) : list (list Z) :=
  match l with [] => [[]] | c :: l => if c =? s then [] :: split s l else match split s l with f :: fs => (c :: f) :: fs | [] => [] end end.
Fixpoint numval (base : Z) (l : list Z) (acc : Z) : option Z :=
  match l with
  | [] => Some acc
  | c :: l => let d := if is_digit c then c - 48 else if (97 <=? c) && (c <=? 122) then c - 87 else base in if d <? base then numval base l (base * acc + d) else None
  end.
Fixpoint all (l : list (option Z)) : option (list Z) := match l with [] => Some [] | Some x :: l => option_map (cons x) (all l) | None :: _ => None end.
Definition is_addr_char (c : Z) : bool := (c =? 46) || ((48 <=? c) && (c <=? 58)) || ((65 <=? c) && (c <=? 70)) || ((97 <=? c) && (c <=? 102)).
Definition read4 (t : list Z) : option (list Z) :=
  match all (map (fun f => numval 10 f 0) (split 46 t)) with
  | Some a => if (zlen a =? 4) && forallb (fun b => (0 <=? b) && (b <? 256)) a && forallb is_addr_char t then Some a else None
  | None => None
  end.
Definition fields (t : list Z) : list (list Z) := match t with [] => [] | _ => split 58 t end.
Fixpoint groups (fs : list (list Z)) : option (list Z) :=
  match fs with
  | [] => Some []
  | [f] => if existsb (Z.eqb 46) f then option_map (fun a => [unbe (firstn 2 a); unbe (skipn 2 a)]) (read4 f) else option_map (fun g => [g]) (numval 16 f 0)
  | f :: fs => match numval 16 f 0, groups fs with Some g, Some gs => Some (g :: gs) | _, _ => None end
  end.
Fixpoint cut (l : list Z) : option (list Z * list Z) :=
  match l with
  | [] => None
  | c :: l' => match l' with d :: l'' => if (c =? 58) && (d =? 58) then Some ([], l'') else option_map (fun x => (c :: fst x, snd x)) (cut l') | [] => None end
  end.
Definition read6 (t : list Z) : option (list Z) :=
  if negb (forallb is_addr_char t) then None else
  match cut t with
  | None => match groups (fields t) with Some gs => if (length gs =? 8)%nat then Some (concat (map (be 2) gs)) else None | None => None end
  | Some (l, r) =>
    match groups (fields l), groups (fields r) with
    | Some gl, Some gr => if (length gl + length gr <=? 7)%nat then Some (concat (map (be 2) (gl ++ repeat 0 (8 - length gl - length gr) ++ gr))) else None
    | _, _ => None
    end
  end.
Definition ref_pton : pton := mkpton read4 read6.

Lemma split_one : forall s f, ~ In s f -> split s f = [f].
Proof. induction f as [|c f IH]; intros H; [reflexivity|]. cbn [split]. replace (c =? s) with false by (symmetry; apply Z.eqb_neq; intros ->; apply H; left; reflexivity). rewrite IH; [reflexivity|]. intros HI. apply H. right. auto. Qed.
Lemma split_cons : forall s f l, ~ In s f -> split s (f ++ s :: l) = f :: split s l.
Proof. induction f as [|c f IH]; intros l H; [cbn [app split]; rewrite Z.eqb_refl; reflexivity|]. cbn [app split]. replace (c =? s) with false by (symmetry; apply Z.eqb_neq; intros ->; apply H; left; reflexivity). rewrite IH; [reflexivity|]. intros HI. apply H. right. auto. Qed.
Lemma split_separated : forall s fs, fs <> [] -> Forall (fun f => ~ In s f) fs -> split s (separated s fs) = fs.
Proof.
  induction fs as [|f fs IH]; intros NE F; [congruence|]. inversion F; subst. destruct fs as [|g fs]; [apply split_one; auto|]. change (separated s (f :: g :: fs)) with (f ++ s :: separated s (g :: fs)). rewrite split_cons by auto. rewrite IH; [reflexivity|discriminate|auto].
Qed.
Lemma numval_spec : forall base t ds acc, 2 <= base <= 36 -> Forall2 (digit_value base) t ds -> numval base t acc = Some (acc * base ^ zlen ds + value base ds).
Proof.
  intros base t ds acc HB F. revert acc. induction F as [|c d t ds D F IH]; intros acc; cbn [numval value]; [cbn; f_equal; lia|].
  assert ((if is_digit c then c - 48 else if (97 <=? c) && (c <=? 122) then c - 87 else base) = d /\ d < base) as [-> HD] by (unfold is_digit; destruct D; split; try lia; [replace (_ && _) with true by lia; reflexivity|replace ((48 <=? c) && (c <=? 57)) with false by lia; replace (_ && _) with true by lia; reflexivity]).
  replace (d <? base) with true by lia. rewrite IH, zlen_cons, Z.pow_add_r by (try lia; apply zlen_nonneg). f_equal. rewrite Z.pow_1_r. ring.
Qed.
Lemma numval_numeral : forall base n f, 2 <= base <= 36 -> numeral base n f -> numval base f 0 = Some n.
Proof. intros base n f HB (ds & F & V & _). rewrite (numval_spec base f ds 0 HB F). f_equal. lia. Qed.
Lemma addr_char_spec : forall c, is_addr_char c = true <-> address_char c.
Proof. intros. unfold is_addr_char, address_char. lia. Qed.
Lemma hex_chars : forall n f, numeral 16 n f -> Forall (fun c => 48 <= c <= 57 \/ 97 <= c <= 102) f /\ f <> [].
Proof.
  intros n f (ds & F & _ & NE & _). split; [|auto]. clear NE. induction F as [|c d f ds D F IH]; constructor; auto. destruct D; lia.
Qed.
Lemma read4_text : forall t a, ip4_text t a -> read4 t = Some a.
Proof.
  intros t a T. pose proof (ip4_chars t a T) as C. destruct T as (L & B & fs & F & ->). unfold read4. rewrite split_separated.
  - assert (E : all (map (fun f => numval 10 f 0) fs) = Some a). { clear - F. induction F as [|n f a fs N F IH]; [reflexivity|]. cbn [map all]. rewrite (numval_numeral 10 n f ltac:(lia) N). rewrite IH. reflexivity. }
    rewrite E, L, Z.eqb_refl. cbn [andb]. assert (forallb (fun b => (0 <=? b) && (b <? 256)) a = true) as -> by (apply forallb_forall; intros b HI; unfold bytes in B; rewrite Forall_forall in B; apply B in HI; unfold byte in HI; lia). cbn [andb].
    assert (forallb is_addr_char (separated 46 fs) = true) as -> by (apply forallb_forall; intros c HI; rewrite Forall_forall in C; apply C in HI; apply addr_char_spec; unfold char4 in HI; unfold address_char; lia). reflexivity.
  - intros ->. inversion F; subst. discriminate.
  - clear - F. induction F as [|n f a fs N F IH]; constructor; auto. intros HI. pose proof (numeral_dec_chars _ _ N) as C. eapply Forall_forall in C; [|exact HI]. cbv beta in C. lia.
Qed.
Definition field6 (f : list Z) : Prop := f <> [] /\ ~ In 58 f /\ Forall address_char f.
Lemma groups_fields : forall gs fs, groups_text gs fs -> Forall field6 fs.
Proof.
  induction 1 as [|g f gs fs N F IH]; constructor; auto. destruct (hex_chars _ _ N) as [C NE]. split; [auto|]. split; [intros HI; eapply Forall_forall in C; [|exact HI]; cbv beta in C; lia|]. eapply Forall_impl; [|exact C]. unfold address_char. intros; lia.
Qed.
Lemma tail_fields : forall gs fs, tail_text gs fs -> Forall field6 fs.
Proof.
  intros gs fs [H | (gs' & fs' & a & t & -> & -> & H & T)]; [eapply groups_fields; eauto|]. apply Forall_app. split; [eapply groups_fields; eauto|]. constructor; [|constructor]. pose proof (ip4_chars t a T) as C. destruct (ip4_counts t a T) as (C1 & _). split; [intros ->; discriminate|].
  split; [intros HI; eapply Forall_forall in C; [|exact HI]; unfold char4 in C; lia|]. eapply Forall_impl; [|exact C]. unfold char4, address_char. intros; lia.
Qed.
Lemma groups_read : forall gs fs, groups_text gs fs -> groups fs = Some gs.
Proof.
  induction 1 as [|g f gs fs N F IH]; [reflexivity|]. destruct F as [|g2 f2 gs fs N2 F].
  - cbn [groups]. destruct (hex_chars _ _ N) as [C NE]. replace (existsb (Z.eqb 46) f) with false; [rewrite (numval_numeral 16 g f ltac:(lia) N); reflexivity|]. symmetry. apply Bool.not_true_is_false. intros HX. apply existsb_exists in HX. destruct HX as (c & HI & HC). eapply Forall_forall in C; [|exact HI]. cbv beta in C. lia.
  - change (groups (f :: f2 :: fs)) with (match numval 16 f 0, groups (f2 :: fs) with Some g, Some gs => Some (g :: gs) | _, _ => None end). rewrite IH, (numval_numeral 16 g f ltac:(lia) N). reflexivity.
Qed.
Lemma tail_read : forall gs fs, tail_text gs fs -> groups fs = Some gs.
Proof.
  intros gs fs [H | (gs' & fs' & a & t & -> & -> & H & T)]; [apply groups_read; auto|]. induction H as [|g f gs fs N F IH].
  - cbn [app groups]. destruct (ip4_counts t a T) as (C1 & _). replace (existsb (Z.eqb 46) t) with true; [rewrite (read4_text t a T); reflexivity|]. symmetry. apply existsb_exists. unfold count in C1. destruct (filter (Z.eqb 46) t) as [|c l] eqn:EF; [discriminate|]. exists c. apply filter_In. rewrite EF. left. reflexivity.
  - cbn [app]. destruct (fs ++ [t]) as [|f2 r] eqn:EA; [destruct fs; discriminate|]. change (groups (f :: f2 :: r)) with (match numval 16 f 0, groups (f2 :: r) with Some g, Some gs => Some (g :: gs) | _, _ => None end). rewrite IH, (numval_numeral 16 g f ltac:(lia) N). reflexivity.
Qed.
Lemma fields_separated : forall fs, Forall field6 fs -> fields (separated 58 fs) = fs.
Proof.
  intros fs F. destruct fs as [|f fs]; [reflexivity|]. unfold fields. pose proof (split_separated 58 (f :: fs) ltac:(discriminate)) as E. assert (F2 : Forall (fun f => ~ In 58 f) (f :: fs)) by (eapply Forall_impl; [|exact F]; intros x (_ & H & _); auto). rewrite (E F2).
  destruct (separated 58 (f :: fs)) eqn:ES; [|reflexivity]. inversion F as [|? ? (NE & _) _]; subst. destruct f; [congruence|]. destruct fs; discriminate.
Qed.
Lemma cut_app : forall f l, ~ In 58 f -> cut (f ++ l) = option_map (fun x => (f ++ fst x, snd x)) (cut l).
Proof.
  induction f as [|c f IH]; intros l H; [cbn [app]; destruct (cut l) as [[x y]|]; reflexivity|]. assert (NC : (c =? 58) = false) by (apply Z.eqb_neq; intros ->; apply H; left; reflexivity). assert (NF : ~ In 58 f) by (intros HI; apply H; right; auto). specialize (IH l NF).
  cbn [app cut]. destruct (f ++ l) as [|d r] eqn:EL.
  - destruct f, l; try discriminate. reflexivity.
  - rewrite NC. cbn [andb]. rewrite IH. destruct (cut l) as [[x y]|]; reflexivity.
Qed.
Lemma cut_colon : forall d r, d <> 58 -> cut (58 :: d :: r) = option_map (fun x => (58 :: fst x, snd x)) (cut (d :: r)).
Proof. intros d r H. cbn [cut]. replace (d =? 58) with false by lia. rewrite andb_false_r. reflexivity. Qed.
Lemma cut_separated : forall fs, Forall field6 fs -> cut (separated 58 fs) = None /\ forall r, cut (separated 58 fs ++ 58 :: 58 :: r) = Some (separated 58 fs, r).
Proof.
  induction 1 as [|f fs (NE & N58 & _) F IH]; [split; reflexivity|]. destruct fs as [|g fs].
  - cbn [separated]. split; [pose proof (cut_app f [] N58) as E; rewrite app_nil_r in E; exact E|]. intros r. rewrite cut_app by auto. cbn. rewrite app_nil_r. reflexivity.
  - change (separated 58 (f :: g :: fs)) with (f ++ 58 :: separated 58 (g :: fs)). destruct IH as [I1 I2]. assert (HD : exists d x, separated 58 (g :: fs) = d :: x /\ d <> 58).
    { inversion F as [|? ? (NG & N8 & _) _]; subst. destruct g as [|d g]; [congruence|]. exists d. assert (d <> 58) by (intros ->; apply N8; left; reflexivity). destruct fs; eexists; split; eauto; reflexivity. }
    destruct HD as (d & x & E & ND). rewrite E in *. split.
    + rewrite cut_app by auto. rewrite cut_colon by auto. rewrite I1. reflexivity.
    + intros r. rewrite <- app_assoc. cbn [app]. rewrite cut_app by auto. rewrite cut_colon by auto. specialize (I2 r). cbn [app] in I2. rewrite I2. reflexivity.
Qed.
Lemma sep_chars : forall fs, Forall field6 fs -> Forall address_char (separated 58 fs).
Proof. intros fs F. apply sep_app_chars; [unfold address_char; lia|]. eapply Forall_impl; [|exact F]. intros f (_ & _ & H). exact H. Qed.
Lemma chars_ok : forall t, Forall address_char t -> forallb is_addr_char t = true.
Proof. intros t F. apply forallb_forall. intros c HI. apply addr_char_spec. eapply Forall_forall in F; eauto. Qed.
Lemma read6_text : forall t a, ip6_text t a -> read6 t = Some a.
Proof.
  intros t a (gs & L & B & -> & H). unfold read6. destruct H as [(fs & T & ->) | (l & k & r & fl & fr & E & HL & HR & ->)].
  - pose proof (tail_fields _ _ T) as F. rewrite chars_ok by (apply sep_chars; auto). cbn [negb]. destruct (cut_separated fs F) as [-> _]. rewrite fields_separated by auto. rewrite (tail_read _ _ T). rewrite L. reflexivity.
  - pose proof (groups_fields _ _ HL) as F1. pose proof (tail_fields _ _ HR) as F2. rewrite chars_ok. 2:{ apply Forall_app. split; [apply sep_chars; auto|]. constructor; [unfold address_char; lia|]. constructor; [unfold address_char; lia|]. apply sep_chars; auto. }
    cbn [negb app]. destruct (cut_separated fl F1) as [_ ->]. rewrite !fields_separated by auto. rewrite (groups_read _ _ HL), (tail_read _ _ HR). subst gs. rewrite !app_length, repeat_length in L. replace (_ <=? 7)%nat with true by (symmetry; apply Nat.leb_le; lia). replace (8 - length l - length r)%nat with (S k) by lia. reflexivity.
Qed.
Lemma chars_back : forall t, forallb is_addr_char t = true -> Forall address_char t.
Proof. intros t H. rewrite forallb_forall in H. apply Forall_forall. intros c HI. apply addr_char_spec. auto. Qed.
Lemma concat_be2 : forall gs, bytes (concat (map (be 2) gs)) /\ zlen (concat (map (be 2) gs)) = 2 * zlen gs.
Proof. induction gs as [|g gs [IH1 IH2]]; [split; [constructor|reflexivity]|]. cbn [map concat]. split; [apply bytes_app; split; [apply be_bytes|auto]|]. rewrite zlen_app, IH2, be_length, zlen_cons. lia. Qed.
Lemma ref_reads : reads_addresses ref_pton.
Proof.
  split; [exact read4_text|]. split; [exact read6_text|]. cbn [p_inet p_inet6 ref_pton]. split; intros t a H.
  - unfold read4 in H. destruct (all _) as [x|]; [|discriminate]. destruct (_ && _) eqn:E; [|discriminate]. injection H as ->. apply andb_prop in E. destruct E as [E E3]. apply andb_prop in E. destruct E as [E1 E2]. split; [|split; [lia|apply chars_back; auto]]. rewrite forallb_forall in E2. apply Forall_forall. intros b HI. apply E2 in HI. unfold byte. lia.
  - unfold read6 in H. destruct (forallb is_addr_char t) eqn:EC; [|discriminate]. cbn [negb] in H. apply chars_back in EC. enough (bytes a /\ zlen a = 16) by tauto. destruct (cut t) as [[l r]|].
    + destruct (groups (fields l)) as [gl|]; [|discriminate]. destruct (groups (fields r)) as [gr|]; [|discriminate]. destruct (_ <=? 7)%nat eqn:E; [|discriminate]. assert (a = concat (map (be 2) (gl ++ repeat 0 (8 - length gl - length gr) ++ gr))) as -> by congruence. destruct (concat_be2 (gl ++ repeat 0 (8 - length gl - length gr) ++ gr)) as [C1 C2]. split; [auto|]. rewrite C2. unfold zlen. rewrite !app_length, repeat_length. apply Nat.leb_le in E. lia.
    + destruct (groups (fields t)) as [gs|]; [|discriminate]. destruct (_ =? 8)%nat eqn:E; [|discriminate]. assert (a = concat (map (be 2) gs)) as -> by congruence. destruct (concat_be2 gs) as [C1 C2]. split; [auto|]. rewrite C2. apply Nat.eqb_eq in E. unfold zlen. lia.
Qed.
