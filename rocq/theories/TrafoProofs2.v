(** Numbers and addresses: there and back *)
From Verif Require Import Base DnameModel DnameSpec DnameProofs DnameProofs2 WireModel WireProofs TrafoModel TrafoSpec TrafoProofs.

Lemma zfirstn_exact : forall {A} (a b : list A), zfirstn (zlen a) (a ++ b) = a.
Proof. intros. unfold zfirstn, zlen. rewrite Nat2Z.id, firstn_app, Nat.sub_diag, firstn_all. cbn [firstn]. apply app_nil_r. Qed.
Lemma zskipn_exact : forall {A} (a b : list A), zskipn (zlen a) (a ++ b) = b.
Proof. intros. unfold zskipn, zlen. rewrite Nat2Z.id, skipn_app, Nat.sub_diag, skipn_all. reflexivity. Qed.
Lemma cstr_id : forall l, ~ In 0 l -> cstr l = l.
Proof. induction l as [|c l IH]; intros H; [reflexivity|]. cbn [cstr]. destruct (c =? 0) eqn:E; [exfalso; apply H; left; lia|]. rewrite IH; [reflexivity|]. intros HI. apply H. right. auto. Qed.
Lemma cstr_app : forall a b, ~ In 0 a -> cstr (a ++ b) = a ++ cstr b.
Proof. induction a as [|c l IH]; intros b H; [reflexivity|]. cbn [cstr app]. destruct (c =? 0) eqn:E; [exfalso; apply H; left; lia|]. rewrite IH; [reflexivity|]. intros HI. apply H. right. auto. Qed.
Lemma In_zfirstn : forall {A} n (l : list A) x, In x (zfirstn n l) -> In x l.
Proof. intros A n l x H. rewrite <- (firstn_skipn (Z.to_nat n) l). apply in_or_app. left. exact H. Qed.
Lemma In_zskipn : forall {A} n (l : list A) x, In x (zskipn n l) -> In x l.
Proof. intros A n l x H. rewrite <- (firstn_skipn (Z.to_nat n) l). apply in_or_app. right. exact H. Qed.
Lemma index_of_none : forall c l, index_of c l = None <-> ~ In c l.
Proof.
  induction l as [|x l IH]; cbn [index_of]; [split; auto|]. destruct (x =? c) eqn:E.
  - split; [discriminate|]. intros H. exfalso. apply H. left. lia.
  - destruct (index_of c l); cbn [option_map]; split; intros H; try discriminate; try reflexivity.
    + exfalso. apply H. right. destruct (in_dec Z.eq_dec c l) as [HI|HI]; [auto|]. apply IH in HI. discriminate.
    + intros [HI|HI]; [lia|]. apply (proj1 IH eq_refl). auto.
Qed.
Lemma index_of_app : forall c a b, ~ In c a -> index_of c (a ++ c :: b) = Some (zlen a).
Proof.
  induction a as [|x a IH]; intros b H; cbn [app index_of]; [rewrite Z.eqb_refl; reflexivity|]. destruct (x =? c) eqn:E; [exfalso; apply H; left; lia|]. rewrite IH; [cbn [option_map]; rewrite zlen_cons; reflexivity|]. intros HI. apply H. right. auto.
Qed.
Lemma index_of_some : forall c l p, index_of c l = Some p -> exists a b, l = a ++ c :: b /\ ~ In c a /\ p = zlen a.
Proof.
  induction l as [|x l IH]; intros p H; cbn [index_of] in H; [discriminate|]. destruct (x =? c) eqn:E.
  - injection H as <-. exists [], l. assert (x = c) as -> by lia. split; [reflexivity|]. split; [auto|reflexivity].
  - destruct (index_of c l) as [q|]; [|discriminate]. cbn [option_map] in H. injection H as <-. destruct (IH q eq_refl) as (a & b & -> & N & ->). exists (x :: a), b. split; [reflexivity|]. split; [intros [HI|HI]; [lia|auto]|]. rewrite zlen_cons. reflexivity.
Qed.
Lemma last_index_none : forall c l, last_index c l = None <-> ~ In c l.
Proof.
  induction l as [|x l IH]; cbn [last_index]; [split; auto|]. destruct (last_index c l).
  - split; [discriminate|]. intros H. exfalso. apply H. right. destruct (in_dec Z.eq_dec c l) as [HI|HI]; [auto|]. apply IH in HI. discriminate.
  - destruct (x =? c) eqn:E; split; intros H; try discriminate; try reflexivity.
    + exfalso. apply H. left. lia.
    + intros [HI|HI]; [lia|]. apply (proj1 IH eq_refl). auto.
Qed.
Lemma last_index_app : forall c a b, ~ In c b -> last_index c (a ++ c :: b) = Some (zlen a).
Proof.
  induction a as [|x a IH]; intros b H; cbn [app last_index].
  - apply last_index_none in H. rewrite H, Z.eqb_refl. reflexivity.
  - rewrite IH by auto. rewrite zlen_cons. f_equal. lia.
Qed.
Lemma last_index_some : forall c l p, last_index c l = Some p -> exists a b, l = a ++ c :: b /\ ~ In c b /\ p = zlen a.
Proof.
  induction l as [|x l IH]; intros p H; cbn [last_index] in H; [discriminate|]. destruct (last_index c l) as [q|] eqn:E.
  - injection H as <-. destruct (IH q eq_refl) as (a & b & -> & N & ->). exists (x :: a), b. split; [reflexivity|]. split; [auto|rewrite zlen_cons; lia].
  - destruct (x =? c) eqn:E1; [|discriminate]. injection H as <-. exists [], l. assert (x = c) as -> by lia. split; [reflexivity|]. split; [apply last_index_none; auto|reflexivity].
Qed.

(** ** Numbers *)
Definition nondigit_start (l : list Z) : Prop := match l with [] => True | c :: _ => is_digit c = false end.
Lemma unit_nondigit : forall c st m, unit_of c st = Some m -> is_digit c = false /\ 1 <= m <= 2 ^ 40 /\ c <> 0.
Proof.
  intros c st m. unfold unit_of, is_digit. destruct (s_size st); [|destruct (s_time st)]; repeat match goal with |- context [c =? ?k] => let E := fresh in destruct (c =? k) eqn:E end; try discriminate; intros HX; injection HX as <-; lia.
Qed.
Lemma add_unit_spec : forall n st, match add_unit n st with
  | (k, []) => k = n
  | (k, [c]) => exists m, unit_of c st = Some m /\ k * m = n
  | _ => False
  end.
Proof.
  intros n st. unfold add_unit, unit_of.
  assert (Q : forall m, m <> 0 -> Z.rem n m = 0 -> Z.quot n m * m = n) by (intros m Hm HR; pose proof (Z.quot_rem n m Hm); lia).
  destruct (s_size st); [|destruct (s_time st)]; repeat match goal with |- context [n <? ?k] => destruct (n <? k) end;
    match goal with |- context [Z.rem n ?m =? 0] => destruct (Z.rem n m =? 0) eqn:E end;
    try (eexists; split; [reflexivity|]; first [apply Q; lia | lia]); try reflexivity.
  rewrite Z.quot_1_r. reflexivity.
Qed.
Lemma print_dec_len : forall n, - 2 ^ 63 <= n < 2 ^ 63 -> 1 <= zlen (print_dec n) <= 20.
Proof.
  intros n HN. unfold print_dec. assert (G : forall k, 0 <= k <= 2 ^ 63 -> 1 <= zlen (print_num 10 k) <= 19).
  { intros k HK. apply (numeral_len 10 k); [lia|apply print_num_spec; lia|lia|]. assert (2 ^ 63 < 10 ^ 19) by reflexivity. lia. }
  destruct (n <? 0) eqn:E0; [rewrite zlen_cons; specialize (G (- n) ltac:(lia)); lia|specialize (G n ltac:(lia)); lia].
Qed.
Lemma print_dec_chars : forall n, - 2 ^ 63 <= n < 2 ^ 63 -> Forall (fun c => c = 45 \/ 48 <= c <= 57) (print_dec n).
Proof.
  intros n HN. unfold print_dec. assert (G : forall k, 0 <= k <= 2 ^ 63 -> Forall (fun c => c = 45 \/ 48 <= c <= 57) (print_num 10 k)).
  { intros k HK. eapply Forall_impl; [|apply (numeral_dec_chars k), print_num_spec; lia]. cbv beta. intros; lia. }
  destruct (n <? 0) eqn:E0; [constructor; [lia|apply G; lia]|apply G; lia].
Qed.
Lemma i64_u64 : forall n, - 2 ^ 63 <= n < 2 ^ 63 -> i64 (unbe (be 8 (u64 n))) = n.
Proof.
  intros n HN. rewrite unbe_be. change (256 ^ Z.of_nat 8) with (2 ^ 64). unfold u64, i64. rewrite Zmod_mod.
  destruct (Z_lt_le_dec n 0); [rewrite <- (Z.mod_add n 1) by lia; rewrite Z.mod_small by lia; replace (_ <? _) with false by lia; lia|].
  rewrite Z.mod_small by lia. replace (_ <? _) with true by lia. reflexivity.
Qed.
Definition int_text (n : Z) (st : style) : list Z := let '(k, u) := add_unit n st in print_dec k ++ u.
Lemma add_unit_bound : forall n st, Z.abs (fst (add_unit n st)) <= Z.abs n.
Proof.
  intros n st. pose proof (add_unit_spec n st) as H. destruct (add_unit n st) as [k [|c [|]]]; try contradiction; cbn [fst]; [subst; lia|].
  destruct H as (m & HU & <-). apply unit_nondigit in HU. rewrite Z.abs_mul. assert (1 <= Z.abs m) by lia. nia.
Qed.
Lemma int_text_len : forall n st, - 2 ^ 63 < n < 2 ^ 63 -> 1 <= zlen (int_text n st) <= 21 /\ ~ In 0 (int_text n st).
Proof.
  intros n st HN. unfold int_text. pose proof (add_unit_spec n st) as H. pose proof (add_unit_bound n st) as B. destruct (add_unit n st) as [k u]. cbn [fst] in B.
  pose proof (print_dec_len k ltac:(lia)). pose proof (print_dec_chars k ltac:(lia)) as C. assert (N0 : ~ In 0 (print_dec k)) by (intros HI; eapply Forall_forall in C; [|exact HI]; cbv beta in C; lia).
  destruct u as [|c [|]]; try contradiction; rewrite zlen_app; [rewrite app_nil_r; change (zlen (@nil Z)) with 0; split; [lia|auto]|]. change (zlen [c]) with 1. split; [lia|]. destruct H as (m & HU & _). apply unit_nondigit in HU.
  intros HI. apply in_app_or in HI. destruct HI as [HI|[HI|[]]]; [auto|]. lia.
Qed.
Lemma read_be8 : forall v rest, read (be 8 v ++ rest) 8 = Ok (be 8 v, rest).
Proof.
  intros v rest. unfold read. assert (L : zlen (be 8 v) = 8) by (rewrite be_length; reflexivity). rewrite zlen_app, L. pose proof (zlen_nonneg rest). replace (_ >? _) with false by lia. rewrite <- L at 1 2. rewrite zfirstn_exact, zskipn_exact. reflexivity.
Qed.
Lemma int_to_txt_spec : forall n rest d m st, - 2 ^ 63 < n < 2 ^ 63 ->
  int_to_txt (be 8 (u64 n) ++ rest) (mkout d m) st = if zlen (int_text n st) >=? m then Err KNOT_ESPACE else Ok (rest, mkout (d ++ int_text n st) (m - zlen (int_text n st))).
Proof.
  intros n rest d m st HN. unfold int_to_txt. rewrite read_be8. cbn [rbind]. rewrite i64_u64 by lia. unfold int_text, write_txt. destruct (add_unit n st) as [k u]. cbn [o_room o_data]. destruct (_ >=? m); reflexivity.
Qed.
(** the units that may be printed may be read *)
Definition within (st st' : style) : Prop := forall c m, unit_of c st = Some m -> unit_of c st' = Some m.
Lemma within_and : forall u st, s_size u && s_time u = false -> within (mkstyle (s_size u && s_size st) (s_time u && s_time st)) u.
Proof.
  intros [a b] [c d] H x m. cbn [s_size s_time] in *. unfold unit_of. cbn [s_size s_time]. destruct a, b; try discriminate; cbn [andb]; destruct c, d; auto; discriminate.
Qed.
Lemma within_refl : forall st, within st st.
Proof. intros st c m H. exact H. Qed.
Lemma write_fits : forall d r l, zlen l <= r -> write (mkout d r) l = Ok (mkout (d ++ l) (r - zlen l)).
Proof. intros. unfold write. cbn [o_room o_data]. replace (_ >? _) with false by lia. reflexivity. Qed.
Lemma int_to_bin_text : forall n st st' tail d r min max, - 2 ^ 63 < n < 2 ^ 63 -> within st st' -> min <= n <= max -> 8 <= r ->
  int_to_bin (int_text n st ++ tail) (zlen (int_text n st)) (mkout d r) min max st' = Ok (tail, mkout (d ++ be 8 (u64 n)) (r - 8)).
Proof.
  intros n st st' tail d r min max HN HW HM HR. destruct (int_text_len n st HN) as [L N0]. unfold int_to_bin, copy_in. replace (_ >? 32) with false by lia. cbn [rbind]. rewrite zfirstn_exact, zskipn_exact, cstr_id by auto.
  pose proof (add_unit_spec n st) as H. pose proof (add_unit_bound n st) as B. unfold int_text. destruct (add_unit n st) as [k u]. cbn [fst] in B.
  rewrite strtoll_spec.
  - assert (W : (if (n <? min) || (n >? max) then Err KNOT_ERANGE else let* o := write (mkout d r) (be 8 (u64 n)) in Ok (tail, o)) = Ok (tail, mkout (d ++ be 8 (u64 n)) (r - 8))).
    { replace ((n <? min) || (n >? max)) with false by lia. rewrite write_fits by (rewrite be_length; lia). reflexivity. }
    destruct u as [|c [|]]; try contradiction; [subst k; exact W|]. destruct H as (m & HU & HK). unfold remove_unit. rewrite (HW _ _ HU). unfold INT64_MIN, INT64_MAX. replace ((k <? 0) && (k =? - 2 ^ 63)) with false by lia.
    replace (_ <? (if k >=? 0 then k else - k)) with false; [cbn [rbind]; rewrite HK; exact W|]. symmetry. apply unit_nondigit in HU. assert (HB : Z.abs k <= (2 ^ 63 - 1) / m) by (apply Z.div_le_lower_bound; [lia|]; replace (m * Z.abs k) with (Z.abs n) by (rewrite <- HK, Z.abs_mul, (Z.abs_eq m) by lia; ring); lia).
    destruct (k >=? 0) eqn:EK; lia.
  - unfold INT64_MIN, INT64_MAX. lia.
  - destruct u as [|c [|]]; try contradiction; [exact I|]. destruct H as (m & HU & _). apply unit_nondigit in HU. apply HU.
Qed.
Lemma int_to_bin_inv : forall i len d r min max st i' o', - 2 ^ 63 < min -> max < 2 ^ 63 -> int_to_bin i len (mkout d r) min max st = Ok (i', o') ->
  exists n, min <= n <= max /\ 8 <= r /\ i' = zskipn len i /\ o' = mkout (d ++ be 8 (u64 n)) (r - 8).
Proof.
  intros i len d r min max st i' o' H1 H2. unfold int_to_bin, copy_in. destruct (_ >? 32); [discriminate|]. cbn [rbind]. destruct (strtoll _) as [[[n rest] range]|]; [|discriminate]. destruct range; [discriminate|].
  destruct (match rest with [] => Ok n | [u] => remove_unit n u st | _ => Err KNOT_EINVAL end) as [k|e| |]; cbn [rbind]; try discriminate. destruct (_ || _) eqn:E; [discriminate|].
  unfold write. cbn [o_room o_data]. rewrite be_length. destruct (_ >? r) eqn:ER; [discriminate|]. cbn [rbind]. intros HX. injection HX as <- <-. exists k. repeat split; lia || auto.
Qed.
