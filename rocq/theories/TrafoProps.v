(** C42: conversions of configuration values. *)
From Verif Require Import Base WireModel WireProofs CodecModel CodecProps DnameModel DnameSpec DnameProofs DnameProofs2 DnameProofs3 DnameProofs4 DnameProps
  TrafoModel TrafoSpec TrafoProofs TrafoProofs2 TrafoProofs3 TrafoProofs4 TrafoProofs5 TrafoProofs6 TrafoProofs7.

(** [T] is what is printed for [b], in double quotes if they are asked for. One more character is always enough, besides the end and the quotes. *)
Definition quoted (q : bool) (t : list Z) : list Z := if q then 34 :: t ++ [34] else t.
Definition printed (it : item) (b : list Z) (st : style) (T : list Z) : Prop :=
  (forall m q, zlen T + (if q : bool then 3 else 1) < m -> item_to_txt it b m st q = Ok (quoted q T)) /\
  (forall m q t, item_to_txt it b m st q = Ok t -> t = quoted q T /\ zlen t < m).

Definition converts (f : out -> res (list Z * out)) (T : list Z) : Prop :=
  (forall d m, zlen T + 1 < m -> exists i, f (mkout d m) = Ok (i, mkout (d ++ T) (m - zlen T))) /\
  (forall d m i o, f (mkout d m) = Ok (i, o) -> o = mkout (d ++ T) (m - zlen T) /\ zlen T < m).
Definition body (g : out -> res out) (m : Z) (q : bool) : res (list Z) :=
  let o := mkout [] m in
  let* o := if q then write o [34] else Ok o in
  let* o := g o in
  let* o := if q then write o [34] else Ok o in
  let* o := write o [0] in
  Ok (removelast (o_data o)).
Lemma body_spec : forall g T, (forall d m, zlen T + 1 < m -> g (mkout d m) = Ok (mkout (d ++ T) (m - zlen T))) -> (forall d m o, g (mkout d m) = Ok o -> o = mkout (d ++ T) (m - zlen T)) ->
  (forall m q, zlen T + (if q : bool then 3 else 1) < m -> body g m q = Ok (quoted q T)) /\ (forall m q t, body g m q = Ok t -> t = quoted q T /\ zlen t < m).
Proof.
  intros g T H1 H2. pose proof (zlen_nonneg T) as ZT. assert (RL : forall x : list Z, removelast (x ++ [0]) = x) by (intros; apply removelast_last). split.
  - intros m q HM. unfold body. destruct q; cbn [rbind].
    + rewrite write_fits by (change (zlen [34]) with 1; lia). cbn [rbind]. rewrite H1 by (change (zlen [34]) with 1; lia). cbn [rbind]. rewrite write_fits by (change (zlen [34]) with 1; lia). cbn [rbind]. rewrite write_fits by (change (zlen [34]) with 1; change (zlen [0]) with 1; lia). cbn [rbind o_data]. rewrite RL. reflexivity.
    + rewrite H1 by lia. cbn [rbind]. rewrite write_fits by (change (zlen [0]) with 1; lia). cbn [rbind o_data]. rewrite RL. reflexivity.
  - intros m q t H. unfold body in H. assert (W : forall d r l o, write (mkout d r) l = Ok o -> o = mkout (d ++ l) (r - zlen l) /\ zlen l <= r) by (intros d r l o HW; unfold write in HW; cbn [o_room o_data] in HW; destruct (_ >? r) eqn:E; [discriminate|]; injection HW as <-; split; [reflexivity|lia]).
    destruct q.
    + destruct (write (mkout [] m) [34]) as [o1| | |] eqn:E1; try discriminate. apply W in E1. destruct E1 as [-> L1]. cbn [rbind] in H. destruct (g _) as [o2| | |] eqn:E2; try discriminate. apply H2 in E2. subst o2. cbn [rbind] in H. destruct (write _ [34]) as [o3| | |] eqn:E3; try discriminate. apply W in E3. destruct E3 as [-> L3]. cbn [rbind] in H.
      destruct (write _ [0]) as [o4| | |] eqn:E4; try discriminate. apply W in E4. destruct E4 as [-> L4]. cbn [rbind o_data] in H. rewrite RL in H. injection H as <-. split; [reflexivity|]. change (zlen [34]) with 1 in *. change (zlen [0]) with 1 in *. unfold quoted. rewrite zlen_cons, zlen_app. change (zlen [34]) with 1. lia.
    + cbn [rbind] in H. destruct (g _) as [o2| | |] eqn:E2; try discriminate. apply H2 in E2. subst o2. cbn [rbind] in H. destruct (write _ [0]) as [o4| | |] eqn:E4; try discriminate. apply W in E4. destruct E4 as [-> L4]. cbn [rbind o_data] in H. rewrite RL in H. injection H as <-. split; [reflexivity|]. change (zlen [0]) with 1 in *. cbn [app quoted]. lia.
Qed.
Lemma converts_printed : forall f T, converts f T -> let g := fun o => let* (_, o) := f o in Ok o in
  (forall m q, zlen T + (if q : bool then 3 else 1) < m -> body g m q = Ok (quoted q T)) /\ (forall m q t, body g m q = Ok t -> t = quoted q T /\ zlen t < m).
Proof.
  intros f T [C1 C2] g. apply body_spec.
  - intros d m H. destruct (C1 d m H) as (i & E). unfold g. rewrite E. reflexivity.
  - intros d m o H. unfold g in H. destruct (f (mkout d m)) as [[i o2]| | |] eqn:E; try discriminate. apply C2 in E. cbn [rbind] in H. destruct E as [-> _]. congruence.
Qed.
Lemma converts_if : forall f T e, (forall d m, exists i, f (mkout d m) = if zlen T >=? m then Err e else Ok (i, mkout (d ++ T) (m - zlen T))) -> converts f T.
Proof.
  intros f T e H. split.
  - intros d m HM. destruct (H d m) as (i & E). rewrite E. replace (_ >=? m) with false by lia. eauto.
  - intros d m i o HX. destruct (H d m) as (i' & E). rewrite E in HX. destruct (_ >=? m) eqn:EM; [discriminate|]. injection HX as <- <-. split; [reflexivity|lia].
Qed.

(** Every accepted text: the data are printed as a text [T], and only as that, whatever the units asked for, and [T] gives the same data again. Missing: hexadecimal data that
    are printable and begin with "0x", see below; texts with zeros inside. *)
Theorem c42_round_trip_partial : forall P it txt n b st, reads_addresses P -> legal_item it -> bytes txt -> ~ In 0 txt -> n <= 65537 -> item_to_bin P it txt n = Ok b -> ~ (target it = THex /\ looks_hex b) ->
  exists T, printed it b st T /\ item_to_bin P it T n = Ok b.
Proof.
  intros P it txt n b st HP HL BT N0 HN HB NH.
  induction it as [mn mx u| | opts | | | | | | |id IH|].
  - cbn [item_to_bin] in HB. cbn [legal_item] in HL. destruct HL as (H1 & H2 & HU). destruct (int_to_bin txt (zlen txt) (mkout [] n) mn mx u) as [[i o]| | |] eqn:E; try discriminate. apply int_to_bin_inv in E; [|auto|auto]. destruct E as (k & HK & HR & -> & ->). cbn [rbind o_data app] in HB. assert (b = be 8 (u64 k)) as -> by congruence. clear HB.
    set (st' := mkstyle (s_size u && s_size st) (s_time u && s_time st)). exists (int_text k st'). split.
    + apply (converts_printed (fun o => int_to_txt (be 8 (u64 k)) o st')). apply (converts_if _ _ KNOT_ESPACE). intros d m. exists []. pose proof (int_to_txt_spec k [] d m st' ltac:(lia)) as E. rewrite app_nil_r in E. exact E.
    + cbn [item_to_bin]. pose proof (int_to_bin_text k st' u [] [] n mn mx ltac:(lia) (within_and u st HU) ltac:(lia) HR) as E. rewrite app_nil_r in E. rewrite E. reflexivity.
  - cbn [item_to_bin] in HB. unfold bool_to_bin in HB. assert (G : exists v, (v = 0 \/ v = 1) /\ 1 <= n /\ b = [v]).
    { unfold write in HB. cbn [o_room o_data app] in HB. change (zlen [1]) with 1 in HB. change (zlen [0]) with 1 in HB. destruct (_ || _); [|destruct (_ || _); [|discriminate]]; (destruct (1 >? n) eqn:E; [discriminate|]); cbn [rbind o_data] in HB; injection HB as <-; eexists; (split; [|split; [|reflexivity]]); auto; lia. }
    destruct G as (v & HV & HR & ->). exists (if v =? 1 then [111; 110] else [111; 102; 102]). split.
    + apply (converts_printed (fun o => bool_to_txt [v] o)). apply (converts_if _ _ KNOT_ESPACE). intros d m. exists []. unfold bool_to_txt. rewrite read_one. cbn [rbind hd]. unfold write_txt. cbn [o_room o_data]. destruct HV as [-> | ->]; (destruct (m <=? 0) eqn:EM0; [|cbn; destruct (_ >=? m); reflexivity]); cbn; destruct (_ >=? m); reflexivity.
    + cbn [item_to_bin]. destruct HV as [-> | ->]; unfold bool_to_bin; [change (write _ [0]) with (write (mkout [] n) [0])|]; cbn [Z.eqb Pos.eqb]; vm_compute (ncase_equal _ _ _); vm_compute (ncase_equal _ _ _); cbn [orb]; rewrite write_fits by (cbn; lia); reflexivity.
  - cbn [item_to_bin] in HB. cbn [legal_item] in HL. change (opts_ok opts) in HL. destruct (option_to_bin txt (zlen txt) (mkout [] n) opts) as [[i o]| | |] eqn:E; try discriminate. apply option_to_bin_inv in E; [|auto]. destruct E as (k & name & HI & HR & ->). cbn [rbind o_data app] in HB. injection HB as <-.
    destruct (option_find_in _ _ _ HI) as (name' & EF & HI'). exists name'. split.
    + apply (converts_printed (fun o => option_to_txt [k] o opts)). apply (converts_if _ _ KNOT_ESPACE). intros d m. exists []. unfold option_to_txt. rewrite read_one. cbn [rbind hd]. rewrite EF. destruct HL as [HF _]. eapply Forall_forall in HF; [|exact HI']. cbn [snd] in HF. destruct HF as (_ & _ & NE & _). replace (zlen name' <=? 0) with false by (destruct name'; [congruence|]; rewrite zlen_cons; pose proof (zlen_nonneg name'); lia).
      unfold write_txt. cbn [o_room o_data]. destruct (_ >=? m); reflexivity.
    + cbn [item_to_bin]. rewrite (option_to_bin_text k name' opts [] n HL HI' HR). reflexivity.
  - cbn [item_to_bin] in HB. unfold str_to_bin in HB. unfold write in HB. cbn [o_room o_data app] in HB. rewrite zfirstn_all in HB. destruct (zlen txt >? n) eqn:E1; [discriminate|]. cbn [rbind o_room o_data] in HB. change (zlen [0]) with 1 in HB. destruct (1 >? n - zlen txt) eqn:E2; [discriminate|]. cbn [rbind o_data] in HB. injection HB as <-.
    exists txt. split.
    + apply (converts_printed (fun o => str_to_txt (txt ++ [0]) o)). apply (converts_if _ _ KNOT_ESPACE). intros d m. exists []. apply str_to_txt_spec. auto.
    + cbn [item_to_bin]. pose proof (str_to_bin_spec txt [] [] n ltac:(lia)) as E. rewrite app_nil_r in E. rewrite E. reflexivity.
  - cbn [item_to_bin] in HB. destruct (addr_to_bin P txt (zlen txt) (mkout [] n)) as [[i o]| | |] eqn:E; try discriminate. cbn [rbind] in HB. injection HB as <-. pose proof E as E0. apply addr_to_bin_inv in E; [|auto|auto]. destruct E as [HR [E|(v & port & OK & NU & HPO & E & NC)]]; rewrite E in *.
    + exists txt. split; [|cbn [item_to_bin]; rewrite E0; cbn [rbind]; rewrite E; reflexivity]. apply (converts_printed (fun o => addr_to_txt (0 :: txt ++ [0]) o)). apply (converts_if _ _ KNOT_ESPACE). intros d m. exists []. apply addr_to_txt_path. auto.
    + exists (addr_text v port). split; [|cbn [item_to_bin]; rewrite addr_to_bin_text by auto; reflexivity]. apply (converts_printed (fun o => addr_to_txt (addr_bin v port) o)). apply (converts_if _ _ KNOT_ESPACE). intros d m. exists []. apply addr_to_txt_spec; auto.
  - cbn [item_to_bin] in HB. destruct (range_to_bin P txt (zlen txt) (mkout [] n)) as [[i o]| | |] eqn:E; try discriminate. cbn [rbind] in HB. injection HB as <-. pose proof E as E0. apply range_to_bin_inv in E; [|auto|auto]. destruct E as [HR [[E _]|(x & OK & E)]]; rewrite E in *.
    + exists txt. split; [|cbn [item_to_bin]; rewrite E0; cbn [rbind]; rewrite E; reflexivity]. apply (converts_printed (fun o => range_to_txt (0 :: txt ++ [0; 0]) o)). apply (converts_if _ _ KNOT_ESPACE). intros d m. exists []. apply range_to_txt_path. auto.
    + exists (range_text x). split; [|cbn [item_to_bin]; destruct (range_to_bin_text P x n HP OK HR) as (o2 & -> & <-); reflexivity]. apply (converts_printed (fun o => range_to_txt (range_bin x) o)). apply (converts_if _ _ KNOT_ESPACE). intros d m. exists []. apply range_to_txt_spec; auto.
  - cbn [item_to_bin] in HB. destruct (dname_to_bin txt (zlen txt) (mkout [] n)) as [[i o]| | |] eqn:E; try discriminate. cbn [rbind] in HB. injection HB as <-.
    assert (HN0 : 0 <= n) by (unfold dname_to_bin in E; destruct (copy_in _ _ _) as [[w j]| | |]; try discriminate; cbn [rbind o_room] in E; destruct (Z_lt_le_dec n 0) as [HN0|HN0]; [|auto]; exfalso; unfold write in E; cbn [o_room o_data] in E;
      destruct (dname_from_str (Some n) w); try discriminate; destruct (wire_check _ _ _); try discriminate; destruct (dname_to_lower _) as [low| | |]; try discriminate; cbn [rbind] in E; pose proof (zlen_nonneg low); replace (zlen low >? n) with true in E by lia; discriminate).
    apply dname_to_bin_inv in E; auto. destruct E as (ls & LN & _ & H2 & HS & ->). cbn [o_data app]. pose proof (c06_to_lower_legal ls LN) as LL. exists (text (lower_name ls)). split.
    + apply (converts_printed (fun o => dname_to_txt (DnameSpec.wire (lower_name ls)) o)). pose proof (name_size_text _ LL) as NS. split.
      * intros d m HM. rewrite dname_to_txt_spec by auto. replace (_ && _) with true by lia. eauto.
      * intros d m i3 o3 HX. rewrite dname_to_txt_spec in HX by auto. destruct (_ && _) eqn:EM; [|discriminate]. injection HX as <- <-. split; [reflexivity|lia].
    + cbn [item_to_bin]. rewrite dname_to_bin_text; [reflexivity|auto|apply c06_to_lower_idempotent| |rewrite name_size_lower; auto]. intros E. apply H2. destruct ls; [reflexivity|discriminate].
  - cbn [item_to_bin] in HB. destruct (hex_to_bin txt (zlen txt) (mkout [] n)) as [[i o]| | |] eqn:E; try discriminate. cbn [rbind] in HB. injection HB as <-. apply hex_to_bin_inv in E; auto. destruct E as (x & BX & E & HR). rewrite E in *. exists (hex_text x). split.
    + apply (converts_printed (fun o => hex_to_txt (counted x) o)). apply (converts_if _ _ KNOT_ESPACE). intros d m. exists []. apply hex_to_txt_spec. lia.
    + cbn [item_to_bin]. assert (NL : ~ looks_hex (counted x)) by (intros HX; apply NH; split; [reflexivity|auto]). destruct (hex_to_bin_text x n BX HN HR NL) as (o2 & -> & <-). reflexivity.
  - cbn [item_to_bin] in HB. destruct (base64_to_bin txt (zlen txt) (mkout [] n)) as [[i o]| | |] eqn:E; try discriminate. cbn [rbind] in HB. injection HB as <-. apply base64_to_bin_inv in E; auto. destruct E as (x & BX & E & HR). rewrite E in *. exists (b64_of x). assert (HX : zlen x <= 65535) by lia. split.
    + apply (converts_printed (fun o => base64_to_txt (counted x) o)). split.
      * intros d m HM. rewrite base64_to_txt_spec by auto. replace (m <? _) with false by lia. replace (_ >=? m) with false by lia. eauto.
      * intros d m i2 o2 HO. rewrite base64_to_txt_spec in HO by auto. destruct (m <? _); [discriminate|]. destruct (_ >=? m) eqn:EM; [discriminate|]. injection HO as <- <-. split; [reflexivity|lia].
    + cbn [item_to_bin]. destruct (base64_to_bin_text x n BX HN HR) as (o2 & -> & <-). reflexivity.
  - cbn [item_to_bin] in HB. assert (HB2 : item_to_bin P id txt n = Ok b) by (destruct (item_to_bin P id txt n); try discriminate; exact HB). destruct (IH HL HB2 NH) as (T & [T1 T2] & T3). exists T. split.
    + apply (body_spec (fun o => let* t := item_to_txt id b (o_room o) st false in Ok (mkout (o_data o ++ t) (o_room o - zlen t))) T).
      * intros d m HM. cbn [o_room o_data]. rewrite (T1 m false HM). reflexivity.
      * intros d m o HX. cbn [o_room o_data] in HX. destruct (item_to_txt id b m st false) as [t| | |] eqn:E; try discriminate. destruct (T2 _ _ _ E) as [-> _]. cbn [rbind quoted] in HX. congruence.
    + cbn [item_to_bin]. rewrite T3. reflexivity.
  - exists []. cbn [item_to_bin] in HB |- *. split; [|exact HB]. apply (body_spec (fun o => Ok o) []).
    + intros d m _. rewrite app_nil_r, Z.sub_0_r. reflexivity.
    + intros d m o HX. rewrite app_nil_r, Z.sub_0_r. congruence.
Qed.

(** Numbers have the values which their texts mean, or are refused. *)
Theorem c42_number_value : forall P t k v mn mx u n, legal_item (TInt mn mx u) -> ~ In 0 t -> zlen t <= 31 -> int_means u t k v -> (k = - 2 ^ 63 -> number_text t k) -> 8 <= n ->
  item_to_bin P (TInt mn mx u) t n = if (v <? mn) || (mx <? v) then Err KNOT_ERANGE else Ok (be 8 (u64 v)).
Proof.
  intros P t k v mn mx u n (H1 & H2 & HU) N0 HL HM HK HN. cbn [item_to_bin]. rewrite (int_to_bin_means t k v _ mn mx u) by auto. destruct (_ || _); [reflexivity|]. rewrite write_fits by (change (zlen (be 8 (u64 v))) with 8; lia). reflexivity.
Qed.
Theorem c42_number_only : forall P t mn mx u n b, legal_item (TInt mn mx u) -> ~ In 0 t -> item_to_bin P (TInt mn mx u) t n = Ok b ->
  exists k v, int_means u t k v /\ mn <= v <= mx /\ b = be 8 (u64 v).
Proof.
  intros P t mn mx u n b (H1 & H2 & HU) N0 H. cbn [item_to_bin] in H. destruct (int_to_bin t (zlen t) (mkout [] n) mn mx u) as [[i o]| | |] eqn:E; try discriminate. cbn [rbind] in H. injection H as <-. apply int_to_bin_only in E; auto. destruct E as (_ & k & v & HM & HR & EW). exists k, v. split; [auto|]. split; [auto|].
  unfold write in EW. destruct (_ >? _); [discriminate|]. injection EW as <-. reflexivity.
Qed.
(** Two numbers in the range with different values have different data. *)
Theorem c42_number_data : forall mn mx u v w, legal_item (TInt mn mx u) -> mn <= v <= mx -> mn <= w <= mx -> be 8 (u64 v) = be 8 (u64 w) -> v = w.
Proof.
  intros mn mx u v w (H1 & H2 & _) HV HW E. apply (f_equal (fun x => i64 (unbe x))) in E. rewrite !i64_u64 in E by lia. exact E.
Qed.
(** Names are those the texts mean, in lower case. *)
Theorem c42_name_value : forall P t n b, bytes t -> ~ In 0 t -> 0 <= n -> item_to_bin P TDname t n = Ok b -> exists ls, legal_name ls /\ name_denoted ls t /\ b = DnameSpec.wire (lower_name ls).
Proof.
  intros P t n b BT N0 HN H. cbn [item_to_bin] in H. destruct (dname_to_bin t (zlen t) (mkout [] n)) as [[i o]| | |] eqn:E; try discriminate. cbn [rbind] in H. injection H as <-. apply dname_to_bin_inv in E; auto. destruct E as (ls & LN & HD & _ & _ & ->). exists ls. auto.
Qed.

(** Booleans: the four words in any case, and beginnings of them. *)
Definition lower (t : list Z) : list Z := map ascii_lower t.
Theorem c42_bool_value : forall P t n, bytes t -> ~ In 0 t -> 1 <= n ->
  (lower t = [111; 110] \/ lower t = [116; 114; 117; 101] -> item_to_bin P TBool t n = Ok [1]) /\
  (lower t = [111; 102; 102] \/ lower t = [102; 97; 108; 115; 101] -> item_to_bin P TBool t n = Ok [0]) /\
  (forall b, item_to_bin P TBool t n = Ok b -> exists w rest, lower t ++ rest = w /\ (b = [1] /\ (w = [111; 110] \/ w = [116; 114; 117; 101]) \/ b = [0] /\ (w = [111; 102; 102] \/ w = [102; 97; 108; 115; 101]))).
Proof.
  intros P t n BT N0 HN. assert (W1 : write (mkout [] n) [1] = Ok (mkout [1] (n - 1))) by (rewrite write_fits by (change (zlen [1]) with 1; lia); reflexivity). assert (W0 : write (mkout [] n) [0] = Ok (mkout [0] (n - 1))) by (rewrite write_fits by (change (zlen [0]) with 1; lia); reflexivity).
  assert (PRE : forall a w, bytes a -> ~ In 0 a -> bytes w -> ~ In 0 w -> lower w = w -> (ncase_equal (length a) a w = true <-> exists rest, lower a ++ rest = w)).
  { induction a as [|x a IH]; intros w BA NA BW NW LW; [cbn; split; eauto|]. inversion BA; subst. cbn [length ncase_equal hd tl lower map app]. assert (X0 : x <> 0) by (intros ->; apply NA; left; auto). replace (x =? 0) with false by lia. cbn [orb]. rewrite tolower_ascii by auto.
    destruct w as [|y w].
    - cbn [hd tl]. change (tolower 0) with 0. split; [|intros (r & E); discriminate]. intros HX. apply andb_true_iff in HX. destruct HX as [HX _]. apply Z.eqb_eq in HX. exfalso. apply X0. unfold ascii_lower in HX. match type of HX with (if ?c then _ else _) = _ => destruct c eqn:EC end; lia.
    - inversion BW; subst. cbn [lower map] in LW. injection LW as L1 L2. cbn [hd tl]. rewrite tolower_ascii by auto. rewrite L1, andb_true_iff, Z.eqb_eq, (IH w); auto; [|intros HI; apply NA; right; auto|intros HI; apply NW; right; auto]. split.
      + intros [-> (r & <-)]. exists r. reflexivity.
      + intros (r & E). injection E as -> <-. eauto. }
  cbn [item_to_bin]. unfold bool_to_bin. replace (Z.to_nat (zlen t)) with (length t) by (unfold zlen; lia).
  assert (GW : forall w, Forall (fun c => 97 <= c <= 122) w -> bytes w /\ ~ In 0 w /\ lower w = w).
  { intros w FW. split; [eapply Forall_impl; [|exact FW]; unfold byte; cbv beta; lia|]. split; [intros HI; eapply Forall_forall in FW; [|exact HI]; cbv beta in FW; lia|]. clear - FW. induction FW as [|c w HC _ IH]; [reflexivity|]. cbn [lower map]. f_equal; [|exact IH]. unfold ascii_lower. match goal with |- (if ?c then _ else _) = _ => destruct c eqn:EC end; lia. }
  assert (F1 : Forall (fun c => 97 <= c <= 122) [111; 110]) by (repeat constructor; lia). assert (F2 : Forall (fun c => 97 <= c <= 122) [116; 114; 117; 101]) by (repeat constructor; lia). assert (F3 : Forall (fun c => 97 <= c <= 122) [111; 102; 102]) by (repeat constructor; lia). assert (F4 : Forall (fun c => 97 <= c <= 122) [102; 97; 108; 115; 101]) by (repeat constructor; lia).
  assert (Q : forall w, Forall (fun c => 97 <= c <= 122) w -> (ncase_equal (length t) t w = true <-> exists rest, lower t ++ rest = w)) by (intros w FW; destruct (GW w FW) as (G1 & G2 & G3); apply PRE; auto).
  pose proof (Q _ F1) as Q1. pose proof (Q _ F2) as Q2. pose proof (Q _ F3) as Q3. pose proof (Q _ F4) as Q4. clear Q PRE GW F1 F2 F3 F4.
  destruct (ncase_equal (length t) t [111; 110]) eqn:C1, (ncase_equal (length t) t [116; 114; 117; 101]) eqn:C2, (ncase_equal (length t) t [111; 102; 102]) eqn:C3, (ncase_equal (length t) t [102; 97; 108; 115; 101]) eqn:C4; cbn [orb]; rewrite ?W1, ?W0; cbn [rbind o_data];
  (split; [|split]).
  all: try (intros b Hb; injection Hb as <-).
  all: try (intros b Hb; discriminate).
  all: try (intros _; reflexivity).
  all: try (destruct Q1 as [[r1 Q1] _]; [reflexivity|]; exists [111; 110], r1; split; [exact Q1|left; split; [reflexivity|left; reflexivity]]).
  all: try (destruct Q2 as [[r1 Q2] _]; [reflexivity|]; exists [116; 114; 117; 101], r1; split; [exact Q2|left; split; [reflexivity|right; reflexivity]]).
  all: try (destruct Q3 as [[r1 Q3] _]; [reflexivity|]; exists [111; 102; 102], r1; split; [exact Q3|right; split; [reflexivity|left; reflexivity]]).
  all: try (destruct Q4 as [[r1 Q4] _]; [reflexivity|]; exists [102; 97; 108; 115; 101], r1; split; [exact Q4|right; split; [reflexivity|right; reflexivity]]).
  all: intros [HE|HE]; exfalso.
  all: try (discriminate (proj2 Q1 (ex_intro _ [] (eq_trans (app_nil_r _) HE)))).
  all: try (discriminate (proj2 Q2 (ex_intro _ [] (eq_trans (app_nil_r _) HE)))).
  all: try (discriminate (proj2 Q3 (ex_intro _ [] (eq_trans (app_nil_r _) HE)))).
  all: try (discriminate (proj2 Q4 (ex_intro _ [] (eq_trans (app_nil_r _) HE)))).
  all: try (destruct (proj1 Q1 eq_refl) as [r1 X1]; rewrite HE in X1; discriminate X1).
  all: try (destruct (proj1 Q2 eq_refl) as [r1 X1]; rewrite HE in X1; discriminate X1).
Qed.
(** Options: the name in any case gives the number of the option, and nothing else does. *)
Theorem c42_option_value : forall P opts t n b, legal_item (TOpt opts) -> bytes t -> ~ In 0 t -> 1 <= n -> (item_to_bin P (TOpt opts) t n = Ok b <-> exists id name, In (id, name) opts /\ lower t = lower name /\ b = [id]).
Proof.
  intros P opts t n b [F N] BT N0 HN. cbn [item_to_bin].
  induction opts as [|[id name] opts IH]; cbn [option_to_bin]; [split; [discriminate|intros (i & nm & [] & _)]|]. inversion F as [|? ? (B1 & B2 & B3 & B4) F']; subst. cbn [fst snd map] in *. inversion N as [|? ? NI N']; subst. specialize (IH F' N').
  assert (C : ((zlen t =? zlen name) && ncase_equal (Z.to_nat (zlen t)) t name = true) <-> lower t = lower name).
  { replace (Z.to_nat (zlen t)) with (length t) by (unfold zlen; lia). rewrite andb_true_iff, Z.eqb_eq. split.
    - intros [HL HX]. apply ncase_spec in HX; auto. unfold zlen in HL. lia.
    - intros HX. assert (HL : length t = length name) by (apply (f_equal (@length Z)) in HX; unfold lower in HX; rewrite !map_length in HX; exact HX). split; [unfold zlen; lia|]. apply ncase_spec; auto. }
  destruct (_ && _) eqn:E.
  - replace (u8 id) with id by (unfold u8, byte in *; rewrite Z.mod_small; lia). rewrite write_fits by (change (zlen [id]) with 1; lia). cbn [rbind o_data app]. split.
    + intros H. injection H as <-. exists id, name. split; [left; reflexivity|]. split; [apply C; reflexivity|reflexivity].
    + intros (i & nm & [HI|HI] & HX & ->); [injection HI as <- <-; reflexivity|]. exfalso. apply NI. apply C in E || idtac. assert (lower t = lower name) as HY by (apply C; reflexivity). apply in_map_iff. exists (i, nm). split; [|auto]. cbn [snd]. unfold lower in *. congruence.
  - rewrite IH. split.
    + intros (i & nm & HI & HX & ->). exists i, nm. split; [right; auto|auto].
    + intros (i & nm & [HI|HI] & HX & ->); [injection HI as <- <-; apply C in HX; discriminate|]. exists i, nm. auto.
Qed.
(** Strings are kept, a zero follows. *)
Theorem c42_string_value : forall P t n, item_to_bin P TStr t n = if zlen t + 1 <=? n then Ok (t ++ [0]) else Err KNOT_ESPACE.
Proof.
  intros P t n. cbn [item_to_bin]. unfold str_to_bin, write. cbn [o_room o_data app]. rewrite zfirstn_all. change (zlen [0]) with 1. destruct (zlen t >? n) eqn:E1; [replace (_ <=? n) with false by lia; reflexivity|]. cbn [rbind o_room o_data]. destruct (1 >? n - zlen t) eqn:E2; [replace (_ <=? n) with false by lia; reflexivity|]. replace (_ <=? n) with true by lia. reflexivity.
Qed.
(** Addresses: the family, the address, and the port or all ones. *)
Theorem c42_address_value : forall P t e n, reads_addresses P -> host_text t e -> zlen e + 8 <= n -> item_to_bin P TAddr t n = Ok (e ++ be 8 (2 ^ 64 - 1)).
Proof. intros P t e n HP H HN. cbn [item_to_bin]. rewrite (addr_host P t e) by auto. reflexivity. Qed.
Theorem c42_address_port_value : forall P t e p k n, reads_addresses P -> host_text t e -> number_text p k -> zlen p <= 31 -> zlen e + 8 <= n ->
  item_to_bin P TAddr (t ++ 64 :: p) n = if (0 <=? k) && (k <=? 65535) then Ok (e ++ be 8 k) else Err KNOT_ERANGE.
Proof. intros P t e p k n HP H HK HL HN. cbn [item_to_bin]. rewrite (addr_port P t e p k) by auto. destruct ((0 <=? k) && (k <=? 65535)) eqn:E; [replace (_ || _) with false by lia|replace (_ || _) with true by lia]; reflexivity. Qed.
(** Networks: an address, an address and a length which the family allows, two addresses of one family. *)
Theorem c42_network_value : forall P t e n, reads_addresses P -> host_text t e -> zlen e + 1 <= n -> item_to_bin P TNet t n = Ok (e ++ [0]).
Proof. intros P t e n HP H HN. cbn [item_to_bin]. rewrite (range_host P t e) by auto. reflexivity. Qed.
Theorem c42_network_mask_value : forall P t e p k n, reads_addresses P -> host_text t e -> number_text p k -> zlen p <= 31 -> zlen e + 9 <= n ->
  item_to_bin P TNet (t ++ 47 :: p) n = if (0 <=? k) && (k <=? 8 * (zlen e - 1)) then Ok (e ++ 1 :: be 8 k) else Err KNOT_ERANGE.
Proof.
  intros P t e p k n HP H HK HL HN. cbn [item_to_bin]. rewrite (range_mask P t e p k) by auto. replace (8 * (zlen e - 1)) with (host_bits e).
  - destruct ((0 <=? k) && (k <=? host_bits e)) eqn:E; [replace (_ || _) with false by lia|replace (_ || _) with true by lia]; reflexivity.
  - destruct H as [t a (HA & _)|t a H6]; rewrite zlen_cons; [rewrite HA; reflexivity|]. destruct (ip6_facts _ _ H6) as (_ & _ & _ & HA & _). rewrite HA. reflexivity.
Qed.
Theorem c42_network_range_value : forall P t e t2 e2 n, reads_addresses P -> host_text t e -> host_text t2 e2 -> zlen e + 1 + zlen e2 <= n ->
  item_to_bin P TNet (t ++ 45 :: t2) n = if hd 0 e =? hd 0 e2 then Ok (e ++ 2 :: e2) else Err KNOT_EINVAL.
Proof. intros P t e t2 e2 n HP H H2 HN. cbn [item_to_bin]. rewrite (range_two P t e t2 e2) by auto. destruct (_ =? _); reflexivity. Qed.
(** Hexadecimal data: pairs of digits after "0x", the text itself otherwise. *)
Theorem c42_hex_value : forall P t b n, hex_means t b -> 2 + zlen b <= n -> zlen b <= 65535 -> item_to_bin P THex (48 :: 120 :: t) n = Ok (be 2 (zlen b) ++ b).
Proof.
  intros P t b n H HN HB. pose proof (zlen_nonneg b). apply (unhex_spec (length t)) in H; [|lia]. destruct (unhex_inv (length t) t b ltac:(lia) H) as [_ HL]. cbn [item_to_bin]. unfold hex_to_bin. rewrite !zlen_cons. replace (1 + (1 + zlen t) - 2) with (zlen t) by lia. replace (zlen t <? 0) with false by lia. rewrite HL. rewrite (Z.mul_comm 2), Z.mod_mul by lia. rewrite Z.div_mul by lia. cbn [Z.eqb negb].
  rewrite u16_small by lia. rewrite write_fits by (rewrite be2_len; lia). cbn [rbind]. replace (zlen b * 2) with (zlen t) by lia. rewrite zfirstn_all, H. rewrite be2_len. rewrite write_fits by lia. reflexivity.
Qed.
Theorem c42_hex_refused : forall P t n, ~ (exists b, hex_means t b) -> match item_to_bin P THex (48 :: 120 :: t) n with Err _ => True | _ => False end.
Proof.
  intros P t n H. cbn [item_to_bin]. unfold hex_to_bin. rewrite !zlen_cons. pose proof (zlen_nonneg t). replace (1 + (1 + zlen t) - 2) with (zlen t) by lia. replace (zlen t <? 0) with false by lia. destruct (negb _); [exact I|]. unfold write. cbn [o_room o_data]. destruct (_ >? n); [exact I|]. cbn [rbind]. rewrite zfirstn_all. destruct (unhex t) as [b|] eqn:E; [|exact I].
  exfalso. apply H. exists b. apply (unhex_spec (length t)); auto.
Qed.
Theorem c42_hex_plain_value : forall P t n, (forall t', t <> 48 :: 120 :: t') -> 2 + zlen t <= n -> zlen t <= 65535 -> item_to_bin P THex t n = Ok (be 2 (zlen t) ++ t).
Proof.
  intros P t n H HN HB. pose proof (zlen_nonneg t). cbn [item_to_bin]. rewrite hex_plain by auto. rewrite u16_small by lia. rewrite write_fits by (rewrite be2_len; lia). cbn [rbind]. rewrite be2_len, zfirstn_all. rewrite write_fits by lia. reflexivity.
Qed.
(** Base64: what the encoder of C43 makes from data gives these data. *)
Theorem c42_base64_value : forall P b t k n, bytes b -> base64_encode b k = Ok t -> n <= 65537 -> 2 + (zlen b + 2) / 3 * 3 <= n -> item_to_bin P TB64 t n = Ok (be 2 (zlen b) ++ b).
Proof.
  intros P b t k n B HE HN HL. pose proof (zlen_nonneg b). assert (HB : zlen b <= 65535) by lia. destruct (b64_of_spec b B HB) as [_ E]. rewrite E in HE. destruct (k <? _); [discriminate|]. injection HE as <-. cbn [item_to_bin]. destruct (base64_to_bin_text b n B HN HL) as (o & -> & HO). cbn [rbind]. rewrite HO. reflexivity.
Qed.

(** ** What does not hold *)
(** The data "0xzz" of a hexadecimal item are printed as they are and then refused; "0x31" becomes other data. *)
Theorem c42_hex_round_trip_refuted :
  exists txt b T, item_to_bin ref_pton THex txt 100 = Ok b /\ item_to_txt THex b 100 YP_SNONE false = Ok T /\ item_to_bin ref_pton THex T 100 = Ok [0; 1; 49] /\ b <> [0; 1; 49].
Proof. exists [48; 120; 51; 48; 55; 56; 51; 51; 51; 49], [0; 4; 48; 120; 51; 49], [48; 120; 51; 49]. vm_compute. repeat split. discriminate. Qed.
Theorem c42_hex_unreadable_refuted :
  exists txt b T, item_to_bin ref_pton THex txt 100 = Ok b /\ item_to_txt THex b 100 YP_SNONE false = Ok T /\ item_to_bin ref_pton THex T 100 = Err KNOT_EINVAL.
Proof. exists [48; 120; 51; 48; 55; 56; 55; 97; 55; 97], [0; 4; 48; 120; 122; 122], [48; 120; 122; 122]. vm_compute. repeat split. Qed.
(** The least 64-bit number with a unit is negated before its range is checked: the behaviour is undefined for every item with units. *)
Theorem c42_number_defined_refuted : forall P mn mx u n, s_size u = true \/ s_time u = true -> exists t, zlen t <= 31 /\ ~ In 0 t /\ item_to_bin P (TInt mn mx u) t n = UB.
Proof.
  intros P mn mx u n HU. set (d := [45; 57; 50; 50; 51; 51; 55; 50; 48; 51; 54; 56; 53; 52; 55; 55; 53; 56; 48; 56]). destruct (s_size u) eqn:ES.
  - exists (d ++ [66]). split; [vm_compute; discriminate|]. split; [intros H; vm_compute in H; repeat destruct H as [H|H]; try discriminate; auto|]. cbn [item_to_bin]. unfold int_to_bin. change (copy_in (d ++ [66]) (zlen (d ++ [66])) 32) with (Ok (d ++ [66], @nil Z)). cbn [rbind].
    change (strtoll (d ++ [66])) with (Some (INT64_MIN, [66], false)). cbv beta iota. unfold remove_unit, unit_of. rewrite ES. reflexivity.
  - assert (ET : s_time u = true) by (destruct HU; congruence). exists (d ++ [115]). split; [vm_compute; discriminate|]. split; [intros H; vm_compute in H; repeat destruct H as [H|H]; try discriminate; auto|]. cbn [item_to_bin]. unfold int_to_bin. change (copy_in (d ++ [115]) (zlen (d ++ [115])) 32) with (Ok (d ++ [115], @nil Z)). cbn [rbind].
    change (strtoll (d ++ [115])) with (Some (INT64_MIN, [115], false)). cbv beta iota. unfold remove_unit, unit_of. rewrite ES, ET. reflexivity.
Qed.
(** A zero inside a string is kept in the data but ends the text. *)
Theorem c42_zero_in_string_refuted : exists txt b T b', item_to_bin ref_pton TStr txt 100 = Ok b /\ item_to_txt TStr b 100 YP_SNONE false = Ok T /\ item_to_bin ref_pton TStr T 100 = Ok b' /\ b' <> b.
Proof. exists [97; 0; 98], [97; 0; 98; 0], [97], [97; 0]. vm_compute. repeat split. discriminate. Qed.

(** ** Cases *)
(* "1536K" of a size is no number of megabytes and printed as bytes; 7200 seconds are "2h" *)
Example c42_ex_size : item_to_bin ref_pton (TInt 0 (2 ^ 40) (mkstyle true false)) [49; 53; 51; 54; 75] 100 = Ok [0; 0; 0; 0; 0; 24; 0; 0] /\
  item_to_txt (TInt 0 (2 ^ 40) (mkstyle true false)) [0; 0; 0; 0; 0; 24; 0; 0] 100 (mkstyle true true) true = Ok [34; 49; 53; 55; 50; 56; 54; 52; 66; 34] /\
  item_to_txt (TInt 0 (2 ^ 40) (mkstyle true false)) [0; 0; 0; 0; 0; 24; 0; 0] 100 (mkstyle false true) true = Ok [34; 49; 53; 55; 50; 56; 54; 52; 34].
Proof. vm_compute. repeat split. Qed.
Example c42_ex_time : item_to_txt (TInt 0 (2 ^ 40) (mkstyle false true)) (be 8 7200) 100 (mkstyle true true) false = Ok [50; 104].
Proof. reflexivity. Qed.
(* 2001:db8::1@53 *)
Example c42_ex_addr : let b := [6; 32; 1; 13; 184; 0; 0; 0; 0; 0; 0; 0; 0; 0; 0; 0; 1; 0; 0; 0; 0; 0; 0; 0; 53] in
  item_to_bin ref_pton TAddr [50; 48; 48; 49; 58; 100; 98; 56; 58; 58; 49; 64; 53; 51] 100 = Ok b /\ item_to_txt TAddr b 100 YP_SNONE false = Ok [50; 48; 48; 49; 58; 100; 98; 56; 58; 58; 49; 64; 53; 51].
Proof. vm_compute. split; reflexivity. Qed.
(* 10.0.0.0/8 through a reference *)
Example c42_ex_net : let b := [4; 10; 0; 0; 0; 1; 0; 0; 0; 0; 0; 0; 0; 8] in
  item_to_bin ref_pton (TRef TNet) [49; 48; 46; 48; 46; 48; 46; 48; 47; 56] 100 = Ok b /\ item_to_txt (TRef TNet) b 100 YP_SNONE true = Ok [34; 49; 48; 46; 48; 46; 48; 46; 48; 47; 56; 34].
Proof. vm_compute. split; reflexivity. Qed.
(* "Ww.Ex" is ww.ex. *)
Example c42_ex_name : item_to_bin ref_pton TDname [87; 119; 46; 69; 120] 100 = Ok [2; 119; 119; 2; 101; 120; 0] /\ item_to_txt TDname [2; 119; 119; 2; 101; 120; 0] 100 YP_SNONE false = Ok [119; 119; 46; 101; 120; 46].
Proof. vm_compute. repeat split. Qed.
Example c42_ex_hyps : reads_addresses ref_pton /\ legal_item (TInt 0 (2 ^ 40) (mkstyle true false)) /\ legal_item (TOpt [(1, [97]); (2, [98])]) /\
  int_means (mkstyle true false) [49; 53; 51; 54; 75] 1536 (1536 * 1024) /\ ~ (target (TRef TNet) = THex /\ looks_hex [0; 0]).
Proof.
  split; [exact ref_reads|]. split; [cbn; lia|]. split.
  - cbn. split; [repeat constructor; unfold byte; cbn; try lia; try discriminate; intros [H|[]]; discriminate|]. repeat constructor; cbn; intros H; repeat destruct H as [H|H]; try discriminate; auto.
  - split; [|intros [H _]; discriminate]. right. exists [49; 53; 51; 54], 75, 1024. split; [reflexivity|]. split; [|split; [left; split; [reflexivity|constructor]|reflexivity]].
    exists [], [], [49; 53; 51; 54], [1; 5; 3; 6]. split; [reflexivity|]. split; [constructor|]. split; [|split; [discriminate|left; split; reflexivity]]. repeat (constructor; [match goal with |- digit_value _ ?c ?d => change d with (c - 48); apply dec_digit; lia end|]). constructor.
Qed.

Print Assumptions c42_round_trip_partial.
Print Assumptions c42_number_value.
Print Assumptions c42_number_only.
Print Assumptions c42_number_data.
Print Assumptions c42_name_value.
Print Assumptions c42_bool_value.
Print Assumptions c42_option_value.
Print Assumptions c42_string_value.
Print Assumptions c42_address_value.
Print Assumptions c42_address_port_value.
Print Assumptions c42_network_value.
Print Assumptions c42_network_mask_value.
Print Assumptions c42_network_range_value.
Print Assumptions c42_hex_value.
Print Assumptions c42_hex_refused.
Print Assumptions c42_hex_plain_value.
Print Assumptions c42_base64_value.
Print Assumptions c42_hex_round_trip_refuted.
Print Assumptions c42_hex_unreadable_refuted.
Print Assumptions c42_number_defined_refuted.
Print Assumptions c42_zero_in_string_refuted.
