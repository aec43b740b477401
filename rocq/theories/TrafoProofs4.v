(** Addresses with ports and ranges of addresses: there and back *)
From Verif Require Import Base DnameModel DnameSpec DnameProofs DnameProofs2 WireModel WireProofs TrafoModel TrafoSpec TrafoProofs TrafoProofs2 TrafoProofs3.

Definition addr_bin (v : addr) (port : Z) : list Z := enc v ++ be 8 (u64 port).
Definition addr_text (v : addr) (port : Z) : list Z := txt v ++ (if port <? 0 then [] else 64 :: int_text port YP_SNONE).
Definition no_char (c : Z) (v : addr) : Prop := match v with ALL _ n => ~ In c n | _ => True end.
Definition enc_len : forall v, 1 <= zlen (enc v).
Proof. intros [p|a|a|a n]; cbn [enc]; rewrite zlen_cons; match goal with |- _ <= 1 + ?x => pose proof (zlen_nonneg (A:=Z)) as G end; match goal with |- _ <= 1 + zlen ?l => pose proof (zlen_nonneg l); lia end. Qed.
Lemma type_of_enc : forall d v, nth (Z.to_nat (zlen d)) (d ++ enc v) 0 = hd 0 (enc v).
Proof. intros d v. unfold zlen. rewrite Nat2Z.id, app_nth2, Nat.sub_diag by lia. destruct (enc v); reflexivity. Qed.
Lemma enc_unix : forall v, is_unix v = false -> is_ip_addr (hd 0 (enc v)) = true /\ (hd 0 (enc v) =? ADDR_UNIX) = false.
Proof. intros [p|a|a|a n] H; try discriminate; split; reflexivity. Qed.
Lemma be8_len : forall v, zlen (be 8 v) = 8.
Proof. intros. rewrite be_length. reflexivity. Qed.
Lemma strrchr_nul : forall c i, ~ In 0 i -> strrchr c i = last_index c i.
Proof. intros. unfold strrchr. rewrite cstr_id by auto. reflexivity. Qed.
Lemma strchr_nul : forall c i, ~ In 0 i -> strchr c i = index_of c i.
Proof. intros. unfold strchr. rewrite cstr_id by auto. reflexivity. Qed.
Lemma zfirstn_all : forall {A} (l : list A), zfirstn (zlen l) l = l.
Proof. intros. unfold zfirstn, zlen. rewrite Nat2Z.id. apply firstn_all. Qed.
Lemma zskipn_all : forall {A} (l : list A), zskipn (zlen l) l = [].
Proof. intros. unfold zskipn, zlen. rewrite Nat2Z.id. apply skipn_all. Qed.
Lemma read_one_inv : forall i x, read i 1 = Ok x -> exists c i', i = c :: i' /\ x = ([c], i').
Proof.
  intros i x. unfold read. destruct i as [|c i]; [discriminate|]. rewrite zlen_cons. pose proof (zlen_nonneg i). replace (1 >? 1 + zlen i) with false by lia. intros HX. injection HX as <-. exists c, i. split; reflexivity.
Qed.
Lemma no_char_text : forall c v, addr_ok v -> is_unix v = false -> no_char c v -> c <> 37 -> ~ char6 c -> ~ In c (txt v).
Proof.
  intros c [p|a|a|a n] H NU NC C1 C2 HI; cbn [txt addr_ok no_char] in *; try discriminate.
  - destruct H as [B L]. apply (in_text4 a c B L) in HI. unfold char4, char6 in *. lia.
  - destruct H as [B L]. apply (in_text6 a c B L) in HI. auto.
  - destruct H as (B & L & _). apply in_app_or in HI. destruct HI as [HI|[HI|HI]]; [apply (in_text6 a c B L) in HI; auto|lia|auto].
Qed.
Lemma text_no_zero : forall v, addr_ok v -> ~ In 0 (txt v).
Proof.
  intros [p|a|a|a n] H HI; cbn [txt addr_ok] in *; [auto| | |].
  - destruct H as [B L]. apply (in_text4 a 0 B L) in HI. unfold char4 in *. lia.
  - destruct H as [B L]. apply (in_text6 a 0 B L) in HI. unfold char6 in *. lia.
  - destruct H as (B & L & N & _). apply in_app_or in HI. destruct HI as [HI|[HI|HI]]; [apply (in_text6 a 0 B L) in HI; unfold char6 in *; lia|lia|auto].
Qed.
Lemma int_text_chars : forall n, - 2 ^ 63 < n < 2 ^ 63 -> Forall (fun c => c = 45 \/ 48 <= c <= 57) (int_text n YP_SNONE).
Proof.
  intros n HN. unfold int_text. pose proof (add_unit_spec n YP_SNONE) as H. pose proof (add_unit_bound n YP_SNONE) as B. destruct (add_unit n YP_SNONE) as [k u]. cbn [fst] in B. destruct u as [|c u]; [rewrite app_nil_r; apply print_dec_chars; lia|]. destruct u; [destruct H as (m & HU & _); discriminate|contradiction].
Qed.

(** ** Addresses with ports *)
Lemma addr_to_bin_inv : forall P i r i' o', reads_addresses P -> ~ In 0 i -> addr_to_bin P i (zlen i) (mkout [] r) = Ok (i', o') ->
  zlen (o_data o') <= r /\
  (o_data o' = 0 :: i ++ [0] \/
   exists v port, addr_ok v /\ is_unix v = false /\ -1 <= port <= 65535 /\ o_data o' = addr_bin v port /\ (port = -1 -> no_char 64 v)).
Proof.
  intros P i r i' o' HP N0. unfold addr_to_bin. rewrite strrchr_nul by auto. cbn [o_data]. change (Z.to_nat (zlen (@nil Z))) with 0%nat.
  destruct (last_index 64 i) as [p|] eqn:EP.
  - apply last_index_some in EP. destruct EP as (x & y & -> & NY & ->). pose proof (zlen_nonneg x) as LX. pose proof (zlen_nonneg y) as LY. rewrite zlen_app, zlen_cons. replace (_ >=? _) with false by lia.
    destruct (noport_to_bin P (x ++ 64 :: y) (zlen x) (mkout [] r) true) as [[i1 o1]| | |] eqn:EN; try discriminate. cbn [rbind].
    apply noport_to_bin_inv in EN; [|auto|auto|rewrite zlen_app, zlen_cons; lia]. destruct EN as (v & OK & -> & HR & -> & HV & _). rewrite zskipn_exact. cbn [o_data o_room app]. rewrite zfirstn_exact in HV. destruct (is_unix v) eqn:EU.
    + destruct v as [p|a|a|a n]; try discriminate. destruct HV as [-> _]. cbn [enc nth]. change (0 =? ADDR_UNIX) with true. cbn iota. cbn [enc] in HR. rewrite zlen_cons, zlen_app in *. change (zlen [0]) with 1 in *.
      replace (zlen x + (1 + zlen y) - zlen x) with (zlen (64 :: y)) by (rewrite zlen_cons; lia). unfold str_to_bin. rewrite zfirstn_all, zskipn_all. change (0 :: x ++ [0]) with ((0 :: x) ++ [0]). rewrite removelast_last. unfold write. cbn [o_room o_data].
      match goal with |- context [zlen (64 :: y) >? ?k] => destruct (zlen (64 :: y) >? k) eqn:E1 end; [discriminate|]. cbn [rbind o_room o_data]. change (zlen [0]) with 1. match goal with |- context [1 >? ?k] => destruct (1 >? k) eqn:E2 end; [discriminate|]. cbn [rbind]. intros HX. injection HX as <- <-. cbn [o_data].
      split; [|left; rewrite <- !app_assoc; reflexivity]. rewrite zlen_cons in E1, E2. repeat (rewrite zlen_app || rewrite zlen_cons). change (zlen (@nil Z)) with 0. lia.
    + destruct (enc_unix v EU) as [E1 E2]. replace (nth 0 (enc v) 0) with (hd 0 (enc v)) by (destruct (enc v); reflexivity). rewrite E2. rewrite read_one. cbn [rbind]. intros HX. replace (zlen x + (1 + zlen y) - zlen x - 1) with (zlen y) in HX by lia.
      apply int_to_bin_inv in HX; [|lia|lia]. destruct HX as (n & HN & HR2 & -> & ->). cbn [o_data]. split; [rewrite zlen_app, be8_len; lia|]. right. exists v, n. split; [auto|]. split; [auto|]. split; [lia|]. split; [reflexivity|lia].
  - apply last_index_none in EP. pose proof (zlen_nonneg i). destruct (noport_to_bin P i (zlen i) (mkout [] r) true) as [[i1 o1]| | |] eqn:EN; try discriminate. cbn [rbind].
    apply noport_to_bin_inv in EN; [|auto|auto|lia]. destruct EN as (v & OK & -> & HR & -> & HV & _). rewrite zskipn_all. cbn [o_data o_room app]. rewrite zfirstn_all in HV. destruct (is_unix v) eqn:EU.
    + destruct v as [p|a|a|a n]; try discriminate. destruct HV as [-> _]. cbn [enc nth]. change (is_ip_addr 0) with false. cbn iota. intros HX. injection HX as <- <-. cbn [o_data]. split; [exact HR|left; reflexivity].
    + destruct (enc_unix v EU) as [E1 E2]. replace (nth 0 (enc v) 0) with (hd 0 (enc v)) by (destruct (enc v); reflexivity). rewrite E1. unfold write. cbn [o_room o_data]. rewrite be8_len. match goal with |- context [8 >? ?k] => destruct (8 >? k) eqn:E3 end; [discriminate|]. cbn [rbind]. intros HX. assert (o' = mkout (enc v ++ be 8 (u64 (-1))) (r - zlen (enc v) - 8)) as -> by congruence. clear HX. cbn [o_data].
      split; [rewrite zlen_app, be8_len; lia|]. right. exists v, (-1). split; [auto|]. split; [auto|]. split; [lia|]. split; [reflexivity|]. intros _. destruct v; cbn [no_char]; auto.
Qed.
Lemma path_to_txt : forall i rest d m, ~ In 0 i -> noport_to_txt (0 :: i ++ 0 :: rest) (mkout d m) = if zlen i >=? m then Err KNOT_ESPACE else Ok (rest, mkout (d ++ i) (m - zlen i)).
Proof.
  intros i rest d m N0. pose proof (noport_to_txt_spec (AUnix i) rest d m N0) as H. cbn [enc app] in H. rewrite <- app_assoc in H. exact H.
Qed.
Lemma addr_to_txt_path : forall i d m, ~ In 0 i -> addr_to_txt (0 :: i ++ [0]) (mkout d m) = if zlen i >=? m then Err KNOT_ESPACE else Ok ([], mkout (d ++ i) (m - zlen i)).
Proof.
  intros i d m N0. unfold addr_to_txt. rewrite path_to_txt by auto. destruct (_ >=? m); reflexivity.
Qed.
Lemma addr_to_txt_spec : forall v port d m, addr_ok v -> is_unix v = false -> -1 <= port <= 65535 ->
  addr_to_txt (addr_bin v port) (mkout d m) = if zlen (addr_text v port) >=? m then Err KNOT_ESPACE else Ok ([], mkout (d ++ addr_text v port) (m - zlen (addr_text v port))).
Proof.
  intros v port d m OK NU HP. unfold addr_to_txt, addr_bin, addr_text. rewrite noport_to_txt_spec by auto. destruct (enc_unix v NU) as [E1 E2]. replace (hd 0 (enc v ++ be 8 (u64 port))) with (hd 0 (enc v)) by (destruct v; reflexivity). rewrite zlen_app.
  destruct (zlen (txt v) >=? m) eqn:EM; [match goal with |- _ = if zlen ?a + zlen ?b >=? m then _ else _ => pose proof (zlen_nonneg b) end; replace (_ >=? m) with true by lia; reflexivity|]. cbn [rbind app]. rewrite E1. pose proof (read_be8 (u64 port) []) as RB. rewrite app_nil_r in RB. rewrite RB. cbn [rbind]. rewrite i64_u64 by lia.
  destruct (port <? 0) eqn:EN.
  - replace (port >=? 0) with false by lia. change (zlen (@nil Z)) with 0. rewrite Z.add_0_r, EM, app_nil_r. reflexivity.
  - replace (port >=? 0) with true by lia. rewrite zlen_cons. rewrite write_fits by (change (zlen [64]) with 1; lia). cbn [rbind]. pose proof (int_to_txt_spec port [] ((d ++ txt v) ++ [64]) (m - zlen (txt v) - zlen [64]) YP_SNONE ltac:(lia)) as IT. rewrite app_nil_r in IT. rewrite IT. change (zlen [64]) with 1.
    replace (zlen (int_text port YP_SNONE) >=? m - zlen (txt v) - 1) with (zlen (txt v) + (1 + zlen (int_text port YP_SNONE)) >=? m) by lia. destruct (zlen (txt v) + _ >=? m); [reflexivity|]. rewrite <- !app_assoc. cbn [app]. apply f_equal, f_equal. apply f_equal2; [reflexivity|lia].
Qed.
Lemma addr_to_bin_text : forall P v port r, reads_addresses P -> addr_ok v -> is_unix v = false -> -1 <= port <= 65535 -> (port = -1 -> no_char 64 v) -> zlen (addr_bin v port) <= r ->
  addr_to_bin P (addr_text v port) (zlen (addr_text v port)) (mkout [] r) = Ok ([], mkout (addr_bin v port) (r - zlen (addr_bin v port))).
Proof.
  intros P v port r HP OK NU HPO NC HR. unfold addr_to_bin, addr_text, addr_bin in *. rewrite !zlen_app, be8_len in *. cbn [o_data]. change (Z.to_nat (zlen (@nil Z))) with 0%nat. destruct (enc_unix v NU) as [E1 E2]. pose proof (text_no_zero v OK) as TZ. assert (HD : nth 0 (enc v) 0 = hd 0 (enc v)) by (destruct (enc v); reflexivity).
  destruct (port <? 0) eqn:EN.
  - rewrite app_nil_r. change (zlen (@nil Z)) with 0. rewrite Z.add_0_r. rewrite strrchr_nul by auto. assert (NI : ~ In 64 (txt v)) by (apply no_char_text; auto; [apply NC; lia|lia|unfold char6; lia]). apply last_index_none in NI. rewrite NI.
    pose proof (noport_to_bin_text P v [] [] r true HP OK NU ltac:(lia)) as NB. rewrite app_nil_r in NB. rewrite NB by (destruct v; auto). cbn [rbind o_data o_room app]. rewrite HD, E1. rewrite write_fits by (rewrite be8_len; lia). cbn [rbind]. rewrite be8_len. assert (port = -1) as -> by lia. apply f_equal, f_equal. apply f_equal2; [reflexivity|lia].
  - destruct (int_text_len port YP_SNONE ltac:(lia)) as [TL TN]. pose proof (int_text_chars port ltac:(lia)) as TC. assert (N64 : ~ In 64 (int_text port YP_SNONE)) by (intros HI; eapply Forall_forall in TC; [|exact HI]; cbv beta in TC; lia).
    rewrite strrchr_nul by (intros HI; apply in_app_or in HI; destruct HI as [HI|[HI|HI]]; [auto|lia|auto]). rewrite last_index_app by auto. rewrite zlen_cons. replace (zlen (txt v) >=? _) with false by lia.
    rewrite noport_to_bin_text; [|auto|auto|auto|lia|]. 2:{ destruct v; auto. intros [HI|HI]; [lia|]. eapply Forall_forall in TC; [|exact HI]. cbv beta in TC. lia. }
    cbn [rbind o_data o_room app]. rewrite HD, E2. rewrite read_one. cbn [rbind]. replace (zlen (txt v) + (1 + zlen (int_text port YP_SNONE)) - zlen (txt v) - 1) with (zlen (int_text port YP_SNONE)) by lia.
    pose proof (int_to_bin_text port YP_SNONE YP_SNONE [] (enc v) (r - zlen (enc v)) 0 65535 ltac:(lia) (within_refl _) ltac:(lia) ltac:(lia)) as IB. rewrite app_nil_r in IB. rewrite IB. apply f_equal, f_equal. apply f_equal2; [reflexivity|lia].
Qed.

(** ** Ranges *)
Inductive range : Type := ROne (v : addr) | RMask (v : addr) (n : Z) | RTwo (v w : addr).
Definition range_bin (x : range) : list Z :=
  match x with ROne v => enc v ++ [0] | RMask v n => enc v ++ 1 :: be 8 (u64 n) | RTwo v w => enc v ++ 2 :: enc w end.
Definition range_text (x : range) : list Z :=
  match x with ROne v => txt v | RMask v n => txt v ++ 47 :: int_text n YP_SNONE | RTwo v w => txt v ++ 45 :: txt w end.
Definition mask_max (v : addr) : Z := match v with A4 _ => 32 | _ => 128 end.
Definition range_ok (x : range) : Prop :=
  match x with
  | ROne v => addr_ok v /\ is_unix v = false /\ no_char 47 v /\ no_char 45 v
  | RMask v n => addr_ok v /\ is_unix v = false /\ no_char 47 v /\ 0 <= n <= mask_max v
  | RTwo v w => addr_ok v /\ addr_ok w /\ is_unix v = false /\ hd 0 (enc v) = hd 0 (enc w) /\ no_char 47 v /\ no_char 45 v /\ no_char 47 w
  end.
Lemma mask_type : forall v, is_unix v = false -> (if hd 0 (enc v) =? ADDR_IPV4 then 32 else 128) = mask_max v.
Proof. intros [p|a|a|a n] H; try discriminate; reflexivity. Qed.
Lemma range_to_bin_inv : forall P i r i' o', reads_addresses P -> ~ In 0 i -> range_to_bin P i (zlen i) (mkout [] r) = Ok (i', o') ->
  zlen (o_data o') <= r /\ (o_data o' = 0 :: i ++ [0; 0] /\ hd 0 i = 47 \/ exists x, range_ok x /\ o_data o' = range_bin x).
Proof.
  intros P i r i' o' HP N0. unfold range_to_bin. rewrite !strchr_nul by auto. cbn [o_data]. change (Z.to_nat (zlen (@nil Z))) with 0%nat. pose proof (zlen_nonneg i) as LI.
  assert (HD : forall v, nth 0 (enc v) 0 = hd 0 (enc v)) by (intros v; destruct (enc v); reflexivity).
  assert (ONE : forall allow, hd 0 i =? 47 = allow -> (allow = true \/ ~ In 47 i /\ ~ In 45 i) -> (let* (i0, o) := noport_to_bin P i (zlen i) (mkout [] r) allow in let* o := write o [0] in Ok (i0, o)) = Ok (i', o') ->
    zlen (o_data o') <= r /\ (o_data o' = 0 :: i ++ [0; 0] /\ hd 0 i = 47 \/ exists x, range_ok x /\ o_data o' = range_bin x)).
  { intros allow HA HC HX. destruct (noport_to_bin P i (zlen i) (mkout [] r) allow) as [[i1 o1]| | |] eqn:EN; try discriminate. cbn [rbind] in HX. apply noport_to_bin_inv in EN; [|auto|auto|lia]. destruct EN as (v & OK & -> & HR & -> & HV & HS). rewrite zfirstn_all in HV. cbn [app] in HX.
    unfold write in HX. cbn [o_room o_data] in HX. change (zlen [0]) with 1 in HX. destruct (1 >? r - zlen (enc v)) eqn:E1; [discriminate|]. cbn [rbind] in HX. injection HX as <- <-. cbn [o_data]. split; [rewrite zlen_app; change (zlen [0]) with 1; lia|]. destruct (is_unix v) eqn:EU.
    - destruct v as [p|a|a|a n]; try discriminate. destruct HV as [-> HA2]. left. cbn [enc app]. rewrite <- app_assoc. cbn [app]. split; [reflexivity|rewrite HA2 in HA; lia].
    - right. exists (ROne v). split; [|reflexivity]. specialize (HS eq_refl). destruct HC as [-> | [H1 H2]]; [lia|]. split; [auto|]. split; [auto|]. split; destruct v; cbn [no_char]; auto. }
  destruct (hd 0 i =? 47) eqn:EH; [apply (ONE true); auto|].
  assert (BEF : forall c p, index_of c i = Some p -> p >=? zlen i = false) by (intros c p H; apply index_of_some in H; destruct H as (x & y & -> & _ & ->); rewrite zlen_app, zlen_cons; pose proof (zlen_nonneg y); lia).
  destruct (index_of 47 i) as [p|] eqn:E47.
  - rewrite (BEF _ _ E47). apply index_of_some in E47. destruct E47 as (x & y & -> & NX & ->). pose proof (zlen_nonneg x). pose proof (zlen_nonneg y). destruct (noport_to_bin P (x ++ 47 :: y) (zlen x) (mkout [] r) false) as [[i1 o1]| | |] eqn:EN; try discriminate. cbn [rbind].
    apply noport_to_bin_inv in EN; [|auto|auto|rewrite zlen_app, zlen_cons; lia]. destruct EN as (v & OK & -> & HR & -> & HV & HS). rewrite zfirstn_exact in HV. rewrite zskipn_exact. assert (EU : is_unix v = false) by (destruct v; auto; destruct HV; discriminate).
    cbn [app o_data]. unfold write at 1. cbn [o_room o_data]. change (zlen [1]) with 1. destruct (1 >? r - zlen (enc v)) eqn:E1; [discriminate|]. cbn [rbind]. rewrite read_one. cbn [rbind]. change (1 =? 1) with true. cbn iota. rewrite zlen_app, zlen_cons. replace (zlen x + (1 + zlen y) - zlen x - 1) with (zlen y) by lia.
    rewrite HD, (mask_type v EU). intros HX. apply int_to_bin_inv in HX; [|lia|destruct v; cbn; lia]. destruct HX as (n & HN & HR2 & -> & ->). cbn [o_data]. split; [rewrite !zlen_app, be8_len; change (zlen [1]) with 1; lia|]. right. exists (RMask v n). split; [|cbn [range_bin]; rewrite <- app_assoc; reflexivity]. split; [auto|]. split; [auto|]. split; [destruct v; cbn [no_char]; auto|auto].
  - apply index_of_none in E47. destruct (index_of 45 i) as [p|] eqn:E45.
    + rewrite (BEF _ _ E45). apply index_of_some in E45. destruct E45 as (x & y & -> & NX & ->). pose proof (zlen_nonneg x). pose proof (zlen_nonneg y). destruct (noport_to_bin P (x ++ 45 :: y) (zlen x) (mkout [] r) false) as [[i1 o1]| | |] eqn:EN; try discriminate. cbn [rbind].
      apply noport_to_bin_inv in EN; [|auto|auto|rewrite zlen_app, zlen_cons; lia]. destruct EN as (v & OK & -> & HR & -> & HV & HS). rewrite zfirstn_exact in HV. rewrite zskipn_exact. assert (EU : is_unix v = false) by (destruct v; auto; destruct HV; discriminate).
      cbn [app o_data]. unfold write at 1. cbn [o_room o_data]. change (zlen [2]) with 1. destruct (1 >? r - zlen (enc v)) eqn:E1; [discriminate|]. cbn [rbind]. rewrite read_one. cbn [rbind]. change (2 =? 1) with false. cbn iota. rewrite zlen_app, zlen_cons. replace (zlen x + (1 + zlen y) - zlen x - 1) with (zlen y) by lia.
      destruct (noport_to_bin P y (zlen y) _ false) as [[i2 o2]| | |] eqn:EN2; try discriminate. apply noport_to_bin_inv in EN2; [|auto|intros HI; apply N0; apply in_or_app; right; right; auto|lia]. destruct EN2 as (w & OKW & -> & HRW & -> & HVW & HSW). rewrite zfirstn_all in HVW. cbn [rbind o_data].
      rewrite HD. rewrite type_of_enc. destruct (hd 0 (enc v) =? hd 0 (enc w)) eqn:ET; [|discriminate]. cbn [negb]. intros HX. injection HX as <- <-. cbn [o_data]. split; [rewrite !zlen_app; change (zlen [2]) with 1; lia|]. right. exists (RTwo v w). split; [|cbn [range_bin]; rewrite <- app_assoc; reflexivity].
      split; [auto|]. split; [auto|]. split; [auto|]. split; [lia|]. split; [destruct v; cbn [no_char]; auto; intros HI; apply E47; apply in_or_app; left; auto|]. split; [destruct v; cbn [no_char]; auto|]. destruct w; cbn [no_char]; auto. intros HI. apply E47. apply in_or_app. right. right. auto.
    + apply index_of_none in E45. apply (ONE false); auto.
Qed.
Lemma range_to_txt_path : forall i d m, ~ In 0 i -> range_to_txt (0 :: i ++ [0; 0]) (mkout d m) = if zlen i >=? m then Err KNOT_ESPACE else Ok ([], mkout (d ++ i) (m - zlen i)).
Proof. intros i d m N0. unfold range_to_txt. rewrite path_to_txt by auto. destruct (_ >=? m); reflexivity. Qed.
Lemma range_to_txt_spec : forall x d m, range_ok x -> range_to_txt (range_bin x) (mkout d m) = if zlen (range_text x) >=? m then Err KNOT_ESPACE else Ok ([], mkout (d ++ range_text x) (m - zlen (range_text x))).
Proof.
  intros [v | v n | v w] d m OK; unfold range_to_txt; cbn [range_bin range_text range_ok] in *.
  - destruct OK as (OK & _). rewrite noport_to_txt_spec by auto. destruct (_ >=? m); reflexivity.
  - destruct OK as (OK & NU & _ & HN). rewrite noport_to_txt_spec by auto. rewrite zlen_app, zlen_cons. pose proof (zlen_nonneg (int_text n YP_SNONE)). destruct (zlen (txt v) >=? m) eqn:EM; [replace (_ >=? m) with true by lia; reflexivity|]. cbn [rbind app]. rewrite read_one. cbn [rbind hd]. change (1 =? 1) with true. cbn iota.
    rewrite write_fits by (change (zlen [47]) with 1; lia). cbn [rbind]. assert (mask_max v <= 128) by (destruct v; cbn; lia). pose proof (int_to_txt_spec n [] ((d ++ txt v) ++ [47]) (m - zlen (txt v) - zlen [47]) YP_SNONE ltac:(lia)) as IT. rewrite app_nil_r in IT. rewrite IT. change (zlen [47]) with 1.
    replace (zlen (int_text n YP_SNONE) >=? m - zlen (txt v) - 1) with (zlen (txt v) + (1 + zlen (int_text n YP_SNONE)) >=? m) by lia. destruct (zlen (txt v) + _ >=? m); [reflexivity|]. rewrite <- !app_assoc. cbn [app]. apply f_equal, f_equal. apply f_equal2; [reflexivity|lia].
  - destruct OK as (OK & OKW & _). rewrite noport_to_txt_spec by auto. rewrite zlen_app, zlen_cons. pose proof (zlen_nonneg (txt w)). destruct (zlen (txt v) >=? m) eqn:EM; [replace (_ >=? m) with true by lia; reflexivity|]. cbn [rbind app]. rewrite read_one. cbn [rbind hd]. change (2 =? 1) with false. change (2 =? 2) with true. cbn iota.
    rewrite write_fits by (change (zlen [45]) with 1; lia). cbn [rbind]. pose proof (noport_to_txt_spec w [] ((d ++ txt v) ++ [45]) (m - zlen (txt v) - zlen [45]) OKW) as IT. rewrite app_nil_r in IT. rewrite IT. change (zlen [45]) with 1.
    replace (zlen (txt w) >=? m - zlen (txt v) - 1) with (zlen (txt v) + (1 + zlen (txt w)) >=? m) by lia. destruct (zlen (txt v) + _ >=? m); [reflexivity|]. rewrite <- !app_assoc. cbn [app]. apply f_equal, f_equal. apply f_equal2; [reflexivity|lia].
Qed.
Lemma text_head : forall v tail, addr_ok v -> is_unix v = false -> (hd 0 (txt v ++ tail) =? 47) = false.
Proof.
  intros v tail OK NU. assert (G : forall t u, Forall char6 t -> t <> [] -> (hd 0 (t ++ u) =? 47) = false) by (intros [|c t] u F NE; [congruence|]; cbn [app hd]; inversion F; subst; unfold char6 in *; lia).
  destruct v as [p|a|a|a n]; try discriminate; cbn [txt addr_ok] in *.
  - destruct OK as [B L]. pose proof (ntop4_spec a L B) as T. apply G; [eapply Forall_impl; [|apply (ip4_chars _ _ T)]; unfold char4, char6; intros; lia|]. intros E. destruct (ip4_counts _ _ T) as (C & _). rewrite E in C. discriminate.
  - destruct OK as [B L]. destruct (ip6_facts _ _ (ntop6_spec a L B)) as (C & HI & _). apply G; [auto|]. intros E. rewrite E in HI. destruct HI.
  - destruct OK as (B & L & _). destruct (ip6_facts _ _ (ntop6_spec a L B)) as (C & HI & _). rewrite <- app_assoc. apply G; [auto|]. intros E. rewrite E in HI. destruct HI.
Qed.
Lemma no_zero_int : forall n, - 2 ^ 63 < n < 2 ^ 63 -> ~ In 0 (int_text n YP_SNONE).
Proof. intros n HN. apply int_text_len. auto. Qed.
Lemma range_to_bin_text : forall P x r, reads_addresses P -> range_ok x -> zlen (range_bin x) <= r ->
  exists o, range_to_bin P (range_text x) (zlen (range_text x)) (mkout [] r) = Ok ([], o) /\ o_data o = range_bin x.
Proof.
  intros P x r HP OK HR. assert (HD : forall v, nth 0 (enc v) 0 = hd 0 (enc v)) by (intros v; destruct (enc v); reflexivity). assert (C47 : ~ char6 47) by (unfold char6; lia). assert (C45 : ~ char6 45) by (unfold char6; lia).
  unfold range_to_bin. cbn [o_data]. change (Z.to_nat (zlen (@nil Z))) with 0%nat. destruct x as [v | v n | v w]; cbn [range_bin range_text range_ok] in *.
  - destruct OK as (OK & NU & N47 & N45). pose proof (text_no_zero v OK) as TZ. pose proof (text_head v [] OK NU) as TH. rewrite app_nil_r in TH. rewrite TH. rewrite !strchr_nul by auto.
    assert (I47 : index_of 47 (txt v) = None) by (apply index_of_none, no_char_text; auto; lia). assert (I45 : index_of 45 (txt v) = None) by (apply index_of_none, no_char_text; auto; lia). rewrite I47, I45. rewrite zlen_app in HR. change (zlen [0]) with 1 in HR.
    pose proof (noport_to_bin_text P v [] [] r false HP OK NU ltac:(lia)) as NB. rewrite app_nil_r in NB. rewrite NB by (destruct v; auto). cbn [rbind app]. rewrite write_fits by (change (zlen [0]) with 1; lia). cbn [rbind]. eexists. split; [reflexivity|reflexivity].
  - destruct OK as (OK & NU & N47 & HN). assert (mask_max v <= 128) by (destruct v; cbn; lia). pose proof (text_no_zero v OK) as TZ. rewrite (text_head v _ OK NU). pose proof (no_zero_int n ltac:(lia)) as NZ. pose proof (int_text_chars n ltac:(lia)) as TC. pose proof (zlen_nonneg (int_text n YP_SNONE)).
    rewrite !strchr_nul by (intros HI; apply in_app_or in HI; destruct HI as [HI|[HI|HI]]; [auto|lia|auto]). rewrite index_of_app by (apply no_char_text; auto; lia). rewrite !zlen_app, !zlen_cons in *. replace (zlen (txt v) >=? _) with false by lia. rewrite be8_len in HR.
    rewrite noport_to_bin_text; [|auto|auto|auto|lia|]. 2:{ destruct v; auto. intros [HI|HI]; [lia|]. eapply Forall_forall in TC; [|exact HI]. cbv beta in TC. lia. }
    cbn [rbind app o_data]. rewrite HD. rewrite write_fits by (change (zlen [1]) with 1; lia). cbn [rbind]. rewrite read_one. cbn [rbind]. change (1 =? 1) with true. cbn iota. rewrite (mask_type v NU). replace (zlen (txt v) + (1 + zlen (int_text n YP_SNONE)) - zlen (txt v) - 1) with (zlen (int_text n YP_SNONE)) by lia.
    pose proof (int_to_bin_text n YP_SNONE YP_SNONE [] (enc v ++ [1]) (r - zlen (enc v) - zlen [1]) 0 (mask_max v) ltac:(lia) (within_refl _) ltac:(lia) ltac:(change (zlen [1]) with 1; lia)) as IB. rewrite app_nil_r in IB. rewrite IB. eexists. split; [reflexivity|]. cbn [o_data]. rewrite <- app_assoc. reflexivity.
  - destruct OK as (OK & OKW & NU & ET & N47 & N45 & W47). assert (NW : is_unix w = false) by (destruct w; auto; destruct v; discriminate). pose proof (text_no_zero v OK) as TZ. pose proof (text_no_zero w OKW) as TW. rewrite (text_head v _ OK NU). pose proof (zlen_nonneg (txt w)).
    rewrite !strchr_nul by (intros HI; apply in_app_or in HI; destruct HI as [HI|[HI|HI]]; [auto|lia|auto]).
    assert (I47 : index_of 47 (txt v ++ 45 :: txt w) = None) by (apply index_of_none; intros HI; apply in_app_or in HI; destruct HI as [HI|[HI|HI]]; [revert HI; apply no_char_text; auto; lia|lia|revert HI; apply no_char_text; auto; lia]).
    rewrite I47. rewrite index_of_app by (apply no_char_text; auto; lia). rewrite !zlen_app, !zlen_cons in *. replace (zlen (txt v) >=? _) with false by lia.
    pose proof (zlen_nonneg (enc w)). rewrite noport_to_bin_text; [|auto|auto|auto|lia|]. 2:{ destruct v; auto. intros [HI|HI]; [lia|]. destruct w; try discriminate. cbn [txt] in HI. destruct OKW as [B L]. apply (in_text6 _ _ B L) in HI. unfold char6 in HI. lia. }
    cbn [rbind app o_data]. rewrite HD. rewrite write_fits by (change (zlen [2]) with 1; lia). cbn [rbind]. rewrite read_one. cbn [rbind]. change (2 =? 1) with false. cbn iota. replace (zlen (txt v) + (1 + zlen (txt w)) - zlen (txt v) - 1) with (zlen (txt w)) by lia.
    pose proof (noport_to_bin_text P w [] (enc v ++ [2]) (r - zlen (enc v) - zlen [2]) false HP OKW NW ltac:(change (zlen [2]) with 1; lia)) as NB. rewrite app_nil_r in NB. rewrite NB by (destruct w; auto). cbn [rbind o_data]. rewrite type_of_enc, ET, Z.eqb_refl. cbn [negb]. eexists. split; [reflexivity|]. cbn [o_data]. rewrite <- app_assoc. reflexivity.
Qed.
