(** The meaning of texts of addresses, networks and hexadecimal data. *)
From Verif Require Import Base WireModel WireProofs CodecModel CodecProps DnameModel DnameSpec DnameProofs DnameProofs2 DnameProofs3 DnameProofs4 DnameProps
  TrafoModel TrafoSpec TrafoProofs TrafoProofs2 TrafoProofs3 TrafoProofs4 TrafoProofs5 TrafoProofs6.

Lemma host_facts : forall t e, host_text t e -> Forall char6 t /\ zlen t <= 45 /\ 1 <= zlen e /\ is_ip_addr (hd 0 e) = true /\ (hd 0 e =? ADDR_UNIX) = false /\ 1 <= zlen t.
Proof.
  intros t e [t' a H|t' a H].
  - destruct (ip4_counts _ _ H) as (C1 & C2 & _ & C3). pose proof (ip4_chars _ _ H) as FC. split; [|split; [lia|]].
    + eapply Forall_impl; [|exact FC]. unfold char4, char6. intros; lia.
    + rewrite zlen_cons. pose proof (zlen_nonneg a). split; [lia|]. split; [reflexivity|]. split; [reflexivity|]. destruct t'; [cbn in C1; lia|rewrite zlen_cons; pose proof (zlen_nonneg t'); lia].
  - destruct (ip6_facts _ _ H) as (C1 & C2 & C3 & _). split; [auto|]. split; [auto|]. rewrite zlen_cons. pose proof (zlen_nonneg a). split; [lia|]. split; [reflexivity|]. split; [reflexivity|]. destruct t'; [destruct C2|rewrite zlen_cons; pose proof (zlen_nonneg t'); lia].
Qed.
Lemma host_to_bin : forall P t e tail d r allow, reads_addresses P -> host_text t e -> zlen e <= r -> ~ In 37 tail -> noport_to_bin P (t ++ tail) (zlen t) (mkout d r) allow = Ok (tail, mkout (d ++ e) (r - zlen e)).
Proof.
  intros P t e tail d r allow (P4 & P6 & _) H HR HT. destruct (host_facts _ _ H) as (FC & HL & _). assert (NC : forall c, ~ char6 c -> ~ In c t) by (intros c HC HI; apply HC; eapply Forall_forall in FC; [|exact HI]; auto).
  unfold noport_to_bin, sock_type_guess. rewrite zfirstn_exact. destruct H as [t a T|t a T]; rewrite zlen_cons in HR.
  - destruct (ip4_counts _ _ T) as (C1 & C2 & C3 & C4). rewrite C3. change (0 >=? 1) with false. cbn iota. rewrite C1. change (3 =? 3) with true. replace (_ >=? 3) with true by lia. cbn [andb].
    change (is_ip_addr ADDR_IPV4) with true. cbn iota. cbn [rbind]. unfold copy_in. replace (_ >? 46) with false by lia. cbn [rbind]. rewrite zfirstn_exact, zskipn_exact. rewrite cstr_id by (apply NC; unfold char6; lia).
    pose proof (zlen_nonneg a). rewrite write_fits by (change (zlen [ADDR_IPV4]) with 1; lia). cbn [rbind]. change (ADDR_IPV4 =? ADDR_IPV4) with true. cbn iota. rewrite (P4 _ _ T).
    rewrite write_fits by (change (zlen [ADDR_IPV4]) with 1; lia). cbn [rbind]. rewrite <- app_assoc. change (zlen [ADDR_IPV4]) with 1. rewrite zlen_cons. apply f_equal, f_equal; apply f_equal2; [reflexivity|lia].
  - destruct (ip6_facts _ _ T) as (C1 & C2 & C3 & _). pose proof (count_in _ _ C2). replace (_ >=? 1) with true by lia.
    rewrite strchr_in_none by (intros HI; apply in_app_or in HI; destruct HI as [HI|HI]; [apply NC in HI; [auto|unfold char6; lia]|auto]).
    change (is_ip_addr ADDR_IPV6) with true. cbn iota. cbn [rbind]. unfold copy_in. replace (_ >? 46) with false by lia. cbn [rbind]. rewrite zfirstn_exact, zskipn_exact. rewrite cstr_id by (apply NC; unfold char6; lia).
    pose proof (zlen_nonneg a). rewrite write_fits by (change (zlen [ADDR_IPV6]) with 1; lia). cbn [rbind]. change (ADDR_IPV6 =? ADDR_IPV4) with false. cbn iota. rewrite (P6 _ _ T).
    rewrite write_fits by (change (zlen [ADDR_IPV6]) with 1; lia). cbn [rbind]. rewrite <- app_assoc. change (zlen [ADDR_IPV6]) with 1. rewrite zlen_cons. apply f_equal, f_equal; apply f_equal2; [reflexivity|lia].
Qed.
Lemma number_chars : forall t k, number_text t k -> Forall (fun c => blank c \/ c = 43 \/ c = 45 \/ 48 <= c <= 57) t.
Proof.
  intros t k (ws & sign & t' & ds & -> & FW & FD & _ & HS). apply Forall_app. split; [eapply Forall_impl; [|exact FW]; auto|]. apply Forall_app. split.
  - destruct HS as [[-> _]|[[-> _]|[-> _]]]; [constructor| |]; (constructor; [auto|constructor]).
  - clear - FD. induction FD as [|c d t ds D _ IH]; constructor; auto. inversion D; subst; [right; right; right; lia|lia].
Qed.
Lemma number_no : forall t k c, number_text t k -> ~ blank c -> c <> 43 -> c <> 45 -> ~ (48 <= c <= 57) -> ~ In c t.
Proof. intros t k c H H1 H2 H3 H4 HI. apply number_chars in H. eapply Forall_forall in H; [|exact HI]. cbv beta in H. tauto. Qed.
Lemma port_to_bin : forall p k d r mx, number_text p k -> zlen p <= 31 -> 0 <= mx < 2 ^ 63 -> 8 <= r ->
  int_to_bin p (zlen p) (mkout d r) 0 mx YP_SNONE = if (k <? 0) || (mx <? k) then Err KNOT_ERANGE else Ok ([], mkout (d ++ be 8 k) (r - 8)).
Proof.
  intros p k d r mx HP HL HM HR. rewrite (int_to_bin_means p k k); [|reflexivity|eapply number_no; eauto; unfold blank; lia|auto|left; auto|lia|lia|auto]. destruct (_ || _) eqn:E; [reflexivity|]. rewrite write_fits by (rewrite be8_len; lia). cbn [rbind]. rewrite be8_len. unfold u64. rewrite Z.mod_small by lia. reflexivity.
Qed.
Lemma addr_host : forall P t e r, reads_addresses P -> host_text t e -> zlen e + 8 <= r -> addr_to_bin P t (zlen t) (mkout [] r) = Ok ([], mkout (e ++ be 8 (2 ^ 64 - 1)) (r - zlen e - 8)).
Proof.
  intros P t e r HP H HR. destruct (host_facts _ _ H) as (FC & HL & HE & E1 & E2 & _). assert (NC : forall c, ~ char6 c -> ~ In c t) by (intros c HC HI; apply HC; eapply Forall_forall in FC; [|exact HI]; auto).
  unfold addr_to_bin. rewrite strrchr_nul by (apply NC; unfold char6; lia). assert (NI : ~ In 64 t) by (apply NC; unfold char6; lia). apply last_index_none in NI. rewrite NI. pose proof (host_to_bin P t e [] [] r true HP H ltac:(lia) ltac:(auto)) as NB. rewrite app_nil_r in NB. rewrite NB. cbn [rbind o_data o_room app]. change (Z.to_nat (zlen (@nil Z))) with 0%nat.
  replace (nth 0 e 0) with (hd 0 e) by (destruct e; reflexivity). rewrite E1. rewrite write_fits by (rewrite be8_len; lia). cbn [rbind]. rewrite be8_len. reflexivity.
Qed.
Lemma addr_port : forall P t e p k r, reads_addresses P -> host_text t e -> number_text p k -> zlen p <= 31 -> zlen e + 8 <= r ->
  addr_to_bin P (t ++ 64 :: p) (zlen (t ++ 64 :: p)) (mkout [] r) = if (k <? 0) || (65535 <? k) then Err KNOT_ERANGE else Ok ([], mkout (e ++ be 8 k) (r - zlen e - 8)).
Proof.
  intros P t e p k r HP H HK HPL HR. destruct (host_facts _ _ H) as (FC & HL & HE & E1 & E2 & _). assert (NC : forall c, ~ char6 c -> ~ In c t) by (intros c HC HI; apply HC; eapply Forall_forall in FC; [|exact HI]; auto).
  assert (NP : forall c, c = 0 \/ c = 37 \/ c = 64 -> ~ In c p) by (intros c HC; eapply number_no; eauto; unfold blank; lia).
  unfold addr_to_bin. rewrite strrchr_nul by (intros HI; apply in_app_or in HI; destruct HI as [HI|[HI|HI]]; [apply NC in HI; [auto|unfold char6; lia]|lia|apply NP in HI; auto]). rewrite last_index_app by (apply NP; auto). rewrite zlen_app, zlen_cons. pose proof (zlen_nonneg p). replace (zlen t >=? _) with false by lia.
  rewrite (host_to_bin P t e (64 :: p) [] r true HP H) by first [lia | intros [HI|HI]; [lia|apply NP in HI; auto]]. cbn [rbind o_data o_room app]. change (Z.to_nat (zlen (@nil Z))) with 0%nat. replace (nth 0 e 0) with (hd 0 e) by (destruct e; reflexivity). rewrite E2, read_one. cbn [rbind]. replace (zlen t + (1 + zlen p) - zlen t - 1) with (zlen p) by lia.
  apply port_to_bin; auto; lia.
Qed.
Lemma index_none : forall c l, ~ In c l -> index_of c l = None.
Proof. intros c l. induction l as [|x l IH]; intros H; [reflexivity|]. cbn [index_of]. destruct (x =? c) eqn:E; [exfalso; apply H; left; lia|]. rewrite IH; [reflexivity|intros HI; apply H; right; auto]. Qed.
Lemma host_head : forall t e tail, host_text t e -> (hd 0 (t ++ tail) =? 47) = false.
Proof. intros t e tail H. destruct (host_facts _ _ H) as (FC & _ & _ & _ & _ & HL). destruct t as [|c t]; [change (zlen (@nil Z)) with 0 in HL; lia|]. inversion FC as [|? ? HC _]; subst. cbn [app hd]. unfold char6 in HC. lia. Qed.
Definition host_bits (e : list Z) : Z := if hd 0 e =? 4 then 32 else 128.
Lemma range_host : forall P t e r, reads_addresses P -> host_text t e -> zlen e + 1 <= r -> range_to_bin P t (zlen t) (mkout [] r) = Ok ([], mkout (e ++ [0]) (r - zlen e - 1)).
Proof.
  intros P t e r HP H HR. destruct (host_facts _ _ H) as (FC & HL & HE & E1 & E2 & _). assert (NC : forall c, ~ char6 c -> ~ In c t) by (intros c HC HI; apply HC; eapply Forall_forall in FC; [|exact HI]; auto).
  pose proof (host_head t e [] H) as HH. rewrite app_nil_r in HH. unfold range_to_bin. rewrite HH. rewrite !strchr_in_none by (apply NC; unfold char6; lia). cbv beta iota zeta. pose proof (host_to_bin P t e [] [] r false HP H ltac:(lia) ltac:(auto)) as NB. rewrite app_nil_r in NB. rewrite NB. cbn [rbind o_data o_room app]. rewrite write_fits by (change (zlen [0]) with 1; lia). reflexivity.
Qed.
Lemma range_mask : forall P t e p k r, reads_addresses P -> host_text t e -> number_text p k -> zlen p <= 31 -> zlen e + 9 <= r ->
  range_to_bin P (t ++ 47 :: p) (zlen (t ++ 47 :: p)) (mkout [] r) = if (k <? 0) || (host_bits e <? k) then Err KNOT_ERANGE else Ok ([], mkout (e ++ 1 :: be 8 k) (r - zlen e - 9)).
Proof.
  intros P t e p k r HP H HK HPL HR. destruct (host_facts _ _ H) as (FC & HL & HE & E1 & E2 & _). assert (NC : forall c, ~ char6 c -> ~ In c t) by (intros c HC HI; apply HC; eapply Forall_forall in FC; [|exact HI]; auto).
  assert (NP : forall c, c = 0 \/ c = 37 \/ c = 47 -> ~ In c p) by (intros c HC; eapply number_no; eauto; unfold blank; lia).
  unfold range_to_bin. rewrite (host_head t e (47 :: p) H). rewrite (strchr_nul 47) by (intros HI; apply in_app_or in HI; destruct HI as [HI|[HI|HI]]; [apply NC in HI; [auto|unfold char6; lia]|lia|apply NP in HI; auto]). rewrite index_of_app by (apply NC; unfold char6; lia). rewrite zlen_app, zlen_cons. pose proof (zlen_nonneg p). replace (zlen t >=? _) with false by lia. cbv beta iota zeta.
  rewrite (host_to_bin P t e (47 :: p) [] r false HP H) by first [lia | intros [HI|HI]; [lia|apply NP in HI; auto]]. cbn [rbind o_data o_room app]. change (Z.to_nat (zlen (@nil Z))) with 0%nat. replace (nth 0 e 0) with (hd 0 e) by (destruct e; reflexivity). rewrite write_fits by (change (zlen [1]) with 1; lia). cbn [rbind]. rewrite read_one. cbn [rbind]. change (1 =? 1) with true. cbn iota. replace (zlen t + (1 + zlen p) - zlen t - 1) with (zlen p) by lia.
  change (zlen [1]) with 1. change (if hd 0 e =? ADDR_IPV4 then 32 else 128) with (host_bits e). rewrite (port_to_bin p k _ _ (host_bits e)); [|auto|auto|unfold host_bits; destruct (hd 0 e =? 4); split; reflexivity || discriminate|lia]. destruct (_ || _); [reflexivity|]. rewrite <- app_assoc. cbn [app]. apply f_equal, f_equal; apply f_equal2; [reflexivity|lia].
Qed.
Lemma range_two : forall P t e t2 e2 r, reads_addresses P -> host_text t e -> host_text t2 e2 -> zlen e + 1 + zlen e2 <= r ->
  range_to_bin P (t ++ 45 :: t2) (zlen (t ++ 45 :: t2)) (mkout [] r) = if hd 0 e =? hd 0 e2 then Ok ([], mkout (e ++ 2 :: e2) (r - zlen e - 1 - zlen e2)) else Err KNOT_EINVAL.
Proof.
  intros P t e t2 e2 r HP H H2 HR. destruct (host_facts _ _ H) as (FC & HL & HE & E1 & E2 & _). assert (NC : forall c, ~ char6 c -> ~ In c t) by (intros c HC HI; apply HC; eapply Forall_forall in FC; [|exact HI]; auto).
  destruct (host_facts _ _ H2) as (FC2 & _ & HE2 & _). assert (NP : forall c, ~ char6 c -> ~ In c t2) by (intros c HC HI; apply HC; eapply Forall_forall in FC2; [|exact HI]; auto).
  assert (NB : forall c, ~ char6 c -> c <> 45 -> ~ In c (t ++ 45 :: t2)) by (intros c HC H45 HI; apply in_app_or in HI; destruct HI as [HI|[HI|HI]]; [apply NC in HI; auto|congruence|apply NP in HI; auto]).
  unfold range_to_bin. rewrite (host_head t e (45 :: t2) H). rewrite (strchr_in_none 47) by (apply NB; unfold char6; lia). rewrite (strchr_nul 45) by (apply NB; unfold char6; lia). rewrite index_of_app by (apply NC; unfold char6; lia). rewrite zlen_app, zlen_cons. pose proof (zlen_nonneg t2). replace (zlen t >=? _) with false by lia. cbv beta iota zeta.
  rewrite (host_to_bin P t e (45 :: t2) [] r false HP H) by first [lia | intros [HI|HI]; [lia|apply NP in HI; [auto|unfold char6; lia]]]. cbn [rbind o_data o_room app]. change (Z.to_nat (zlen (@nil Z))) with 0%nat. replace (nth 0 e 0) with (hd 0 e) by (destruct e; reflexivity). rewrite write_fits by (change (zlen [2]) with 1; lia). cbn [rbind]. rewrite read_one. cbn [rbind]. change (2 =? 1) with false. cbn iota. replace (zlen t + (1 + zlen t2) - zlen t - 1) with (zlen t2) by lia.
  change (zlen [2]) with 1. pose proof (host_to_bin P t2 e2 [] (e ++ [2]) (r - zlen e - 1) false HP H2 ltac:(lia) ltac:(auto)) as N2. rewrite app_nil_r in N2. rewrite N2. cbn [rbind o_data o_room]. replace (nth _ _ _) with (hd 0 e2).
  - destruct (hd 0 e =? hd 0 e2); [|reflexivity]. cbn [negb]. rewrite <- app_assoc. reflexivity.
  - rewrite app_nth2 by (unfold zlen; lia). replace (_ - _)%nat with 0%nat by (unfold zlen; lia). destruct e2; reflexivity.
Qed.
Lemma hex_num_spec : forall c d, hex_digit c d <-> hex_to_num c = Some d.
Proof.
  intros c d. unfold hex_digit, hex_to_num, is_digit. split.
  - intros [[H ->]|[[H ->]|[H ->]]]; repeat match goal with |- context [if ?b then _ else _] => let E := fresh in destruct b eqn:E end; try reflexivity; try lia; f_equal; lia.
  - repeat match goal with |- context [if ?b then _ else _] => let E := fresh in destruct b eqn:E end; intros HX; try discriminate; injection HX as <-; lia.
Qed.
Lemma unhex_spec : forall n t b, (length t <= n)%nat -> (hex_means t b <-> unhex t = Some b).
Proof.
  induction n as [|n IH]; intros t b HL; destruct t as [|x [|y t]]; cbn [length] in HL; try lia; cbn [hex_means unhex].
  - destruct b; split; intros; auto; try discriminate; try tauto.
  - destruct b; split; intros; auto; try discriminate; try tauto.
  - destruct b; split; intros; try discriminate; try tauto.
  - split.
    + destruct b as [|c b]; [tauto|]. intros [(h & l & H1 & H2 & ->) H]. apply hex_num_spec in H1, H2. rewrite H1, H2. apply IH in H; [|lia]. rewrite H. reflexivity.
    + intros H. destruct (hex_to_num x) as [h|] eqn:E1; [|discriminate]. destruct (hex_to_num y) as [l|] eqn:E2; [|discriminate]. destruct (unhex t) as [b'|] eqn:E3; [|discriminate]. apply IH in E3; [|lia]. injection H as <-. split; [|auto]. exists h, l. rewrite !hex_num_spec. auto.
Qed.
