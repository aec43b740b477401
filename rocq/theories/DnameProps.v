(** C01-C06: domain names. A plain name pointer is modelled by the bytes from the pointer to
    the end of its buffer, hence statements of the form [wire ls ++ junk]. *)
From Verif Require Import Base DnameModel DnameSpec DnameProofs DnameProofs2 DnameProofs3 DnameProofs4.

(** *** C01 *)
(** For every memory content and every offset: no read outside the window (UB), termination
    (OOF), and success only on an encoding of a legal name, with its length at that place. *)
Theorem c01_check_safe_sound : forall m ptrs pos, bytes m -> 0 <= pos <= zlen m ->
  (exists n ls, wire_check m ptrs pos = Ok n /\ encodes m ptrs pos ls n /\ legal_name ls /\
                0 < n /\ pos + n <= zlen m) \/
  (exists e, wire_check m ptrs pos = Err e).
Proof.
  intros m ptrs pos HB Hp. pose proof (wire_check_sound m ptrs pos HB Hp) as H.
  destruct (wire_check m ptrs pos) as [n|e| |]; try contradiction; [left|right; eauto].
  destruct H as (ls & He & Hs). exists n, ls. repeat split; auto.
  - eapply encodes_legal; eauto.
  - eapply encodes_window; eauto.
  - eapply encodes_window; eauto.
Qed.

Theorem c01_check_complete : forall m ptrs pos ls n, bytes m -> encodes m ptrs pos ls n ->
  legal_name ls -> wire_check m ptrs pos = Ok n.
Proof. intros m ptrs pos ls n HB He [_ Hs]. eapply wire_check_complete; eauto. Qed.

(** The name and the length at a position are unique, so the two theorems above determine the
    result completely. *)
Theorem c01_encoding_unique : forall m ptrs pos ls n ls' n', bytes m ->
  encodes m ptrs pos ls n -> encodes m ptrs pos ls' n' -> ls = ls' /\ n = n'.
Proof. intros m ptrs pos ls n ls' n' HB H1 H2. destruct (encodes_det _ _ _ _ _ HB H1 _ _ H2); auto. Qed.

(** "a.b." with "b." at offset 0, a pointer at offset 3, and a self pointer at 7. *)
Definition ex_msg : list Z := [1; 98; 0;  1; 97; 192; 0;  192; 7].
Example c01_ex1 : bytes ex_msg /\ wire_check ex_msg true 3 = Ok 4. 
Proof. split; [repeat constructor; cbv; congruence|reflexivity]. Qed.
Example c01_ex2 : wire_check ex_msg true 7 = Err KNOT_EMALF. Proof. reflexivity. Qed.
Example c01_ex3 : wire_check ex_msg false 3 = Err KNOT_EINVAL. Proof. reflexivity. Qed.

(** *** C02 *)
Theorem c02_unpack_after_check : forall m ptrs pos n maxlen, bytes m -> 0 <= pos <= zlen m -> 0 <= maxlen ->
  wire_check m ptrs pos = Ok n ->
  exists ls, encodes m ptrs pos ls n /\ legal_name ls /\
    realsize m pos = Ok (name_size ls) /\
    (name_size ls <= maxlen -> unpack m pos maxlen = Ok (wire ls) /\ zlen (wire ls) = name_size ls) /\
    (maxlen < name_size ls -> exists e, unpack m pos maxlen = Err e).
Proof.
  intros m ptrs pos n maxlen HB Hp Hm H. pose proof (wire_check_sound m ptrs pos HB Hp) as HS.
  rewrite H in HS. destruct HS as (ls & He & Hs). exists ls.
  destruct (unpack_spec m ptrs pos ls n maxlen HB He Hm) as [H1 H2].
  split; [auto|]. split; [split; [eapply encodes_legal; eauto|auto]|].
  split; [eapply realsize_spec; eauto|]. split; [intros; split; [auto|apply zlen_wire]|auto].
Qed.
Example c02_ex : wire_check ex_msg true 3 = Ok 4 /\ unpack ex_msg 3 255 = Ok [1; 97; 1; 98; 0] /\
  unpack ex_msg 3 4 = Err KNOT_EINVAL.
Proof. repeat split; reflexivity. Qed.

(** *** C03 *)
(** Text conversion always succeeds when it allocates, gives valid presentation format no
    longer than the documented maximum, ... *)
Theorem c03_to_str : forall ls junk, legal_name ls ->
  exists t, dname_to_str (wire ls ++ junk) None = Ok t /\ name_text ls t /\ zlen t <= KNOT_DNAME_TXT_MAXLEN.
Proof.
  intros ls j H. exists (text ls). split; [apply dname_to_str_none; apply H|].
  split; [apply text_spec; apply H|apply text_bound; auto].
Qed.
(** ... and with a caller's buffer gives the same text or fails, never overrunning it; a
    buffer for the documented maximum plus the NUL is always enough. *)
Theorem c03_to_str_buffer : forall ls junk maxlen t, legal_name ls ->
  dname_to_str (wire ls ++ junk) None = Ok t ->
  (dname_to_str (wire ls ++ junk) (Some maxlen) = Ok t /\ zlen t < maxlen) \/
  (dname_to_str (wire ls ++ junk) (Some maxlen) = Err RET_NULL /\ maxlen <= KNOT_DNAME_TXT_MAXLEN).
Proof.
  intros ls j maxlen t H Ht. pose proof H as [HL HS]. rewrite dname_to_str_none in Ht by auto. injection Ht as <-.
  rewrite dname_to_str_some by auto. pose proof (text_bound ls H). unfold KNOT_DNAME_TXT_MAXLEN in *.
  destruct (name_size ls <? maxlen) eqn:E1, (zlen (text ls) <? maxlen) eqn:E2; cbn [andb];
    [left; split; auto; lia|right; split; auto; lia|right; split; auto; lia|right; split; auto; lia].
Qed.

(** Parsing: exact characterisation of what is accepted and what it yields, never UB. *)
Theorem c03_from_str_exact : forall t, bytes t ->
  (forall ls, legal_name ls -> name_denoted ls t -> dname_from_str None t = Ok (wire ls)) /\
  ((forall ls, legal_name ls -> ~ name_denoted ls t) -> dname_from_str None t = Err RET_NULL).
Proof.
  intros t Hb. split.
  - intros [|l ls] HL HD.
    + cbn in HD. subst t. reflexivity.
    + apply from_str_complete; auto; [congruence|].
      unfold alloc_of. destruct HD as [HD|HD]; apply labels_denote_len in HD; [lia|].
      rewrite zlen_app, zlen_cons, zlen_nil in HD. lia.
  - intros Hno. pose proof (from_str_sound None t Hb I) as H.
    destruct (dname_from_str None t) as [w|e| |]; try contradiction; [|congruence].
    destruct H as (ls & HL & HD & _). exfalso. eapply Hno; eauto.
Qed.

(** With a caller's buffer: never an overrun, only legal names. For the root "." the code
    writes two zero bytes, hence needs two bytes of buffer. *)
Theorem c03_from_str_buffer : forall t maxlen, bytes t -> 0 <= maxlen ->
  (exists ls w, dname_from_str (Some maxlen) t = Ok w /\ legal_name ls /\ name_denoted ls t /\
     zlen w <= maxlen /\ exists junk, w = wire ls ++ junk) \/
  dname_from_str (Some maxlen) t = Err RET_NULL.
Proof.
  intros t maxlen Hb Hm. pose proof (from_str_sound (Some maxlen) t Hb Hm) as H.
  destruct (dname_from_str (Some maxlen) t) as [w|e| |]; try contradiction; [left|right; congruence].
  destruct H as (ls & HL & HD & Hw & Hlen). exists ls, w. repeat split; auto; try apply HL.
  destruct Hw as [->|(-> & _ & ->)]; [exists []; rewrite app_nil_r; auto|].
  destruct ls as [|l ls]; [exists [0]; reflexivity|].
  exfalso. destruct HL as [HL _]. apply (denoted_head (l :: ls) [46]) in HL as [HL _]; auto; congruence.
Qed.
Theorem c03_from_str_buffer_enough : forall t ls maxlen, bytes t -> legal_name ls -> name_denoted ls t ->
  ls <> [] -> name_size ls <= maxlen -> dname_from_str (Some maxlen) t = Ok (wire ls).
Proof. intros. apply from_str_complete; auto. Qed.

(** Round trip, byte for byte. *)
Theorem c03_round_trip : forall ls junk t, legal_name ls ->
  dname_to_str (wire ls ++ junk) None = Ok t -> dname_from_str None t = Ok (wire ls).
Proof.
  intros ls j t HL Ht. rewrite dname_to_str_none in Ht by apply HL. injection Ht as <-.
  apply c03_from_str_exact; auto.
  - apply text_bytes; apply HL.
  - apply name_text_denoted, text_spec, HL.
Qed.
(** Different names have different texts. *)
Theorem c03_to_str_injective : forall a b j j' t, legal_name a -> legal_name b ->
  dname_to_str (wire a ++ j) None = Ok t -> dname_to_str (wire b ++ j') None = Ok t -> a = b.
Proof.
  intros a b j j' t Ha Hb H1 H2. apply c03_round_trip in H1; auto. apply c03_round_trip in H2; auto.
  apply wire_inj; [congruence|apply Ha|apply Hb].
Qed.
Example c03_ex : dname_to_str (wire [[97; 46; 0]; [35]]) None = Ok [97; 92; 46; 92; 48; 48; 48; 46; 92; 48; 51; 53; 46] /\
  dname_from_str None [97; 92; 46; 92; 48; 48; 48; 46; 92; 48; 51; 53; 46] = Ok (wire [[97; 46; 0]; [35]]).
Proof. split; reflexivity. Qed.
Example c03_ex2 : dname_from_str None [97; 46; 46] = Err RET_NULL. Proof. reflexivity. Qed.

(** *** C04 *)
(** The comparison never leaves its buffers, and on names without zero bytes in labels it is the
    canonical order of RFC 4034. Missing for the full property: labels with zero bytes, see
    c04_cmp_canonical_refuted. *)
Theorem c04_cmp_canonical_partial : forall a b j j', legal_name a -> legal_name b -> null_free a -> null_free b ->
  dname_cmp (wire a ++ j) (wire b ++ j') = Ok (cmp_sign (canonical_cmp a b)).
Proof. exact dname_cmp_canonical. Qed.
Theorem c04_canonical_total_order : forall a b c,
  (canonical_cmp a b = Eq <-> a = b) /\ canonical_cmp b a = CompOpp (canonical_cmp a b) /\
  (canonical_cmp a b = Lt -> canonical_cmp b c = Lt -> canonical_cmp a c = Lt).
Proof.
  intros. split; [apply canonical_cmp_eq|]. split; [apply canonical_cmp_antisym|apply canonical_cmp_trans].
Qed.
(** For all legal names the result is -1, 0 or 1, antisymmetric and transitive (a total preorder). *)
Theorem c04_cmp_preorder : forall a b c, legal_name a -> legal_name b -> legal_name c ->
  exists x y z, dname_cmp (wire a) (wire b) = Ok x /\ dname_cmp (wire b) (wire a) = Ok (- x) /\
    dname_cmp (wire b) (wire c) = Ok y /\ dname_cmp (wire a) (wire c) = Ok z /\
    (a = b -> x = 0) /\ (x < 0 -> y < 0 -> z < 0) /\ -1 <= x <= 1.
Proof.
  intros a b c Ha Hb Hc.
  pose proof (dname_cmp_octets a b [] [] Ha Hb) as H1. pose proof (dname_cmp_octets b a [] [] Hb Ha) as H2.
  pose proof (dname_cmp_octets b c [] [] Hb Hc) as H3. pose proof (dname_cmp_octets a c [] [] Ha Hc) as H4.
  rewrite !app_nil_r in *. do 3 eexists. split; [exact H1|]. split.
  { rewrite H2, octets_cmp_antisym. destruct (octets_cmp _ _); reflexivity. }
  split; [exact H3|]. split; [exact H4|]. split; [|split].
  - intros ->. rewrite (proj2 (octets_cmp_eq _ _) eq_refl). auto.
  - pose proof (octets_cmp_trans (lf_body (rev a)) (lf_body (rev b)) (lf_body (rev c))) as HT.
    destruct (octets_cmp (lf_body (rev a)) (lf_body (rev b))); cbn [cmp_sign]; try lia.
    destruct (octets_cmp (lf_body (rev b)) (lf_body (rev c))); cbn [cmp_sign]; try lia.
    rewrite HT; auto.
  - destruct (octets_cmp _ _); cbn; lia.
Qed.
(** Two different legal names that compare equal: "b.a." and "a\000b.". *)
Theorem c04_cmp_canonical_refuted : exists a b, legal_name a /\ legal_name b /\ a <> b /\
  dname_cmp (wire a) (wire b) = Ok 0.
Proof.
  exists [[98]; [97]], [[97; 0; 98]].
  split; [split; [repeat constructor; cbv; congruence|cbv; congruence]|].
  split; [split; [repeat constructor; cbv; congruence|cbv; congruence]|].
  split; [congruence|reflexivity].
Qed.
(** ... but the code can detect such names exactly. *)
Theorem c04_with_null_exact : forall ls junk, Forall legal_label ls ->
  exists r, with_null (wire ls ++ junk) = Ok r /\ (r = false <-> null_free ls).
Proof. exact with_null_spec. Qed.
Example c04_ex : legal_name [[97]; [98]] /\ null_free [[97]; [98]] /\
  dname_cmp (wire [[98]]) (wire [[97]; [98]]) = Ok (-1).
Proof. repeat split; try (repeat constructor); try (cbv; congruence). Qed.

(** *** C05 *)
Theorem c05_in_bailiwick : forall a b j j', Forall legal_label a -> Forall legal_label b ->
  (forall prefix, a = prefix ++ b -> in_bailiwick (wire a ++ j) (wire b ++ j') = Ok (zlen prefix)) /\
  ((forall prefix, a <> prefix ++ b) -> in_bailiwick (wire a ++ j) (wire b ++ j') = Err KNOT_EOUTOFZONE).
Proof. exact in_bailiwick_spec. Qed.
Theorem c05_matched_labels : forall a b j j', legal_name a -> legal_name b ->
  matched_labels (wire a ++ j) (wire b ++ j') = Ok (common_suffix_len a b).
Proof. exact matched_labels_spec. Qed.
(** [common_suffix_len] is what its name says *)
Theorem c05_common_suffix_len_meaning : forall a b,
  exists pa pb s, a = pa ++ s /\ b = pb ++ s /\ zlen s = common_suffix_len a b /\
    (forall pa' pb' s', a = pa' ++ s' -> b = pb' ++ s' -> zlen s' <= common_suffix_len a b).
Proof. exact common_suffix_len_meaning. Qed.
Theorem c05_labels : forall ls j, Forall legal_label ls ->
  dname_labels (wire ls ++ j) = Ok (zlen ls) /\ dname_size (wire ls ++ j) = Ok (zlen (wire ls)).
Proof. intros. rewrite zlen_wire. split; [apply dname_labels_spec|apply dname_size_spec]; auto. Qed.
(** Replacing a proper suffix works; replacing the whole name gives NULL (partial). *)
Theorem c05_replace_suffix_partial : forall pre b s j j', pre <> [] ->
  Forall legal_label (pre ++ b) -> Forall legal_label s ->
  replace_suffix (wire (pre ++ b) ++ j) (zlen b) (wire s ++ j') = Ok (wire (pre ++ s)).
Proof. exact replace_suffix_spec. Qed.
Theorem c05_replace_suffix_refuted : forall b s j j', Forall legal_label b -> Forall legal_label s ->
  replace_suffix (wire b ++ j) (zlen b) (wire s ++ j') = Err RET_NULL.
Proof. exact replace_suffix_null. Qed.
(** Nothing checks the length of the resulting name: legal inputs may give an illegal name. *)
Theorem c05_replace_suffix_overlong_refuted : exists a s n, legal_name a /\ legal_name s /\
  replace_suffix (wire a) n (wire s) = Ok (wire (firstn (length a - Z.to_nat n) a ++ s)) /\
  name_size (firstn (length a - Z.to_nat n) a ++ s) > 255.
Proof.
  pose (l := repeat 97 63). exists [l; l; l; [98]], [l; [98]], 1.
  split; [split; [repeat constructor; cbv; congruence|cbv; congruence]|].
  split; [split; [repeat constructor; cbv; congruence|cbv; congruence]|].
  split; [vm_compute; reflexivity|vm_compute; reflexivity].
Qed.
Example c05_ex : in_bailiwick (wire [[97]; [98]]) (wire [[98]]) = Ok 1 /\
  matched_labels (wire [[97]; [98]; [99]]) (wire [[120]; [98]; [99]]) = Ok 2 /\
  replace_suffix (wire [[97]; [98]]) 1 (wire [[99]; [100]]) = Ok (wire [[97]; [99]; [100]]).
Proof. repeat split; reflexivity. Qed.

(** *** C06 *)
Theorem c06_to_lower : forall ls j, Forall legal_label ls ->
  dname_to_lower (wire ls ++ j) = Ok (wire (lower_name ls)) /\
  zlen (wire (lower_name ls)) = zlen (wire ls) /\ map (@zlen Z) (lower_name ls) = map (@zlen Z) ls.
Proof.
  intros ls j H. split; [apply dname_to_lower_spec; auto|].
  assert (HM : map (@zlen Z) (lower_name ls) = map (@zlen Z) ls).
  { unfold lower_name. rewrite map_map. apply map_ext. intros; apply zlen_map. }
  split; [|auto]. rewrite !zlen_wire. revert HM. generalize (lower_name ls). clear.
  induction ls as [|x ls IH]; intros [|y l] HM; cbn [map name_size] in *; try discriminate; auto.
  injection HM as H1 H2. rewrite (IH _ H2). lia.
Qed.
Theorem c06_to_lower_idempotent : forall ls, lower_name (lower_name ls) = lower_name ls.
Proof. exact lower_name_idem. Qed.
Theorem c06_to_lower_legal : forall ls, legal_name ls -> legal_name (lower_name ls).
Proof. exact lower_legal. Qed.
Theorem c06_case_equal : forall a b j j', Forall legal_label a -> Forall legal_label b ->
  exists r, dname_is_case_equal (wire a ++ j) (wire b ++ j') = Ok r /\
    (r = true <-> dname_to_lower (wire a ++ j) = dname_to_lower (wire b ++ j')).
Proof.
  intros a b j j' Ha Hb. destruct (dname_is_case_equal_spec a b j j' Ha Hb) as (r & H & Hr).
  exists r. split; [auto|]. rewrite Hr, !dname_to_lower_spec by auto. split; [congruence|].
  intros E. injection E as E. apply wire_inj; auto using lower_legal_labels.
Qed.
Theorem c06_equal : forall a b j j', Forall legal_label a -> Forall legal_label b ->
  exists r, dname_is_equal (wire a ++ j) (wire b ++ j') = Ok r /\ (r = true <-> a = b).
Proof. exact dname_is_equal_spec. Qed.
(** A label of length 65..90 does not exist, but the byte 'A' next to a length byte does: *)
Example c06_ex : dname_to_lower (wire [[65; 90; 91; 64]; [193]]) = Ok [4; 97; 122; 91; 64; 1; 193; 0].
Proof. reflexivity. Qed.

Print Assumptions c01_check_safe_sound.
Print Assumptions c01_check_complete.
Print Assumptions c02_unpack_after_check.
Print Assumptions c03_round_trip.
Print Assumptions c03_from_str_exact.
Print Assumptions c03_to_str_buffer.
Print Assumptions c04_cmp_canonical_partial.
Print Assumptions c04_cmp_preorder.
Print Assumptions c05_in_bailiwick.
Print Assumptions c05_matched_labels.
Print Assumptions c05_replace_suffix_partial.
Print Assumptions c06_to_lower.
Print Assumptions c06_case_equal.
