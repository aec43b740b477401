(** C11, C14: parsing of records. *)
From Verif Require Import Base DnameModel DnameSpec WireModel RrwireModel RrwireSpec RrwireProofs RrwireProofs2 RrwireProofs3.

(** ** C11 Parsing of a record: for every message, every position and any failure of allocation, no
    byte outside of the message is read ([UB]), the function ends ([OOF]), and either there is an error
    and no record, or the record is in the message and the position is behind it. *)
Theorem c11_parse_safe : forall m pos canonical al1 al2, bytes m -> zlen m < 2 ^ 63 -> 0 <= pos ->
  exists ret pos' st, rr_from_wire m pos canonical al1 al2 = Ok (ret, pos', st) /\
  (ret <> KNOT_EOK -> st = SUntouched \/ st = SCleared) /\
  (ret = KNOT_EOK -> pos + 11 <= pos' <= zlen m /\
    exists r d next, fields_at m pos r d pos' /\ legal_name (r_owner r) /\
      (lay_out (rfc_layout (r_type r)) (r_data r) \/ (d = pos' /\ r_data r = [] /\ empty_ok (r_class r) (r_type r))) /\
      pieces_at m pos' d (r_data r) next /\ next <= pos' /\
      let r := if canonical then canonical_record r else r in
      st = SFilled (mkrr (dwire (r_owner r)) (r_type r) (r_class r) (r_ttl r) (flat (r_data r)))).
Proof.
  intros m pos canonical al1 al2 HB HM Hp. destruct (rr_from_wire_sound m pos canonical al1 al2 HB HM Hp) as (ret & pos' & st & E & H).
  exists ret, pos', st. split; [exact E|]. destruct H as [(Hr & Hs)|(-> & r & d & next & HF & HP & Hn & HL & HZ & HC & ->)]; split; try tauto.
  intros _. pose proof HF as HF'. destruct HF' as (n & rdlen & HE & Hd & He & Hm & _ & _ & _ & Ud). pose proof (DnameProofs.encodes_window _ _ _ _ _ HE). pose proof (u16_range _ _ _ HB Ud).
  split; [lia|]. exists r, d, next. cbv zeta. repeat split; auto; apply HL.
Qed.

(** Every record in a message is found. (Empty RDATA must be allowed; and the RDATA must not be shorter
    when decompressed, which happens for a pointer to the root only.) *)
Theorem c11_parse_complete : forall m pos (canonical : bool) r d e, bytes m -> zlen m < 2 ^ 63 -> 0 <= pos -> legal_name (r_owner r) ->
  fields_at m pos r d e -> pieces_at m e d (r_data r) e -> e - d <= zlen (flat (r_data r)) <= 65535 ->
  ((d < e /\ lay_out (rfc_layout (r_type r)) (r_data r)) \/ (r_data r = [] /\ empty_ok (r_class r) (r_type r))) ->
  let c := if canonical then canonical_record r else r in
  rr_from_wire m pos canonical true true = Ok (KNOT_EOK, e, SFilled (mkrr (dwire (r_owner c)) (r_type c) (r_class c) (r_ttl c) (flat (r_data c)))).
Proof. intros. apply rr_from_wire_complete with (d := d); auto. Qed.

(** A message with a question and an MX record with compressed names, [A.example. MX 10 mx.Example.]. *)
Definition mx_msg : list Z :=
  [0; 0; 132; 0; 0; 1; 0; 1; 0; 0; 0; 0; 1; 65; 7; 69; 120; 97; 109; 112; 108; 101; 0; 0; 15; 0; 1;
   192; 12; 0; 15; 0; 1; 0; 0; 14; 16; 0; 7; 0; 10; 2; 109; 120; 192; 14; 255].
Definition mx_record : record :=
  mkrecord [[65]; [69; 120; 97; 109; 112; 108; 101]] 15 1 3600
    [PData [0; 10]; PName [[109; 120]; [69; 120; 97; 109; 112; 108; 101]]].
Example c11_parse_mx :
  rr_from_wire mx_msg 27 false true true = Ok (KNOT_EOK, 46, SFilled (to_rr mx_record)) /\
  rr_from_wire mx_msg 27 true true true = Ok (KNOT_EOK, 46, SFilled (to_rr (canonical_record mx_record))) /\
  to_rr (canonical_record mx_record) <> to_rr mx_record /\
  rr_from_wire (firstn 45 mx_msg) 27 false true true = Ok (KNOT_EMALF, 27, SUntouched) /\
  rr_from_wire mx_msg 12 false true true = Ok (KNOT_EMALF, 33, SCleared) /\
  rr_from_wire mx_msg 27 false true false = Ok (KNOT_ENOMEM, 39, SCleared).
Proof. vm_compute. repeat split; congruence. Qed.

Lemma enc_by : forall m pos n n' ls, encodes m true pos ls n -> n = n' -> encodes m true pos ls n'.
Proof. intros; subst; auto. Qed.
Ltac enc_solve :=
  match goal with
  | |- encodes _ _ _ [] _ => eapply enc_by; [apply enc_root; reflexivity|reflexivity]
  | |- encodes _ _ _ (?l :: _) _ =>
    eapply enc_by; [eapply enc_label; [split; [cbn; lia|repeat constructor; unfold byte; lia]|reflexivity
    |intros i Hi; cbn in Hi; (assert (i = 0 \/ i = 1 \/ i = 2 \/ i = 3 \/ i = 4 \/ i = 5 \/ i = 6) as [->|[->|[->|[->|[->|[->| ->]]]]]] by lia); try reflexivity; exfalso; lia
    |enc_solve]|reflexivity]
  end.
Example c11_parse_complete_case :
  bytes mx_msg /\ legal_name (r_owner mx_record) /\ fields_at mx_msg 27 mx_record 39 46 /\ pieces_at mx_msg 46 39 (r_data mx_record) 46 /\
  lay_out (rfc_layout (r_type mx_record)) (r_data mx_record).
Proof.
  split; [repeat constructor; unfold byte; lia|].
  split; [split; [repeat constructor; unfold byte; cbn; lia|cbn; lia]|].
  split. { exists 2, 7. split; [apply enc_ptr with (hi := 192) (lo := 12) (n := 11); try reflexivity; try lia; change ((192 - 192) * 256 + 12) with 12; cbv delta [mx_record]; cbn [r_owner]; enc_solve|].
    repeat split; try (cbn; lia); try (eexists; eexists; repeat split; reflexivity). exists 0, 3600. repeat split; eexists; eexists; repeat split; reflexivity. }
  split. { apply pa_data; [lia|cbn; lia|cbn; lia|intros i Hi; cbn in Hi; assert (i = 0 \/ i = 1) as [->| ->] by lia; reflexivity|].
    apply pa_name with (n := 5); [|apply pa_nil].
    eapply enc_by; [apply enc_label with (n := 2); [split; [cbn; lia|repeat constructor; unfold byte; lia]|reflexivity|intros i Hi; cbn in Hi; assert (i = 0 \/ i = 1) as [->| ->] by lia; reflexivity|]|reflexivity].
    apply enc_ptr with (hi := 192) (lo := 14) (n := 9); try reflexivity; try lia. change ((192 - 192) * 256 + 14) with 14. enc_solve. }
  apply lo_fixed; [reflexivity|repeat constructor; unfold byte; lia|]. apply lo_name; [|constructor]. split; [repeat constructor; unfold byte; cbn; lia|cbn; lia].
Qed.

(** ** C14 The RDATA of an accepted record are RDLENGTH octets.

    This is false: the length of the decompressed RDATA is compared with RDLENGTH, so that octets behind
    a compressed name are ignored. In the message below the RDATA of an NS record are a pointer and five
    more octets. *)
Definition trailing_msg : list Z :=
  [0; 0; 132; 0; 0; 1; 0; 1; 0; 0; 0; 0; 1; 65; 7; 69; 120; 97; 109; 112; 108; 101; 0; 0; 2; 0; 1;
   192; 12; 0; 2; 0; 1; 0; 0; 14; 16; 0; 7; 192; 14; 1; 2; 3; 4; 5].
Theorem c14_rdlength_refuted : ~ (forall m pos pos' x, bytes m -> rr_from_wire m pos false true true = Ok (KNOT_EOK, pos', SFilled x) ->
  exists r d, fields_at m pos r d pos' /\ (lay_out (rfc_layout (r_type r)) (r_data r) \/ r_data r = []) /\ pieces_at m pos' d (r_data r) pos').
Proof.
  assert (HBm : bytes trailing_msg) by (repeat constructor; unfold byte; lia).
  intros H. specialize (H trailing_msg 27 46 (mkrr [1; 65; 7; 69; 120; 97; 109; 112; 108; 101; 0] 2 1 3600 [7; 69; 120; 97; 109; 112; 108; 101; 0])).
  destruct H as (r & d & (n & rdlen & HE & Hd & He & Hm & Ut & Uc & Ul & Ud) & HL & HP).
  - exact HBm.
  - reflexivity.
  - assert (HE' : encodes trailing_msg true 27 [[65]; [69; 120; 97; 109; 112; 108; 101]] 2).
    { apply enc_ptr with (hi := 192) (lo := 12) (n := 11); try reflexivity; try lia. change ((192 - 192) * 256 + 12) with 12. enc_solve. }
    destruct (DnameProofs.encodes_det _ _ _ _ _ HBm HE _ _ HE') as [Ho ->]. assert (Hd' : d = 39) by lia. clear Hd. subst d.
    assert (Ut' : u16_at trailing_msg 29 2) by (exists 0, 2; repeat split; reflexivity). rewrite (u16_det _ _ _ _ Ut Ut') in HL.
    destruct HL as [HL|HL].
    + cbn in HL. inversion HL as [| |? ls ps Hleg HL' Eq1 Eq2| |]; subst. inversion HL'; subst. rewrite <- Eq2 in HP. inversion HP as [| |? ? k ? ? HEN HPN]; subst. assert (HK : 39 + k = 46) by (inversion HPN; auto).
      assert (HE2 : encodes (zfirstn 46 trailing_msg) true 39 [[69; 120; 97; 109; 112; 108; 101]] 2).
      { apply enc_ptr with (hi := 192) (lo := 14) (n := 9); try reflexivity; try lia. change ((192 - 192) * 256 + 14) with 14. enc_solve. }
      destruct (DnameProofs.encodes_det _ _ _ _ _ (bytes_zfirstn 46 _ HBm) HEN _ _ HE2). lia.
    + rewrite HL in HP. inversion HP.
Qed.

(** What holds: the RDATA are in the RDLENGTH octets, the position is behind them, and fewer octets are
    ignored than the decompression added. In particular, the octets are exact if no name in the RDATA is
    compressed. Missing: exactness in general. *)
Theorem c14_rdlength_partial : forall m pos canonical al1 al2 pos' x, bytes m -> zlen m < 2 ^ 63 -> 0 <= pos ->
  rr_from_wire m pos canonical al1 al2 = Ok (KNOT_EOK, pos', x) ->
  exists r d next, fields_at m pos r d pos' /\ (lay_out (rfc_layout (r_type r)) (r_data r) \/ (d = pos' /\ r_data r = [])) /\
    pieces_at m pos' d (r_data r) next /\ next <= pos' /\
    pos' - next <= zlen (flat (r_data r)) - (next - d) /\
    ((forall ls, ~ In (PName ls) (r_data r)) -> next = pos').
Proof.
  intros m pos canonical al1 al2 pos' x HB HM Hp E. destruct (rr_from_wire_sound m pos canonical al1 al2 HB HM Hp) as (ret & p & st & E' & H).
  rewrite E in E'. injection E' as <- <- <-. destruct H as [(Hr & _)|(_ & r & d & next & HF & HP & Hn & HL & HZ & HC & _)]; [exfalso; apply Hr; reflexivity|].
  exists r, d, next. split; [exact HF|]. split; [tauto|]. split; [exact HP|]. split; [exact Hn|]. split; [lia|].
  intros HN. assert (Q : forall e a ps b, pieces_at m e a ps b -> (forall ls, ~ In (PName ls) ps) -> b = a + zlen (flat ps)).
  { clear. intros e a ps b H. induction H; intros HN; cbn [flat].
    - cbn. lia.
    - rewrite zlen_app. rewrite IHpieces_at by (intros ls Hin; apply (HN ls); right; auto). lia.
    - exfalso. apply (HN ls). left; auto. }
  pose proof (Q _ _ _ _ HP HN). lia.
Qed.
Example c14_parse_cases :
  rr_from_wire trailing_msg 27 false true true =
    Ok (KNOT_EOK, 46, SFilled (mkrr [1; 65; 7; 69; 120; 97; 109; 112; 108; 101; 0] 2 1 3600 [7; 69; 120; 97; 109; 112; 108; 101; 0])) /\
  (* an A record of five octets *)
  rr_from_wire [0; 0; 1; 0; 1; 0; 0; 0; 0; 0; 5; 1; 2; 3; 4; 5] 0 false true true = Ok (KNOT_EMALF, 11, SCleared) /\
  rr_from_wire [0; 0; 1; 0; 1; 0; 0; 0; 0; 0; 4; 1; 2; 3; 4; 5] 0 false true true = Ok (KNOT_EOK, 15, SFilled (mkrr [0] 1 1 0 [1; 2; 3; 4])) /\
  (* a pointer to the root is not accepted *)
  rr_from_wire [0; 0; 2; 0; 1; 0; 0; 0; 0; 0; 2; 192; 0] 0 false true true = Ok (KNOT_EMALF, 11, SCleared).
Proof. vm_compute. repeat split; reflexivity. Qed.

Print Assumptions c11_parse_safe.
Print Assumptions c11_parse_complete.
Print Assumptions c14_rdlength_refuted.
Print Assumptions c14_rdlength_partial.
