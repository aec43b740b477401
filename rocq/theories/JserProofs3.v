From Verif Require Import Base DnameModel DnameSpec DnameProofs DnameProofs2 WireModel WireProofs WireProps RdatasetModel RdatasetSpec RdatasetProofs RdatasetProps JserModel JserSpec JserProofs JserProofs2.

(** ** Writing of the chunks *)
Definition rem_ (c : sctx) : list (list Z) := match sc_buf c with [] => flat_map items (sc_src c) | cur :: _ => from_ cur (sc_phase c) ++ flat_map items (sc_src c) end.
Definition wok (c : sctx) : Prop :=
  Forall rr_ok (sc_src c) /\ match sc_buf c with [] => sc_phase c = -1 | cur :: _ => rr_ok cur /\ -1 <= sc_phase c <= count (j_rrs cur) end /\ (sc_end c = true -> rem_ c = []).

Lemma left_cons : forall x l, left_ (x :: l) = (S (S (Z.to_nat (count (j_rrs x)))) + left_ l)%nat.
Proof. reflexivity. Qed.
Lemma left_app : forall a b, left_ (a ++ b) = (left_ a + left_ b)%nat.
Proof. intros. unfold left_. rewrite map_app, list_sum_app. reflexivity. Qed.
Lemma left_rev : forall a, left_ (rev a) = left_ a.
Proof. induction a as [|x a IH]; [reflexivity|]. cbn [rev]. rewrite left_app, IH, !left_cons. change (left_ []) with 0%nat. lia. Qed.
Lemma items_left : forall l, Forall rr_ok l -> (length (flat_map items l) <= left_ l)%nat.
Proof. intros l H. induction H as [|x l H1 H2 IH]; [cbn; lia|]. cbn [flat_map]. rewrite app_length. destruct (rr_count x H1) as [_ G]. unfold zlen in G. rewrite left_cons. lia. Qed.
Lemma from_short : forall j p, (length (from_ j p) <= length (items j))%nat.
Proof. intros. unfold from_. rewrite skipn_length. lia. Qed.
Lemma hd_rev : forall (mid : list jrr) cur rest, exists l, rev mid ++ cur :: rest = last mid cur :: l.
Proof.
  induction mid as [|x mid IH]; intros cur rest; [exists rest; reflexivity|]. cbn [rev]. rewrite <- app_assoc. cbn [app]. destruct (IH x (cur :: rest)) as [l HL]. exists l. rewrite HL. rewrite (last_default _ mid x cur cur). reflexivity.
Qed.
Lemma from_in : forall j p it, In it (from_ j p) -> In it (items j).
Proof. intros j p it. unfold from_. revert p. intros p H. rewrite <- (firstn_skipn (Z.to_nat (p + 1)) (items j)). apply in_or_app. auto. Qed.

Lemma write_loop_spec : forall fuel c thresh max to now fresh, wok c -> Forall (fun it => zlen it <= max) (rem_ c) -> 0 <= max < 2 ^ 62 -> (length (rem_ c) < fuel)%nat ->
  exists parts, write_loop fuel c thresh max to now fresh = Ok (map (fun P => make_header to now ++ concat P) parts) /\ concat parts = rem_ c /\ Forall (fun P => P <> [] /\ total P <= max) parts.
Proof.
  induction fuel as [|fuel IH]; intros c thresh max to now fresh (W1 & W2 & W3) HM HX HF; [lia|]. cbn [write_loop]. destruct (sc_end c) eqn:EE.
  { exists []. rewrite W3 by auto. repeat split; auto. }
  (* prepared from cur *)
  assert (STEP : forall cur src, rr_ok cur -> Forall rr_ok src -> -1 <= sc_phase c <= count (j_rrs cur) -> rem_ c = from_ cur (sc_phase c) ++ flat_map items src ->
    serialize_prepare c thresh max = (let* (src, e, buf, n) := prepare_loop (work cur src) src cur [] (sc_phase c) 0 0 thresh max in Ok (mksc src (sc_end c || e) (sc_phase c) buf, n)) ->
    exists parts, (let* (c, n) := serialize_prepare c thresh max in
      if n =? 0 then Ok [] else
      let* (c, body) := serialize_chunk c (repeat fresh (Z.to_nat n)) in
      let* l := write_loop fuel c thresh max to now fresh in
      Ok ((make_header to now ++ body) :: l)) = Ok (map (fun P => make_header to now ++ concat P) parts) /\ concat parts = rem_ c /\ Forall (fun P => P <> [] /\ total P <= max) parts).
  { intros cur src HC HS HP HR ->. destruct (prepare_spec (work cur src) src cur [] (sc_phase c) 0 thresh max HC HS HP) as (src' & e & buf' & n & -> & mid & P & p' & G1 & G2 & G3 & G4 & G5 & G6 & G7 & G8).
    { unfold work, left_. lia. }
    cbn [rbind]. assert (HPM : Forall (fun it => 6 <= zlen it) P).
    { assert (HA : Forall (fun it => 6 <= zlen it) (from_ cur (sc_phase c) ++ flat_map items mid)).
      { apply Forall_app. split; [|apply item_min; subst src; apply Forall_app in HS; apply HS]. apply Forall_forall. intros it Hi. eapply item_pos, from_in, Hi. }
      rewrite G3 in HA. apply Forall_app in HA. apply HA. }
    destruct (n =? 0) eqn:EN.
    - assert (P = []) as -> by (apply total_len; auto; lia). destruct (G8 eq_refl) as [[_ G]|[G|(it & G & GX)]].
      + exists []. rewrite HR, G. repeat split; auto.
      + unfold RRSET_BUF_MAXSIZE in G. rewrite zlen_cons, zlen_nil in G. lia.
      + exfalso. rewrite HR in HM. rewrite Forall_forall in HM. pose proof (HM it (nth_error_In _ _ G)). lia.
    - assert (PNE : P <> []) by (intros ->; change (total []) with 0 in G5; lia). assert (HN : n <= max) by (destruct G6; [congruence|auto]). pose proof (total_nonneg P).
      unfold serialize_chunk. cbn [sc_buf sc_phase sc_src sc_end]. assert (HRV : rev buf' = cur :: mid) by (rewrite G2, rev_app_distr, rev_involutive; reflexivity). rewrite HRV.
      set (mem := repeat fresh (Z.to_nat n)). assert (HML : zlen mem = n) by (unfold zlen, mem; rewrite repeat_length; lia).
      assert (HB : Forall rr_ok (cur :: mid)) by (constructor; auto; subst src; apply Forall_app in HS; apply HS).
      destruct (chunk_spec (chunk_work buf') (wire_init mem) cur mid (sc_phase c) [] mem P p' HB) as (w' & -> & AW); auto.
      { unfold at_, wire_init. cbn [app w_buf w_pos w_err]. repeat split; auto. lia. }
      { lia. }
      { assert (HL : (length P <= length (items cur) + length (flat_map items mid))%nat) by (pose proof (from_short cur (sc_phase c)); apply (f_equal (@length _)) in G3; rewrite !app_length in G3; lia).
        unfold chunk_work. fold (left_ buf'). rewrite <- left_rev, HRV. pose proof (items_left (cur :: mid) HB) as G. cbn [flat_map] in G. rewrite app_length in G. lia. }
      cbn [rbind]. destruct AW as (A1 & A2 & A3 & A4). rewrite A3. change (negb (KNOT_EOK =? KNOT_EOK)) with false. cbn [rbind]. cbn [app] in A1. rewrite app_nil_r in A1. rewrite A1.
      destruct (hd_rev mid cur []) as [bl HBL]. rewrite <- G2 in HBL. set (c2 := mksc src' (sc_end c || e) p' buf').
      assert (HR2 : rem_ c2 = from_ (last mid cur) p' ++ flat_map items src') by (unfold rem_, c2; cbn [sc_buf sc_phase sc_src]; rewrite HBL; reflexivity).
      assert (HRR : rem_ c = P ++ rem_ c2) by (rewrite HR, HR2, G1, flat_map_app, !app_assoc, G3; reflexivity).
      destruct (IH c2 thresh max to now fresh) as (parts & -> & H1 & H2); auto.
      + split; [unfold c2; cbn [sc_src]; subst src; apply Forall_app in HS; apply HS|]. split.
        * unfold c2. cbn [sc_buf sc_phase]. rewrite HBL. split; auto. pose proof (last_in _ mid cur) as HI. rewrite Forall_forall in HB. auto.
        * rewrite HR2. unfold c2. cbn [sc_end]. rewrite EE. cbn [orb]. intros He. destruct (G7 He) as [-> ->]. reflexivity.
      + rewrite HRR in HM. apply Forall_app in HM. apply HM.
      + rewrite HRR, app_length in HF. destruct P; [congruence|]. cbn [length] in HF. lia.
      + exists (P :: parts). cbn [rbind map concat]. split; [auto|]. split; [rewrite HRR, H1; auto|]. constructor; auto. split; auto. lia. }
  unfold serialize_prepare in *. destruct (sc_buf c) as [|cur bf] eqn:EB.
  - destruct (sc_src c) as [|cur src] eqn:ES.
    + cbn [rbind]. exists []. unfold rem_. rewrite EB, ES. repeat split; auto.
    + inversion W1; subst. apply (STEP cur src); auto; [rewrite W2; destruct (rr_count cur H1); lia|unfold rem_; rewrite EB, ES, W2; reflexivity].
  - destruct W2. apply (STEP cur (sc_src c)); auto. unfold rem_. rewrite EB. reflexivity.
Qed.
Lemma write_spec : forall src thresh max to now fresh, Forall rr_ok src -> Forall (fun it => zlen it <= max) (flat_map items src) -> 0 <= max < 2 ^ 62 ->
  exists parts, write_serialize src thresh max to now fresh = Ok (map (fun P => make_header to now ++ concat P) parts) /\ concat parts = flat_map items src /\ Forall (fun P => P <> [] /\ total P <= max) parts.
Proof.
  intros src thresh max to now fresh H1 H2 H3. unfold write_serialize. apply (write_loop_spec (write_work src) (serialize_init src)); auto.
  - split; auto. split; [reflexivity|discriminate].
  - pose proof (items_left src H1). unfold rem_, serialize_init. cbn [sc_buf sc_src]. unfold write_work. fold (left_ src). lia.
Qed.
