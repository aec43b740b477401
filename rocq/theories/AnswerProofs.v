(** What the steps of answering a query do. *)
From Verif Require Import Base RdatasetModel RdatasetSpec RdatasetProofs RdatasetProps NodeModel NodeProps ZoneModel ZoneProofs ZoneView ZoneTree ZoneTreeProps AnswerModel AnswerSpec AnswerSearch.
From Coq Require Import Sorted.

(** A zone as built from records: a SOA at the apex, proper names, the records of CNAME and DNAME
    RRsets are names, and no name has signatures of 2 GiB. *)
Record sane (z : contents) : Prop := {
  s_reach : reachable (z_apex z) z;
  s_plain : forall o, exists_ z o -> plain o;
  s_soa : owns_some z (z_apex z) 6;
  s_tgt : forall o t r, owns z o t r -> t = 5 \/ t = 39 -> exists m, plain m /\ rdataset_at (rr_rrs r) 0 = Ok (wire_of m);
  s_small : forall o r, owns z o 46 r -> size (rr_rrs r) < 2 ^ 31 }.
(** The flag of wildcard children agrees with the tree. *)
Definition flagged (z : contents) (w : name -> bool) : Prop := forall o, exists_ z o -> (w o = true <-> exists_ z (star_of o)).

Lemma node_of : forall z o, sane z -> exists_ z o -> exists n, node z o = Some n /\ node_wf (zn_rrs n).
Proof.
  intros z o S H. unfold exists_, node in *. destruct (ZoneModel.zget z false o) as [n|] eqn:E; [|contradiction]. exists n. split; auto. destruct (reach_inv _ _ (s_reach z S)) as ((_ & W & _) & _). specialize (W false o). unfold rrs_at in W. rewrite E in W. auto.
Qed.
Lemma apex_ex : forall z, exists_ z (z_apex z). Proof. intros z. apply in_all. left. auto. Qed.
Lemma ex_below : forall z o, sane z -> exists_ z o -> below o (z_apex z).
Proof. intros z o S H. destruct (reach_inv _ _ (s_reach z S)) as (_ & _ & (L & _)). apply under_below. apply (l_under _ _ _ L false). auto. Qed.
Lemma ex_parent : forall z l p, sane z -> exists_ z (l :: p) -> l :: p <> z_apex z -> exists_ z p.
Proof. intros z l p S H N. destruct (reach_inv _ _ (s_reach z S)) as (_ & _ & (L & _)). destruct (l_parent _ _ _ L false l p H N) as [[_ []]|X]. unfold pk in X. destruct (name_eqb p (z_apex z)); auto. Qed.
Lemma search : forall z q, sane z -> plain q -> (below q (z_apex z) /\ ((exists_ z q /\ find_dname z q = Ok (Some (Some q, q))) \/ (~ exists_ z q /\ exists c, encloser z q c /\ find_dname z q = Ok (Some (None, c)))))
    \/ (~ below q (z_apex z) /\ find_dname z q = Ok None).
Proof. intros z q S H. apply find_dname_spec; auto. - intros o HO. split; [apply (s_plain z S); auto|apply ex_below; auto]. - intros l p. apply ex_parent. auto. Qed.

(** RRsets of a node *)
Lemma rrset_in : forall n t r, node_rrset n t = Some r -> In r n /\ rr_type r = t.
Proof. induction n as [|e n IH]; intros t r; cbn [node_rrset]; [discriminate|]. destruct (rr_type e =? t) eqn:E; [intros [= <-]; split; [left; auto|lia]|]. intros H. apply IH in H. split; [right|]; tauto. Qed.
Lemma rrset_of : forall n t r, node_wf n -> In r n -> rr_type r = t -> node_rrset n t = Some r.
Proof.
  induction n as [|e n IH]; intros t r [HS HF] HI HT; [destruct HI|]. cbn [node_rrset]. inversion HS as [|? ? S1 S2]; subst. destruct HI as [<-|HI].
  - replace (rr_type e =? rr_type e) with true by lia. auto.
  - rewrite Forall_forall in S2. specialize (S2 r HI). unfold type_lt in S2. replace (rr_type e =? rr_type r) with false by lia. apply IH; auto. split; auto. apply (Forall_inv_tail HF).
Qed.
Lemma rrset_owns : forall z o n t r, node z o = Some n -> node_wf (zn_rrs n) -> node_rrset (zn_rrs n) t = Some r <-> owns z o t r.
Proof.
  intros z o n t r HN HW. split.
  - intros H. apply rrset_in in H. exists n. split; auto.
  - intros (n' & H1 & H2 & H3). unfold node in HN. rewrite HN in H1. injection H1 as <-. apply rrset_of; auto.
Qed.
Lemma rrset_none : forall z o n t, node z o = Some n -> node_wf (zn_rrs n) -> node_rrset (zn_rrs n) t = None <-> ~ owns_some z o t.
Proof. intros z o n t HN HW. split; [intros H (r & X); apply (rrset_owns z o n t r HN HW) in X; congruence|]. intros H. destruct (node_rrset (zn_rrs n) t) as [r|] eqn:E; auto. exfalso. apply H. exists r. apply (rrset_owns z o n t r HN HW). auto. Qed.
Lemma has_type_spec : forall z o t, sane z -> has_type z o t = true <-> owns_some z o t.
Proof.
  intros z o t S. unfold has_type. destruct (node z o) as [n|] eqn:E.
  - assert (HE : exists_ z o) by (unfold exists_, node in *; congruence). destruct (node_of z o S HE) as (n' & E' & W). rewrite E in E'. injection E' as <-. destruct (node_rrset (zn_rrs n) t) as [r|] eqn:ER.
    + split; auto. intros _. exists r. apply (rrset_owns z o n t r E W). auto.
    + apply (rrset_none z o n t E W) in ER. split; [discriminate|contradiction].
  - split; [discriminate|]. intros (r & n & X & _). unfold node in E. congruence.
Qed.
Lemma owns_ex : forall z o t r, owns z o t r -> exists_ z o.
Proof. intros z o t r (n & H & _). unfold exists_. congruence. Qed.
Lemma owns_nonempty : forall z o t r, sane z -> owns z o t r -> 1 <= count (rr_rrs r) /\ rr_type r = t.
Proof.
  intros z o t r S H. destruct (node_of z o S (owns_ex _ _ _ _ H)) as (n & E & W). apply (rrset_owns z o n t r E W) in H. apply rrset_in in H. destruct H as [H HT]. destruct W as [_ W]. rewrite Forall_forall in W. destruct (W r H) as (_ & rs & HI & NE). split; auto. destruct HI as (_ & _ & E1 & _). rewrite E1. destruct rs; [contradiction|]. rewrite zlen_cons. pose proof (zlen_nonneg rs). lia.
Qed.

(** flags and zone cuts *)
Lemma flags_spec : forall z o, sane z -> below o (z_apex z) ->
  (deleg z o = true <-> cut z o) /\ (deleg z o || nonauth z o = true <-> delegated z o) /\ (deleg z o = true -> nonauth z o = false) /\
  (forall b, below o b -> below b (z_apex z) -> b <> z_apex z -> owns_some z b 2 -> delegated z o).
Proof.
  intros z o S. unfold deleg, nonauth. induction o as [|l p IH]; intros HO.
  - assert (EA : z_apex z = []) by (destruct HO as (q & E); symmetry in E; apply app_eq_nil in E; apply E). cbn [flags]. replace (name_eqb [] (z_apex z)) with true by (rewrite EA; auto). cbn [fst snd orb].
    assert (N : forall c, below [] c -> below c (z_apex z) -> c <> z_apex z -> False) by (intros c (q & E) _ NE; symmetry in E; apply app_eq_nil in E; destruct E; subst; congruence).
    split; [split; [discriminate|]|split; [split; [discriminate|]|split; [discriminate|]]].
    + intros (_ & H & _). congruence.
    + intros (c & (H1 & H2 & _) & H3). exfalso. eauto.
    + intros b H1 H2 H3 _. exfalso. eauto.
  - cbn [flags]. destruct (name_eqb (l :: p) (z_apex z)) eqn:EA.
    { apply neqb_spec in EA. cbn [fst snd orb]. assert (N : forall c, below (l :: p) c -> below c (z_apex z) -> c <> z_apex z -> False) by (intros c H1 H2 NE; rewrite EA in H1; apply NE; apply below_anti; auto).
      split; [split; [discriminate|]|split; [split; [discriminate|]|split; [discriminate|]]].
      + intros (_ & H & _). congruence.
      + intros (c & (H1 & H2 & _) & H3). exfalso. eauto.
      + intros b H1 H2 H3 _. exfalso. eauto. }
    assert (NA : l :: p <> z_apex z) by (intros X; rewrite X, neqb_refl in EA; discriminate). destruct (below_cons _ _ _ HO) as [X|HP]; [contradiction|]. destruct (IH HP) as (I1 & I2 & I3 & I4). destruct (flags z p) as [d na]. cbn [fst snd] in *.
    assert (NC : forall c, below p c -> c <> l :: p) by (intros c HC X; apply below_len in HC; subst; cbn [length] in HC; lia).
    destruct (d || na) eqn:ED.
    + pose proof (proj1 I2 eq_refl) as (c & HC & HB). cbn [fst snd orb]. assert (DL : delegated z (l :: p)) by (exists c; split; auto; apply below_tail; auto). split; [split; [discriminate|]|split; [split; auto|split; [discriminate|]]].
      * intros (_ & _ & _ & U). destruct HC as (C1 & C2 & C3 & _). exfalso. apply (NC c HB). apply U; auto. apply below_tail. auto.
      * intros b H1 H2 H3 H4. auto.
    + cbn [fst snd]. rewrite orb_false_r, (has_type_spec z (l :: p) T_NS S). assert (ND : ~ delegated z p) by (intros X; apply I2 in X; discriminate).
      assert (CU : owns_some z (l :: p) 2 <-> cut z (l :: p)). { split; [|intros (_ & _ & H & _); auto]. intros H. split; auto. split; auto. split; auto. intros a A1 A2 A3 A4. destruct (below_cons _ _ _ A3) as [<-|A5]; auto. exfalso. apply ND. eapply I4; eauto. }
      assert (DC : delegated z (l :: p) <-> cut z (l :: p)). { split; [|intros H; exists (l :: p); split; auto; apply below_refl]. intros (c & HC & HB). destruct (below_cons _ _ _ HB) as [->|HB']; auto. exfalso. apply ND. exists c. auto. }
      split; [exact CU|]. split; [rewrite DC; exact CU|]. split; [auto|]. intros b H1 H2 H3 H4. destruct (below_cons _ _ _ H1) as [<-|H1']; [apply DC, CU; auto|]. exfalso. apply ND. eapply I4; eauto.
Qed.
Lemma deleg_above_spec : forall z o c, sane z -> cut z c -> below o c -> deleg_above z o = Ok c.
Proof.
  intros z o c S HC. pose proof HC as (C1 & C2 & _). induction o as [|l p IH]; intros HB.
  - assert (E : c = []) by (destruct HB as (q & E); symmetry in E; apply app_eq_nil in E; apply E). subst c. cbn [deleg_above]. destruct (flags_spec z [] S C1) as (F & _). rewrite (proj2 F HC). auto.
  - assert (HA : below (l :: p) (z_apex z)) by (eapply below_trans; eauto). destruct (flags_spec z (l :: p) S HA) as (F & _). destruct (below_cons _ _ _ HB) as [<-|HP].
    + cbn [deleg_above]. rewrite (proj2 F HC). auto.
    + cbn [deleg_above]. assert (NC : c <> l :: p) by (intros X; apply below_len in HP; subst; cbn [length] in HP; lia). destruct (deleg z (l :: p)) eqn:ED.
      * exfalso. apply NC. destruct (proj1 F eq_refl) as (_ & _ & _ & U). apply U; auto. destruct HC as (_ & _ & H & _). auto.
      * rewrite neqb_neq; [auto|]. intros X. apply NC. rewrite X. apply below_anti; auto. rewrite <- X. auto.
Qed.
(** climbing from a name that does not own a zone cut *)
Lemma auth_above_spec : forall z o, sane z -> exists_ z o -> exists a, auth_above z o = Ok a /\ below o a /\ exists_ z a /\ (deleg z a = true <-> delegated z o) /\ (deleg z a = true -> cut z a).
Proof.
  intros z o S. induction o as [|l p IH]; intros HE; pose proof (ex_below z _ S HE) as HA; destruct (node_of z _ S HE) as (n & E & W); cbn [auth_above]; unfold rrs_of; rewrite E; cbn [rbind].
  - destruct (flags_spec z [] S HA) as (F1 & F2 & F3 & F4). assert (EA : z_apex z = []) by (destruct HA as (q & X); symmetry in X; apply app_eq_nil in X; apply X).
    assert (FL : flags z [] = (false, false)) by (cbn [flags]; rewrite EA, neqb_refl; auto). unfold nonauth, deleg in *. rewrite FL in *. cbn [fst snd] in *. rewrite orb_false_r in *. destruct (zlen (zn_rrs n) =? 0) eqn:EZ.
    + exfalso. destruct (s_soa z S) as (r & n' & H1 & H2 & _). rewrite EA in H1. unfold node in E. rewrite E in H1. injection H1 as <-. destruct (zn_rrs n); [destruct H2|]. rewrite zlen_cons in EZ. pose proof (zlen_nonneg l). lia.
    + exists []. rewrite FL. cbn [fst]. split; auto. split; [apply below_refl|]. split; auto. split; auto. discriminate.
  - destruct (flags_spec z (l :: p) S HA) as (F1 & F2 & F3 & F4). destruct ((zlen (zn_rrs n) =? 0) || nonauth z (l :: p)) eqn:EC.
    + assert (NA : l :: p <> z_apex z). { intros X. assert (FL : flags z (l :: p) = (false, false)) by (cbn [flags]; rewrite X, neqb_refl; auto). unfold nonauth in EC. rewrite FL in EC. cbn [snd] in EC. rewrite orb_false_r in EC. destruct (s_soa z S) as (r & n' & H1 & H2 & _). rewrite <- X in H1. unfold node in E. rewrite E in H1. injection H1 as <-. destruct (zn_rrs n) as [|u k]; [destruct H2|]. rewrite zlen_cons in EC. pose proof (zlen_nonneg k). lia. }
      rewrite neqb_neq by auto. destruct (IH (ex_parent z l p S HE NA)) as (a & A1 & A2 & A3 & A4 & A5). exists a. split; auto. split; [apply below_tail; auto|]. split; auto. split; [|auto]. rewrite A4.
      split; [intros (c & C1 & C2); exists c; split; auto; apply below_tail; auto|]. intros (c & C1 & C2). destruct (below_cons _ _ _ C2) as [<-|C3]; [|exists c; auto].
      exfalso. pose proof C1 as C1'. apply F1 in C1. rewrite (F3 C1), orb_false_r in EC. destruct C1' as (_ & _ & (r & n' & H1 & H2 & _) & _). unfold node in E. rewrite E in H1. injection H1 as <-. destruct (zn_rrs n) as [|u k]; [destruct H2|]. rewrite zlen_cons in EC. pose proof (zlen_nonneg k). lia.
    + apply orb_false_iff in EC. destruct EC as [_ EN]. exists (l :: p). split; auto. split; [apply below_refl|]. split; auto. rewrite EN, orb_false_r in F2. split; [auto|]. apply F1.
Qed.

(** names in records *)
Lemma labels_wire : forall m f rest, plain m -> (length m < f)%nat -> labels_at f (wire_of m ++ rest) = Some m.
Proof.
  induction m as [|l m IH]; intros f rest HP HF; (destruct f as [|f]; [lia|]); cbn [wire_of app labels_at]; [auto|].
  pose proof (Forall_inv HP) as [[L1 L2] _]. replace (zlen l =? 0) with false by lia. rewrite <- app_assoc, zlen_app. pose proof (zlen_nonneg (wire_of m ++ rest)). replace (zlen l + zlen (wire_of m ++ rest) <? zlen l) with false by lia.
  replace (Z.to_nat (zlen l)) with (length l) by (unfold zlen; lia). rewrite skipn_app, skipn_all, Nat.sub_diag. cbn [skipn app]. rewrite IH; [|apply (Forall_inv_tail HP)|cbn [length] in HF; lia]. rewrite firstn_app, firstn_all, Nat.sub_diag. cbn [firstn]. rewrite app_nil_r. auto.
Qed.
Lemma wire_len : forall m, (length m < length (wire_of m))%nat.
Proof. induction m as [|l m IH]; cbn [wire_of length]; [lia|]. rewrite app_length. lia. Qed.
Lemma target_spec : forall z o t r, sane z -> owns z o t r -> t = 5 \/ t = 39 -> exists m, plain m /\ points_to r m /\ target r = Ok m.
Proof.
  intros z o t r S H HT. destruct (s_tgt z S o t r H HT) as (m & PM & E). exists m. split; auto. split.
  - exists (wire_of m), []. split; auto. rewrite app_nil_r. auto.
  - unfold target. rewrite E. cbn [rbind]. rewrite <- (app_nil_r (wire_of m)) at 2. rewrite labels_wire; auto. apply wire_len.
Qed.
Lemma wire_size : forall o, dname_size o = zlen (wire_of o).
Proof. induction o as [|l o IH]; cbn [dname_size wire_of]; [auto|]. rewrite zlen_cons, zlen_app, IH. lia. Qed.
Lemma wire_data : forall o, name_data o = wire_of o.
Proof. unfold name_data. induction o as [|l o IH]; cbn [map concat wire_of app]; auto. rewrite <- IH, <- app_assoc. auto. Qed.
Lemma size_app : forall a b, dname_size (a ++ b) = dname_size a + dname_size b - 1.
Proof. induction a as [|l a IH]; intros b; cbn [dname_size app]; [lia|]. rewrite IH. lia. Qed.
Lemma size_labels : forall o, plain o -> 2 * zlen o + 1 <= dname_size o.
Proof. induction o as [|l o IH]; intros H; cbn [dname_size]; [rewrite zlen_nil; lia|]. rewrite zlen_cons. pose proof (Forall_inv H) as [[L _] _]. specialize (IH (Forall_inv_tail H)). lia. Qed.
Lemma cannot_spec : forall p s m, plain (p ++ s) -> plain m -> cannot_synth (p ++ s) s m = (255 <? zlen (wire_of (p ++ m))).
Proof.
  intros p s m H1 H2. apply plain_app in H1. destruct H1 as [H1 _]. assert (HP : plain (p ++ m)) by (apply plain_app; auto). pose proof (size_labels _ HP) as L. unfold cannot_synth, MAXLABELS, MAXLEN. rewrite <- wire_size. rewrite !size_app in *. rewrite !zlen_app in *.
  destruct (255 <? dname_size p + dname_size m - 1) eqn:E; [apply orb_true_iff; right; lia|]. apply orb_false_iff. split; lia.
Qed.
Lemma synth_name_spec : forall p s m, synth_name (p ++ s) s m = p ++ m.
Proof. intros. unfold synth_name. rewrite app_length, Nat.add_sub, firstn_app, firstn_all, Nat.sub_diag. cbn [firstn]. rewrite app_nil_r. auto. Qed.
Lemma synth_spec : forall p s m ttl, zlen (wire_of (p ++ m)) <= 255 -> is_cname (synth (p ++ s) s m ttl) (p ++ m) ttl.
Proof.
  intros p s m ttl H. unfold synth. rewrite synth_name_spec, wire_data. split; auto. split; auto. split; auto. unfold rdataset_at. cbn [rr_rrs count raw].
  change (negb (0 <? 1)) with false. pose proof (rr_get_at [] (wire_of (p ++ m)) [] ltac:(lia)) as G. cbn [app] in G. rewrite app_nil_r in G. change (zlen (@nil Z)) with 0 in G. unfold rr_seek. cbn [count raw].
  cbn -[rr_get rdata_init rdata_size wire_of]. exact G.
Qed.

(** some of the signatures *)
Lemma enc_len_incl : forall o all, NoDup o -> incl o all -> zlen (enc o) <= zlen (enc all).
Proof.
  induction o as [|x o IH]; intros all HN HI; [unfold enc; cbn [map concat]; rewrite zlen_nil; apply zlen_nonneg|]. inversion HN as [|? ? N1 N2]; subst. destruct (in_split x all (HI x ltac:(left; auto))) as (a & b & ->). rewrite enc_app, !enc_cons, !zlen_app. specialize (IH (a ++ b) N2). rewrite enc_app, zlen_app in IH. enough (incl o (a ++ b)) by (specialize (IH H); lia).
  intros y HY. specialize (HI y ltac:(right; auto)). apply in_app_iff in HI. apply in_app_iff. destruct HI as [HI|[<-|HI]]; auto. contradiction.
Qed.
Lemma canonical_nodup : forall l, canonical l -> NoDup l.
Proof. intros l [HS _]. induction HS as [|x l HS IH HF]; constructor; auto. intros X. rewrite Forall_forall in HF. apply (rd_lt_irrefl x). auto. Qed.
Lemma synth_rrsig_spec : forall suf pre all cov out o, all = pre ++ suf -> canonical all -> zlen all <= 65535 -> zlen (enc all) < 2 ^ 31 -> Forall (fun x : list Z => 2 <= zlen x) suf -> is out o -> incl o all ->
  exists out' o', synth_rrsig (length suf) (enc all) (zlen (enc pre)) cov out = Ok out' /\ is out' o' /\ incl o' all /\ incl o o' /\ (cov = None -> suf <> [] -> o' <> []).
Proof.
  induction suf as [|x suf IH]; intros pre all cov out o EA HC HL HZ HF HI HO; cbn [length synth_rrsig].
  - exists out, o. split; auto. split; auto. split; auto. split; [apply incl_refl|]. intros _ X. contradiction.
  - pose proof HC as [_ HFA]. assert (RX : rdata_ok x). { rewrite Forall_forall in HFA. apply HFA. rewrite EA. apply in_app_iff. right. left. auto. }
    assert (LX : zlen x <= 65535) by (destruct RX; lia). assert (EE : enc all = enc pre ++ rdata_init x ++ enc suf) by (rewrite EA, enc_app, enc_cons; auto).
    assert (GET : rr_get (enc all) (zlen (enc pre)) = Ok x) by (rewrite EE; apply rr_get_at; auto). rewrite GET. cbn [rbind]. pose proof (Forall_inv HF) as L2. cbv beta in L2. destruct x as [|b1 [|b2 x]]; [rewrite zlen_nil in L2; lia|rewrite zlen_cons, zlen_nil in L2; lia|]. remember (b1 :: b2 :: x) as y eqn:EY.
    assert (ADD : exists out1 o1, rdataset_add yes out y = Ok out1 /\ is out1 o1 /\ incl o1 all /\ incl o o1 /\ In y o1).
    { destruct (c07_add yes out o y HI RX) as [(s' & rs' & E1 & E2 & E3 & _)|[(E1 & E2 & _)|(_ & (n & X) & _)]]; [| |discriminate].
      - exists s', rs'. split; auto. split; auto. split; [|split; [intros u HU; apply E3; auto|apply E3; auto]]. intros u HU. apply E3 in HU. destruct HU as [->|HU]; auto. rewrite EA. apply in_app_iff. right. left. auto.
      - exfalso. pose proof HI as (CO & EM & CN & SZ & _). pose proof (canonical_nodup _ CO) as ND. assert (IN : In y all) by (rewrite EA; apply in_app_iff; right; left; auto).
        assert (ND' : NoDup (y :: o)) by (constructor; auto). assert (IC : incl (y :: o) all) by (intros u [<-|HU]; auto). pose proof (NoDup_incl_length ND' IC) as NL. cbn [length] in NL. pose proof (enc_len_incl _ _ ND' IC) as NE. rewrite enc_cons, zlen_app in NE. pose proof (zlen_enc_pos y). rewrite SZ, EM, layout_eq in E2. unfold zlen in *. destruct E2 as [E2|E2]; lia. }
    assert (NX : rdataset_next (enc all) (zlen (enc pre)) = Ok (zlen (enc (pre ++ [y])))). { rewrite EE, next_at by auto. rewrite enc_app, enc_cons. change (enc []) with (@nil Z). rewrite app_nil_r. reflexivity. }
    assert (EA' : all = (pre ++ [y]) ++ suf) by (rewrite <- app_assoc; auto).
    assert (K : forall cov', (cov' =? b1 * 256 + b2) = true \/ cov <> None -> exists out' o',
      (let* out2 := if cov' =? b1 * 256 + b2 then rdataset_add yes out y else Ok out in
       let* off := rdataset_next (enc all) (zlen (enc pre)) in synth_rrsig (length suf) (enc all) off (Some cov') out2) = Ok out' /\ is out' o' /\ incl o' all /\ incl o o' /\ (cov = None -> y :: suf <> [] -> o' <> [])).
    { intros cov' HV. rewrite NX. destruct (cov' =? b1 * 256 + b2).
      - destruct ADD as (out1 & o1 & -> & I1 & C1 & C2 & C3). cbn [rbind]. destruct (IH (pre ++ [y]) all (Some cov') out1 o1 EA' HC HL HZ (Forall_inv_tail HF) I1 C1) as (out' & o' & E & I & C4 & C5 & _). exists out', o'. split; auto. split; auto. split; auto. split; [eapply incl_tran; eauto|]. intros _ _ X. specialize (C5 y C3). rewrite X in C5. destruct C5.
      - cbn [rbind]. destruct (IH (pre ++ [y]) all (Some cov') out o EA' HC HL HZ (Forall_inv_tail HF) HI HO) as (out' & o' & E & I & C4 & C5 & _). exists out', o'. split; auto. split; auto. split; auto. split; auto. intros X. destruct HV; [discriminate|contradiction]. }
    rewrite EY. rewrite <- EY. destruct cov as [c|]; [apply (K c); right; discriminate|]. apply K. left. lia.
Qed.
Lemma owns_is : forall z o t r, sane z -> owns z o t r -> exists rs, is (rr_rrs r) rs /\ rs <> [] /\ (t = 46 -> Forall (fun x : list Z => 2 <= zlen x) rs).
Proof.
  intros z o t r S H. destruct (node_of z o S (owns_ex _ _ _ _ H)) as (n & E & W). pose proof H as H'. apply (rrset_owns z o n t r E W) in H'. apply rrset_in in H'. destruct H' as [HI HT]. pose proof W as [_ WF]. rewrite Forall_forall in WF. destruct (WF r HI) as (_ & rs & I & NE). exists rs. split; auto. split; auto. intros ->.
  destruct (reach_inv _ _ (s_reach z S)) as ((_ & _ & R & _) & _). apply Forall_forall. intros x HX. specialize (R (false, o, 46) x). unfold crec, ck, co, ct in R. cbn [fst snd] in R. unfold rrs_at in R. unfold node in E. rewrite E in R. destruct R as [_ R]; [|apply R; auto]. exists (rr_ttl r), rs. split; auto. exists r. auto.
Qed.
Lemma answer_rr_spec : forall z o n t, sane z -> node z o = Some n -> node_wf (zn_rrs n) -> exists a, answer_rr (zn_rrs n) t = Ok a /\ match a with
  | Some r => 1 <= count (rr_rrs r) /\ ((t <> 255 /\ t <> 46 /\ owns z o t r) \/ (t = 255 /\ exists t', owns z o t' r) \/ (t = 46 /\ exists r', owns z o 46 r' /\ some_of r r'))
  | None => ~ owns_some z o t /\ (t = 255 -> forall t', ~ owns_some z o t') end.
Proof.
  intros z o n t S E W. unfold answer_rr. destruct (t =? T_ANY) eqn:E1.
  - exists (match zn_rrs n with r :: _ => Some r | [] => None end). split; auto. assert (t = 255) by (unfold T_ANY in E1; lia). subst t. destruct (zn_rrs n) as [|r l] eqn:ER.
    + assert (N : forall t', ~ owns_some z o t') by (intros t' (r & n' & H1 & H2 & _); unfold node in E; rewrite E in H1; injection H1 as <-; rewrite ER in H2; destruct H2). split; auto.
    + assert (O : owns z o (rr_type r) r) by (exists n; split; auto; split; auto; rewrite ER; left; auto). split; [apply (owns_nonempty z o _ r S O)|]. right. left. split; auto. exists (rr_type r). auto.
  - unfold T_ANY in E1. destruct (t =? RRSIG) eqn:E2.
    + assert (t = 46) by (unfold RRSIG in E2; lia). subst t. destruct (node_rrset (zn_rrs n) RRSIG) as [s|] eqn:ES.
      * apply (rrset_owns z o n RRSIG s E W) in ES. destruct (owns_nonempty z o _ s S ES) as [C1 C2]. unfold rr_empty. replace (count (rr_rrs s) =? 0) with false by lia. destruct (owns_is z o _ s S ES) as (rs & I & NE & F2). specialize (F2 eq_refl). pose proof I as (CA & EM & CN & SZ & CL & _). pose proof (s_small z S o s ES) as SM.
        destruct (synth_rrsig_spec rs [] rs None rdataset_init [] eq_refl CA ltac:(lia) ltac:(rewrite SZ, EM, layout_eq in SM; auto) F2 c07_init ltac:(intros u [])) as (out & o' & EO & IO & C4 & _ & C5). rewrite EM, layout_eq, CN. replace (Z.to_nat (zlen rs)) with (length rs) by (unfold zlen; lia). change (zlen (enc [])) with 0 in EO. rewrite EO. cbn [rbind]. eexists. split; [reflexivity|]. specialize (C5 eq_refl NE). pose proof IO as (_ & _ & CN' & _).
        assert (CP : 1 <= count out) by (rewrite CN'; destruct o' as [|u o']; [contradiction|]; rewrite zlen_cons; pose proof (zlen_nonneg o'); lia). cbn [rr_rrs]. split; auto. right. right. split; auto. exists s. split; auto. split; auto. split; auto. split; auto. cbn [rr_rrs].
        intros i d Hi HD. rewrite (c07_at out o' i IO Hi) in HD. destruct (Base.zget o' i) as [d'|] eqn:EG; [|discriminate]. injection HD as ->. assert (IN : In d o'). { unfold Base.zget in EG. destruct (i <? 0); [discriminate|]. apply nth_error_In in EG. auto. } apply C4 in IN. destruct (In_nth_error _ _ IN) as (j & EJ). exists (Z.of_nat j). split; [lia|]. rewrite (c07_at _ rs _ I) by lia. unfold Base.zget. replace (Z.of_nat j <? 0) with false by lia. rewrite Nat2Z.id, EJ. auto.
      * apply (rrset_none z o n _ E W) in ES. exists None. split; auto. split; auto. discriminate.
    + unfold RRSIG in E2. exists (node_rrset (zn_rrs n) t). split; auto. destruct (node_rrset (zn_rrs n) t) as [r|] eqn:ER.
      * apply (rrset_owns z o n t r E W) in ER. split; [apply (owns_nonempty z o t r S ER)|]. left. split; [lia|]. split; [lia|auto].
      * apply (rrset_none z o n t E W) in ER. split; auto. intros X. lia.
Qed.

(** ** No undefined step, whatever the packet and the memory allow *)
Definition grows (k : Z) (p p' : pkt) : Prop := p_authority p' = p_authority p /\ exists more, p_answer p' = p_answer p ++ more /\ zlen more <= k.
Lemma grows_refl : forall k p, 0 <= k -> grows k p p.
Proof. intros k p H. split; auto. exists []. rewrite app_nil_r. split; auto. Qed.
Lemma grows_trans : forall a b p q r, grows a p q -> grows b q r -> grows (a + b) p r.
Proof. intros a b p q r (E1 & m1 & E2 & L1) (E3 & m2 & E4 & L2). split; [congruence|]. exists (m1 ++ m2). rewrite E4, E2, app_assoc, zlen_app. split; auto. lia. Qed.
Lemma grows_le : forall a b p q, a <= b -> grows a p q -> grows b p q.
Proof. intros a b p q H (E & m & E2 & L). split; auto. exists m. split; auto. lia. Qed.
Lemma put_grows : forall v p qn cur o from r hint dup sigs ret p', put_rr v p true qn cur o from r hint dup sigs = (ret, p') -> grows 1 p p'.
Proof.
  intros v p qn cur o from r hint dup sigs ret p'. unfold put_rr. destruct (_ <? _); [intros [= _ <-]; apply grows_refl; lia|]. cbv zeta. match goal with |- context [pkt_contains p ?x] => generalize x as e end. intros e. destruct (dup && _); [intros [= _ <-]; apply grows_refl; lia|]. destruct (negb _); intros [= _ <-]; [apply grows_refl; lia|]. split; [reflexivity|]. exists [e]. split; [reflexivity|]. rewrite zlen_cons, zlen_nil. lia.
Qed.
(** the state after a step *)
Definition progress (z : contents) (q : qdata) (st : state) (q' : qdata) : Prop :=
  q_chain q <= q_chain q' <= q_chain q + 1 /\ grows 2 (q_pkt q) (q_pkt q') /\ st <> BEGIN /\
  (st = FOLLOW -> q_chain q' = q_chain q + 1 /\ q_chain q' <= 5 /\ plain (q_name q')) /\
  (st = DELEG -> exists o, q_node q' = Some o /\ delegated z o).
Lemma follow_on_progress : forall z before o t q0 q st q', q_chain q = q_chain q0 + 1 -> q_chain q <= 5 -> grows 2 (q_pkt q0) (q_pkt q) -> plain t -> follow_on z before o t q = (st, q') -> progress z q0 st q'.
Proof.
  intros z before o t q0 q st q' HC HM HG HP E.
  assert (V : forall x y, q_chain (visit z x y) = q_chain x /\ q_pkt (visit z x y) = q_pkt x) by (intros; unfold visit; destruct (nonauth z y); auto).
  assert (G : st = HIT \/ st = FOLLOW -> q_chain q' = q_chain q -> q_pkt q' = q_pkt q -> (st = FOLLOW -> q_name q' = t) -> progress z q0 st q'). { intros HS E1 E2 E3. split; [lia|]. split; [rewrite E2; auto|]. split; [destruct HS; congruence|]. split; [intros X; split; [lia|]; split; [lia|]; rewrite E3; auto|]. destruct HS; congruence. }
  unfold follow_on in E. destruct (_ <=? _); [injection E as <- <-; apply G; auto; discriminate|]. destruct (is_wildcard o).
  - destruct (has_visited q o); injection E as <- <-; apply G; auto; try discriminate; unfold visit; destruct (nonauth z o); auto.
  - injection E as <- <-. apply G; auto.
Qed.
Lemma failed_states : forall ret, failed ret = TRUNC \/ failed ret = ERROR. Proof. intros. unfold failed. destruct (_ =? _); auto. Qed.
Lemma follow_progress : forall z v qn qt ty q o r, sane z -> q_node q = Some o -> owns z o ty r -> ty = 5 \/ (ty = 39 /\ below (q_name q) o) -> plain (q_name q) ->
  exists st q', follow_cname z v qn qt ty q = Ok (st, q') /\ progress z q st q'.
Proof.
  intros z v qn qt ty q o r S HN HO HT HP. unfold follow_cname. cbv zeta. change (q_chain (set_chain q (q_chain q + 1))) with (q_chain q + 1). destruct (CNAME_CHAIN_MAX <? q_chain q + 1) eqn:EC.
  { eexists; eexists; split; [reflexivity|]. split; [cbn; lia|]. split; [apply grows_refl; lia|]. split; [discriminate|]. split; discriminate. }
  unfold CNAME_CHAIN_MAX in EC. change (q_node (set_chain q (q_chain q + 1))) with (q_node q). rewrite HN. destruct (node_of z o S (owns_ex _ _ _ _ HO)) as (n & E & W). unfold rrs_of. rewrite E. cbn [rbind]. rewrite (proj2 (rrset_owns z o n ty r E W) HO). destruct (owns_nonempty z o ty r S HO) as [C1 C2]. unfold rr_empty. replace (count (rr_rrs r) =? 0) with false by lia.
  cbn [q_pkt q_name set_chain]. destruct (put_rr v (q_pkt q) true qn (q_name q) o (Some o) r false true (has_sigs (zn_rrs n))) as [ret p] eqn:EP. pose proof (put_grows _ _ _ _ _ _ _ _ _ _ _ _ EP) as G1.
  assert (STOP : forall st q', st = TRUNC \/ st = ERROR \/ st = HIT -> q_chain q' = q_chain q + 1 -> grows 2 (q_pkt q) (q_pkt q') -> progress z q st q'). { intros st q' HS HC HG. split; [lia|]. split; auto. split; [intuition congruence|]. split; intuition congruence. }
  destruct (negb (ret =? KNOT_EOK)).
  { eexists; eexists; split; [reflexivity|]. apply STOP; [destruct (failed_states ret); auto|reflexivity|]. eapply grows_le; [|exact G1]. lia. }
  destruct (target_spec z o ty r S HO ltac:(tauto)) as (m & PM & _ & ET). rewrite ET. cbn [rbind]. destruct (ty =? T_DNAME) eqn:E39.
  - destruct HT as [HT|[HT (pre & EQ)]]; [unfold T_DNAME in E39; lia|]. change (q_name (set_pkt (set_chain q (q_chain q + 1)) p)) with (q_name q). destruct (cannot_synth (q_name q) o m) eqn:ECS.
    + match goal with |- context [follow_on ?a ?b ?c ?d ?e] => destruct (follow_on a b c d e) as [st q'] eqn:EF end. exists st, q'. split; auto. eapply follow_on_progress; [| | | |exact EF]; [reflexivity|cbn; lia|eapply grows_le; [|exact G1]; lia|auto].
    + destruct (negb (v_mem v p)). { eexists; eexists; split; [reflexivity|]. apply STOP; [auto|reflexivity|eapply grows_le; [|exact G1]; lia]. }
      match goal with |- context [put_rr ?a ?b true ?d ?e ?f ?g ?h ?i ?j ?k] => destruct (put_rr a b true d e f g h i j k) as [ret2 p2] eqn:EP2 end. pose proof (put_grows _ _ _ _ _ _ _ _ _ _ _ _ EP2) as G2. pose proof (grows_trans 1 1 _ _ _ G1 G2) as G3. destruct (negb (ret2 =? KNOT_EOK)). { eexists; eexists; split; [reflexivity|]. apply STOP; [destruct (failed_states ret2); auto|reflexivity|exact G3]. }
      destruct (qt =? T_CNAME). { eexists; eexists; split; [reflexivity|]. apply STOP; [auto|reflexivity|exact G3]. }
      match goal with |- context [follow_on ?a ?b ?c ?d ?e] => destruct (follow_on a b c d e) as [st q'] eqn:EF end. exists st, q'. split; auto. eapply follow_on_progress; [| | | |exact EF]; [reflexivity|cbn; lia|exact G3|]. cbn [q_name set_pkt set_chain]. rewrite EQ, synth_name_spec. rewrite EQ in HP. apply plain_app in HP. apply plain_app. tauto.
  - match goal with |- context [follow_on ?a ?b ?c ?d ?e] => destruct (follow_on a b c d e) as [st q'] eqn:EF end. exists st, q'. split; auto. eapply follow_on_progress; [| | | |exact EF]; [reflexivity|cbn; lia|eapply grows_le; [|exact G1]; lia|auto].
Qed.
Lemma found_progress : forall z v qn qt q o, sane z -> q_node q = Some o -> exists_ z o -> plain (q_name q) ->
  exists st q', name_found z v qn qt q = Ok (st, q') /\ progress z q st q'.
Proof.
  intros z v qn qt q o S HN HE HP. unfold name_found. rewrite HN. destruct (flags_spec z o S (ex_below z o S HE)) as (F1 & F2 & F3 & _). destruct ((deleg z o && negb (qt =? T_DS)) || nonauth z o) eqn:ED.
  - eexists; eexists; split; [reflexivity|]. split; [lia|]. split; [apply grows_refl; lia|]. split; [discriminate|]. split; [discriminate|]. intros _. exists o. split; auto. apply F2. destruct (deleg z o); cbn in *; auto.
  - destruct (has_type z o T_CNAME && _ && _ && _ && _) eqn:EH.
    + repeat (apply andb_true_iff in EH; destruct EH as [EH _]). apply (has_type_spec z o T_CNAME S) in EH. destruct EH as (r & HO). eapply follow_progress; eauto.
    + unfold put_answer. rewrite HN. destruct (node_of z o S HE) as (n & E & W). unfold rrs_of. rewrite E. cbn [rbind]. destruct (answer_rr_spec z o n qt S E W) as (a & EA & HA). rewrite EA. clear EA.
      assert (G : forall (old : Z) ret p, grows 1 (q_pkt q) p -> exists st q', (if negb (ret =? KNOT_EOK) then Ok (if (ret =? KNOT_ESPACE) && v_udp v then TRUNC else ERROR, set_pkt q p) else Ok (if old =? zlen (p_all p) then NODATA else HIT, set_pkt q p)) = Ok (st, q') /\ progress z q st q').
      { intros old ret p HG. assert (G' : forall st, st <> BEGIN -> st <> FOLLOW -> st <> DELEG -> progress z q st (set_pkt q p)) by (intros st H1 H2 H3; split; [cbn; lia|]; split; [eapply grows_le; [|exact HG]; lia|]; split; auto; split; intros; contradiction). destruct (negb (ret =? KNOT_EOK)); eexists; eexists; (split; [reflexivity|]); apply G'; match goal with |- (if ?b then _ else _) <> _ => destruct b end; discriminate. }
      destruct a as [r|]; [|cbn [rbind]; apply G; apply grows_refl; lia]. destruct (rr_empty r); [cbn [rbind]; apply G; apply grows_refl; lia|]. match goal with |- context [put_rr ?a ?b true ?d ?e ?f ?g ?h ?i ?j ?k] => destruct (put_rr a b true d e f g h i j k) as [ret p] eqn:EP end. cbn [rbind]. apply G. eapply put_grows; eauto.
Qed.
Lemma step_progress : forall z w v qn qt first q, sane z -> flagged z w -> plain (q_name q) -> (first = true -> below (q_name q) (z_apex z)) ->
  exists st q', solve_name z w v qn qt first q = Ok (st, q') /\ progress z q st q'.
Proof.
  intros z w v qn qt first q S HF HP HB. unfold solve_name. destruct (search z (q_name q) S HP) as [[HU [[HE ->]|(NE & c & HC & ->)]]|[NU ->]]; cbn [rbind].
  - destruct (found_progress z v qn qt (set_node (set_encloser q (q_name q)) (Some (q_name q))) (q_name q) S eq_refl HE HP) as (st & q' & E & P). exists st, q'. split; auto.
  - unfold name_not_found. cbv zeta. change (q_encloser (set_node (set_encloser q c) None)) with c. pose proof HC as (CE & CB & CM). destruct (w c) eqn:EW.
    + apply (HF c CE) in EW. destruct (node_of z _ S EW) as (ns & EN & WN). change (star :: c) with (star_of c). rewrite EN. set (q0 := set_node (set_node (set_encloser q c) None) (Some (star_of c))). destruct (found_progress z v qn qt q0 (star_of c) S eq_refl EW HP) as (st & q' & E & P). match goal with |- context [name_found z v qn qt ?x] => change (name_found z v qn qt x) with (name_found z v qn qt q0) end. rewrite E. cbn [rbind]. exists st. eexists. split; [reflexivity|]. destruct (has_visited q' (star_of c)); [exact P|]. unfold visit. destruct (nonauth z (star_of c)); exact P.
    + destruct (node_of z c S CE) as (n & EN & WN). unfold rrs_of. rewrite EN. cbn [rbind]. destruct (negb (deleg z c || nonauth z c) && _) eqn:ED.
      * apply andb_true_iff in ED. destruct ED as [_ ED]. destruct (node_rrset (zn_rrs n) T_DNAME) as [r|] eqn:ER; [|discriminate]. apply (rrset_owns z c n _ r EN WN) in ER. destruct (follow_progress z v qn qt T_DNAME (set_node (set_node (set_encloser q c) None) (Some c)) c r S eq_refl ER) as (st & q' & E & P); auto. exists st, q'. split; auto.
      * destruct (auth_above_spec z c S CE) as (a & A1 & A2 & A3 & A4 & A5). rewrite A1. cbn [rbind]. destruct (deleg z a) eqn:EDa; eexists; eexists; (split; [reflexivity|]); (split; [cbn; lia|]); (split; [apply grows_refl; lia|]); (split; [discriminate|]); (split; [discriminate|]); [|discriminate]. intros _. exists a. split; auto. exists a. split; [apply A5; auto|apply below_refl].
  - destruct first; [exfalso; auto|]. exists HIT, q. split; auto. split; [lia|]. split; [apply grows_refl; lia|]. split; [discriminate|]. split; discriminate.
Qed.
