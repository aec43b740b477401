(** The answer for names which do not exist. *)
From Verif Require Import Base BitmapModel DnameSpec DnameProofs3 NsecModel NsecSpec NsecProofs NsecProofs2 NsecProofs3 NsecProofs5 NsecProofs6 NsecProps DenialSpec DenialModel DenialProofs DenialProofs2 DenialProofs3 DenialProofs4.

Lemma member_there : forall apex z y, ok_zone apex z -> In y (members z) -> is_there z y.
Proof. intros apex z y Z H. rewrite (members_get apex) in H by auto. destruct H as (k & E & _). apply there_get. congruence. Qed.
Lemma child_ne : forall (l : label) c x, below c x -> l :: c <> x.
Proof. intros l c x B E. apply below_len in B. rewrite <- E in B. cbn [length] in B. lia. Qed.
Lemma no_cut_wild : forall apex z q c w, ok_zone apex z -> ~ is_there z q -> encloser z q c -> nget z (star :: c) = Some w -> n_nonauth w = false -> no_cut z q.
Proof.
  intros apex z q c w Z N (HC & QC & MAX) E NA x n EX T BX NX. assert (below c x) as CX by (apply MAX; auto; apply there_get; congruence). destruct (takes_true _ T) as [NAX _].
  assert (n_deleg n = false) as D.
  { destruct (n_deleg n) eqn:D; auto. assert (n_nonauth w = true); [|congruence]. eapply (under_cut apex z x n); eauto; [apply below_push; auto|apply child_ne; auto]. }
  split; auto. intros H39. destruct (oz_tree _ _ Z) as (_ & _ & _ & T4 & _). apply (child_ne star c x CX). apply (T4 x n (star :: c) w); auto; try (apply nget_in1; auto). apply below_push; auto.
Qed.
Lemma no_cut_auth : forall apex z q c n, ok_zone apex z -> ~ is_there z q -> encloser z q c -> no_cut z q -> nget z c = Some n -> n_nonauth n = false.
Proof.
  intros apex z q c n Z N (HC & QC & MAX) NC E. destruct (n_nonauth n) eqn:NA; auto. destruct (nonauth_cut apex z Z c n E NA) as (d & m & A & B & C & D & NE).
  destruct (cut_takes apex z d m Z A B C) as (T & _). destruct (NC d m A T) as [X _]; [eapply below_trans; eauto| |congruence]. intros ->. apply N. apply there_get. congruence.
Qed.
Lemma wild_step : forall apex z q c p out, ok_zone apex z -> ~ is_there z q -> is_there z p -> canonical_lt p q -> (forall y, is_there z y -> canonical_lt y q -> cle y p) -> good_out z out -> (length out <= 1)%nat ->
  exists out', put_wildcard_answer z (star :: c) p q out = Ok out' /\ good_out z out' /\ (length out' <= 2)%nat /\ (forall r, In r out -> In r out') /\
    (is_wildcard q = false -> exists r, In r out' /\ spans apex z q r).
Proof.
  intros apex z q c p out Z N HP LP MX G LN. unfold put_wildcard_answer, wildcard_expanded. change (is_wildcard (star :: c)) with true. rewrite andb_true_r, negb_involutive. destruct (is_wildcard q) eqn:W.
  - exists out. repeat match goal with |- _ /\ _ => split end; auto; try discriminate; apply G.
  - destruct (put_previous_ok apex z q p out Z G) as (out' & r & E1 & G' & K & HR & SP & LN'); auto.
    { intros H. apply N. eapply member_there; eauto. } { intros y Hy L. apply MX; auto. eapply member_there; eauto. }
    exists out'. split; auto. split; auto. split; [lia|]. split; auto. eauto.
Qed.
Lemma wild_proof : forall apex z q c w r, ok_zone apex z -> below q apex -> ~ is_there z q -> encloser z q c -> nget z (star :: c) = Some w -> n_nonauth w = false -> spans apex z q r ->
  proves_absent apex r q /\ shows_encloser r q c.
Proof.
  intros apex z q c w r Z B N EC E NA SP. pose proof (no_cut_wild apex z q c w Z N EC E NA) as NC. split; [eapply spans_absent; eauto|].
  destruct EC as (HC & EC'). pose proof (proj1 (there_get _ _) HC) as G. destruct (nget z c) as [n|] eqn:EN; [|congruence]. eapply spans_encloser; eauto; [split; auto|]. eapply no_cut_auth; eauto. split; auto.
Qed.
Lemma answer_wild : forall apex z q t c p w, ok_zone apex z -> below q apex -> ~ is_there z q -> 0 <= t < 65536 -> t <> 46 -> t <> 47 ->
  encloser z q c -> is_there z p -> canonical_lt p q -> (forall y, is_there z y -> canonical_lt y q -> cle y p) -> nget z (star :: c) = Some w ->
  exists out ds, solve_authority_dnssec z q (mkfound (name_found w t) (Some (star :: c)) c p (if n_nonauth w then None else Some (star :: c))) = Ok (out, ds) /\ answer_facts apex z q t (name_found w t) out ds.
Proof.
  intros apex z q t c p w Z B N R N46 N47 EC HP LP MX EW. pose proof (name_found_ok w t) as FF. assert (AF : answers_from z q (star :: c)) by (right; split; eauto).
  assert (is_there z (star :: c)) as HW by (apply there_get; congruence).
  assert (NQ : ~ In q (members z)) by (intros H; apply N; eapply member_there; eauto). assert (MXM : forall y, In y (members z) -> canonical_lt y q -> cle y p) by (intros y Hy L; apply MX; auto; eapply member_there; eauto).
  unfold solve_authority_dnssec. cbn [f_state f_node f_previous f_encloser f_wildcard].
  (** outcomes from an authoritative wildcard, given what is put first *)
  assert (FIN : forall o out, o <> Deleg -> o <> Miss -> name_found_facts w t o -> n_nonauth w = false -> good_out z out -> (length out <= 1)%nat ->
    (o = NoData -> n_types w <> [] -> exists r, In r out /\ proves_no_type r (star :: c) t) ->
    exists out' ds, (let* out' := put_wildcard_answer z (star :: c) p q out in Ok (out', @None name)) = Ok (out', ds) /\ answer_facts apex z q t o out' ds).
  { intros o out ND NM F NA G LN H. destruct (wild_step apex z q c p out Z N HP LP MX G LN) as (out' & E1 & G' & LN' & K & S). rewrite E1. cbn [rbind]. exists out', None. split; auto. split; auto. split; auto. split; auto.
    assert (MAIN : exists x n, answers_from z q x /\ nget z x = Some n /\ name_found_facts n t o /\
      (o = NoData -> n_types n <> [] -> exists r, In r out' /\ proves_no_type r x t) /\
      (o = NoData -> n_types n = [] -> is_there z q -> exists r, In r out' /\ proves_empty r q) /\
      (~ is_there z q -> is_wildcard q = false -> exists c r, x = star :: c /\ encloser z q c /\ In r out' /\ proves_absent apex r q /\ shows_encloser r q c)).
    { exists (star :: c), w. split; auto. split; auto. split; auto. split; [intros A1 A2; destruct (H A1 A2) as (r & HR & PR); eauto|]. split; [tauto|]. intros _ W. destruct (S W) as (r & HR & SP). destruct (wild_proof apex z q c w r Z B N EC EW NA SP). exists c, r. auto. }
    destruct o; try congruence; right; exact MAIN. }
  destruct (name_found w t) eqn:EO.
  - cbn [rbind]. cbn [name_found_facts] in FF. destruct FF as (NA & FF'). rewrite NA. apply FIN; auto; try discriminate; [cbn [name_found_facts]; auto|apply good_nil].
  - destruct FF.
  - pose proof FF as FF0. cbn [name_found_facts] in FF. destruct FF as (NA & FF'). rewrite NA. unfold put_nsec_nodata. rewrite EW. unfold empty_nonterminal. pose proof (auth_empty apex z _ w Z EW NA) as AE. destruct (no_rrsets w) eqn:NR.
    + destruct (put_previous_ok apex z q p [] Z (good_nil z) NQ HP LP MXM) as (out & r & E1 & G & _ & HR & SP & LN). rewrite E1. cbn [rbind]. apply FIN; auto; try discriminate. intros _ X. exfalso. apply X. apply AE; auto.
    + destruct (put_ok z (star :: c) [] (good_nil z) HW) as (out & E1 & G & _ & P & LN); [intros; eapply one_rec; eauto|]. rewrite E1. cbn [rbind]. apply FIN; auto; try discriminate.
      intros _ NE. assert (takes_part w = true) as TK by (unfold takes_part; rewrite NA; destruct (n_types w); [congruence|auto]). destruct (takes_rec apex z _ w Z EW TK) as (s & ES). exists (star :: c, s). split; [eapply P; eauto|]. eapply own_no_type; eauto.
  - destruct (deleg_above apex z _ w Z EW) as (d & m & A & B2 & C & D & F); [cbn [name_found_facts] in FF; tauto|]. rewrite D. cbn [rbind]. destruct (dp_ok apex z d m p Z A B2 C) as (out & ds & E1 & G & LN & H). rewrite E1. cbn [rbind].
    assert (PL : below q d \/ answers_from z q d).
    { destruct F as [<-|[NE F]]; auto. left. destruct (below_tl _ _ _ F) as [X|X]; [congruence|]. destruct EC as (_ & QC & _). eapply below_trans; eauto. }
    assert (FD : forall out', good_out z out' -> (length out' <= 2)%nat -> (forall r, In r out -> In r out') -> answer_facts apex z q t Deleg out' ds).
    { intros out' G' LN' K. split; auto. split; auto. split; [congruence|]. exists d, m. split; auto. split; auto. split; auto. split; auto. split; [intros X; exfalso; apply N; rewrite <- X; apply there_get; congruence|]. destruct H as [H|(H1 & H2 & r & H3 & H4)]; [left; auto|right; split; auto; split; auto; exists r; auto]. }
    destruct (n_nonauth w) eqn:NA; cbn [rbind].
    + exists out, ds. split; auto.
    + destruct (wild_step apex z q c p out Z N HP LP MX G LN) as (out' & E2 & G' & LN' & K & _). rewrite E2. cbn [rbind]. exists out', ds. split; auto.
  - cbn [rbind]. pose proof FF as FF0. cbn [name_found_facts] in FF. destruct FF as (NA & FF'). rewrite NA. apply FIN; auto; try discriminate. apply good_nil.
Qed.
Lemma answer_missing : forall apex z q t, ok_zone apex z -> below q apex -> legal_name q -> ~ is_there z q -> 0 <= t < 65536 -> t <> 46 -> t <> 47 ->
  exists o out ds, answer z q t = Ok (o, (out, ds)) /\ answer_facts apex z q t o out ds.
Proof.
  intros apex z q t Z B LG N R N46 N47. destruct (find_missing apex z q Z B N) as (c & p & EF & EC & HP & LP & MX). unfold answer, solve_name. rewrite EF. cbn [rbind]. unfold name_not_found.
  pose proof EC as (HC & QC & MAX). assert (q <> c) as NQC by (intros X; apply N; rewrite X; auto).
  pose proof (proj1 (there_get _ _) HC) as G0. destruct (nget z c) as [e|] eqn:EE; [|congruence]. destruct (nget z (star :: c)) as [w|] eqn:EW.
  - destruct (answer_wild apex z q t c p w Z B N R N46 N47 EC HP LP MX EW) as (out & ds & E1 & F). cbn [rbind f_state]. rewrite E1. cbn [rbind]. exists (name_found w t), out, ds. auto.
  - assert (NW : ~ is_there z (star :: c)) by (intros X; apply there_get in X; congruence).
    assert (NQ : ~ In q (members z)) by (intros H; apply N; eapply member_there; eauto). assert (MXM : forall y, In y (members z) -> canonical_lt y q -> cle y p) by (intros y Hy L; apply MX; auto; eapply member_there; eauto).
    destruct (negb (n_nonauth e || n_deleg e) && has_type e T_DNAME) eqn:DN.
    + cbn [rbind f_state]. unfold solve_authority_dnssec. cbn [f_state f_node f_wildcard rbind]. exists Follow, [], None. split; auto. split; [apply good_nil|]. split; [cbn [length]; lia|]. split; auto. left. split; auto. split; auto.
      apply andb_true_iff in DN. destruct DN as [DN1 DN2]. apply has_type_iff in DN2. apply negb_true_iff, orb_false_iff in DN1. exists c, e. tauto.
    + destruct (auth_encloser_ok apex z Z c (S (length c)) HC) as (a & n & E1 & EA & HA & CA & MA); [lia|]. rewrite E1. cbn [rbind]. rewrite EA.
      assert (TA : takes_part n = true) by (rewrite <- (has_auth_eq apex z a n Z EA); auto). destruct (takes_true _ TA) as [NAA _]. destruct (n_deleg n) eqn:DA.
      * cbn [rbind f_state]. unfold solve_authority_dnssec. cbn [f_state f_node f_previous f_wildcard].
        rewrite (deleg_point_ok apex z a n Z EA NAA DA a); [|apply there_get; congruence|apply below_refl|lia]. cbn [rbind]. destruct (dp_ok apex z a n p Z EA NAA DA) as (out & ds & E2 & G & LN & H). rewrite E2. cbn [rbind].
        exists Deleg, out, ds. split; auto. split; auto. split; [lia|]. split; [congruence|]. exists a, n. repeat match goal with |- _ /\ _ => split end; auto; [left; eapply below_trans; eauto|]. intros X; exfalso; apply N; rewrite <- X; apply there_get; congruence.
      * assert (NC : no_cut z q).
        { intros x nx EX TX BX NX. destruct (takes_true _ TX) as [NAX _]. assert (CX : below c x) by (apply MAX; auto; apply there_get; congruence).
          assert (AX : below a x) by (eapply MA; eauto; rewrite (has_auth_eq apex z x nx Z EX); auto).
          assert (DX : n_deleg nx = false).
          { destruct (n_deleg nx) eqn:DX; auto. destruct (name_dec a x) as [X|X]; [rewrite X in EA; congruence|]. assert (n_nonauth n = true) by (eapply (under_cut apex z x nx); eauto). congruence. }
          split; auto. intros H39. destruct (oz_tree _ _ Z) as (_ & _ & _ & T4 & _). assert (c = x) by (apply (T4 x nx c e); auto; apply nget_in1; auto). subst x. assert (nx = e) by congruence. subst nx.
          rewrite NAX, DX in DN. cbn [orb negb andb] in DN. apply has_type_not in DN. auto. }
        pose proof (no_cut_auth apex z q c e Z N EC NC EE) as NAE.
        cbn [rbind f_state]. unfold solve_authority_dnssec. cbn [f_state f_node f_previous f_encloser f_wildcard]. unfold put_nsec_nxdomain.
        destruct (put_previous_ok apex z q p [] Z (good_nil z) NQ HP LP MXM) as (out1 & r1 & E2 & G1 & _ & HR1 & SP1 & LN1). rewrite E2. cbn [rbind].
        pose proof (size_above q c LG QC NQC) as SZ. rewrite size_eq. destruct (name_size c >? 255 - 2) eqn:ES; [apply Z.gtb_lt in ES; lia|].
        assert (BW : below (star :: c) apex) by (apply below_push; eapply there_below; eauto).
        unfold put_covering_nsec. destruct (find_missing apex z (star :: c) Z BW NW) as (c' & p' & EF' & _ & HP' & LP' & MX'). rewrite EF'. cbn [rbind].
        destruct (put_previous_ok apex z (star :: c) p' out1 Z G1) as (out2 & r2 & E3 & G2 & K2 & HR2 & SP2 & LN2); auto.
        { intros H. apply NW. eapply member_there; eauto. } { intros y Hy L. apply MX'; auto. eapply member_there; eauto. }
        rewrite E3. cbn [rbind]. exists Miss, out2, None. split; auto. split; auto. cbn [length] in LN1. split; [lia|]. split; auto. split; auto. exists c, r1, r2. repeat match goal with |- _ /\ _ => split end; auto.
        -- eapply spans_absent; eauto.
        -- eapply spans_encloser; eauto.
        -- eapply spans_absent; eauto. intros x nx EX TX BX NX. assert (CX : below c x) by (destruct (below_tl _ _ _ BX) as [X|X]; [congruence|auto]). apply (NC x nx EX TX); [eapply below_trans; eauto|]. intros ->. apply N. apply there_get. congruence.
Qed.
