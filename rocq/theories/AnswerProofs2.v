(** Answers agree with the specification. *)
From Verif Require Import Base RdatasetModel RdatasetSpec RdatasetProofs RdatasetProps NodeModel NodeProps ZoneModel ZoneProofs ZoneView ZoneTree ZoneTreeProps AnswerModel AnswerSpec AnswerSearch AnswerProofs.

(** The packet is large enough and memory is available. *)
Definition roomy (v : env) : Prop := (forall p e, v_put v p e = KNOT_EOK) /\ (forall p e, v_sig v p e = KNOT_EOK) /\ (forall p, v_mem v p = true).
(** No wildcard owns a DNAME. *)
Definition no_wild_dname (z : contents) : Prop := forall c, ~ owns_some z (star_of c) 39.
Definition strip (e : entry) : name * rr_data := (e_owner e, e_rr e).
Definition ans (q : qdata) : list (name * rr_data) := map strip (p_answer (q_pkt q)).
Definition from_in (q : qdata) (s : name) (t : Z) : Prop := exists e, In e (p_answer (q_pkt q)) /\ rr_type (e_rr e) = t /\ e_from e = Some s.
Record inv (qn : name) (h : list (name * Z)) (q : qdata) : Prop := {
  i_chain : q_chain q = zlen h;
  i_rcode : q_rcode q = 0;
  i_auth : p_authority (q_pkt q) = [];
  i_cname : forall s, ~ wild s -> (from_in q s 5 <-> In (s, 5) h);
  i_dname : forall s, from_in q s 39 <-> In (s, 39) h;
  i_wild : forall s, wild s -> (In s (q_wild q) <-> In (s, 5) h);
  i_first : p_answer (q_pkt q) = [] -> q_name q = qn }.
Definition ends (z : contents) (e : ending) (st : state) (q' : qdata) : Prop :=
  match e with
  | Answered | Outside | Looped | Limit => st = HIT
  | Ref c => st = DELEG /\ exists o, q_node q' = Some o /\ cut z c /\ below o c
  | Empty => st = NODATA
  | Nonexistent => st = MISS
  | Overlong => False
  end.
Definition outcome (z : contents) (t : Z) (qn : name) (h : list (name * Z)) (n : name) (q : qdata) (st : state) (q' : qdata) : Prop :=
  q_aa q' = q_aa q /\
  ((exists l e, resolves z t h n l e /\ ends z e st q' /\ ans q' = ans q ++ l /\ p_authority (q_pkt q') = [] /\ q_rcode q' = 0)
   \/ (st = FOLLOW /\ exists d s ty, d <> [] /\ (forall l e, resolves z t ((s, ty) :: h) (q_name q') l e -> resolves z t h n (d ++ l) e) /\ ans q' = ans q ++ d /\ inv qn ((s, ty) :: h) q' /\ plain (q_name q'))
   \/ (st <> DELEG /\ exists d, resolves z t h n d Overlong /\ ans q' = ans q ++ d)).

Lemma wild_spec : forall s, is_wildcard s = true <-> wild s.
Proof. intros [|l c]; cbn [is_wildcard]; [split; [discriminate|intros (c & X); discriminate]|]. rewrite beqb_spec. unfold wild, star_of, star. split; [intros ->; eauto|intros (c' & [= -> _]); auto]. Qed.
Lemma visited_spec : forall q s, has_visited q s = true <-> In s (q_wild q).
Proof. intros. unfold has_visited. rewrite existsb_exists. split; [intros (x & H & E); apply neqb_spec in E; subst; auto|intros H; exists s; split; auto; apply neqb_refl]. Qed.
Lemma contains_spec : forall p r s, p_authority p = [] -> pkt_contains p (mkent s r (Some s)) = true <-> exists e, In e (p_answer p) /\ rr_type (e_rr e) = rr_type r /\ e_from e = Some s.
Proof.
  intros p r s HA. unfold pkt_contains, p_all. rewrite HA, app_nil_r, existsb_exists. cbn [e_rr e_from]. split; intros (e & H1 & H2); exists e; (split; [exact H1|]).
  - apply andb_true_iff in H2. destruct H2 as [H2 H3]. split; [lia|]. destruct (e_from e) as [x|]; [|discriminate]. cbn [same_node] in H3. apply neqb_spec in H3. subst. auto.
  - destruct H2 as [H2 H3]. rewrite H2, H3. cbn [same_node]. rewrite neqb_refl. lia.
Qed.
(** putting a CNAME or DNAME of the zone *)
Lemma put_alias : forall v p qn cur o r sigs, roomy v -> 1 <= count (rr_rrs r) -> p_authority p = [] ->
  (rr_type r <> 39 -> is_wildcard o = true -> put_rr v p true qn cur o (Some o) r false true sigs = (KNOT_EOK, mkpkt (p_answer p ++ [mkent cur r None]) [])) /\
  (rr_type r = 39 \/ is_wildcard o = false ->
    ((exists e, In e (p_answer p) /\ rr_type (e_rr e) = rr_type r /\ e_from e = Some o) /\ put_rr v p true qn cur o (Some o) r false true sigs = (KNOT_EOK, p)) \/
    (~ (exists e, In e (p_answer p) /\ rr_type (e_rr e) = rr_type r /\ e_from e = Some o) /\ put_rr v p true qn cur o (Some o) r false true sigs = (KNOT_EOK, mkpkt (p_answer p ++ [mkent o r (Some o)]) []))).
Proof.
  intros v p qn cur o r sigs (V1 & V2 & _) HC HA. unfold put_rr. replace (count (rr_rrs r) <? 1) with false by lia. cbv zeta. cbn [negb andb]. split.
  - intros HT HW. rewrite HW. replace (rr_type r =? T_DNAME) with false by (unfold T_DNAME; lia). cbn [negb andb]. assert (N : pkt_contains p (mkent cur r None) = false). { unfold pkt_contains. apply Bool.not_true_is_false. intros X. apply existsb_exists in X. destruct X as (e & _ & X). cbn [e_from] in X. apply andb_true_iff in X. destruct X as [_ X]. destruct (e_from e); discriminate. } rewrite N, V1, V2, HA. change (negb (KNOT_EOK =? KNOT_EOK)) with false. destruct sigs; auto.
  - intros H. replace (negb (rr_type r =? T_DNAME) && is_wildcard o) with false by (unfold T_DNAME; destruct H as [X | X]; rewrite X; [reflexivity|rewrite andb_false_r; reflexivity]). pose proof (contains_spec p r o HA) as CS. destruct (pkt_contains p (mkent o r (Some o))).
    + left. split; [apply CS; auto|auto].
    + right. split; [intros X; apply CS in X; discriminate|]. rewrite V1, V2, HA. change (negb (KNOT_EOK =? KNOT_EOK)) with false. destruct sigs; auto.
Qed.
Lemma from_snoc : forall q p' e s t, p_answer p' = p_answer (q_pkt q) ++ [e] -> from_in (set_pkt q p') s t <-> from_in q s t \/ (rr_type (e_rr e) = t /\ e_from e = Some s).
Proof.
  intros q p' e s t E. unfold from_in. cbn [q_pkt set_pkt]. rewrite E. split.
  - intros (x & H1 & H2 & H3). apply in_app_iff in H1. destruct H1 as [H1|[<-|[]]]; [left; eauto|right; auto].
  - intros [(x & H1 & H2)|[H2 H3]]; [exists x|exists e]; rewrite in_app_iff; cbn [In]; auto.
Qed.
Lemma ans_snoc : forall q p' e, p_answer p' = p_answer (q_pkt q) ++ [e] -> ans (set_pkt q p') = ans q ++ [strip e].
Proof. intros q p' e E. unfold ans. cbn [q_pkt set_pkt]. rewrite E, map_app. auto. Qed.
Lemma p_all_answer : forall p, p_authority p = [] -> zlen (p_all p) = zlen (p_answer p).
Proof. intros p H. unfold p_all. rewrite H, app_nil_r. auto. Qed.
Lemma auth_not : forall z o t, sane z -> exists_ z o -> (deleg z o && negb (t =? T_DS)) || nonauth z o = false -> ~ (delegated z o /\ ~ (cut z o /\ t = 43)).
Proof.
  intros z o t S HE H. destruct (flags_spec z o S (ex_below z o S HE)) as (F1 & F2 & F3 & _). apply orb_false_iff in H. destruct H as [H1 H2]. intros [X Y]. apply F2 in X. rewrite H2, orb_false_r in X. rewrite X in H1. apply Y. split; [apply F1; auto|]. unfold T_DS in H1. cbn [andb] in H1. lia.
Qed.
Lemma inv_name : forall qn h q o, inv qn h q -> p_answer (q_pkt q) <> [] -> inv qn h (set_name q o).
Proof. intros qn h q o I N. destruct I. constructor; auto. intros X. contradiction. Qed.
(** following a CNAME *)
Lemma follow_alias : forall z v qn t h q o r, sane z -> roomy v -> zlen h <= 5 -> inv qn h q -> q_node q = Some o -> below (q_name q) (z_apex z) -> plain (q_name q) -> supplied z (q_name q) o ->
  (deleg z o && negb (t =? T_DS)) || nonauth z o = false -> ~ at_alias t -> owns z o 5 r ->
  exists st q', follow_cname z v qn t 5 q = Ok (st, q') /\ outcome z t qn h (q_name q) q st q' /\ (st = FOLLOW -> wild o -> has_visited q' o = true).
Proof.
  intros z v qn t h q o r S HV HL I HN HB HP HS HD HT HO. assert (HE : exists_ z o) by (eapply owns_ex; eauto). assert (JA : judged z t (q_name q) (Alias o r)) by (eapply j_alias; eauto; apply auth_not; auto).
  assert (NONA : nonauth z o = false) by (apply orb_false_iff in HD; apply HD).
  unfold follow_cname. cbv zeta. change (q_chain (set_chain q (q_chain q + 1))) with (q_chain q + 1). rewrite (i_chain _ _ _ I). destruct (CNAME_CHAIN_MAX <? zlen h + 1) eqn:EC; unfold CNAME_CHAIN_MAX in EC.
  { eexists; eexists; split; [reflexivity|]. split; [|discriminate]. split; [reflexivity|]. left. exists [], Limit. split; [eapply e_limit; eauto; lia|]. split; [reflexivity|]. split; [rewrite app_nil_r; reflexivity|]. split; [apply (i_auth _ _ _ I)|apply (i_rcode _ _ _ I)]. }
  change (q_node (set_chain q (zlen h + 1))) with (q_node q). rewrite HN. destruct (node_of z o S HE) as (n & E & W). unfold rrs_of. rewrite E. cbn [rbind]. rewrite (proj2 (rrset_owns z o n 5 r E W) HO). destruct (owns_nonempty z o 5 r S HO) as [C1 C2]. unfold rr_empty. replace (count (rr_rrs r) =? 0) with false by lia. cbn [q_pkt q_name set_chain].
  destruct (target_spec z o 5 r S HO ltac:(auto)) as (m & PM & PT & ET). rewrite ET. change (5 =? T_DNAME) with false. cbn [rbind]. pose proof (put_alias v (q_pkt q) qn (q_name q) o r (has_sigs (zn_rrs n)) HV C1 (i_auth _ _ _ I)) as [PW PN]. destruct (is_wildcard o) eqn:EW.
  - rewrite PW by (auto; lia). change (negb (KNOT_EOK =? KNOT_EOK)) with false. cbn [negb]. set (p1 := mkpkt (p_answer (q_pkt q) ++ [mkent (q_name q) r None]) []). set (q1 := set_pkt (set_chain q (zlen h + 1)) p1).
    assert (WO : wild o) by (apply wild_spec; auto). assert (A1 : ans q1 = ans q ++ [(q_name q, r)]) by (apply (ans_snoc (set_chain q (zlen h + 1)) p1 _ eq_refl)). unfold follow_on. cbn [q_pkt q1 set_pkt]. fold p1. rewrite (p_all_answer p1 eq_refl), (p_all_answer _ (i_auth _ _ _ I)). cbn [p1 p_answer]. rewrite zlen_app, zlen_cons, zlen_nil. replace (zlen (p_answer (q_pkt q)) + (0 + 1) <=? zlen (p_answer (q_pkt q))) with false by lia. replace (zlen (p_answer (q_pkt q)) + (1 + 0) <=? zlen (p_answer (q_pkt q))) with false by lia. rewrite EW. destruct (has_visited q1 o) eqn:EV.
    + assert (IH : In (o, 5) h) by (apply (i_wild _ _ _ I o WO); apply visited_spec in EV; exact EV). eexists; eexists; split; [reflexivity|]. split; [|discriminate]. assert (Q : forall x, q_aa (visit z x o) = q_aa x /\ q_pkt (visit z x o) = q_pkt x /\ q_rcode (visit z x o) = q_rcode x) by (intros; unfold visit; destruct (nonauth z o); auto). destruct (Q (set_node q1 None)) as (Q1 & Q2 & Q3). split; [rewrite Q1; reflexivity|]. left. exists [(q_name q, r)], Looped. split; [eapply e_loop_wild; eauto; lia|]. split; [reflexivity|]. unfold ans at 1. rewrite Q2, Q3. split; [exact A1|]. split; [reflexivity|apply (i_rcode _ _ _ I)].
    + assert (NI : ~ In (o, 5) h). { intros X. apply (i_wild _ _ _ I o WO) in X. assert (has_visited q1 o = true) by (apply visited_spec; exact X). congruence. }
      eexists; eexists; split; [reflexivity|]. assert (EVs : visit z q1 o = set_wild q1 (q_wild q1 ++ [o])) by (unfold visit; rewrite NONA; auto). rewrite EVs. split; [|intros _ _; apply visited_spec; cbn [q_wild set_name set_wild]; apply in_app_iff; right; left; auto].
      split; [reflexivity|]. right. left. split; [reflexivity|]. exists [(q_name q, r)], o, 5. split; [discriminate|]. split; [intros l e R; cbn [app]; eapply e_alias; eauto; lia|]. split; [exact A1|]. split; [|exact PM].
      assert (FR : forall s ty, from_in q1 s ty <-> from_in q s ty). { intros s ty. unfold q1. rewrite (from_snoc (set_chain q (zlen h + 1)) p1 (mkent (q_name q) r None) s ty eq_refl). cbn [e_from e_rr]. unfold from_in. cbn [q_pkt set_chain]. intuition congruence. }
      constructor.
      * cbn [q_chain set_name set_wild q1 set_pkt set_chain]. rewrite zlen_cons. lia.
      * apply (i_rcode _ _ _ I).
      * reflexivity.
      * intros s NW. pose proof (FR s 5) as F. unfold from_in in F |- *. cbn [q_pkt set_name set_wild] in *. rewrite F. fold (from_in q s 5). rewrite (i_cname _ _ _ I s NW). cbn [In]. split; [auto|]. intros [[= <-]|X]; auto. contradiction.
      * intros s. pose proof (FR s 39) as F. unfold from_in in F |- *. cbn [q_pkt set_name set_wild] in *. rewrite F. fold (from_in q s 39). rewrite (i_dname _ _ _ I s). cbn [In]. split; [auto|]. intros [[=]|X]; auto.
      * intros s WS. cbn [q_wild set_name set_wild q1 set_pkt set_chain]. rewrite in_app_iff, (i_wild _ _ _ I s WS). cbn [In]. split; [intros [X|[->|[]]]; auto|]. intros [[= ->]|X]; auto.
      * cbn [q_pkt set_name set_wild q1 set_pkt p1 p_answer]. intros X. apply app_eq_nil in X. destruct X. discriminate.
  - assert (NWO : ~ wild o) by (intros X; apply wild_spec in X; congruence). assert (NEQ : o = q_name q). { destruct HS as [HS|c]; auto. exfalso. apply NWO. exists c. auto. }
    destruct (PN (or_intror eq_refl)) as [[FI EP]|[FI EP]]; rewrite EP; rewrite C2 in FI; fold (from_in q o 5) in FI; change (negb (KNOT_EOK =? KNOT_EOK)) with false; cbn [negb].
    + assert (IH : In (o, 5) h) by (apply (i_cname _ _ _ I o NWO); exact FI). unfold follow_on. cbn [q_pkt set_pkt set_chain]. replace (zlen (p_all (q_pkt q)) <=? zlen (p_all (q_pkt q))) with true by lia. eexists; eexists; split; [reflexivity|]. split; [|discriminate]. split; [reflexivity|]. left. exists [], Looped. split; [eapply e_loop; eauto; lia|]. split; [reflexivity|]. split; [rewrite app_nil_r; reflexivity|]. split; [apply (i_auth _ _ _ I)|apply (i_rcode _ _ _ I)].
    + assert (NI : ~ In (o, 5) h) by (intros X; apply (i_cname _ _ _ I o NWO) in X; contradiction). set (p1 := mkpkt (p_answer (q_pkt q) ++ [mkent o r (Some o)]) []). set (q1 := set_pkt (set_chain q (zlen h + 1)) p1).
      assert (A1 : ans q1 = ans q ++ [(q_name q, r)]) by (rewrite <- NEQ; apply (ans_snoc (set_chain q (zlen h + 1)) p1 _ eq_refl)). unfold follow_on. cbn [q_pkt q1 set_pkt]. fold p1. rewrite (p_all_answer p1 eq_refl), (p_all_answer _ (i_auth _ _ _ I)). cbn [p1 p_answer]. rewrite zlen_app, zlen_cons, zlen_nil. match goal with |- context [?a <=? ?b] => replace (a <=? b) with false by lia end. rewrite EW.
      eexists; eexists; split; [reflexivity|]. split; [|intros _ X; contradiction]. split; [reflexivity|]. right. left. split; [reflexivity|]. exists [(q_name q, r)], o, 5. split; [discriminate|]. split; [intros l e R; cbn [app]; eapply e_alias; eauto; lia|]. split; [exact A1|]. split; [|exact PM].
      assert (FR : forall s ty, from_in q1 s ty <-> from_in q s ty \/ (5 = ty /\ o = s)). { intros s ty. unfold q1. rewrite (from_snoc (set_chain q (zlen h + 1)) p1 (mkent o r (Some o)) s ty eq_refl). cbn [e_from e_rr]. rewrite C2. unfold from_in. cbn [q_pkt set_chain]. intuition congruence. }
      constructor.
      * cbn [q_chain set_name q1 set_pkt set_chain]. rewrite zlen_cons. lia.
      * apply (i_rcode _ _ _ I).
      * reflexivity.
      * intros s NW. change (from_in (set_name q1 m) s 5) with (from_in q1 s 5). rewrite FR, (i_cname _ _ _ I s NW). cbn [In]. split; [intros [X|[_ ->]]; auto|]. intros [[= ->]|X]; auto.
      * intros s. change (from_in (set_name q1 m) s 39) with (from_in q1 s 39). rewrite FR, (i_dname _ _ _ I s). cbn [In]. split; [intros [X|[X _]]; [auto|lia]|]. intros [[=]|X]; auto.
      * intros s WS. change (q_wild (set_name q1 m)) with (q_wild q). rewrite (i_wild _ _ _ I s WS). cbn [In]. split; [auto|]. intros [[= ->]|X]; auto. contradiction.
      * cbn [q_pkt set_name q1 set_pkt p1 p_answer]. intros X. apply app_eq_nil in X. destruct X. discriminate.
Qed.
(** following a DNAME *)
Lemma follow_subst : forall z v qn t h q o r, sane z -> roomy v -> no_wild_dname z -> zlen h <= 5 -> inv qn h q -> q_node q = Some o -> below (q_name q) (z_apex z) -> plain (q_name q) -> below (q_name q) o ->
  judged z t (q_name q) (Subst o r) -> owns z o 39 r ->
  exists st q', follow_cname z v qn t 39 q = Ok (st, q') /\ outcome z t qn h (q_name q) q st q'.
Proof.
  intros z v qn t h q o r S HV HW HL I HN HB HP (p & EQ) JS HO. assert (HE : exists_ z o) by (eapply owns_ex; eauto).
  assert (NWO : ~ wild o) by (intros (c & ->); apply (HW c); exists r; auto). assert (EW : is_wildcard o = false) by (apply Bool.not_true_is_false; intros X; apply wild_spec in X; contradiction).
  unfold follow_cname. cbv zeta. change (q_chain (set_chain q (q_chain q + 1))) with (q_chain q + 1). rewrite (i_chain _ _ _ I). destruct (CNAME_CHAIN_MAX <? zlen h + 1) eqn:EC; unfold CNAME_CHAIN_MAX in EC.
  { eexists; eexists; split; [reflexivity|]. split; [reflexivity|]. left. exists [], Limit. split; [eapply e_limit; eauto; lia|]. split; [reflexivity|]. split; [rewrite app_nil_r; reflexivity|]. split; [apply (i_auth _ _ _ I)|apply (i_rcode _ _ _ I)]. }
  change (q_node (set_chain q (zlen h + 1))) with (q_node q). rewrite HN. destruct (node_of z o S HE) as (n & E & W). unfold rrs_of. rewrite E. cbn [rbind]. rewrite (proj2 (rrset_owns z o n 39 r E W) HO). destruct (owns_nonempty z o 39 r S HO) as [C1 C2]. unfold rr_empty. replace (count (rr_rrs r) =? 0) with false by lia. cbn [q_pkt q_name set_chain].
  destruct (target_spec z o 39 r S HO ltac:(auto)) as (m & PM & PT & ET). rewrite ET. change (39 =? T_DNAME) with true. cbn [rbind]. pose proof (put_alias v (q_pkt q) qn (q_name q) o r (has_sigs (zn_rrs n)) HV C1 (i_auth _ _ _ I)) as [_ PN]. specialize (PN (or_introl C2)). rewrite C2 in PN.
  assert (P1 : exists p1 d, put_rr v (q_pkt q) true qn (q_name q) o (Some o) r false true (has_sigs (zn_rrs n)) = (KNOT_EOK, p1) /\ shown h o r d /\ map strip (p_answer p1) = ans q ++ d /\ p_authority p1 = [] /\
    (forall s ty, (exists e, In e (p_answer p1) /\ rr_type (e_rr e) = ty /\ e_from e = Some s) <-> from_in q s ty \/ (ty = 39 /\ s = o))).
  { destruct PN as [[FI EP]|[FI EP]].
    - exists (q_pkt q), []. split; [exact EP|]. split; [left; split; auto; apply (i_dname _ _ _ I); exact FI|]. split; [rewrite app_nil_r; auto|]. split; [apply (i_auth _ _ _ I)|]. intros s ty. split; [intros X; left; exact X|]. intros [X|[-> ->]]; [exact X|exact FI].
    - exists (mkpkt (p_answer (q_pkt q) ++ [mkent o r (Some o)]) []), [(o, r)]. split; [exact EP|]. split; [right; split; auto; intros X; apply FI; apply (i_dname _ _ _ I) in X; exact X|]. cbn [p_answer]. split; [rewrite map_app; reflexivity|]. split; [reflexivity|].
      intros s ty. pose proof (from_snoc q (mkpkt (p_answer (q_pkt q) ++ [mkent o r (Some o)]) []) (mkent o r (Some o)) s ty eq_refl) as F. unfold from_in at 1 in F. cbn [q_pkt set_pkt p_answer e_rr e_from] in F. rewrite F, C2. intuition congruence. }
  destruct P1 as (p1 & d & EP & HSh & HA1 & HU1 & HF1). rewrite EP. change (negb (KNOT_EOK =? KNOT_EOK)) with false. cbn [negb]. cbn [q_name set_pkt set_chain]. rewrite EQ in *. rewrite cannot_spec by auto. destruct (255 <? zlen (wire_of (p ++ m))) eqn:EL.
  - match goal with |- context [follow_on ?a ?b ?c ?e ?f] => destruct (follow_on a b c e f) as [st q'] eqn:EF end. exists st, q'. split; auto.
    assert (K : q_pkt q' = p1 /\ q_aa q' = q_aa q /\ st <> DELEG). { unfold follow_on in EF. destruct (_ <=? _); [injection EF as <- <-; repeat split; discriminate|]. rewrite EW in EF. injection EF as <- <-. repeat split; discriminate. } destruct K as (K1 & K2 & K3). split; auto. right. right. split; [exact K3|]. exists d. split; [eapply e_subst_long; eauto; lia|]. unfold ans at 1. rewrite K1. exact HA1.
  - rewrite (proj2 (proj2 HV)). cbn [negb]. set (c := synth (p ++ o) o m (rr_ttl r)). assert (IC : is_cname c (p ++ m) (rr_ttl r)) by (apply synth_spec; lia). pose proof IC as (T5 & _ & CC & _).
    assert (PUT : put_rr v p1 true qn (p ++ o) (p ++ o) None c false false false = (KNOT_EOK, mkpkt (p_answer p1 ++ [mkent (p ++ o) c None]) [])).
    { unfold put_rr. rewrite CC. change (1 <? 1) with false. cbv zeta. rewrite T5. change (5 =? T_DNAME) with false. cbn [negb andb]. destruct (is_wildcard (p ++ o)); rewrite (proj1 HV); change (negb (KNOT_EOK =? KNOT_EOK)) with false; rewrite HU1; reflexivity. }
    rewrite PUT. change (negb (KNOT_EOK =? KNOT_EOK)) with false. cbn [negb]. set (p2 := mkpkt (p_answer p1 ++ [mkent (p ++ o) c None]) []). set (q2 := set_pkt (set_pkt (set_chain q (zlen h + 1)) p1) p2).
    assert (A2 : ans q2 = ans q ++ d ++ [(p ++ o, c)]) by (unfold ans at 1; cbn [q2 q_pkt set_pkt p2 p_answer]; rewrite map_app, HA1, <- app_assoc; reflexivity). destruct (t =? T_CNAME) eqn:E5; unfold T_CNAME in E5.
    + eexists; eexists; split; [reflexivity|]. split; [reflexivity|]. left. exists (d ++ [(p ++ o, c)]), Answered. split; [eapply e_subst_cname; eauto; lia|]. split; [reflexivity|]. split; [exact A2|]. split; [reflexivity|apply (i_rcode _ _ _ I)].
    + unfold follow_on. cbn [q_pkt q2 set_pkt]. rewrite (p_all_answer p2 eq_refl), (p_all_answer _ (i_auth _ _ _ I)). assert (LEN : zlen (p_answer p2) = zlen (ans q) + zlen d + 1). { cbn [p2 p_answer]. rewrite zlen_app, zlen_cons, zlen_nil. pose proof (f_equal (@zlen _) HA1) as X. rewrite zlen_app in X. unfold zlen in X at 1. rewrite map_length in X. unfold zlen at 1. lia. }
      rewrite LEN. unfold ans. replace (zlen (map strip (p_answer (q_pkt q)))) with (zlen (p_answer (q_pkt q))) by (unfold zlen; rewrite map_length; auto). pose proof (zlen_nonneg d). match goal with |- context [?a <=? ?b] => replace (a <=? b) with false by lia end. rewrite EW.
      eexists; eexists; split; [reflexivity|]. split; [reflexivity|]. right. left. split; [reflexivity|]. exists (d ++ [(p ++ o, c)]), o, 39. cbn [q_name set_name]. rewrite synth_name_spec. split; [destruct d; discriminate|]. split; [intros l e R; rewrite <- app_assoc; cbn [app]; eapply e_subst; eauto; lia|]. split; [exact A2|]. split; [|apply plain_app; apply plain_app in HP; tauto].
      assert (FR : forall s ty, from_in q2 s ty <-> from_in q s ty \/ (ty = 39 /\ s = o)). { intros s ty. rewrite <- HF1. unfold from_in. cbn [q2 q_pkt set_pkt p2 p_answer]. split; [intros (e & H1 & H2 & H3); apply in_app_iff in H1; destruct H1 as [H1|[<-|[]]]; [eauto|discriminate]|]. intros (e & H1 & H2). exists e. rewrite in_app_iff. auto. }
      constructor.
      * cbn [q_chain set_name q2 set_pkt set_chain]. rewrite zlen_cons. lia.
      * apply (i_rcode _ _ _ I).
      * reflexivity.
      * intros s NW. change (from_in (set_name q2 (p ++ m)) s 5) with (from_in q2 s 5). rewrite FR, (i_cname _ _ _ I s NW). cbn [In]. split; [intros [X|[X _]]; [auto|lia]|]. intros [[=]|X]; auto.
      * intros s. change (from_in (set_name q2 (p ++ m)) s 39) with (from_in q2 s 39). rewrite FR, (i_dname _ _ _ I s). cbn [In]. split; [intros [X|[_ ->]]; auto|]. intros [[= ->]|X]; auto.
      * intros s WS. change (q_wild (set_name q2 (p ++ m))) with (q_wild q). rewrite (i_wild _ _ _ I s WS). cbn [In]. split; [auto|]. intros [[=]|X]; auto.
      * cbn [q_pkt set_name q2 set_pkt p2 p_answer]. intros X. apply app_eq_nil in X. destruct X. discriminate.
Qed.
Lemma at_alias_spec : forall t, negb (t =? T_CNAME) && negb (t =? RRSIG) && negb (t =? T_NSEC) && negb (t =? T_ANY) = false -> at_alias t.
Proof. intros t H. unfold T_CNAME, RRSIG, T_NSEC, T_ANY, at_alias in *. lia. Qed.
(** a node was found, by its name or as a wildcard *)
Lemma found_outcome : forall z v qn t h q o, sane z -> roomy v -> no_wild_dname z -> zlen h <= 5 -> inv qn h q -> q_node q = Some o -> below (q_name q) (z_apex z) -> plain (q_name q) -> supplied z (q_name q) o ->
  exists st q', name_found z v qn t q = Ok (st, q') /\ outcome z t qn h (q_name q) q st q' /\ (st = FOLLOW -> wild o -> has_visited q' o = true).
Proof.
  intros z v qn t h q o S HV HW HL I HN HB HP HS. assert (HE : exists_ z o) by (destruct HS; auto). unfold name_found. rewrite HN. destruct (flags_spec z o S (ex_below z o S HE)) as (F1 & F2 & F3 & _).
  destruct ((deleg z o && negb (t =? T_DS)) || nonauth z o) eqn:ED.
  { eexists; eexists; split; [reflexivity|]. split; [|discriminate]. split; [reflexivity|]. left. assert (DL : delegated z o) by (apply F2; destruct (deleg z o); cbn in *; auto). destruct DL as (c & HC & HBc). exists [], (Ref c). split; [apply e_ref; auto; eapply j_referral; eauto|]. 2:{ split; [split; [reflexivity|]; exists o; auto|]. split; [rewrite app_nil_r; reflexivity|]. split; [apply (i_auth _ _ _ I)|apply (i_rcode _ _ _ I)]. }
    intros [-> ->]. apply F1 in HC. rewrite HC, (F3 HC) in ED. cbn in ED. discriminate. }
  pose proof (auth_not z o t S HE ED) as AN. destruct (has_type z o T_CNAME && negb (t =? T_CNAME) && negb (t =? RRSIG) && negb (t =? T_NSEC) && negb (t =? T_ANY)) eqn:EH.
  { repeat rewrite andb_true_iff in EH. destruct EH as ((((H1 & H2) & H3) & H4) & H5). apply (has_type_spec z o T_CNAME S) in H1. destruct H1 as (r & HO). eapply follow_alias; eauto. unfold at_alias, T_CNAME, RRSIG, T_NSEC, T_ANY in *. lia. }
  assert (NA : at_alias t \/ ~ owns_some z o 5). { destruct (has_type z o T_CNAME) eqn:EC; [left; apply at_alias_spec; cbn [andb] in EH; exact EH|right; intros X; apply (has_type_spec z o 5 S) in X; unfold T_CNAME in EC; congruence]. }
  unfold put_answer. rewrite HN. destruct (node_of z o S HE) as (n & E & W). unfold rrs_of. rewrite E. cbn [rbind]. destruct (answer_rr_spec z o n t S E W) as (a & EA & HA). rewrite EA. clear EA. rewrite (p_all_answer _ (i_auth _ _ _ I)). destruct a as [r|].
  - destruct HA as [C1 HA]. unfold rr_empty. replace (count (rr_rrs r) =? 0) with false by lia. cbn [rbind].
    assert (JD : judged z t (q_name q) (Data r)). { assert (ND : t <> 43 -> ~ delegated z o) by (intros N X; apply AN; split; auto; tauto). destruct HA as [(N1 & N2 & HA)|[(-> & t' & HA)|(-> & r' & HA & HSo)]]; [eapply j_data; eauto|eapply j_any; eauto; apply ND; lia|eapply j_sigs; eauto; apply ND; lia]. }
    assert (PUT : exists fr, put_rr v (q_pkt q) true qn (q_name q) o (if t =? RRSIG then None else Some o) r (zlen (p_answer (q_pkt q)) =? 0) false (has_sigs (zn_rrs n) && negb (rr_type r =? RRSIG)) = (KNOT_EOK, mkpkt (p_answer (q_pkt q) ++ [mkent (q_name q) r fr]) [])).
    { unfold put_rr. replace (count (rr_rrs r) <? 1) with false by lia. cbv zeta. cbn [andb]. rewrite !(proj1 HV), (proj1 (proj2 HV)), (i_auth _ _ _ I). change (negb (KNOT_EOK =? KNOT_EOK)) with false. cbv iota. assert (EI : (if has_sigs (zn_rrs n) && negb (rr_type r =? RRSIG) then KNOT_EOK else KNOT_EOK) = KNOT_EOK) by (destruct (has_sigs (zn_rrs n) && negb (rr_type r =? RRSIG)); auto). rewrite EI.
      destruct (zlen (p_answer (q_pkt q)) =? 0) eqn:EZ.
      - cbn [negb andb]. rewrite <- (i_first _ _ _ I); [eauto|]. destruct (p_answer (q_pkt q)) as [|u k]; auto. rewrite zlen_cons in EZ. pose proof (zlen_nonneg k). lia.
      - cbn [negb andb]. destruct (negb (rr_type r =? T_DNAME) && is_wildcard o) eqn:EX; [eauto|]. assert (EO : o = q_name q). { destruct HS as [HS|c X1 X2 X3]; auto. exfalso. replace (is_wildcard (star_of c)) with true in EX by reflexivity. rewrite andb_true_r in EX. assert (T39 : rr_type r = 39) by (unfold T_DNAME in EX; lia). apply (HW c). destruct HA as [(N1 & N2 & HA)|[(-> & t' & HA)|(-> & r' & HA & (HT & _))]].
          + exists r. pose proof (owns_nonempty z _ t r S HA) as [_ X]. congruence.
          + exists r. pose proof (owns_nonempty z _ t' r S HA) as [_ X]. congruence.
          + pose proof (owns_nonempty z _ 46 r' S HA) as [_ X]. lia. } rewrite <- EO. eauto. }
    destruct PUT as (fr & PUT). rewrite PUT. change (negb (KNOT_EOK =? KNOT_EOK)) with false. cbn [negb]. rewrite p_all_answer by reflexivity. cbn [p_answer]. rewrite zlen_app, zlen_cons, zlen_nil. match goal with |- context [?a =? ?b] => replace (a =? b) with false by lia end.
    eexists; eexists; split; [reflexivity|]. split; [|discriminate]. split; [reflexivity|]. left. exists [(q_name q, r)], Answered. split; [apply e_data; auto|]. split; [reflexivity|]. split; [apply (ans_snoc q (mkpkt _ _) (mkent (q_name q) r fr) eq_refl)|]. split; [reflexivity|apply (i_rcode _ _ _ I)].
  - destruct HA as [HA1 HA2]. cbn [rbind]. change (negb (KNOT_EOK =? KNOT_EOK)) with false. cbn [negb]. rewrite (p_all_answer _ (i_auth _ _ _ I)). rewrite Z.eqb_refl. eexists; eexists; split; [reflexivity|]. split; [|discriminate]. split; [reflexivity|]. left. exists [], Empty. split; [apply e_nodata; auto; eapply j_nodata; eauto|]. split; [reflexivity|]. split; [rewrite app_nil_r; reflexivity|]. split; [apply (i_auth _ _ _ I)|apply (i_rcode _ _ _ I)].
Qed.
Lemma inv_ext : forall qn h q q', inv qn h q -> q_chain q' = q_chain q -> q_rcode q' = q_rcode q -> q_pkt q' = q_pkt q -> q_wild q' = q_wild q -> q_name q' = q_name q -> inv qn h q'.
Proof. intros qn h q q' I E1 E2 E3 E4 E5. destruct I. constructor; unfold from_in in *; rewrite ?E1, ?E2, ?E3, ?E4, ?E5; auto. Qed.
Lemma outcome_ext : forall z t qn h n q0 q st q', q_aa q0 = q_aa q -> q_pkt q0 = q_pkt q -> outcome z t qn h n q0 st q' -> outcome z t qn h n q st q'.
Proof. intros z t qn h n q0 q st q' E1 E2 H. unfold outcome, ans in *. rewrite E1, E2 in H. auto. Qed.
Lemma step_outcome : forall z w v qn t h first q, sane z -> flagged z w -> roomy v -> no_wild_dname z -> zlen h <= 5 -> inv qn h q -> plain (q_name q) -> (h = [] -> below (q_name q) (z_apex z)) -> (first = true -> h = []) ->
  exists st q', solve_name z w v qn t first q = Ok (st, q') /\ outcome z t qn h (q_name q) q st q'.
Proof.
  intros z w v qn t h first q S HF HV HW HL I HP HB HFi. unfold solve_name. destruct (search z (q_name q) S HP) as [[HU [[HE ->]|(NE & c & HC & ->)]]|[NU ->]]; cbn [rbind].
  - set (q0 := set_node (set_encloser q (q_name q)) (Some (q_name q))). assert (I0 : inv qn h q0) by (eapply inv_ext; [exact I| | | | |]; reflexivity). destruct (found_outcome z v qn t h q0 (q_name q) S HV HW HL I0 eq_refl HU HP) as (st & q' & E & O & _); [apply s_self; auto|]. exists st, q'. split; [exact E|]. eapply outcome_ext; [| |exact O]; reflexivity.
  - unfold name_not_found. cbv zeta. change (q_encloser (set_node (set_encloser q c) None)) with c. pose proof HC as (CE & CB & CM). destruct (w c) eqn:EW.
    + apply (HF c CE) in EW. destruct (node_of z _ S EW) as (ns & EN & WN). change (star :: c) with (star_of c). rewrite EN. set (q0 := set_node (set_node (set_encloser q c) None) (Some (star_of c))). assert (I0 : inv qn h q0) by (eapply inv_ext; [exact I| | | | |]; reflexivity). destruct (found_outcome z v qn t h q0 (star_of c) S HV HW HL I0 eq_refl HU HP) as (st & q' & E & O & V); [apply s_wild; auto|].
      match goal with |- context [name_found z v qn t ?x] => change (name_found z v qn t x) with (name_found z v qn t q0) end. rewrite E. cbn [rbind]. exists st. eexists. split; [reflexivity|]. apply (outcome_ext z t qn h (q_name q) q0 q) in O; [|reflexivity|reflexivity]. destruct (has_visited q' (star_of c)) eqn:EV; [exact O|]. unfold visit. destruct (nonauth z (star_of c)); [exact O|]. destruct O as [O1 O]. split; [exact O1|]. destruct O as [O|[(-> & _)|O]]; [left; exact O| |right; right; exact O]. exfalso. assert (X : false = true) by (apply V; [reflexivity|exists c; reflexivity]). discriminate.
    + assert (NS : ~ exists_ z (star_of c)) by (intros X; apply (HF c CE) in X; congruence). destruct (node_of z c S CE) as (n & EN & WN). unfold rrs_of. rewrite EN. cbn [rbind]. destruct (flags_spec z c S (ex_below z c S CE)) as (F1 & F2 & F3 & _). destruct (negb (deleg z c || nonauth z c) && match node_rrset (zn_rrs n) T_DNAME with Some r => negb (rr_empty r) | None => false end) eqn:ED.
      * apply andb_true_iff in ED. destruct ED as [ED1 ED]. destruct (node_rrset (zn_rrs n) T_DNAME) as [r|] eqn:ER; [|discriminate]. apply (rrset_owns z c n _ r EN WN) in ER. assert (ND : ~ delegated z c) by (intros X; apply F2 in X; rewrite X in ED1; discriminate). set (q0 := set_node (set_node (set_encloser q c) None) (Some c)). assert (I0 : inv qn h q0) by (eapply inv_ext; [exact I| | | | |]; reflexivity). destruct (follow_subst z v qn t h q0 c r S HV HW HL I0 eq_refl HU HP CB) as (st & q' & E & O); auto; [eapply j_subst; eauto|]. exists st, q'. split; [exact E|]. eapply outcome_ext; [| |exact O]; reflexivity.
      * destruct (auth_above_spec z c S CE) as (a & A1 & A2 & A3 & A4 & A5). rewrite A1. cbn [rbind]. destruct (deleg z a) eqn:EDa.
        -- eexists; eexists; split; [reflexivity|]. split; [reflexivity|]. left. exists [], (Ref a). pose proof (A5 eq_refl) as CA. split; [apply e_ref; auto; eapply j_referral_above; eauto|]. split; [split; [reflexivity|]; exists a; split; auto; split; auto; apply below_refl|]. split; [rewrite app_nil_r; reflexivity|]. split; [apply (i_auth _ _ _ I)|apply (i_rcode _ _ _ I)].
        -- eexists; eexists; split; [reflexivity|]. split; [reflexivity|]. left. exists [], Nonexistent. assert (ND : ~ delegated z c) by (intros X; apply A4 in X; discriminate). split; [|split; [reflexivity|]; split; [rewrite app_nil_r; reflexivity|]; split; [apply (i_auth _ _ _ I)|apply (i_rcode _ _ _ I)]]. apply e_noname; auto. eapply j_noname; eauto. intros (r & HO). assert (DF : deleg z c || nonauth z c = false) by (apply Bool.not_true_is_false; intros X; apply ND, F2, X). rewrite DF in ED. destruct (owns_nonempty z c 39 r S HO) as [C1 _]. apply (rrset_owns z c n 39 r EN WN) in HO. unfold T_DNAME in ED. rewrite HO in ED. unfold rr_empty in ED. replace (count (rr_rrs r) =? 0) with false in ED by lia. discriminate.
  - destruct first; [exfalso; apply NU; auto|]. exists HIT, q. split; auto. split; [reflexivity|]. left. exists [], Outside. split; [apply e_out; auto; intros ->; apply NU; auto|]. split; [reflexivity|]. split; [rewrite app_nil_r; reflexivity|]. split; [apply (i_auth _ _ _ I)|apply (i_rcode _ _ _ I)].
Qed.
