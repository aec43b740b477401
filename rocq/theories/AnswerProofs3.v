(** The chain of aliases and the authority section. *)
From Verif Require Import Base RdatasetModel RdatasetSpec RdatasetProofs RdatasetProps NodeModel NodeProps ZoneModel ZoneProofs ZoneView ZoneTree ZoneTreeProps AnswerModel AnswerSpec AnswerSearch AnswerProofs AnswerProofs2.

Definition last_state (st : state) : Prop := st <> FOLLOW /\ st <> BEGIN.
(** Whatever the packet takes, the chain ends. *)
Lemma chase_runs : forall z w v qn qt f st q, sane z -> flagged z w -> st <> BEGIN -> (st = FOLLOW -> plain (q_name q) /\ 0 <= q_chain q <= 5 /\ 6 - q_chain q <= Z.of_nat f) -> (st = DELEG -> exists o, q_node q = Some o /\ delegated z o) ->
  exists st' q', chase f z w v qn qt st q = Ok (st', q') /\ last_state st' /\ (exists k, 0 <= k /\ grows (2 * k) (q_pkt q) (q_pkt q') /\ k <= Z.max 0 (6 - q_chain q)) /\ (st' = DELEG -> exists o, q_node q' = Some o /\ delegated z o) /\
  (st <> FOLLOW -> st' = st /\ q' = q).
Proof.
  intros z w v qn qt f. induction f as [|f IH]; intros st q S HF HB HFo HD.
  - assert (N : st <> FOLLOW) by (intros X; destruct (HFo X) as (_ & X1 & X2); lia). exists st, q. split; [destruct st; auto; congruence|]. split; [split; auto|]. split; [exists 0; split; [lia|]; split; [apply grows_refl; lia|lia]|]. split; auto.
  - destruct (match st with FOLLOW => true | _ => false end) eqn:EF.
    + assert (st = FOLLOW) by (destruct st; congruence). subst st. destruct (HFo eq_refl) as (HP & HC & HM). cbn [chase]. destruct (step_progress z w v qn qt false q S HF HP ltac:(discriminate)) as (st1 & q1 & E & P1 & P2 & P3 & P4 & P5). rewrite E. cbn [rbind].
      destruct (IH st1 q1 S HF P3) as (st' & q' & E' & L & (k & K1 & K2 & K3) & D & N); auto. { intros X. destruct (P4 X) as (X1 & X2 & X3). split; auto. lia. }
      exists st', q'. split; auto. split; auto. split; [|split; [auto|congruence]]. destruct (match st1 with FOLLOW => true | _ => false end) eqn:E1.
      * assert (st1 = FOLLOW) by (destruct st1; congruence). destruct (P4 H) as (X1 & X2 & X3). exists (k + 1). split; [lia|]. split; [|lia]. eapply grows_le; [|eapply grows_trans; [exact P2|exact K2]]. lia.
      * assert (N1 : st1 <> FOLLOW) by (destruct st1; congruence). destruct (N N1) as [_ ->]. exists 1. split; [lia|]. split; [exact P2|lia].
    + assert (N : st <> FOLLOW) by (destruct st; congruence). exists st, q. split; [destruct st; auto; congruence|]. split; [split; auto|]. split; [exists 0; split; [lia|]; split; [apply grows_refl; lia|lia]|]. split; auto.
Qed.
Lemma solve_runs : forall z w v qn qt f, sane z -> flagged z w -> plain qn -> below qn (z_apex z) -> (5 <= f)%nat ->
  exists st q, solve_answer f z w v qn qt (mkq qn RC_NOERROR None [] 0 [] (mkpkt [] []) false) = Ok (st, q) /\ last_state st /\ grows 12 (mkpkt [] []) (q_pkt q) /\ (st = DELEG -> exists o, q_node q = Some o /\ delegated z o).
Proof.
  intros z w v qn qt f S HF HP HB Hf. unfold solve_answer. set (q0 := mkq qn RC_NOERROR None [] 0 [] (mkpkt [] []) false). destruct (step_progress z w v qn qt true q0 S HF HP ltac:(auto)) as (st & q & E & P1 & P2 & P3 & P4 & P5). rewrite E. cbn [rbind].
  set (q1 := if is_deleg st then q else set_aa q). assert (EQ : q_name q1 = q_name q /\ q_chain q1 = q_chain q /\ q_node q1 = q_node q /\ q_pkt q1 = q_pkt q) by (unfold q1; destruct (is_deleg st); repeat split). destruct EQ as (Q1 & Q2 & Q3 & Q4).
  destruct (chase_runs z w v qn qt f st q1 S HF P3) as (st' & q' & E' & L & (k & K1 & K2 & K3) & D & N). { intros X. destruct (P4 X) as (X1 & X2 & X3). rewrite Q1, Q2. change (q_chain q0) with 0 in *. split; auto. lia. } { rewrite Q3. auto. }
  exists st', q'. split; auto. split; auto. split; auto. rewrite Q4 in K2. change (mkpkt [] []) with (q_pkt q0). destruct (match st with FOLLOW => true | _ => false end) eqn:EF.
  - assert (X : st = FOLLOW) by (destruct st; congruence). destruct (P4 X) as (X1 & X2 & X3). change (q_chain q0) with 0 in *. eapply grows_le; [|eapply grows_trans; [exact P2|exact K2]]. lia.
  - assert (X : st <> FOLLOW) by (destruct st; congruence). destruct (N X) as [_ ->]. rewrite Q4. eapply grows_le; [|exact P2]. lia.
Qed.
Lemma query_runs : forall z w v qn qt f, sane z -> flagged z w -> plain qn -> below qn (z_apex z) -> (5 <= f)%nat ->
  exists st q, answer_query f z w v qn qt = Ok (st, q) /\ last_state st /\ zlen (p_answer (q_pkt q)) <= 12 /\ zlen (p_authority (q_pkt q)) <= 1.
Proof.
  intros z w v qn qt f S HF HP HB Hf. unfold answer_query. destruct (solve_runs z w v qn qt f S HF HP HB Hf) as (st & q & E & (L1 & L2) & (G1 & more & G2 & G3) & D). cbv zeta. rewrite E. cbn [rbind]. cbn [p_answer p_authority app] in *. subst more.
  assert (HA : zlen (p_answer (q_pkt q)) <= 12 /\ zlen (p_authority (q_pkt q)) <= 1) by (rewrite G1, zlen_nil; split; [auto|lia]).
  assert (PUT : forall q1 cur o fr r si rt p, q_pkt q1 = q_pkt q -> put_rr v (q_pkt q1) false qn cur o fr r false false si = (rt, p) -> zlen (p_answer p) <= 12 /\ zlen (p_authority p) <= 1).
  { intros q1 cur o fr r si rt p Q X. unfold put_rr in X. cbv zeta in X. cbn [andb negb] in X. rewrite Q in X. destruct (count (rr_rrs r) <? 1); [injection X as _ <-; auto|]. destruct (negb _); [injection X as _ <-; auto|]. injection X as _ <-. cbn [p_answer p_authority]. rewrite G1. split; [auto|]. cbn [app]. rewrite zlen_cons, zlen_nil. lia. }
  assert (FIN : forall st0 rt q1, last_state st0 -> zlen (p_answer (q_pkt q1)) <= 12 /\ zlen (p_authority (q_pkt q1)) <= 1 -> exists st q, Ok (if rt =? KNOT_EOK then st0 else failed rt, q1) = Ok (st, q) /\ last_state st /\ zlen (p_answer (q_pkt q)) <= 12 /\ zlen (p_authority (q_pkt q)) <= 1).
  { intros st0 rt q1 L [H1 H2]. eexists; eexists; split; [reflexivity|]. split; [|auto]. destruct (rt =? KNOT_EOK); auto. unfold failed. destruct (rt =? KNOT_ESPACE); split; discriminate. }
  destruct st; try congruence; cbn [solve_authority].
  - destruct (put_authority_soa z v qn q) as [rt p] eqn:EP. apply FIN; [split; discriminate|]. cbn [q_pkt set_pkt]. unfold put_authority_soa in EP. destruct (node_rrset (zn_rrs (z_apexn z)) SOA); [eapply PUT; [|exact EP]; auto|injection EP as _ <-; auto].
  - exists HIT, q. repeat split; try discriminate; tauto.
  - destruct (put_authority_soa z v qn (set_rcode q RC_NXDOMAIN)) as [rt p] eqn:EP. apply FIN; [split; discriminate|]. cbn [q_pkt set_pkt]. unfold put_authority_soa in EP. destruct (node_rrset (zn_rrs (z_apexn z)) SOA); [eapply PUT; [|exact EP]; auto|injection EP as _ <-; auto].
  - destruct (D eq_refl) as (o & EN & (c & CU & CB)). unfold put_delegation. rewrite EN, (deleg_above_spec z o c S CU CB). cbn [rbind]. destruct (node_of z c S) as (n & E2 & W2); [destruct CU as (_ & _ & (r & X) & _); eapply owns_ex; eauto|]. unfold rrs_of. rewrite E2. cbn [rbind]. destruct (node_rrset (zn_rrs n) T_NS) as [r|].
    + destruct (put_rr v (q_pkt q) false qn (q_name q) c (Some c) r false false (has_sigs (zn_rrs n))) as [rt p] eqn:EP. cbn [rbind]. apply FIN; [split; discriminate|]. eapply PUT; [|exact EP]. auto.
    + cbn [rbind]. apply FIN; [split; discriminate|]. auto.
  - exists TRUNC, q. repeat split; try discriminate; tauto.
  - exists ERROR, q. repeat split; try discriminate; tauto.
Qed.
Lemma chase_more : forall z w v qn qt f st q a, chase f z w v qn qt st q = Ok a -> forall g, (f <= g)%nat -> chase g z w v qn qt st q = Ok a.
Proof.
  intros z w v qn qt f. induction f as [|f IH]; intros st q a H g Hg; (destruct g as [|g]; [try lia; auto|]).
  - destruct st; cbn [chase] in *; auto; discriminate.
  - destruct st; cbn [chase] in *; auto. destruct (solve_name z w v qn qt false q) as [[st1 q1]|e| |]; cbn [rbind] in *; auto. apply IH; auto; lia.
Qed.
Lemma query_more : forall z w v qn qt f a, answer_query f z w v qn qt = Ok a -> forall g, (f <= g)%nat -> answer_query g z w v qn qt = Ok a.
Proof.
  intros z w v qn qt f a H g Hg. unfold answer_query in *. cbv zeta in *. unfold solve_answer in *. destruct (solve_name z w v qn qt true _) as [[st1 q1]|e| |]; cbn [rbind] in *; auto. destruct (chase f z w v qn qt st1 _) as [[st2 q2]|e| |] eqn:E; cbn [rbind] in H; try discriminate. rewrite (chase_more _ _ _ _ _ _ _ _ _ E g Hg). auto.
Qed.

(** With room in the packet the answer is what the zone says. *)
Definition done (z : contents) (t : Z) (h : list (name * Z)) (n : name) (q : qdata) (st : state) (q' : qdata) : Prop :=
  q_aa q' = q_aa q /\ exists l e, resolves z t h n l e /\
  (e <> Overlong -> ends z e st q' /\ ans q' = ans q ++ l /\ p_authority (q_pkt q') = [] /\ q_rcode q' = 0) /\
  (e = Overlong -> exists more, ans q' = ans q ++ l ++ more).
Lemma step_aa : forall z w v qn t f st q st' q', chase f z w v qn t st q = Ok (st', q') -> (forall x y s, solve_name z w v qn t false x = Ok (s, y) -> q_aa y = q_aa x) -> q_aa q' = q_aa q.
Proof.
  intros z w v qn t f. induction f as [|f IH]; intros st q st' q' H K; destruct st; cbn [chase] in H; try discriminate; try (injection H as _ <-; auto). destruct (solve_name z w v qn t false q) as [[st1 q1]|e| |] eqn:E; cbn [rbind] in H; try discriminate. rewrite (IH _ _ _ _ H K). eapply K; eauto.
Qed.
Lemma follow_aa : forall z v qn t ty q st q', follow_cname z v qn t ty q = Ok (st, q') -> q_aa q' = q_aa q.
Proof.
  intros z v qn t ty q st q' H. unfold follow_cname in H. cbv zeta in H. assert (V : forall x y, q_aa (visit z x y) = q_aa x) by (intros; unfold visit; destruct (nonauth z y); auto).
  assert (F : forall b o m x s y, follow_on z b o m x = (s, y) -> q_aa y = q_aa x). { intros b o m x s y X. unfold follow_on in X. destruct (_ <=? _); [injection X as _ <-; auto|]. destruct (is_wildcard o); [|injection X as _ <-; auto]. destruct (has_visited x o); injection X as _ <-; [rewrite V; auto|cbn [q_aa set_name]; apply V]. }
  destruct (CNAME_CHAIN_MAX <? _); [injection H as _ <-; auto|]. destruct (q_node (set_chain q (q_chain q + 1))) as [o|]; [|discriminate]. destruct (rrs_of z o) as [rrs|e| |]; try discriminate. cbn [rbind] in H. destruct (node_rrset rrs ty) as [r|]; [|discriminate]. destruct (rr_empty r); [discriminate|]. destruct (put_rr _ _ _ _ _ _ _ _ _ _ _) as [rt p]. destruct (negb _); [injection H as _ <-; auto|]. destruct (target r) as [m|e| |]; try discriminate. cbn [rbind] in H. destruct (ty =? T_DNAME).
  - destruct (cannot_synth _ _ _); [injection H as H; apply F in H; rewrite H; auto|]. destruct (negb (v_mem v p)); [injection H as _ <-; auto|]. destruct (put_rr _ _ _ _ _ _ _ _ _ _ _) as [rt2 p2]. destruct (negb _); [injection H as _ <-; auto|]. destruct (t =? T_CNAME); [injection H as _ <-; auto|]. injection H as H. apply F in H. rewrite H. auto.
  - injection H as H. apply F in H. rewrite H. auto.
Qed.
Lemma found_aa : forall z v qn t q st q', name_found z v qn t q = Ok (st, q') -> q_aa q' = q_aa q.
Proof.
  intros z v qn t q st q' H. unfold name_found in H. destruct (q_node q) as [o|] eqn:EN; [|discriminate]. destruct ((_ && _) || _); [injection H as _ <-; auto|]. destruct (_ && _); [eapply follow_aa; eauto|]. cbv zeta in H. destruct (put_answer z v qn t q) as [[rt p]|e| |]; try discriminate. cbn [rbind] in H. destruct (negb _); injection H as _ <-; auto.
Qed.
Lemma name_aa : forall z w v qn t first q st q', solve_name z w v qn t first q = Ok (st, q') -> q_aa q' = q_aa q.
Proof.
  intros z w v qn t first q st q' H. unfold solve_name in H. destruct (find_dname z (q_name q)) as [[[[o|] c]|]|e| |]; cbn [rbind] in H; try discriminate.
  - apply found_aa in H. auto.
  - unfold name_not_found in H. cbv zeta in H. destruct (w _).
    + destruct (node z _); [|discriminate]. match type of H with context [name_found ?a ?b ?d ?e ?f] => destruct (name_found a b d e f) as [[s1 q1]|?| |] eqn:E end; cbn [rbind] in H; try discriminate. apply found_aa in E. injection H as _ <-. destruct (has_visited q1 _); [exact E|]. unfold visit. destruct (nonauth z _); exact E.
    + destruct (rrs_of z _) as [rrs|?| |]; cbn [rbind] in H; try discriminate. destruct (_ && _); [apply follow_aa in H; auto|]. destruct (auth_above z _) as [a|?| |]; cbn [rbind] in H; try discriminate. destruct (deleg z a); injection H as _ <-; auto.
  - destruct first; [discriminate|]. injection H as _ <-. auto.
Qed.
Lemma grows_ans : forall k q q', grows k (q_pkt q) (q_pkt q') -> exists more, ans q' = ans q ++ more.
Proof. intros k q q' (_ & m & E & _). exists (map strip m). unfold ans. rewrite E, map_app. auto. Qed.
Lemma chase_done : forall z w v qn t f h q, sane z -> flagged z w -> roomy v -> no_wild_dname z -> h <> [] -> zlen h <= 5 -> 6 - zlen h <= Z.of_nat f -> inv qn h q -> plain (q_name q) ->
  exists st q', chase f z w v qn t FOLLOW q = Ok (st, q') /\ done z t h (q_name q) q st q'.
Proof.
  intros z w v qn t f. induction f as [|f IH]; intros h q S HF HV HW HN HL HM I HP; [lia|]. cbn [chase]. destruct (step_outcome z w v qn t h false q S HF HV HW HL I HP) as (st & q' & E & O1 & O); [congruence|discriminate|]. rewrite E. cbn [rbind].
  destruct (step_progress z w v qn t false q S HF HP ltac:(discriminate)) as (st1 & q1 & E1 & P1 & P2 & P3 & P4 & P5). rewrite E in E1. injection E1 as <- <-. destruct O as [(l & e & R & EN & A & B & C)|[(-> & d & s & ty & ND & R & A & I' & HP')|(ND & d & R & A)]].
  - exists st, q'. split; [destruct st; cbn [chase]; auto; destruct f; auto; destruct e; cbn [ends] in EN; try discriminate; try contradiction; destruct EN; discriminate|]. split; auto. exists l, e. split; auto. split; [auto|]. intros ->. contradiction.
  - destruct (P4 eq_refl) as (X1 & X2 & X3). pose proof (i_chain _ _ _ I) as C0. pose proof (i_chain _ _ _ I') as C1. rewrite zlen_cons in C1. assert (ZL : zlen ((s, ty) :: h) <= 5) by (rewrite zlen_cons; lia). destruct (IH ((s, ty) :: h) q' S HF HV HW ltac:(discriminate) ZL ltac:(rewrite zlen_cons; lia) I' HP') as (st2 & q2 & E2 & D1 & l & e & D2 & D3 & D4). exists st2, q2. split; auto. split; [congruence|]. exists (d ++ l), e. split; [auto|]. split.
    + intros N. destruct (D3 N) as (Y1 & Y2 & Y3). split; auto. split; [|auto]. rewrite Y2, A, app_assoc. auto.
    + intros N. destruct (D4 N) as (more & Y). exists more. rewrite Y, A, <- !app_assoc. auto.
  - destruct (chase_runs z w v qn t f st q' S HF P3) as (st' & q2 & E' & L & (k & K1 & K2 & K3) & D & N); auto. { intros X. destruct (P4 X) as (X1 & X2 & X3). pose proof (i_chain _ _ _ I). pose proof (zlen_nonneg h). split; auto. lia. } exists st', q2. split; auto. split; [rewrite <- O1; eapply step_aa; [exact E'|]; intros x y s X; eapply name_aa; eauto|]. exists d, Overlong. split; auto. split; [congruence|]. intros _. destruct (grows_ans _ _ _ K2) as (more & X). exists more. rewrite X, A, <- app_assoc. auto.
Qed.
Lemma follow_deleg : forall z v qn t ty q st q', follow_cname z v qn t ty q = Ok (st, q') -> st <> DELEG.
Proof.
  intros z v qn t ty q st q' H. unfold follow_cname in H. cbv zeta in H.
  assert (F : forall b o m x s y, follow_on z b o m x = (s, y) -> s <> DELEG). { intros b o m x s y X. unfold follow_on in X. destruct (_ <=? _); [injection X as <- _; discriminate|]. destruct (is_wildcard o); [|injection X as <- _; discriminate]. destruct (has_visited x o); injection X as <- _; discriminate. }
  assert (G : forall x, failed x <> DELEG) by (intros x; unfold failed; destruct (x =? KNOT_ESPACE); discriminate).
  destruct (CNAME_CHAIN_MAX <? _); [injection H as <- _; discriminate|]. destruct (q_node (set_chain q (q_chain q + 1))) as [o|]; [|discriminate]. destruct (rrs_of z o) as [rrs|e| |]; try discriminate. cbn [rbind] in H. destruct (node_rrset rrs ty) as [r|]; [|discriminate]. destruct (rr_empty r); [discriminate|]. destruct (put_rr _ _ _ _ _ _ _ _ _ _ _) as [rt p]. destruct (negb _); [injection H as <- _; auto|]. destruct (target r) as [m|e| |]; try discriminate. cbn [rbind] in H. destruct (ty =? T_DNAME).
  - destruct (cannot_synth _ _ _); [injection H as H; eapply F; eauto|]. destruct (negb (v_mem v p)); [injection H as <- _; discriminate|]. destruct (put_rr _ _ _ _ _ _ _ _ _ _ _) as [rt2 p2]. destruct (negb _); [injection H as <- _; auto|]. destruct (t =? T_CNAME); [injection H as <- _; discriminate|]. injection H as H. eapply F; eauto.
  - injection H as H. eapply F; eauto.
Qed.
Lemma found_deleg : forall z v qn t q q', name_found z v qn t q = Ok (DELEG, q') -> q_pkt q' = q_pkt q.
Proof.
  intros z v qn t q q' H. unfold name_found in H. destruct (q_node q) as [o|] eqn:EN; [|discriminate]. destruct ((_ && _) || _); [injection H as <-; auto|]. destruct (_ && _); [apply follow_deleg in H; congruence|]. cbv zeta in H. destruct (put_answer z v qn t q) as [[rt p]|e| |]; try discriminate. cbn [rbind] in H. destruct (negb _); [destruct (_ && _)|destruct (_ =? _)]; discriminate.
Qed.
Lemma name_deleg : forall z w v qn t first q q', solve_name z w v qn t first q = Ok (DELEG, q') -> q_pkt q' = q_pkt q.
Proof.
  intros z w v qn t first q q' H. unfold solve_name in H. destruct (find_dname z (q_name q)) as [[[[o|] c]|]|e| |]; cbn [rbind] in H; try discriminate.
  - apply found_deleg in H. auto.
  - unfold name_not_found in H. cbv zeta in H. destruct (w _).
    + destruct (node z _); [|discriminate]. match type of H with context [name_found ?a ?b ?d ?e ?f] => destruct (name_found a b d e f) as [[s1 q1]|?| |] eqn:E end; cbn [rbind] in H; try discriminate. injection H as -> <-. apply found_deleg in E. destruct (has_visited q1 _); [exact E|]. unfold visit. destruct (nonauth z _); exact E.
    + destruct (rrs_of z _) as [rrs|?| |]; cbn [rbind] in H; try discriminate. destruct (_ && _); [apply follow_deleg in H; congruence|]. destruct (auth_above z _) as [a|?| |]; cbn [rbind] in H; try discriminate. destruct (deleg z a); [injection H as <-; auto|discriminate].
  - destruct first; discriminate.
Qed.
Lemma inv_start : forall qn, inv qn [] (mkq qn RC_NOERROR None [] 0 [] (mkpkt [] []) false).
Proof. intros qn. constructor; auto; unfold from_in; cbn [q_pkt p_answer q_wild In]; intros; split; intros X; try contradiction; destruct X as (e & [] & _). Qed.
Lemma solve_done : forall z w v qn t f, sane z -> flagged z w -> roomy v -> no_wild_dname z -> plain qn -> below qn (z_apex z) -> (5 <= f)%nat ->
  exists st q l e, solve_answer f z w v qn t (mkq qn RC_NOERROR None [] 0 [] (mkpkt [] []) false) = Ok (st, q) /\ resolves z t [] qn l e /\
  (q_aa q = false <-> l = [] /\ exists c, e = Ref c) /\
  (e <> Overlong -> ends z e st q /\ ans q = l /\ p_authority (q_pkt q) = [] /\ q_rcode q = 0) /\
  (e = Overlong -> exists more, ans q = l ++ more).
Proof.
  intros z w v qn t f S HF HV HW HP HB Hf. unfold solve_answer. set (q0 := mkq qn RC_NOERROR None [] 0 [] (mkpkt [] []) false). destruct (step_outcome z w v qn t [] true q0 S HF HV HW ltac:(unfold zlen; cbn; lia) (inv_start qn) HP ltac:(auto) ltac:(auto)) as (st & q' & E & O1 & O). rewrite E. cbn [rbind].
  destruct (step_progress z w v qn t true q0 S HF HP ltac:(auto)) as (st1 & q1 & E1 & P1 & P2 & P3 & P4 & P5). rewrite E in E1. injection E1 as <- <-. change (q_aa q0) with false in O1. change (ans q0) with (@nil (name * rr_data)) in O. change (q_name q0) with qn in O. destruct O as [(l & e & R & EN & A & B & C)|[(-> & d & s & ty & ND & R & A & I' & HP')|(ND & d & R & A)]].
  - cbn [app] in A. set (q2 := if is_deleg st then q' else set_aa q'). assert (NF : st <> FOLLOW) by (intros ->; destruct e; cbn [ends] in EN; try discriminate; try contradiction; destruct EN; discriminate). exists st, q2, l, e. assert (EQ : q_node q2 = q_node q' /\ q_pkt q2 = q_pkt q' /\ q_rcode q2 = q_rcode q' /\ q_aa q2 = negb (is_deleg st)) by (unfold q2; destruct (is_deleg st); repeat split; auto). destruct EQ as (Q1 & Q2 & Q3 & Q4).
    split; [destruct f; destruct st; auto; congruence|]. split; auto. split.
    + rewrite Q4. split.
      * intros X. assert (st = DELEG) by (destruct st; try discriminate; auto). subst st. apply name_deleg in E. split; [rewrite <- A; unfold ans; rewrite E; reflexivity|]. destruct e; cbn [ends] in EN; try discriminate; try contradiction. eauto.
      * intros (_ & c & ->). cbn [ends] in EN. destruct EN as [-> _]. auto.
    + unfold ends, ans in *. rewrite Q1, Q2, Q3. split; [auto|]. intros ->. contradiction.
  - change (is_deleg FOLLOW) with false. cbn [app] in A. destruct (P4 eq_refl) as (X1 & X2 & X3). destruct (chase_done z w v qn t f [(s, ty)] (set_aa q') S HF HV HW ltac:(discriminate) ltac:(unfold zlen; cbn; lia) ltac:(unfold zlen; cbn; lia)) as (st & q2 & E2 & D1 & l & e & D2 & D3 & D4); [eapply inv_ext; [exact I'| | | | |]; reflexivity|exact HP'|]. exists st, q2, (d ++ l), e. split; auto. split; [apply R; exact D2|]. split; [|split].
    + rewrite D1. cbn [q_aa set_aa]. split; [discriminate|]. intros [X _]. apply app_eq_nil in X. destruct X; contradiction.
    + intros N. destruct (D3 N) as (Y1 & Y2 & Y3 & Y4). split; auto. split; auto. rewrite Y2. change (ans (set_aa q')) with (ans q'). rewrite A. auto.
    + intros N. destruct (D4 N) as (more & Y). exists more. rewrite Y. change (ans (set_aa q')) with (ans q'). rewrite A, app_assoc. auto.
  - cbn [app] in A. replace (is_deleg st) with false by (destruct st; auto; congruence). destruct (chase_runs z w v qn t f st (set_aa q') S HF P3) as (st' & q2 & E' & L & (k & K1 & K2 & K3) & D & N). { intros X. destruct (P4 X) as (X1 & X2 & X3). change (q_chain q0) with 0 in *. split; auto. cbn [q_chain set_aa]. lia. } { intros X. destruct (P5 X) as (o & Y). exists o. exact Y. }
    exists st', q2, d, Overlong. split; auto. split; auto. split; [|split; [congruence|]].
    + assert (X : q_aa q2 = true) by (rewrite (step_aa _ _ _ _ _ _ _ _ _ _ E'); [auto|intros x y s X; eapply name_aa; eauto]). rewrite X. split; [discriminate|]. intros (_ & c & Y). discriminate.
    + intros _. destruct (grows_ans _ _ _ K2) as (more & X). exists more. rewrite X. change (ans (set_aa q')) with (ans q'). rewrite A. auto.
Qed.
(** What goes to the authority section *)
Definition soa_part (z : contents) (l : list (name * rr_data)) : Prop := exists r, owns z (z_apex z) 6 r /\ l = [(z_apex z, r)].
Definition ns_part (z : contents) (c : name) (l : list (name * rr_data)) : Prop := exists r, owns z c 2 r /\ l = [(c, r)].
Lemma put_auth : forall v p qn cur o r si, roomy v -> 1 <= count (rr_rrs r) -> p_authority p = [] -> put_rr v p false qn cur o (Some o) r false false si = (KNOT_EOK, mkpkt (p_answer p) [mkent o r (Some o)]).
Proof. intros v p qn cur o r si HV HC HA. unfold put_rr. cbv zeta. replace (count (rr_rrs r) <? 1) with false by lia. cbn [negb andb]. rewrite (proj1 HV), (proj1 (proj2 HV)), HA. change (negb (KNOT_EOK =? KNOT_EOK)) with false. destruct si; reflexivity. Qed.
Lemma soa_done : forall z v qn q, sane z -> roomy v -> p_authority (q_pkt q) = [] -> exists r, owns z (z_apex z) 6 r /\ put_authority_soa z v qn q = (KNOT_EOK, mkpkt (p_answer (q_pkt q)) [mkent (z_apex z) r (Some (z_apex z))]).
Proof.
  intros z v qn q S HV HA. destruct (s_soa z S) as (r & HO). exists r. split; auto. unfold put_authority_soa. destruct (node_of z (z_apex z) S (apex_ex z)) as (n & E & W). assert (EN : n = z_apexn z) by (unfold node, ZoneModel.zget in E; rewrite neqb_refl in E; congruence). subst n. rewrite (proj2 (rrset_owns z _ _ SOA r E W) HO). destruct (owns_nonempty z _ _ r S HO) as [C1 _]. apply put_auth; auto.
Qed.
Definition final (z : contents) (e : ending) (st : state) (q : qdata) : Prop :=
  match e with
  | Answered | Outside | Looped | Limit => st = HIT /\ q_rcode q = RC_NOERROR /\ map strip (p_authority (q_pkt q)) = []
  | Ref c => st = DELEG /\ q_rcode q = RC_NOERROR /\ ns_part z c (map strip (p_authority (q_pkt q)))
  | Empty => st = NODATA /\ q_rcode q = RC_NOERROR /\ soa_part z (map strip (p_authority (q_pkt q)))
  | Nonexistent => st = MISS /\ q_rcode q = RC_NXDOMAIN /\ soa_part z (map strip (p_authority (q_pkt q)))
  | Overlong => True
  end.
Lemma authority_ans : forall z v qn st q st' q', solve_authority z v qn st q = Ok (st', q') -> ans q' = ans q /\ q_aa q' = q_aa q.
Proof.
  assert (PUT : forall v p qn cur o fr r si rt p', put_rr v p false qn cur o fr r false false si = (rt, p') -> p_answer p' = p_answer p). { intros v p qn cur o fr r si rt p' X. unfold put_rr in X. cbv zeta in X. cbn [andb negb] in X. destruct (count (rr_rrs r) <? 1); [injection X as _ <-; auto|]. destruct (negb _); injection X as _ <-; auto. }
  intros z v qn st q st' q' H. destruct st; cbn [solve_authority] in H; try discriminate; try (injection H as _ <-; auto).
  - destruct (put_authority_soa z v qn q) as [rt p] eqn:EP. injection H as _ <-. unfold put_authority_soa in EP. split; [|auto]. unfold ans. cbn [q_pkt set_pkt]. destruct (node_rrset _ SOA); [rewrite (PUT _ _ _ _ _ _ _ _ _ _ EP); auto|injection EP as _ <-; auto].
  - destruct (put_authority_soa z v qn (set_rcode q RC_NXDOMAIN)) as [rt p] eqn:EP. injection H as _ <-. unfold put_authority_soa in EP. split; [|auto]. unfold ans. cbn [q_pkt set_pkt]. destruct (node_rrset _ SOA); [rewrite (PUT _ _ _ _ _ _ _ _ _ _ EP); auto|injection EP as _ <-; auto].
  - unfold put_delegation in H. destruct (q_node q) as [o|]; [|discriminate]. destruct (deleg_above z o) as [c|e| |]; cbn [rbind] in H; try discriminate. destruct (rrs_of z c) as [rrs|e| |]; cbn [rbind] in H; try discriminate. destruct (node_rrset rrs T_NS) as [r|]; cbn [rbind] in H.
    + destruct (put_rr _ _ _ _ _ _ _ _ _ _ _) as [rt p] eqn:EP. cbn [rbind] in H. injection H as _ <-. split; [|auto]. unfold ans. cbn [q_pkt set_pkt]. rewrite (PUT _ _ _ _ _ _ _ _ _ _ EP). auto.
    + injection H as _ <-. auto.
Qed.
Lemma query_done : forall z w v qn t f, sane z -> flagged z w -> roomy v -> no_wild_dname z -> plain qn -> below qn (z_apex z) -> (5 <= f)%nat ->
  exists st q l e, answer_query f z w v qn t = Ok (st, q) /\ resolves z t [] qn l e /\ (q_aa q = false <-> l = [] /\ exists c, e = Ref c) /\ final z e st q /\ (e <> Overlong -> map strip (p_answer (q_pkt q)) = l) /\ (e = Overlong -> exists more, map strip (p_answer (q_pkt q)) = l ++ more).
Proof.
  intros z w v qn t f S HF HV HW HP HB Hf. destruct (solve_done z w v qn t f S HF HV HW HP HB Hf) as (st & q & l & e & E & R & AA & D & O). pose proof (query_runs z w v qn t f S HF HP HB Hf) as (st' & q' & E' & _). pose proof E' as E2. unfold answer_query in E2. cbv zeta in E2. rewrite E in E2. cbn [rbind] in E2.
  assert (K : ans q' = ans q /\ q_aa q' = q_aa q) by (destruct st; try (apply authority_ans in E2; exact E2); injection E2 as _ <-; auto). destruct K as [K1 K2]. exists st', q', l, e. split; auto. split; auto. split; [rewrite K2; auto|]. split; [|split; [intros N; destruct (D N) as (_ & X & _); unfold ans in *; congruence|intros N; destruct (O N) as (more & X); exists more; unfold ans in *; congruence]].
  destruct e; cbn [final]; auto.
  - destruct (D ltac:(discriminate)) as (X1 & X2 & X3 & X4). cbn [ends] in X1. subst st. cbn [solve_authority] in E2. injection E2 as <- <-. rewrite X3. auto.
  - destruct (D ltac:(discriminate)) as (X1 & X2 & X3 & X4). cbn [ends] in X1. destruct X1 as (-> & o & EN & CU & CB). cbn [solve_authority] in E2. unfold put_delegation in E2. rewrite EN, (deleg_above_spec z o c S CU CB) in E2. cbn [rbind] in E2. pose proof CU as (_ & _ & (r & HO) & _). destruct (node_of z c S (owns_ex _ _ _ _ HO)) as (n & EN2 & W2). unfold rrs_of in E2. rewrite EN2 in E2. cbn [rbind] in E2. rewrite (proj2 (rrset_owns z _ _ T_NS r EN2 W2) HO) in E2. destruct (owns_nonempty z _ _ r S HO) as [C1 _]. rewrite put_auth in E2 by auto. cbn [rbind] in E2. change (KNOT_EOK =? KNOT_EOK) with true in E2. cbv iota in E2. injection E2 as <- <-. split; auto. split; [exact X4|]. exists r. split; auto.
  - destruct (D ltac:(discriminate)) as (X1 & X2 & X3 & X4). cbn [ends] in X1. subst st. cbn [solve_authority] in E2. destruct (soa_done z v qn q S HV X3) as (r & HO & EP). rewrite EP in E2. change (KNOT_EOK =? KNOT_EOK) with true in E2. cbv iota in E2. injection E2 as <- <-. split; auto. split; [exact X4|]. exists r. split; auto.
  - destruct (D ltac:(discriminate)) as (X1 & X2 & X3 & X4). cbn [ends] in X1. subst st. cbn [solve_authority] in E2. destruct (soa_done z v qn (set_rcode q RC_NXDOMAIN) S HV X3) as (r & HO & EP). rewrite EP in E2. change (KNOT_EOK =? KNOT_EOK) with true in E2. cbv iota in E2. injection E2 as <- <-. split; auto. split; [reflexivity|]. exists r. split; auto.
  - destruct (D ltac:(discriminate)) as (X1 & X2 & X3 & X4). cbn [ends] in X1. subst st. cbn [solve_authority] in E2. injection E2 as <- <-. rewrite X3. auto.
  - destruct (D ltac:(discriminate)) as (X1 & X2 & X3 & X4). cbn [ends] in X1. subst st. cbn [solve_authority] in E2. injection E2 as <- <-. rewrite X3. auto.
  - destruct (D ltac:(discriminate)) as (X1 & X2 & X3 & X4). cbn [ends] in X1. subst st. cbn [solve_authority] in E2. injection E2 as <- <-. rewrite X3. auto.
Qed.
