(** C25: strict application of changesets. *)
From Verif Require Import Base DnameSpec RdatasetModel RdatasetSpec RdatasetProofs RdatasetProps NodeModel NodeProps ZoneModel ZoneProofs ZoneView ZoneFold ChangesetProofs ZoneExamples ChangesetProps BinodeModel BinodeProofs BinodeProps.

(** ** Specification
    [crec z c x]: the zone [z] has the record [x] in the RRset [c] (a name, a type, and whether it belongs to the NSEC3
    tree); [ch_rem], [ch_add]: the records a changeset removes and adds; [soa_to]: the new SOA, kept apart from them. *)
Definition missing (z : contents) (ch : changeset) : Prop := exists c x, crec (ch_rem ch) c x /\ ~ crec z c x.
Definition already (z : contents) (ch : changeset) : Prop := exists c x, crec (ch_add ch) c x /\ crec z c x /\ ~ crec (ch_rem ch) c x.

(** ** Proofs *)
Lemma rem_phase_err : forall L z, cwf z -> lgood (z_apex z) L -> (exists c x, inl L c x /\ ~ crec z c x) -> fold_res (apply_remove_rr true) (map sof L) z = Err KNOT_ENORECORD.
Proof.
  induction L as [|q L IH]; intros z W HL (c & x & HI & HN); cbn [map fold_res].
  - destruct HI as (e & b & [] & _).
  - apply lgood_cons in HL. destruct HL as ((b & G) & HL & NI). destruct (can_remove_spec z _ _ _ W G) as (r & _ & HR). destruct (apply_remove_view z _ _ _ true W G) as [V1 V2]. destruct r.
    + pose proof (proj1 HR eq_refl) as HALL. destruct (V1 HALL) as (z1 & E1 & W1 & A1 & R1 & T1). rewrite E1. cbn [rbind]. rewrite <- A1 in HL. apply (IH z1 W1 HL). apply (inl_cons _ _ _ _ c x G) in HI. destruct HI as [[-> HI]|HI]; [exfalso; apply HN, HALL; auto|]. exists c, x. split; auto. rewrite R1. tauto.
    + rewrite V2; [reflexivity|]. intros H. apply HR in H. discriminate.
Qed.
Lemma add_phase_err : forall L z, cwf z -> lgood (z_apex z) L -> Forall (fun q => under (co (fst q)) (z_apex z) = true) L -> (exists c x, inl L c x /\ crec z c x) ->
  fold_res (apply_add_rr true) (map sof L) z = Err KNOT_EISRECORD \/ exists e, fold_res (apply_add_rr true) (map sof L) z = Err e /\ (e = KNOT_ESPACE \/ e = KNOT_ENOMEM).
Proof.
  induction L as [|q L IH]; intros z W HL HU (c & x & HI & HX); cbn [map fold_res].
  - destruct HI as (e & b & [] & _).
  - apply lgood_cons in HL. destruct HL as ((b & G) & HL & NI). pose proof (Forall_inv HU) as HU1. cbv beta in HU1. destruct (can_add_spec z _ _ _ W G) as (r & _ & HR). destruct (apply_add_view z _ _ _ true W G HU1) as [V1 V2]. destruct r.
    + pose proof (proj1 HR eq_refl) as HALL. destruct (V1 HALL) as [(z1 & E1 & W1 & A1 & R1 & T1)|(e & E1 & He)]; rewrite E1; cbn [rbind]; [|right; exists e; auto]. rewrite <- A1 in HL. apply (IH z1 W1 HL); [rewrite A1; eapply Forall_inv_tail; eauto|]. apply (inl_cons _ _ _ _ c x G) in HI. destruct HI as [[-> HI]|HI]; [exfalso; apply (HALL x); auto|]. exists c, x. split; auto. rewrite R1. tauto.
    + cbv iota in V2. rewrite V2; [left; reflexivity|]. intros H. apply HR in H. discriminate.
Qed.

(** ** The theorems *)
(** A changeset that removes a record the zone does not have is refused. *)
Theorem c25_missing : forall z ch, cwf z -> chwf (z_apex z) ch -> missing z ch -> apply_changeset true (mkup z None) ch = Err KNOT_ENORECORD.
Proof.
  intros z ch W CW (c & x & H1 & H2). pose proof CW as (WA & WR & AA & AR & NS & SF & ST). rewrite apply_unfold by auto. assert (HL1 : lgood (z_apex z) (cells (ch_rem ch))) by (rewrite <- AR; apply cells_lgood; auto). rewrite (rem_phase_err _ z W HL1); [reflexivity|]. exists c, x. split; auto. apply inl_cells; auto.
Qed.
(** So is one that adds a record the zone has, unless it removes it first (or a limit is hit before). *)
Theorem c25_already : forall z ch, cwf z -> chwf (z_apex z) ch -> ~ missing z ch -> already z ch -> exists e, apply_changeset true (mkup z None) ch = Err e /\ (e = KNOT_EISRECORD \/ e = KNOT_ESPACE \/ e = KNOT_ENOMEM).
Proof.
  intros z ch W CW NM (c & x & H1 & H2 & H3). pose proof CW as (WA & WR & AA & AR & NS & SF & ST). rewrite apply_unfold by auto. assert (HL1 : lgood (z_apex z) (cells (ch_rem ch))) by (rewrite <- AR; apply cells_lgood; auto). assert (HL2 : lgood (z_apex z) (cells (ch_add ch))) by (rewrite <- AA; apply cells_lgood; auto).
  assert (PR : forall c x, crec (ch_rem ch) c x -> crec z c x). { intros c' x' H. destruct (crec_dec z c' x' W); auto. exfalso. apply NM. exists c', x'. auto. }
  destruct (proj2 (rem_phase _ z W HL1)) as [z1 E1]; [intros c' x' H; apply inl_cells in H; auto|]. rewrite E1. cbn [rbind]. destruct (proj1 (rem_phase _ z W HL1) z1 E1) as (S1 & W1 & A1 & R1 & T1). rewrite <- A1 in HL2.
  destruct (add_phase_err _ z1 W1 HL2) as [E2|(e & E2 & He)].
  - apply Forall_forall. intros [c' e] HI. rewrite A1, <- AA. eapply cells_under; eauto.
  - exists c, x. split; [apply inl_cells; auto|]. apply R1. rewrite inl_cells by auto. auto.
  - rewrite E2. exists KNOT_EISRECORD. split; [reflexivity|auto].
  - rewrite E2. exists e. split; [reflexivity|tauto].
Qed.
(** Nothing else is refused but a new SOA elsewhere than at the apex, or where there has not been any. What is applied
    has exactly the effect asked for ([applied], ChangesetProofs.v). *)
Theorem c25_applied : forall z ch, cwf z -> chwf (z_apex z) ch -> ~ missing z ch -> ~ already z ch -> soa_change z ch ->
  (exists z', apply_changeset true (mkup z None) ch = Ok (mkup z' None) /\ forall c x, ~ touches z ch c -> (crec z' c x <-> (crec z c x /\ ~ crec (ch_rem ch) c x) \/ crec (ch_add ch) c x)) \/ (exists e, apply_changeset true (mkup z None) ch = Err e /\ (e = KNOT_ESPACE \/ e = KNOT_ENOMEM)).
Proof.
  intros z ch W CW NM NA HS. pose proof CW as (WA & WR & AA & AR & NS & SF & ST). destruct (apply_can z ch W CW) as [[u E]|H]; auto.
  - intros c x H. destruct (crec_dec z c x W); auto. exfalso. apply NM. exists c, x. auto.
  - intros c x H1 H2. destruct (crec_dec (ch_rem ch) c x WR); auto. exfalso. apply NA. exists c, x. auto.
  - left. destruct (apply_ok z ch u W CW E) as (z' & -> & A). exists z'. split; auto. apply A.
Qed.
Theorem c25_only : forall z ch u, cwf z -> chwf (z_apex z) ch -> apply_changeset true (mkup z None) ch = Ok u -> ~ missing z ch /\ ~ already z ch /\ soa_change z ch.
Proof.
  intros z ch u W CW E. destruct (apply_ok z ch u W CW E) as (z' & _ & A). split; [|split].
  - intros (c & x & H1 & H2). apply H2, (ap_rem _ _ _ A). auto.
  - intros (c & x & H1 & H2 & H3). apply H3, (ap_add _ _ _ A); auto.
  - apply A.
Qed.
(** Giving up an update restores the old records of a node, whatever it has done and whether it has failed. What is
    missing: the tree of nodes, and running out of memory for an array of RRsets ([c57_nomem_refuted]). *)
Theorem c25_rollback_partial : forall F G h n v os ret np h1, settled F G h n v -> Forall bop_ok os -> brun h n n os = Ok (ret, np, h1) -> exists h2, unify h1 n np = Ok h2 /\ reads h2 n v.
Proof. intros F G h n v os ret np h1 S HO E. destruct (c57_rollback_partial _ _ _ _ _ _ _ _ _ S HO E) as (h2 & F' & G' & E2 & S2 & _). exists h2. split; auto. apply (c57_settled _ _ _ _ _ S2). Qed.
Example c25_case : cwf ex_Z /\ chwf (z_apex ex_Z) ex_C1 /\ ~ missing ex_Z ex_C1 /\ ~ already ex_Z ex_C1 /\ soa_change ex_Z ex_C1 /\ chwf (z_apex ex_Z) ex_C2 /\ missing ex_Z ex_C2 /\ apply_changeset true (mkup ex_Z None) ex_C2 = Err KNOT_ENORECORD.
Proof.
  destruct ex_wf as [W A]. pose proof ex_wf1 as C1. pose proof ex_wf2 as C2. rewrite <- A in C1, C2. assert (E1 : applies ex_Z ex_C1 ex_Z1) by (vm_compute; reflexivity). destruct (c25_only _ _ _ W C1 E1) as (H1 & H2 & H3).
  split; auto. split; auto. split; auto. split; auto. split; auto. split; auto.
  assert (M : missing ex_Z ex_C2). { destruct (crec_dec (ch_rem ex_C2) (false, ex_w, 1) [3] (proj1 (proj2 C2))) as [H|H].
    - exists (false, ex_w, 1), [3]. split; auto. intros X. destruct (crec_in _ _ _ W X) as (e & b & HI & HB & HX). incell HI. apply is_count in HB as HC. assert (HE : is (ex_s [[1]; [2]]) [[1]; [2]]) by (apply ex_is; [canon|cbv; auto|cbv; auto]). rewrite (is_fun _ _ _ HB HE) in HX. destruct HX as [HX|[HX|[]]]; discriminate.
    - exfalso. apply H. exists 100, [[3]]. split; [|left; auto]. exists (snd (rs ex_w 1 100 [[3]])). split; [vm_compute; auto|]. split; auto. split; auto. apply ex_is; [canon|cbv; auto|cbv; auto]. }
  split; [exact M|]. apply c25_missing; [exact W|exact C2|exact M].
Qed.
Print Assumptions c25_missing. Print Assumptions c25_already. Print Assumptions c25_applied. Print Assumptions c25_only. Print Assumptions c25_rollback_partial.
