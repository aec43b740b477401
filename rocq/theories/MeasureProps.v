(** C68: the size and the largest TTL kept for a zone are those of its records, through any number of updates *)
From Verif Require Import Base MeasureModel MeasureSpec MeasureProofs.

Lemma history_inv z ok : history z ok ->
  contents (z_names z) (z_at z) /\ z_size z = sum (fun x => nsize (z_at z x)) (z_names z) /\ bound z /\ (ok = true -> tight z).
Proof.
  induction 1 as [names at_ z HC HE|old ok touched names at_ mem z H IH HC HT HE].
  - destruct (full_right names at_ HC) as (z' & E & EN & EA & ES & HB & HX). rewrite HE in E. injection E as <-.
    rewrite EN, EA. auto.
  - destruct IH as (IC & IS & IB & IT).
    destruct (update_right old touched names at_ mem IC HC HT IS IB) as (z' & E & EN & EA & ES & HB & HX).
    rewrite HE in E. injection E as <-. rewrite EN, EA. split; [exact HC|]. split; [exact ES|]. split; [exact HB|].
    intros Hok. apply Bool.andb_true_iff in Hok. destruct Hok as (H1 & H2). apply HX; [exact (IT H1)|exact H2].
Qed.

(** After a load and any updates the size is that of the records, and no record has a larger TTL than the one kept. If
    no allocation failed, this TTL is the largest one. *)
Theorem c68_history z ok : history z ok -> size_right z /\ ttl_bound z /\ (ok = true -> ttl_right z).
Proof.
  intros H. destruct (history_inv _ _ H) as (HC & HS & HB & HX). split; [unfold size_right; rewrite zone_size_sum; exact HS|].
  split; [exact (bound_spec _ HC HB)|]. intros Hok. exact (tight_spec _ HC HB (HX Hok)).
Qed.

(** Every load and every update can be measured. *)
Theorem c68_load names at_ : contents names at_ -> exists z, adjust_full names at_ = Ok z /\ history z true.
Proof.
  intros HC. destruct (full_right names at_ HC) as (z & E & _). exists z. split; [exact E|]. exact (hist_load _ _ _ HC E).
Qed.
Theorem c68_update old ok touched names at_ mem : history old ok -> contents names at_ -> touches (z_at old) at_ touched ->
  exists z, adjust_update old touched names at_ mem = Ok z /\ z_names z = names /\ z_at z = at_ /\ history z (ok && mem).
Proof.
  intros H HC HT. destruct (history_inv _ _ H) as (IC & IS & IB & _).
  destruct (update_right old touched names at_ mem IC HC HT IS IB) as (z & E & EN & EA & _).
  exists z. split; [exact E|]. split; [exact EN|]. split; [exact EA|]. exact (hist_update _ _ _ _ _ _ _ H HC HT E).
Qed.

Lemma history_nonneg z ok : history z ok -> 0 <= z_max_ttl z.
Proof.
  intros H. induction H as [names at_ z HC HE|old ok touched names at_ mem z H IH HC HT HE].
  - unfold adjust_full, measure_init in HE. simpl in HE. rewrite whole_nodes in HE. injection HE as <-. simpl.
    exact (proj1 (lmax_spec _ 0)).
  - unfold adjust_update, measure_init in HE. simpl in HE. rewrite diff_nodes in HE. injection HE as <-. unfold finish_update. simpl.
    match goal with |- context[lmax 0 ?l >=? _] => pose proof (proj1 (lmax_spec l 0)) as P; destruct (lmax 0 l >=? z_max_ttl old) end; [exact P|].
    match goal with |- context[_ >? ?r] => destruct (z_max_ttl old >? r) end; [exact IH|].
    unfold re_measure_max_ttl. destruct mem; simpl; [|exact IH].
    assert (forall l x, 0 <= x -> 0 <= max_ttl (re_measure_loop l (mkm SIZE_NONE TTL_LIMIT 0 x 0 (z_max_ttl old)))) as HR.
    { induction l as [|n l IHl]; intros x Hx; simpl; [exact Hx|]. unfold measure_node, enough. simpl.
      destruct (x >=? z_max_ttl old); simpl; [exact Hx|]. rewrite fold_rrset. simpl. apply IHl.
      pose proof (proj1 (lmax_spec (ttls n) x)). lia. }
    apply HR. lia.
Qed.

(** What is kept after updates is what a load of the same contents measures. *)
Theorem c68_reload z ok z' : history z ok -> adjust_full (z_names z) (z_at z) = Ok z' ->
  z_size z' = z_size z /\ z_max_ttl z' <= z_max_ttl z /\ (ok = true -> z_max_ttl z' = z_max_ttl z).
Proof.
  intros H HE. destruct (history_inv _ _ H) as (HC & HS & HB & HX).
  destruct (full_right _ _ HC) as (z1 & E & EN & EA & ES & HB' & HX'). rewrite HE in E. injection E as <-.
  split; [congruence|]. unfold bound, tight in *. rewrite EN, EA in *.
  assert (z_max_ttl z' <= z_max_ttl z \/ z_max_ttl z' = 0) as HL.
  { destruct HX' as [H0|Hin]; [right; exact H0|left; exact (HB _ Hin)]. }
  pose proof (history_nonneg _ _ H) as HP. pose proof (history_nonneg _ _ (hist_load _ _ _ HC HE)) as HP'.
  split; [lia|]. intros Hok. destruct (HX Hok) as [H0|Hin]; [lia|]. pose proof (HB' _ Hin). lia.
Qed.

(** A zone with three nodes; the record with the largest TTL is removed, then a node is deleted and another one added. *)
Definition c68_at1 (x : Z) : node :=
  if x =? 1 then [mkrrset 9 3600 [40]; mkrrset 9 3600 [6; 6]] else
  if x =? 2 then [mkrrset 13 86400 [4; 4]] else if x =? 3 then [mkrrset 14 7200 [16]] else [].
Definition c68_at2 (x : Z) : node := if x =? 2 then [mkrrset 13 300 [4]] else c68_at1 x.
Definition c68_at3 (x : Z) : node := if x =? 3 then [] else if x =? 4 then [mkrrset 15 900 [16]] else c68_at2 x.
Example c68_example : exists z1 z2 z3, adjust_full [1; 2; 3] c68_at1 = Ok z1 /\ z_size z1 = 203 /\ z_max_ttl z1 = 86400 /\
  adjust_update z1 [2] [1; 2; 3] c68_at2 true = Ok z2 /\ z_size z2 = 176 /\ z_max_ttl z2 = 7200 /\
  adjust_update z2 [3; 4] [1; 2; 4] c68_at3 true = Ok z3 /\ z_max_ttl z3 = 3600 /\ history z3 true /\ ttl_right z3.
Proof.
  assert (contents [1; 2; 3] c68_at1) as C1.
  { split; [repeat (apply NoDup_cons; [simpl; intuition discriminate|]); apply NoDup_nil|]. split.
    - intros x Hx. unfold c68_at1. destruct (x =? 1) eqn:E1; [exfalso; apply Hx; left; lia|].
      destruct (x =? 2) eqn:E2; [exfalso; apply Hx; right; left; lia|].
      destruct (x =? 3) eqn:E3; [exfalso; apply Hx; right; right; left; lia|]. reflexivity.
    - intros x r. unfold c68_at1. destruct (x =? 1); [|destruct (x =? 2); [|destruct (x =? 3); [|intros []]]];
        simpl; intros Hr; repeat (destruct Hr as [<-|Hr]; [simpl; split; [discriminate|lia]|]); destruct Hr. }
  assert (contents [1; 2; 3] c68_at2) as C2.
  { split; [exact (proj1 C1)|]. split.
    - intros x Hx. unfold c68_at2. destruct (x =? 2) eqn:E2; [exfalso; apply Hx; right; left; lia|]. exact (proj1 (proj2 C1) x Hx).
    - intros x r. unfold c68_at2. destruct (x =? 2); [|exact (proj2 (proj2 C1) x r)].
      intros [<-|[]]. simpl. split; [discriminate|lia]. }
  assert (contents [1; 2; 4] c68_at3) as C3.
  { split; [repeat (apply NoDup_cons; [simpl; intuition discriminate|]); apply NoDup_nil|]. split.
    - intros x Hx. unfold c68_at3. destruct (x =? 3) eqn:E3; [reflexivity|].
      destruct (x =? 4) eqn:E4; [exfalso; apply Hx; right; right; left; lia|].
      apply (proj1 (proj2 C2)). intros [<-|[<-|[<-|[]]]]; [apply Hx; left; reflexivity|apply Hx; right; left; reflexivity|discriminate].
    - intros x r. unfold c68_at3. destruct (x =? 3); [intros []|]. destruct (x =? 4); [|exact (proj2 (proj2 C2) x r)].
      intros [<-|[]]. simpl. split; [discriminate|lia]. }
  destruct (c68_load _ _ C1) as (z1 & E1 & H1).
  destruct (c68_update z1 true [2] [1; 2; 3] c68_at2 true H1 C2) as (z2 & E2 & N2 & A2 & H2).
  { split; [repeat (apply NoDup_cons; [simpl; intuition discriminate|]); apply NoDup_nil|]. intros x Hx. vm_compute in E1. injection E1 as <-. simpl.
    unfold c68_at2. destruct (x =? 2) eqn:E; [exfalso; apply Hx; left; lia|]. reflexivity. }
  destruct (c68_update z2 (true && true) [3; 4] [1; 2; 4] c68_at3 true H2 C3) as (z3 & E3 & N3 & A3 & H3).
  { split; [repeat (apply NoDup_cons; [simpl; intuition discriminate|]); apply NoDup_nil|]. intros x Hx. rewrite A2.
    unfold c68_at3. destruct (x =? 3) eqn:E; [exfalso; apply Hx; left; lia|].
    destruct (x =? 4) eqn:E4; [exfalso; apply Hx; right; left; lia|]. reflexivity. }
  exists z1, z2, z3. split; [exact E1|]. pose proof E1 as E1'. vm_compute in E1'. injection E1' as E1'.
  split; [rewrite <- E1'; reflexivity|]. split; [rewrite <- E1'; reflexivity|]. split; [exact E2|].
  rewrite <- E1' in E2. vm_compute in E2. injection E2 as E2. split; [rewrite <- E2; reflexivity|]. split; [rewrite <- E2; reflexivity|].
  split; [exact E3|]. rewrite <- E2 in E3. vm_compute in E3. injection E3 as E3. split; [rewrite <- E3; reflexivity|].
  split; [exact H3|]. exact (proj2 (proj2 (c68_history _ _ H3)) eq_refl).
Qed.
Print Assumptions c68_history.
Print Assumptions c68_load.
Print Assumptions c68_update.
Print Assumptions c68_reload.
