(** C72: every query is answered from the closest zone. *)
From Verif Require Import Base AddsModel AddsSpec AddsProofs2 ZonedbModel ZonedbSpec.

Lemma zget_del : forall db k k', zget (zdel db k) k' = if list_eq_dec Z.eq_dec k k' then None else zget db k'.
Proof.
  induction db as [|[k0 z] db IH]; intros k k'; cbn [zdel filter zget fst].
  - destruct (list_eq_dec Z.eq_dec k k'); auto.
  - fold (zdel db k). destruct (list_eq_dec Z.eq_dec k0 k) as [->|N].
    + rewrite IH. destruct (list_eq_dec Z.eq_dec k k'); auto.
    + cbn [zget]. rewrite IH. destruct (list_eq_dec Z.eq_dec k0 k') as [->|N']; auto. destruct (list_eq_dec Z.eq_dec k k'); congruence.
Qed.
Lemma snoc_inj : forall (cs cs' : list change) c c', cs ++ [c] = cs' ++ [c'] -> cs = cs' /\ c = c'.
Proof. intros. apply app_inj_tail. auto. Qed.
Lemma served_snoc : forall cs c n z, served (cs ++ [c]) n z <->
  match c with
  | Insert m y => (m = n /\ z = y) \/ (m <> n /\ served cs n z)
  | Delete m => m <> n /\ served cs n z
  end.
Proof.
  intros cs c n z. split.
  - intros H. inversion H as [cs' n' z' E|cs' c' n' z' H' N E]; apply snoc_inj in E; destruct E; subst; [auto|]. destruct c; auto.
  - destruct c as [m y|m]; [intros [[-> ->]|[N H]]|intros [N H]]; [apply s_insert|apply s_other; auto..].
Qed.
(** The database holds exactly the served zones. *)
Theorem c72_served : forall cs n z, null_free_changes cs -> null_free_name n -> (zonedb_find (run_changes cs) n = Some z <-> served cs n z).
Proof.
  intros cs n. unfold zonedb_find, run_changes. induction cs as [|c cs IH] using rev_ind; intros z Hc Hn.
  - cbn. split; [discriminate|]. intros H. inversion H as [cs' ? ? E|cs' ? ? ? ? ? E]; destruct cs'; discriminate.
  - apply Forall_app in Hc. destruct Hc as [Hc H1]. inversion H1 as [|? ? H2 _]. subst. specialize (IH z Hc Hn). rewrite served_snoc, fold_left_app. cbn [fold_left].
    destruct c as [m y|m]; cbn [do_change change_name] in *.
    + unfold zonedb_insert. cbn [zget]. rewrite zget_del. destruct (list_eq_dec Z.eq_dec (key m) (key n)) as [E|N].
      * apply key_inj in E; auto. subst. split; [intros X; inversion X; auto|]. intros [[_ ->]|[X _]]; congruence.
      * rewrite IH. split; [intros X; right; split; [congruence|auto]|]. intros [[-> _]|[_ X]]; [congruence|auto].
    + unfold zonedb_del. destruct (zget (fold_left do_change cs []) (key m)) as [x|] eqn:E; cbn [snd].
      * rewrite zget_del. destruct (list_eq_dec Z.eq_dec (key m) (key n)) as [E'|N].
        -- apply key_inj in E'; auto. subst. split; [discriminate|]. intros [X _]. congruence.
        -- rewrite IH. split; [intros X; split; [congruence|auto]|]. tauto.
      * rewrite <- IH. split; [|tauto]. intros X. split; [|auto]. intros ->. congruence.
Qed.
(** Deleting tells if the zone was there. *)
Theorem c72_delete : forall cs n, null_free_changes cs -> null_free_name n ->
  (fst (zonedb_del (run_changes cs) n) = KNOT_EOK <-> exists z, served cs n z) /\
  (fst (zonedb_del (run_changes cs) n) = KNOT_ENOENT <-> forall z, ~ served cs n z).
Proof.
  intros cs n Hc Hn. pose proof (fun z => c72_served cs n z Hc Hn) as H. unfold zonedb_find in H. unfold zonedb_del.
  destruct (zget (run_changes cs) (key n)) as [z|]; cbn [fst].
  - split; split; intros X; try discriminate; [exists z; apply H; auto|auto|]. exfalso. apply (X z). apply H. auto.
  - split; split; intros X; try discriminate; auto.
    + destruct X as (z & X). apply H in X. discriminate.
    + intros z Y. apply H in Y. discriminate.
Qed.

(** The search along the name gives the closest served zone. *)
Theorem c72_closest : forall cs q, null_free_changes cs -> null_free_name q ->
  match zonedb_find_suffix (run_changes cs) q with
  | Some z => exists n, closest cs q n z
  | None => none_above cs q
  end.
Proof.
  intros cs q Hc. induction q as [|l q IH]; intros Hq; cbn [zonedb_find_suffix];
    (pose proof (fun z => c72_served cs _ z Hc Hq) as H; unfold zonedb_find in H).
  - destruct (zget (run_changes cs) (key [])) as [z|].
    + exists []. split; [exists []; auto|]. split; [apply H; auto|]. intros n' z' (p & E) _. symmetry in E. apply app_eq_nil in E. destruct E as [_ ->]. auto.
    + intros n z (p & E) S. symmetry in E. apply app_eq_nil in E. destruct E as [_ ->]. apply H in S. discriminate.
  - destruct (zget (run_changes cs) (key (l :: q))) as [z|].
    + exists (l :: q). split; [exists []; auto|]. split; [apply H; auto|]. intros n' z' (p & E) _. rewrite E, app_length. lia.
    + inversion Hq as [|? ? _ Hq']. subst. specialize (IH Hq').
      assert (Up : forall n z, at_or_above (l :: q) n -> served cs n z -> at_or_above q n).
      { intros n z (p & E) S. destruct p as [|x p]; cbn [app] in E; [|inversion E; exists p; auto]. subst n. apply H in S. discriminate. }
      destruct (zonedb_find_suffix (run_changes cs) q) as [z|].
      * destruct IH as (n & (p & E) & S & M). exists n. split; [exists (l :: p); cbn; congruence|]. split; [auto|]. intros n' z' A S'. eapply M; eauto.
      * intros n z A S. eapply IH; eauto.
Qed.

(** Which zone answers. Normal queries: the closest zone; for DS, the closest zone above the name, and one at the name only
    if there is none above. Other queries (transfers, NOTIFY, UPDATE) of other types: the zone of this very name. *)
Theorem c72_query : forall cs qclass qtype q, null_free_changes cs -> null_free_name q -> qclass = 1 \/ qclass = 255 ->
  (qtype <> 43 \/ q = [] ->
     match answer_zone_find (run_changes cs) qclass qtype true q with Some z => exists n, closest cs q n z | None => none_above cs q end /\
     (forall z, answer_zone_find (run_changes cs) qclass qtype false q = Some z <-> served cs q z)) /\
  (qtype = 43 -> forall l parent, q = l :: parent ->
     match answer_zone_find (run_changes cs) qclass qtype true q with
     | Some z => (exists n, closest cs parent n z) \/ (none_above cs parent /\ served cs q z)
     | None => none_above cs q
     end).
Proof.
  intros cs qclass qtype q Hc Hq Hcl. unfold answer_zone_find, CLASS_IN, CLASS_ANY, TYPE_DS.
  replace (negb (qclass =? 1) && negb (qclass =? 255)) with false by (destruct Hcl; subst; reflexivity). split.
  - intros Hd.
    replace (match q with [] => None | _ :: parent => if qtype =? 43 then zonedb_find_suffix (run_changes cs) parent else None end) with (@None Z).
    2: { destruct q; auto. destruct (qtype =? 43) eqn:E; auto. destruct Hd; [lia|discriminate]. }
    split; [apply c72_closest; auto|]. intros z. apply c72_served; auto.
  - intros -> l parent ->. cbn [Z.eqb Pos.eqb]. inversion Hq as [|? ? _ Hp]. subst. pose proof (c72_closest cs parent Hc Hp) as P. pose proof (c72_closest cs _ Hc Hq) as Q.
    destruct (zonedb_find_suffix (run_changes cs) parent) as [z|]; [left; exact P|]. destruct (zonedb_find_suffix (run_changes cs) (l :: parent)) as [z|]; [|exact Q].
    right. split; [exact P|]. destruct Q as (n & (p & E) & S & _). destruct p as [|x p]; cbn [app] in E; [subst; auto|]. inversion E. exfalso. apply (P n z); [exists p; auto|auto].
Qed.
(** Queries of other classes are for no zone. *)
Theorem c72_class : forall cs qclass qtype normal q, qclass <> 1 -> qclass <> 255 -> answer_zone_find (run_changes cs) qclass qtype normal q = None.
Proof. intros. unfold answer_zone_find, CLASS_IN, CLASS_ANY. replace (qclass =? 1) with false by lia. replace (qclass =? 255) with false by lia. auto. Qed.

(** Zones a. (1), b.a. (2, deleted), c.b.a. (3): x.c.b.a. is for 3, x.b.a. for 1, DS of c.b.a. for 1 *)
Definition c72_changes : list change := [Insert [[97]] 1; Insert [[98]; [97]] 2; Insert [[99]; [98]; [97]] 3; Delete [[98]; [97]]].
Example c72_example : null_free_changes c72_changes /\ null_free_name [[120]; [99]; [98]; [97]] /\
  answer_zone_find (run_changes c72_changes) 1 1 true [[120]; [99]; [98]; [97]] = Some 3 /\
  answer_zone_find (run_changes c72_changes) 1 1 true [[120]; [98]; [97]] = Some 1 /\
  answer_zone_find (run_changes c72_changes) 1 43 true [[99]; [98]; [97]] = Some 1 /\
  answer_zone_find (run_changes c72_changes) 1 43 true [[97]] = Some 1 /\
  answer_zone_find (run_changes c72_changes) 1 6 false [[120]; [98]; [97]] = None.
Proof. repeat split; try reflexivity; repeat constructor; cbn; try lia. Qed.

(** The zones b.a. and a\000b. have the same key: the second takes the place of the first. *)
Theorem c72_zero_refuted : exists cs, cs = [Insert [[98]; [97]] 1; Insert [[97; 0; 98]] 2] /\
  served cs [[98]; [97]] 1 /\ zonedb_find (run_changes cs) [[98]; [97]] = Some 2.
Proof.
  exists [Insert [[98]; [97]] 1; Insert [[97; 0; 98]] 2]. split; [auto|]. split; [|reflexivity].
  apply (s_other [Insert [[98]; [97]] 1]); [apply (s_insert [])|discriminate].
Qed.
(** A query that needs the zone of this very name, as NOTIFY, gets another one when it asks for the type DS. *)
Theorem c72_direct_refuted : exists cs, cs = [Insert [[97]] 1; Insert [[98]; [97]] 2] /\
  served cs [[98]; [97]] 2 /\ answer_zone_find (run_changes cs) 1 43 false [[98]; [97]] = Some 1.
Proof. exists [Insert [[97]] 1; Insert [[98]; [97]] 2]. split; [auto|]. split; [apply (s_insert [Insert [[97]] 1])|reflexivity]. Qed.

Print Assumptions c72_served.
Print Assumptions c72_delete.
Print Assumptions c72_closest.
Print Assumptions c72_query.
Print Assumptions c72_class.
Print Assumptions c72_zero_refuted.
Print Assumptions c72_direct_refuted.
