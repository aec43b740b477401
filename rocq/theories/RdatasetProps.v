(** C07, C08: RDATA sets.
    [is s rs]: the C structure s holds exactly the records rs (see RdatasetSpec.v). The oracle
    [al] tells which allocations succeed and is arbitrary unless stated otherwise. *)
From Verif Require Import Base DnameModel DnameSpec DnameProofs DnameProofs2 DnameProofs3 RdatasetModel RdatasetSpec RdatasetProofs.
From Coq Require Import Sorting.Sorted.

Definition is (s : rdataset) (rs : list (list Z)) : Prop := represents (count s) (size s) (raw s) rs.

Lemma record_layout_eq : forall r, record_layout r = rdata_init r.
Proof.
  intros. unfold record_layout, rdata_init. do 2 f_equal. rewrite land1.
  rewrite (Zmod_odd (zlen r)). destruct (Z.odd (zlen r)); auto.
Qed.
Lemma layout_eq : forall rs, layout rs = enc rs.
Proof.
  intros. unfold layout, enc. rewrite flat_map_concat_map. f_equal. apply map_ext. apply record_layout_eq.
Qed.
Lemma is_holds : forall s rs, is s rs <-> holds s rs.
Proof.
  intros. unfold is, represents, holds. rewrite layout_eq. split.
  - intros (H1 & H2 & H3 & H4 & H5 & H6). rewrite H2 in H4. repeat split; auto; try lia; apply H1.
  - intros (H1 & H2 & H3 & H4 & H5 & H6). rewrite H2. repeat split; auto; try lia; apply H4.
Qed.

(** *** C07: set semantics *)
Theorem c07_init : is rdataset_init [].
Proof. apply is_holds, holds_init. Qed.

(** Reading by position sees exactly the records, in order; past the end it sees none. *)
Theorem c07_at : forall s rs pos, is s rs -> 0 <= pos ->
  rdataset_at s pos = match zget rs pos with Some r => Ok r | None => Err RET_NULL end.
Proof. intros. apply at_spec; auto. apply is_holds; auto. Qed.

(** A structure holds one list of records only, and equal membership means equal bytes: the
    result of any sequence of operations depends only on the resulting set of records. *)
Theorem c07_canonical_form : forall s1 s2 rs1 rs2, is s1 rs1 -> is s2 rs2 ->
  (forall x, In x rs1 <-> In x rs2) -> s1 = s2 /\ rs1 = rs2.
Proof.
  intros s1 s2 rs1 rs2 H1 H2 H. split.
  - apply is_holds in H1, H2. eapply holds_ext; eauto.
  - apply canonical_ext; auto; [apply H1|apply H2].
Qed.

(** Adding: no duplicate is stored, the new record appears at its place, nothing else changes.
    It fails only on a set that has reached the size limits or for lack of memory. *)
Theorem c07_add : forall al s rs rr, is s rs -> rdata_ok rr ->
  (exists s' rs', rdataset_add al s rr = Ok s' /\ is s' rs' /\ (forall x, In x rs' <-> x = rr \/ In x rs) /\
                  (In rr rs -> s' = s)) \/
  (~ In rr rs /\ (count s = 65535 \/ size s > 2 ^ 32 - 1 - 65538) /\ rdataset_add al s rr = Err KNOT_ESPACE) \/
  (~ In rr rs /\ (exists n, al n = false) /\ rdataset_add al s rr = Err KNOT_ENOMEM).
Proof.
  intros al s rs rr H Hrr. apply is_holds in H.
  destruct (rdataset_add_spec al s rs rr H Hrr) as [A1 A2].
  destruct (in_dec (list_eq_dec Z.eq_dec) rr rs) as [Hi|Hn].
  - left. exists s, rs. split; [auto|]. split; [apply is_holds; auto|]. split; [|auto].
    intros x. split; [auto|]. intros [->|]; auto.
  - destruct (A2 Hn) as (B1 & B2 & B3).
    assert (full s \/ ~ full s) as [Hf|Hf] by (unfold full; lia); [right; left; auto|].
    destruct (al (size s + rdata_size (zlen rr))) eqn:Ea; [left|right; right; eauto].
    destruct (B3 Hf eq_refl) as (s' & rs' & E & Hs' & HI). exists s', rs'.
    split; [auto|]. split; [apply is_holds; auto|]. split; [auto|]. intros Hi. contradiction.
Qed.

(** Insertion order does not matter: two sequences of successful additions of the same records
    end in byte-identical sets. *)
Fixpoint add_all (al : Z -> bool) (s : rdataset) (rrs : list (list Z)) : res rdataset :=
  match rrs with
  | [] => Ok s
  | rr :: rrs => let* s := rdataset_add al s rr in add_all al s rrs
  end.
Lemma add_all_spec : forall l al s rs s', is s rs -> Forall rdata_ok l -> add_all al s l = Ok s' ->
  exists rs', is s' rs' /\ forall x, In x rs' <-> In x rs \/ In x l.
Proof.
  induction l as [|r l IH]; intros al s rs s' H HF E; cbn [add_all] in E.
  - injection E as <-. exists rs. split; [auto|]. cbn. intuition.
  - inversion HF; subst. destruct (c07_add al s rs r H) as [(s1 & rs1 & E1 & H1 & HI & _)|[(_ & _ & E1)|(_ & _ & E1)]]; auto;
      rewrite E1 in E; cbn [rbind] in E; try discriminate.
    destruct (IH al s1 rs1 s' H1) as (rs' & Hs' & HI'); auto. exists rs'. split; [auto|].
    intros x. rewrite HI', HI. cbn. intuition.
Qed.
Theorem c07_add_order_irrelevant : forall al1 al2 l1 l2 s1 s2, Forall rdata_ok l1 -> Forall rdata_ok l2 ->
  (forall x, In x l1 <-> In x l2) ->
  add_all al1 rdataset_init l1 = Ok s1 -> add_all al2 rdataset_init l2 = Ok s2 -> s1 = s2.
Proof.
  intros al1 al2 l1 l2 s1 s2 F1 F2 H E1 E2.
  destruct (add_all_spec _ _ _ _ _ c07_init F1 E1) as (r1 & H1 & I1).
  destruct (add_all_spec _ _ _ _ _ c07_init F2 E2) as (r2 & H2 & I2).
  apply (c07_canonical_form s1 s2 r1 r2); auto. intros x. rewrite I1, I2, H. tauto.
Qed.

Theorem c07_member : forall s rs rr, is s rs ->
  exists b, rdataset_member s rr = Ok b /\ (b = true <-> In rr rs).
Proof. intros. apply member_spec. apply is_holds; auto. Qed.

Theorem c07_eq : forall s1 s2 a b, is s1 a -> is s2 b ->
  exists r, rdataset_eq s1 s2 = Ok r /\ (r = true <-> forall x, In x a <-> In x b).
Proof.
  intros s1 s2 a b H1 H2. destruct (eq_spec s1 s2 a b) as (r & E & Hr); try (apply is_holds; auto).
  exists r. split; [auto|]. rewrite Hr. split; [intros ->; tauto|]. intros H. eapply c07_canonical_form; eauto.
Qed.

(** [same] is the test for the same rdata pointer, so the two are then the same set. *)
Theorem c07_subset : forall same s1 s2 a b, is s1 a -> is s2 b -> (same = true -> s1 = s2) ->
  exists r, rdataset_subset same s1 s2 = Ok r /\ (r = true <-> forall x, In x a -> In x b).
Proof.
  intros [] s1 s2 a b H1 H2 Hs.
  - exists true. split; [reflexivity|]. rewrite (Hs eq_refl) in H1. split; [|auto]. intros _ x Hx.
    assert (a = b) by (apply is_holds in H1, H2; destruct H1 as (_ & R1 & _ & [_ K1] & _), H2 as (_ & R2 & _ & [_ K2] & _); apply enc_inj; congruence).
    subst; auto.
  - apply subset_spec; apply is_holds; auto.
Qed.

(** Merging: on success the union. *)
Theorem c07_merge : forall al s1 s2 a b, is s1 a -> is s2 b ->
  exists ret s' rs', rdataset_merge al s1 s2 = Ok (ret, s') /\ is s' rs' /\
   (ret = KNOT_EOK -> forall x, In x rs' <-> In x a \/ In x b) /\
   (ret <> KNOT_EOK -> (ret = KNOT_ESPACE \/ ret = KNOT_ENOMEM)).
Proof.
  intros al s1 s2 a b H1 H2. apply is_holds in H1, H2. unfold rdataset_merge. rewrite (holds_len _ _ H2).
  pose proof H2 as (_ & -> & _ & [_ F2] & _).
  destruct (merge_loop_spec b [] al s1 a F2 H1) as (ret & s' & rs' & E & Hs' & Hor).
  exists ret, s', rs'. split; [exact E|]. split; [apply is_holds; auto|]. split.
  - intros ->. destruct Hor as [[_ H]|[[H|H] _]]; [auto|discriminate|discriminate].
  - intros Hn. destruct Hor as [[H _]|[H _]]; [congruence|auto].
Qed.

Theorem c07_intersect : forall al s1 s2 a b, is s1 a -> is s2 b ->
  exists ret s' rs', rdataset_intersect al s1 s2 = Ok (ret, s') /\ is s' rs' /\
   (ret = KNOT_EOK -> forall x, In x rs' <-> In x a /\ In x b) /\
   (ret <> KNOT_EOK -> (ret = KNOT_ESPACE \/ ret = KNOT_ENOMEM) /\ rs' = []).
Proof.
  intros al s1 s2 a b H1 H2. apply is_holds in H1, H2. unfold rdataset_intersect. rewrite (holds_len _ _ H1).
  pose proof H1 as (_ & -> & _ & [_ F1] & _).
  destruct (intersect_loop_spec a [] al s2 b rdataset_init [] F1 H2 holds_init) as (ret & s' & E & Hor).
  destruct Hor as [(-> & rs' & Hs' & HI)|(Hr & ->)].
  - exists KNOT_EOK, s', rs'. split; [exact E|]. split; [apply is_holds; auto|]. split; [|congruence].
    intros _ x. rewrite HI. cbn. intuition.
  - exists ret, rdataset_init, []. split; [exact E|]. split; [apply c07_init|].
    split; [|auto]. intros ->. destruct Hr; discriminate.
Qed.

(** The removing operations: exact on success. They fail only when shrinking a block fails. *)
Theorem c07_intersect2 : forall al same s1 s2 a b, is s1 a -> is s2 b -> (same = true -> s1 = s2) ->
  exists ret s', rdataset_intersect2 al same s1 s2 = Ok (ret, s') /\
   (ret = KNOT_EOK -> exists rs', is s' rs' /\ forall x, In x rs' <-> In x a /\ In x b) /\
   (ret <> KNOT_EOK -> ret = KNOT_ENOMEM /\ exists n, al n = false).
Proof.
  intros al same s1 s2 a b H1 H2 Hs. destruct same; unfold rdataset_intersect2.
  - exists KNOT_EOK, s1. split; [auto|]. split; [|congruence]. intros _. exists a. split; [auto|].
    destruct (c07_subset true s1 s2 a b H1 H2 Hs) as (r & E & Hr). injection E as <-.
    intros x. pose proof (proj1 Hr eq_refl x). tauto.
  - apply is_holds in H1, H2. rewrite (holds_len _ _ H1).
    destruct (intersect2_loop_spec a [] al s1 s2 b (length a) H1 H2) as (ret & s' & E & Hor); [lia|].
    exists ret, s'. split; [exact E|]. destruct Hor as [(-> & rs' & Hs' & HI)|(-> & Ha)].
    + split; [|congruence]. intros _. exists rs'. split; [apply is_holds; auto|]. intros x. rewrite HI. cbn. intuition.
    + split; [discriminate|auto].
Qed.

(** With the same pointer both structures are emptied; otherwise the second is untouched. *)
Theorem c07_subtract : forall al same s1 s2 a b, is s1 a -> is s2 b -> (same = true -> s1 = s2) ->
  exists ret s1' s2', rdataset_subtract al same s1 s2 = Ok (ret, s1', s2') /\
   s2' = (if same then rdataset_init else s2) /\
   (ret = KNOT_EOK -> exists rs', is s1' rs' /\ forall x, In x rs' <-> In x a /\ ~ In x b) /\
   (ret <> KNOT_EOK -> ret = KNOT_ENOMEM /\ exists n, al n = false).
Proof.
  intros al same s1 s2 a b H1 H2 Hs. destruct same; unfold rdataset_subtract.
  - exists KNOT_EOK, rdataset_init, rdataset_init. split; [auto|]. split; [auto|]. split; [|congruence].
    intros _. exists []. split; [apply c07_init|].
    destruct (c07_subset true s1 s2 a b H1 H2 Hs) as (r & E & Hr). injection E as <-.
    intros x. pose proof (proj1 Hr eq_refl x). cbn. tauto.
  - apply is_holds in H1, H2. rewrite (holds_len _ _ H2).
    pose proof H2 as (_ & Hraw & _ & [_ F2] & _).
    destruct (subtract_loop_spec b [] al s1 a F2 H1) as (ret & s' & E & Hor).
    rewrite Hraw. change (enc ([] ++ b)) with (enc b) in E. change (zlen (enc [])) with 0 in E. rewrite E. cbn [rbind].
    exists ret, s', s2. split; [auto|]. split; [auto|]. destruct Hor as [(-> & rs' & Hs' & HI)|(-> & Ha)].
    + split; [|congruence]. intros _. exists rs'. split; [apply is_holds; auto|]. auto.
    + split; [discriminate|auto].
Qed.

Theorem c07_remove : forall al s rs rr, is s rs -> rdata_ok rr ->
  exists ret s', rdataset_remove al s rr = Ok (ret, s') /\
   (ret = KNOT_EOK -> exists rs', is s' rs' /\ forall x, In x rs' <-> In x rs /\ x <> rr) /\
   (ret <> KNOT_EOK -> ret = KNOT_ENOMEM /\ exists n, al n = false).
Proof.
  intros al s rs rr H Hrr. unfold rdataset_remove.
  assert (H2 : is (mkset 1 (rdata_size (zlen rr)) (rdata_init rr)) [rr]).
  { apply is_holds. unfold holds. cbn [count size raw enc flat_map]. rewrite app_nil_r, zlen_init.
    pose proof (rdata_size_max (zlen rr)). pose proof (zlen_nonneg rr). destruct Hrr as [Hb Hl].
    split; [reflexivity|]. split; [auto|]. split; [auto|]. split; [apply canonical_single; split; auto|]. lia. }
  destruct (c07_subtract al false s _ rs [rr] H H2) as (ret & s1 & s2 & -> & _ & I1 & I2); [discriminate|].
  cbn [rbind]. exists ret, s1. split; [auto|]. split; [|auto]. intros Hr. destruct (I1 Hr) as (rs' & Hi & HI).
  exists rs'. split; [auto|]. intros x. rewrite HI. cbn. intuition.
Qed.

Theorem c07_copy : forall al s rs, is s rs ->
  rdataset_copy al s = Ok s \/ (rdataset_copy al s = Err KNOT_ENOMEM /\ al (size s) = false).
Proof.
  intros al s rs H. apply is_holds in H. rewrite (copy_spec al s rs H).
  destruct (0 <? count s), (al (size s)); cbn; auto.
Qed.

(** *** C08: bounds and failure atomicity *)
(** A program using any number of sets. [same] flags follow from the pointers: an object with
    itself, or two empty sets (NULL rdata). Allocation outcomes are chosen afresh for each
    operation; shrinking a block is assumed to succeed (see the refuted theorem below). *)
Inductive op :=
| OAdd (al : Z -> bool) (i : nat) (rr : list Z)
| OMerge (al : Z -> bool) (i j : nat)
| OIntersect (al : Z -> bool) (i j k : nat)
| OIntersect2 (i j : nat)
| OSubtract (i j : nat)
| ORemove (i : nat) (rr : list Z)
| OCopy (al : Z -> bool) (i j : nat)
| OClear (i : nat).
Definition op_ok (o : op) : Prop :=
  match o with
  | OAdd _ _ rr | ORemove _ rr => rdata_ok rr
  | OMerge _ i j | OIntersect2 i j | OSubtract i j => i <> j
  | _ => True
  end.
Definition upd (e : nat -> rdataset) (i : nat) (s : rdataset) : nat -> rdataset :=
  fun k => if Nat.eqb k i then s else e k.
Definition both_null (a b : rdataset) : bool := (count a =? 0) && (count b =? 0).
Definition yes : Z -> bool := fun _ => true.
Definition step (e : nat -> rdataset) (o : op) : res (nat -> rdataset) :=
  match o with
  | OAdd al i rr => match rdataset_add al (e i) rr with Ok s => Ok (upd e i s) | Err _ => Ok e | UB => UB | OOF => OOF end
  | OMerge al i j => let* (_, s) := rdataset_merge al (e i) (e j) in Ok (upd e i s)
  | OIntersect al i j k => let* (_, s) := rdataset_intersect al (e i) (e j) in Ok (upd e k s)
  | OIntersect2 i j => let* (_, s) := rdataset_intersect2 yes (both_null (e i) (e j)) (e i) (e j) in Ok (upd e i s)
  | OSubtract i j => let* (_, s, t) := rdataset_subtract yes (both_null (e i) (e j)) (e i) (e j) in Ok (upd (upd e j t) i s)
  | ORemove i rr => let* (_, s) := rdataset_remove yes (e i) rr in Ok (upd e i s)
  | OCopy al i j => match rdataset_copy al (e i) with Ok s => Ok (upd e j s) | Err _ => Ok e | UB => UB | OOF => OOF end
  | OClear i => Ok (upd e i (rdataset_clear (e i)))
  end.
Fixpoint run (e : nat -> rdataset) (os : list op) : res (nat -> rdataset) :=
  match os with [] => Ok e | o :: os => let* e := step e o in run e os end.

Lemma upd_is : forall e i s rs, (forall k, exists rs, is (e k) rs) -> is s rs -> forall k, exists rs, is (upd e i s k) rs.
Proof. intros. unfold upd. destruct (Nat.eqb k i); eauto. Qed.

Lemma step_ok : forall e o, (forall k, exists rs, is (e k) rs) -> op_ok o ->
  exists e', step e o = Ok e' /\ forall k, exists rs, is (e' k) rs.
Proof.
  intros e o H Ho. destruct o as [al i rr|al i j|al i j k|i j|i j|i rr|al i j|i]; cbn [step op_ok] in *.
  - destruct (H i) as [rs Hi]. destruct (c07_add al (e i) rs rr Hi Ho) as [(s' & rs' & E1 & H1 & _)|[(_ & _ & E1)|(_ & _ & E1)]];
      rewrite E1; eexists; split; try reflexivity; auto. eapply upd_is; eauto.
  - destruct (H i) as [a Hi], (H j) as [b Hj].
    destruct (c07_merge al _ _ a b Hi Hj) as (ret & s' & rs' & E & Hs' & _). rewrite E. eexists. split; [reflexivity|]. eapply upd_is; eauto.
  - destruct (H i) as [a Hi], (H j) as [b Hj].
    destruct (c07_intersect al _ _ a b Hi Hj) as (ret & s' & rs' & E & Hs' & _). rewrite E. eexists. split; [reflexivity|]. eapply upd_is; eauto.
  - destruct (H i) as [a Hi], (H j) as [b Hj].
    destruct (c07_intersect2 yes (both_null (e i) (e j)) _ _ a b Hi Hj) as (ret & s' & E & H1 & H2).
    { intros HN. unfold both_null in HN. apply (c07_canonical_form (e i) (e j) a b Hi Hj).
      destruct Hi as (_ & _ & C1 & _), Hj as (_ & _ & C2 & _). unfold zlen in *.
      destruct a, b; cbn [length] in *; try lia. tauto. }
    rewrite E. eexists. split; [reflexivity|]. destruct (Z.eq_dec ret KNOT_EOK) as [He|He].
    + destruct (H1 He) as (rs' & ? & _). eapply upd_is; eauto.
    + destruct (H2 He) as (_ & n & Hn). discriminate.
  - destruct (H i) as [a Hi], (H j) as [b Hj].
    destruct (c07_subtract yes (both_null (e i) (e j)) _ _ a b Hi Hj) as (ret & s' & t' & E & Ht & H1 & H2).
    { intros HN. unfold both_null in HN. apply (c07_canonical_form (e i) (e j) a b Hi Hj).
      destruct Hi as (_ & _ & C1 & _), Hj as (_ & _ & C2 & _). unfold zlen in *.
      destruct a, b; cbn [length] in *; try lia. tauto. }
    rewrite E. eexists. split; [reflexivity|]. 
    assert (exists rt, is t' rt) as [rt Hrt] by (subst t'; destruct (both_null _ _); eauto using c07_init).
    destruct (Z.eq_dec ret KNOT_EOK) as [He|He].
    + destruct (H1 He) as (rs' & ? & _). eapply upd_is; eauto. eapply upd_is; eauto.
    + destruct (H2 He) as (_ & n & Hn). discriminate.
  - destruct (H i) as [a Hi]. destruct (c07_remove yes _ a rr Hi Ho) as (ret & s' & E & H1 & H2).
    rewrite E. eexists. split; [reflexivity|]. destruct (Z.eq_dec ret KNOT_EOK) as [He|He].
    + destruct (H1 He) as (rs' & ? & _). eapply upd_is; eauto.
    + destruct (H2 He) as (_ & n & Hn). discriminate.
  - destruct (H i) as [a Hi]. destruct (c07_copy al _ a Hi) as [E|[E _]]; rewrite E; eexists; split; try reflexivity; auto.
    eapply upd_is; eauto.
  - eexists. split; [reflexivity|]. eapply upd_is; eauto. apply c07_init.
Qed.

(** No history of operations reads or writes outside a set's memory (UB), and after it every set
    is canonical, duplicate free, and within its counters. *)
Theorem c08_history : forall os, Forall op_ok os ->
  exists e, run (fun _ => rdataset_init) os = Ok e /\ forall k, exists rs, is (e k) rs.
Proof.
  intros os HF. assert (G : forall e, (forall k, exists rs, is (e k) rs) ->
    exists e', run e os = Ok e' /\ forall k, exists rs, is (e' k) rs).
  { induction os as [|o os IH]; intros e He; cbn [run]; [eauto|].
    inversion HF; subst. destruct (step_ok e o He) as (e1 & -> & H'); auto. cbn [rbind]. auto. }
  apply G. intros k. exists []. apply c07_init.
Qed.

(** A set that reached the limits refuses any further record and stays as it is. *)
Theorem c08_limits : forall al s rs rr, is s rs -> rdata_ok rr -> ~ In rr rs ->
  count s = 65535 \/ size s > 2 ^ 32 - 1 - 65538 -> rdataset_add al s rr = Err KNOT_ESPACE.
Proof.
  intros al s rs rr H Hrr Hn Hf. apply is_holds in H. apply (rdataset_add_spec al s rs rr H Hrr); auto.
Qed.

(** A failed merge leaves all the original records, adds only records of the other set, and
    keeps the set well formed; see the refutation for what it does not do. *)
Theorem c08_merge_failure_partial : forall al s1 s2 a b ret s', is s1 a -> is s2 b ->
  rdataset_merge al s1 s2 = Ok (ret, s') -> ret <> KNOT_EOK ->
  exists rs', is s' rs' /\ (forall x, In x a -> In x rs') /\ (forall x, In x rs' -> In x a \/ In x b).
Proof.
  intros al s1 s2 a b ret s' H1 H2 E Hn. apply is_holds in H1, H2. unfold rdataset_merge in E. rewrite (holds_len _ _ H2) in E.
  pose proof H2 as (_ & Hr & _ & [_ F2] & _). rewrite Hr in E.
  destruct (merge_loop_spec b [] al s1 a F2 H1) as (ret2 & s2' & rs' & E2 & Hs' & Hor).
  change (enc ([] ++ b)) with (enc b) in E2. change (zlen (enc [])) with 0 in E2. rewrite E2 in E. injection E as <- <-.
  exists rs'. split; [apply is_holds; auto|]. destruct Hor as [[? _]|(_ & I1 & I2)]; [congruence|auto].
Qed.

Definition ex_rd (l : list (list Z)) : rdataset := mkset (zlen l) (zlen (enc l)) (enc l).
(** A merge that fails midway is not undone: with room for 10 bytes only, merging {[2],[3]}
    into {[1]} fails with ENOMEM and leaves {[1],[2]}. *)
Theorem c08_merge_failure_refuted : exists al s1 s2 a b ret s' , is s1 a /\ is s2 b /\
  rdataset_merge al s1 s2 = Ok (ret, s') /\ ret <> KNOT_EOK /\ s' <> s1.
Proof.
  exists (fun n => n <=? 10), (ex_rd [[1]]), (ex_rd [[2]; [3]]), [[1]], [[2]; [3]], KNOT_ENOMEM, (ex_rd [[1]; [2]]).
  assert (C : forall l, canonical l -> zlen l < 10 -> zlen (enc l) < 100 -> is (ex_rd l) l).
  { intros l HC H1 H2. apply is_holds. unfold holds, ex_rd; cbn [count size raw]. repeat split; auto; try lia; apply HC. }
  split; [apply C; [apply canonical_single; split; [repeat constructor; lia|cbv; congruence]|reflexivity|reflexivity]|].
  split; [apply C; [|reflexivity|reflexivity]; split; repeat constructor; try lia; cbv; congruence|].
  split; [reflexivity|]. split; [discriminate|]. cbv. discriminate.
Qed.

(** When shrinking the block fails, a removal reports ENOMEM but the records have already been
    moved: the structure no longer holds any set of records. *)
Theorem c08_remove_failure_refuted : exists al s rs rr ret s', is s rs /\ rdata_ok rr /\
  rdataset_remove al s rr = Ok (ret, s') /\ ret = KNOT_ENOMEM /\ s' <> s /\
  rdataset_at s' 0 = Ok [2] /\ rdataset_at s' 1 = Ok [2].
Proof.
  exists (fun _ => false), (ex_rd [[1]; [2]]), [[1]; [2]], [1].
  eexists _, _. split.
  { apply is_holds. unfold holds, ex_rd; cbn [count size raw]. repeat split; try (cbv; congruence); repeat constructor; try lia; cbv; congruence. }
  split; [split; [repeat constructor; lia|cbv; congruence]|]. split; [reflexivity|]. split; [reflexivity|].
  split; [discriminate|]. split; reflexivity.
Qed.

(** Concrete case: six additions (the last takes the append shortcut), a removal, a merge. *)
Example c07_ex : add_all yes rdataset_init [[3]; [1]; [2;2]; [2]; [1]; [5]; [9;1]] =
  Ok (ex_rd [[1]; [2]; [2;2]; [3]; [5]; [9;1]]).
Proof. reflexivity. Qed.
Example c08_ex : match run (fun _ => rdataset_init)
   [OAdd yes 0 [2]; OAdd yes 0 [1]; OAdd yes 1 [7;7]; OAdd (fun _ => false) 1 [8]; OMerge yes 0 1; ORemove 0 [1]; OSubtract 0 1; OCopy yes 0 2] with
  | Ok e => [e 0%nat; e 1%nat; e 2%nat]
  | _ => [] end = [ex_rd [[2]]; ex_rd [[7;7]]; ex_rd [[2]]].
Proof. vm_compute. reflexivity. Qed.

Print Assumptions c07_add. Print Assumptions c07_eq. Print Assumptions c07_subtract. Print Assumptions c08_history.
